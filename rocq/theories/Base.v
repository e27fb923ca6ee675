(** Base.v -- vocabulary shared by the model of the code (Model.v) and the
    reference semantics of the API (Spec.v): identifiers, API operations, user
    code, observable events.  Nothing here describes how the library works. *)
From stdpp Require Import prelude gmap.
From Coq Require Import NArith.

(** What the templates are instantiated with.
    - [T]: the data that travels (template parameter of coroutine< T >).  All
      coroutines of a program share it; a program using several types is
      modelled by taking their sum.
    - [E]: exception objects user code can throw.
    - [moved_from v]: what T's move constructor leaves in an object that held [v].
    - [copy_exn v] / [move_exn v]: [Some e] when copy (move) constructing a T
      from [v] throws [e]. *)
Class Env := {
  T : Type;
  E : Type;
  moved_from : T -> T;
  copy_exn : T -> option E;
  move_exn : T -> option E
}.

(** The preprocessor switch of the library: [cxx11_lambdas] is true when
    BOOST_NO_CXX14_GENERIC_LAMBDAS is defined (pull_control_block_cc.ipp:48,
    push_control_block_cc.ipp:47). *)
Class Compiler := { cxx11_lambdas : bool }.

(** pull_coroutine / push_coroutine (pull_coroutine.hpp:28,139,250;
    push_coroutine.hpp:28,113,196). *)
Inductive side := Pull | Push.
(** The three specialisations: T, T &, void. *)
Inductive kind := KVal | KRef | KVoid.

(** Coroutines are numbered by creation; [Outer k] is the endpoint of coroutine
    [k] held by its creator, [Inner k] the synthesized counterpart given to its
    coroutine-function. *)
Inductive ep := Outer (k : nat) | Inner (k : nat).
Definition ep_co (e : ep) : nat := match e with Outer k => k | Inner k => k end.

(** A coroutine object (variable of class pull_type / push_type): its class, its
    parameter kind and the endpoint it denotes ([None]: not-a-coroutine).
    Objects are named by numbers [hid] = their address. *)
Record hobj := HObj { h_side : side; h_kind : kind; h_ep : option ep }.

Global Instance side_eq_dec : EqDecision side.
Proof. solve_decision. Defined.
Global Instance kind_eq_dec : EqDecision kind.
Proof. solve_decision. Defined.
Global Instance ep_eq_dec : EqDecision ep.
Proof. solve_decision. Defined.
Global Instance ep_countable : Countable ep.
Proof.
  refine (inj_countable' (fun e => match e with Outer k => inl k | Inner k => inr k end)
                         (fun s => match s with inl k => Outer k | inr k => Inner k end) _).
  by intros [k|k].
Defined.
Global Instance hobj_eq_dec : EqDecision hobj.
Proof. solve_decision. Defined.

Section base.
Context {env : Env}.

(** Exceptions: user exceptions and boost::context::detail::forced_unwind. *)
Inductive exn := XUser (e : E) | XUnwind.

(** What sits in a transfer slot: an object of type T, or a reference (address of
    a user object). *)
Inductive payload := PVal (v : T) | PRef (l : nat).

(** Arguments of push operator(): [ACopy l] binds T const& to the user object at
    [l], [AMove l] binds T&& to it (std::move), [AImm v] a temporary (T&&),
    [ARefTo l] binds T& , [ANone] for void. *)
Inductive arg := ACopy (l : nat) | AMove (l : nat) | AImm (v : T) | ARefTo (l : nat) | ANone.

(** Iterators are pointers to a coroutine object or null
    (pull_coroutine.hpp:70-130, push_coroutine.hpp:69-109). *)
Definition iter := option nat.

(** API operations and the local actions of user code. *)
Inductive op :=
| OMoveCtor (h : nat)                 (* X x( std::move( h) )       *)
| OMoveAssign (h1 h2 : nat)           (* h1 = std::move( h2)        *)
| ODestroy (h : nat)                  (* destructor of object h     *)
| OResume (h : nat)                   (* pull operator()()          *)
| OPush (h : nat) (a : arg)           (* push operator()(arg)       *)
| OBool (h : nat) | ONot (h : nat)    (* operator bool, operator!   *)
| OGet (h : nat)                      (* pull get()                 *)
| OBegin (h : nat) | OEnd             (* begin/end of a pull object *)
| OItInc (i : iter)                   (* ++i, i++  (input iterator) *)
| OItDeref (i : iter)                 (* *i        (input iterator) *)
| OItEq (i j : iter) | OItNe (i j : iter)  (* either iterator class *)
| OOutBegin (h : nat) | OOutEnd       (* begin/end of a push object *)
| OOutAssign (i : iter) (a : arg)     (* *i = arg (output iterator) *)
| OEmit (v : T)                       (* observable output of user code *)
| OLog (n : nat)                      (* observable mark, e.g. a constructor/destructor body *)
| OLoad (l : nat) | OStore (l : nat) (v : T).  (* user memory *)

(** Operation names as they appear in events; constructors are separate because
    they carry code. *)
Inductive opn := NOp (o : op) | NNew (sd : side) (kd : kind).

Inductive ans := AUnit | AB (b : bool) | AH (h : nat) | AIt (i : iter) | AV (v : T) | ALoc (l : nat).
Inductive resp := ROk (a : ans) | RExn (x : exn).

(** Things that may go wrong while constructing: the allocator throws
    ([np_alloc]), copying/moving the function object into the coroutine throws
    ([np_fn]). *)
Record newp := NewP { np_alloc : option E; np_fn : option E }.

(** User code.  A (function body of a) user program is an arbitrary, possibly
    infinite, strategy: it returns, exits by an exception, does an operation
    and goes on depending on the operation's result OR the exception the
    operation exited with, or computes silently.  try/catch blocks, automatic
    objects, loops, ... are particular ways to react to [RExn] and [ROk]
    (Cpp.v compiles a C++-like structured language to strategies).  [SNew]
    constructs a coroutine object whose coroutine-function is [fn]; [fn] is
    given the address of the synthesized counterpart object. *)
CoInductive strat :=
| SRet
| SThrow (x : exn)
| SDo (o : op) (k : resp -> strat)
| SNew (sd : side) (kd : kind) (np : newp) (fn : nat -> strat) (k : resp -> strat)
| STau (s : strat).

(** Observable events.  [c] is the context (0 = main, k = coroutine-function of
    coroutine k) in which user code calls or gets back control. *)
Inductive event :=
| EvCall (c : nat) (o : opn)              (* user code in c calls o                     *)
| EvRet (c : nat) (o : opn) (a : ans)     (* the call of o in c returns a               *)
| EvExn (c : nat) (o : opn) (x : exn)     (* the call of o in c exits by exception x    *)
| EvEnter (k : nat) (h : nat)             (* coroutine-function of k entered with h     *)
| EvLeave (k : nat) (r : option exn)      (* ... left: returned (None) or by exception  *)
| EvSet (k : nat) (p : payload)           (* slot of k: T object / reference constructed*)
| EvDel (k : nat)                         (* slot of k: T object destroyed              *)
| EvNew (k : nat) (h : nat)               (* constructor done: object h denotes k       *)
| EvGone (k : nat) (h : nat)              (* counterpart object h of k destroyed (end of the lambda)*)
| EvAlloc (k : nat) | EvFree (k : nat).   (* stack of k allocated / deallocated         *)

(** How a run can end. *)
Inductive ub :=
| UbNull          (* null pointer dereferenced                                      *)
| UbDangling      (* object on a released stack, or a destroyed object, is accessed *)
| UbDeadHandle    (* coroutine object that does not exist (any more) is used        *)
| UbEmptyFiber    (* resume() on an empty fiber, or a context that cannot continue  *)
| UbSlot          (* transfer slot read or destroyed without a live object in it    *)
| UbAssert        (* BOOST_ASSERT fails                                             *)
| UbUnwind        (* forced unwinding reaches a place it must not                   *)
| UbType          (* ill-typed program: rejected by the C++ compiler                *)
| UbUserMem.      (* user memory cell that does not exist                           *)
Inductive outcome := Finished | Terminated | Undefined (r : ub).

End base.
