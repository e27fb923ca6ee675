(** Model.v -- executable model of the code of boostorg/coroutine2.

    File names in the comments are relative to include/boost/coroutine2/detail/
    in /repo.  The six control blocks (T, T&, void for pull and push) are written
    as one definition per member function, with a match on the parameter kind
    where the texts differ; the three line ranges are cited.

    The machine below the library is boost::context::fiber (not part of the
    repository): its documented behaviour is modelled by the constructors
    [LMkFiber], [LResume], [LKill] and the frame [KEntry]; see DESIGN.md,
    "trusted base". *)
From stdpp Require Import prelude gmap.
From Coq Require Import NArith.
From Verif Require Import Base.

(** ** state.hpp *)
(** state_t, state.hpp:25-30 (underlying type unsigned int, 32 bits). *)
Definition state_t := N.
Definition st_none : state_t := 0%N.
Definition st_complete : state_t := 2%N.   (* 1 << 1 *)
Definition st_unwind : state_t := 4%N.     (* 1 << 2 *)
Definition st_destroy : state_t := 8%N.    (* 1 << 3 *)
(** operator&, operator|, operator^, operator~ : state.hpp:33-58. *)
Definition st_and (l r : state_t) : state_t := N.land l r.
Definition st_or (l r : state_t) : state_t := N.lor l r.
Definition st_xor (l r : state_t) : state_t := N.lxor l r.
Definition st_not (l : state_t) : state_t := N.lnot l 32.

Section model.
Context {env : Env} {comp : Compiler}.

(** ** Memory *)

(** The byte array [storage] of a pull control block: raw bytes or a live object
    (pull_control_block_cc.hpp:33,74). *)
Inductive slot := StRaw | StLive (p : payload).

(** A control block: pull_control_block_cc.hpp:27-57, 60-95, 97-118 and
    push_control_block_cc.hpp:26-49, 52-73, 75-96.  [cb_c] is the member fiber
    ([None]: empty).  [cb_bvalid] and [cb_storage] exist in the pull blocks for T
    and T& only; they stay unused in the others.  [cb_alive] is false once the
    destructor has run: the block's memory is still there, but its members may no
    longer be used. *)
Record cblock := CB {
  cb_c : option nat;
  cb_other : option ep;
  cb_state : state_t;
  cb_except : option E;
  cb_bvalid : bool;
  cb_storage : slot;
  cb_alive : bool }.

(** Memory.  Control blocks live on coroutine stacks: [Outer k] in the part of
    stack [k] that create_control_block reserves, [Inner k] in the frame of the
    lambda running on stack [k]; both disappear when the stack is released.
    Numbers are never reused, so an access after release is noticed instead of
    hitting a new object. [m_tr] is the history of observable events, newest
    first. *)
Record mem := Mem {
  m_cbs : gmap ep cblock;
  m_h : gmap nat hobj;
  m_stk : gset nat;
  m_user : gmap nat T;
  m_nh : nat;
  m_nk : nat;
  m_tr : list event }.

Definition set_cbs (x : gmap ep cblock) (m : mem) := Mem x (m_h m) (m_stk m) (m_user m) (m_nh m) (m_nk m) (m_tr m).
Definition set_h (x : gmap nat hobj) (m : mem) := Mem (m_cbs m) x (m_stk m) (m_user m) (m_nh m) (m_nk m) (m_tr m).
Definition set_stk (x : gset nat) (m : mem) := Mem (m_cbs m) (m_h m) x (m_user m) (m_nh m) (m_nk m) (m_tr m).
Definition set_user (x : gmap nat T) (m : mem) := Mem (m_cbs m) (m_h m) (m_stk m) x (m_nh m) (m_nk m) (m_tr m).
Definition set_nh (x : nat) (m : mem) := Mem (m_cbs m) (m_h m) (m_stk m) (m_user m) x (m_nk m) (m_tr m).
Definition set_nk (x : nat) (m : mem) := Mem (m_cbs m) (m_h m) (m_stk m) (m_user m) (m_nh m) x (m_tr m).
Definition log (e : event) (m : mem) := Mem (m_cbs m) (m_h m) (m_stk m) (m_user m) (m_nh m) (m_nk m) (e :: m_tr m).

(** Straight-line library code: a state monad with C++ exceptions, undefined
    behaviour and std::terminate as distinct outcomes. *)
Inductive mres (A : Type) :=
| MOk (a : A) (m : mem)
| MThrow (e : E) (m : mem)
| MUB (r : ub)
| MTerm (m : mem).
Arguments MOk {A}. Arguments MThrow {A}. Arguments MUB {A}. Arguments MTerm {A}.
Definition M (A : Type) := mem -> mres A.
Definition mret {A} (a : A) : M A := fun m => MOk a m.
Definition mb {A B} (x : M A) (f : A -> M B) : M B := fun m =>
  match x m with
  | MOk a m' => f a m'
  | MThrow e m' => MThrow e m'
  | MUB r => MUB r
  | MTerm m' => MTerm m'
  end.
Definition mub {A} (r : ub) : M A := fun _ => MUB r.
Definition mthrow {A} (e : E) : M A := fun m => MThrow e m.
Definition mterm {A} : M A := fun m => MTerm m.
Definition mlog (e : event) : M unit := fun m => MOk tt (log e m).

Notation "x <-- a ;; b" := (mb a (fun x => b)) (at level 100, a at next level, right associativity).
Notation "a ;;; b" := (mb a (fun _ => b)) (at level 100, right associativity).

(** Dereferencing a pointer to a control block. *)
Definition get_cb (e : ep) : M cblock := fun m =>
  match m_cbs m !! e with
  | Some b => if cb_alive b then MOk b m else MUB UbDangling
  | None => MUB UbDangling
  end.
(** Writing to the memory of a control block that [get_cb] has just read. *)
Definition put_cb (e : ep) (b : cblock) : M unit := fun m =>
  MOk tt (set_cbs (<[ e := b ]> (m_cbs m)) m).
(** Dereferencing a possibly null pointer. *)
Definition nonnull {A} (o : option A) : M A := match o with Some a => mret a | None => mub UbNull end.

Definition with_c (f : option nat) (b : cblock) := CB f (cb_other b) (cb_state b) (cb_except b) (cb_bvalid b) (cb_storage b) (cb_alive b).
Definition with_other (o : option ep) (b : cblock) := CB (cb_c b) o (cb_state b) (cb_except b) (cb_bvalid b) (cb_storage b) (cb_alive b).
Definition with_state (s : state_t) (b : cblock) := CB (cb_c b) (cb_other b) s (cb_except b) (cb_bvalid b) (cb_storage b) (cb_alive b).
Definition with_except (x : option E) (b : cblock) := CB (cb_c b) (cb_other b) (cb_state b) x (cb_bvalid b) (cb_storage b) (cb_alive b).
Definition with_storage (s : slot) (b : cblock) := CB (cb_c b) (cb_other b) (cb_state b) (cb_except b) (cb_bvalid b) s (cb_alive b).
Definition with_bvalid (v : bool) (b : cblock) := CB (cb_c b) (cb_other b) (cb_state b) (cb_except b) v (cb_storage b) (cb_alive b).
Definition with_alive (v : bool) (b : cblock) := CB (cb_c b) (cb_other b) (cb_state b) (cb_except b) (cb_bvalid b) (cb_storage b) v.

(** std::move( cb->c): the value moves out, the member is left empty. *)
Definition take_c (e : ep) : M (option nat) :=
  b <-- get_cb e ;; put_cb e (with_c None b) ;;; mret (cb_c b).
(** cb->c = std::move( f): the member receives [f]; the value it held before is
    returned because fiber's move assignment destroys it afterwards. *)
Definition swap_c (e : ep) (f : option nat) : M (option nat) :=
  b <-- get_cb e ;; put_cb e (with_c f b) ;;; mret (cb_c b).
(** cb->state |= f. *)
Definition or_state (e : ep) (f : state_t) : M unit :=
  b <-- get_cb e ;; put_cb e (with_state (st_or (cb_state b) f) b).
(** cb->state |= f after the destructor of the block has run
    (pull_control_block_cc.ipp:39-41): a plain write to memory that must still be
    allocated. *)
Definition or_state_raw (e : ep) (f : state_t) : M unit := fun m =>
  match m_cbs m !! e with
  | Some b => MOk tt (set_cbs (<[ e := with_state (st_or (cb_state b) f) b ]> (m_cbs m)) m)
  | None => MUB UbDangling
  end.

(** Coroutine objects. *)
Definition get_h (h : nat) : M hobj := fun m =>
  match m_h m !! h with Some o => MOk o m | None => MUB UbDeadHandle end.
Definition put_h (h : nat) (o : hobj) : M unit := fun m => MOk tt (set_h (<[ h := o ]> (m_h m)) m).
Definition del_h (h : nat) : M unit := fun m => MOk tt (set_h (delete h (m_h m)) m).
(** Address of a new coroutine object. *)
Definition fresh_h : M nat := fun m => MOk (m_nh m) (set_nh (S (m_nh m)) m).
(** Static typing: the object belongs to the class whose member is called. *)
Definition check (b : bool) (r : ub) : M unit := if b then mret tt else mub r.
(** cb_-> : the object's class is [sd], its pointer is dereferenced. *)
Definition deref_h (sd : side) (h : nat) : M (kind * ep) :=
  o <-- get_h h ;; check (bool_decide (h_side o = sd)) UbType ;;;
  e <-- nonnull (h_ep o) ;; mret (h_kind o, e).

(** User memory. *)
Definition user_load (l : nat) : M T := fun m =>
  match m_user m !! l with Some v => MOk v m | None => MUB UbUserMem end.
Definition user_store (l : nat) (v : T) : M unit := fun m => MOk tt (set_user (<[ l := v ]> (m_user m)) m).

(** ** Control-block members that do not switch context *)

(** reinterpret_cast< T * >( storage)->~T(). *)
Definition destroy_T (e : ep) : M unit :=
  b <-- get_cb e ;;
  match cb_storage b with
  | StLive (PVal _) => put_cb e (with_storage StRaw b) ;;; mlog (EvDel (ep_co e))
  | _ => mub UbSlot
  end.

(** Construction of a T from the argument of a push: T( t) for [ACopy] (and for
    the parameter of the output iterator, [lv = true]), T( std::move( t) ) for
    [AMove] and temporaries. *)
Definition construct_T (lv : bool) (a : arg) : M T :=
  match a with
  | ACopy l => v <-- user_load l ;; match copy_exn v with Some e => mthrow e | None => mret v end
  | AMove l => v <-- user_load l ;;
               match move_exn v with
               | Some e => mthrow e
               | None => user_store l (moved_from v) ;;; mret v
               end
  | AImm v => match (if lv then copy_exn v else move_exn v) with Some e => mthrow e | None => mret v end
  | _ => mub UbType
  end.

(** pull control_block::set: pull_control_block_cc.ipp:153-173 (T const&, T&&),
    301-306 (T&).  In the T versions the old object is destroyed before the new
    one is constructed and bvalid is written last. *)
Definition pull_cb_set (kd : kind) (e : ep) (lv : bool) (a : arg) : M unit :=
  match kd with
  | KVal =>
      b <-- get_cb e ;;
      (if cb_bvalid b then destroy_T e else mret tt) ;;;
      v <-- construct_T lv a ;;
      b <-- get_cb e ;;
      put_cb e (with_bvalid true (with_storage (StLive (PVal v)) b)) ;;;
      mlog (EvSet (ep_co e) (PVal v))
  | KRef =>
      match a with
      | ARefTo l =>
          b <-- get_cb e ;;
          put_cb e (with_bvalid true (with_storage (StLive (PRef l)) b)) ;;;
          mlog (EvSet (ep_co e) (PRef l))
      | _ => mub UbType
      end
  | KVoid => mub UbType
  end.

(** pull control_block::valid: pull_control_block_cc.ipp:181-185, 314-318, 429-433. *)
Definition pull_cb_valid (kd : kind) (e : ep) : M bool :=
  b <-- get_cb e ;;
  mret (match kd with
        | KVal => bool_decide (cb_other b <> None) && bool_decide (st_none = st_and (cb_state b) st_complete) && cb_bvalid b
        | KRef => bool_decide (cb_other b <> None) && bool_decide (st_none = st_and (cb_state b) st_complete) && cb_bvalid b
        | KVoid => bool_decide (cb_other b <> None) && bool_decide (st_none = st_and (cb_state b) st_complete)
        end).

(** push control_block::valid: push_control_block_cc.ipp:155-159, 275-279, 390-394. *)
Definition push_cb_valid (kd : kind) (e : ep) : M bool :=
  b <-- get_cb e ;; mret (bool_decide (st_none = st_and (cb_state b) st_complete)).

(** pull control_block::get (pull_control_block_cc.ipp:175-179, 308-312) followed
    by pull_coroutine::get (pull_coroutine.ipp:92-96: by value, moves out of the
    slot and is noexcept; 161-165: reference). *)
Definition pull_get (kd : kind) (e : ep) : M ans :=
  b <-- get_cb e ;;
  match kd, cb_storage b with
  | KVal, StLive (PVal v) =>
      match move_exn v with
      | Some _ => mterm
      | None => put_cb e (with_storage (StLive (PVal (moved_from v))) b) ;;; mret (AV v)
      end
  | KRef, StLive (PRef l) => mret (ALoc l)
  | KVoid, _ => mub UbType
  | _, _ => mub UbSlot
  end.

(** iterator::operator* : pull_coroutine.hpp:123-125, 234-236: a reference into
    the slot (modelled as the value it refers to), resp. the transferred
    reference. *)
Definition pull_deref (kd : kind) (e : ep) : M ans :=
  b <-- get_cb e ;;
  match kd, cb_storage b with
  | KVal, StLive (PVal v) => mret (AV v)
  | KRef, StLive (PRef l) => mret (ALoc l)
  | KVoid, _ => mub UbType
  | _, _ => mub UbSlot
  end.

(** ** Code that may switch context *)

(** What a block of library code can return: nothing, the result of an API call,
    or (the lambdas) a fiber. *)
Inductive rv := RVUnit | RVAns (a : ans) | RVFiber (f : option nat).

Inductive lcode :=
| LDo {A : Type} (m : M A) (k : A -> lcode)      (* straight-line code                        *)
| LMkFiber (n : nat) (entry : option nat -> lcode) (k : lcode)
                                                  (* fiber{ allocator_arg, palloc, salloc, entry }*)
| LResume (f : option nat) (k : option nat -> lcode)  (* std::move( f).resume()                *)
| LKill (f : option nat) (k : lcode)              (* f.~fiber()                                *)
| LFn (n : nat) (s : strat)                       (* call of the coroutine-function of n       *)
| LTry (b : lcode) (h : exn -> lcode) (k : lcode) (* try { b } catch( ...) { h } k             *)
| LScope (d : lcode) (b : lcode)                  (* automatic object with destructor d in b   *)
| LRet (r : rv)                                   (* end of block / return                     *)
| LThrow (x : exn).                               (* throw                                     *)

(** fiber & operator=( fiber && ): the old value is destroyed. *)
Definition fiber_assign (e : ep) (f : option nat) (k : lcode) : lcode :=
  LDo (swap_c e f) (fun old => LKill old k).

(** [c = std::move( c).resume();] *)
Definition resume_assign (e : ep) (k : lcode) : lcode :=
  LDo (take_c e) (fun f => LResume f (fun r => fiber_assign e r k)).

(** [if ( except) { std::rethrow_exception( except); }] *)
Definition rethrow_if (e : ep) (k : lcode) : lcode :=
  LDo (get_cb e) (fun b => match cb_except b with Some x => LThrow (XUser x) | None => k end).

(** pull control_block::resume: pull_control_block_cc.ipp:144-151, 292-299, 420-427. *)
Definition pull_cb_resume (e : ep) (k : lcode) : lcode := resume_assign e (rethrow_if e k).

(** push control_block::resume: push_control_block_cc.ipp:131-153 (T const&, T&&),
    263-273 (T&), 381-388 (void). *)
Definition push_cb_resume (kd : kind) (e : ep) (lv : bool) (a : arg) (k : lcode) : lcode :=
  match kd with
  | KVoid => resume_assign e (rethrow_if e k)
  | KVal | KRef =>
      LDo (b <-- get_cb e ;; o <-- nonnull (cb_other b) ;; pull_cb_set kd o lv a)
          (fun _ => resume_assign e (rethrow_if e k))
  end.

(** ~control_block: pull_control_block_cc.ipp:128-134 for T (destroys the value
    if bvalid); implicit for the other five.  Then the members are destroyed,
    [c] last (a non-empty fiber is unwound). *)
Definition cb_dtor (sd : side) (kd : kind) (e : ep) (k : lcode) : lcode :=
  LDo (b <-- get_cb e ;;
       (match sd, kd with
        | Pull, KVal => if cb_bvalid b then destroy_T e else mret tt
        | _, _ => mret tt
        end) ;;;
       b <-- get_cb e ;;
       put_cb e (with_alive false (with_c None b)) ;;; mret (cb_c b))
      (fun f => LKill f k).

(** control_block::destroy: pull_control_block_cc.ipp:34-42, 190-198, 323-331;
    push_control_block_cc.ipp:33-41, 164-172, 284-292.  The local fiber [c] is
    destroyed last, at the closing brace. *)
Definition cb_destroy (sd : side) (kd : kind) (e : ep) (k : lcode) : lcode :=
  LDo (take_c e) (fun c =>
  cb_dtor sd kd e (
  LDo (or_state_raw e st_destroy) (fun _ =>
  LKill c k))).

(** control_block::deallocate: pull_control_block_cc.ipp:136-142, 284-290, 412-418;
    push_control_block_cc.ipp:123-129, 255-261, 373-379. *)
Definition cb_deallocate (sd : side) (kd : kind) (e : ep) (k : lcode) : lcode :=
  LDo (get_cb e) (fun b =>
  if bool_decide (st_none <> st_and (cb_state b) st_unwind) then cb_destroy sd kd e k else k).

(** ~pull_coroutine / ~push_coroutine: pull_coroutine.ipp:61-66, 130-135, 191-196;
    push_coroutine.ipp:50-55, 110-115, 161-166.  The object's lifetime ends when
    the destructor starts. *)
Definition coro_dtor (h : nat) (k : lcode) : lcode :=
  LDo (o <-- get_h h ;; del_h h ;;; mret o) (fun o =>
  match h_ep o with
  | Some e => cb_deallocate (h_side o) (h_kind o) e k
  | None => k
  end).

(** ** The lambdas executed on the coroutine's own stack *)

(** Initial value of a block: pull_control_block_cc.ipp:106-110, 120-125, 262-266,
    276-281, 394-396, 406-409; push_control_block_cc.ipp:108-110, 117-120, 240-242,
    249-252, 358-360, 367-370. *)
Definition new_cb (c : option nat) (other : option ep) (st : state_t) : cblock :=
  CB c other st None false StRaw true.

(** The block is removed when the frame of the lambda that contains it is left. *)
Definition drop_cb (e : ep) : M unit := fun m => MOk tt (set_cbs (delete e (m_cbs m)) m).
Definition synth_cb_dtor (sd : side) (kd : kind) (e : ep) : lcode :=
  cb_dtor sd kd e (LDo (drop_cb e) (fun _ => LRet RVUnit)).

(** Tail of the lambdas after the coroutine-function has been left.
    pull: pull_control_block_cc.ipp:71-74 and 100-103 (227-230, 256-259, 359-362,
    388-391): state |= complete; return std::move( other->c).resume();
    push: C++14 T: push_control_block_cc.ipp:102-105 same text; all others
    (71-75, 202-206, 233-237, 320-324, 351-355):
    other->c = std::move( other->c).resume(); return std::move( other->c); *)
Definition other_of (e : ep) : M ep := b <-- get_cb e ;; nonnull (cb_other b).
Definition tail_return (k : nat) : lcode :=
  LDo (or_state (Outer k) st_complete) (fun _ =>
  LDo (o <-- other_of (Outer k) ;; take_c o) (fun f =>
  LResume f (fun r => LRet (RVFiber r)))).
Definition tail_assign (k : nat) : lcode :=
  LDo (or_state (Outer k) st_complete) (fun _ =>
  LDo (o <-- other_of (Outer k) ;; take_c o) (fun f =>
  LResume f (fun r =>
  LDo (other_of (Outer k)) (fun o =>
  fiber_assign o r (
  LDo (o <-- other_of (Outer k) ;; take_c o) (fun f => LRet (RVFiber f))))))).
Definition pull_tail (kd : kind) (k : nat) : lcode := tail_return k.
Definition push_tail (kd : kind) (k : nat) : lcode :=
  match kd with
  | KVal => if cxx11_lambdas then tail_assign k else tail_return k
  | _ => tail_assign k
  end.

(** The handlers of the try block: pull_control_block_cc.ipp:60-69, 89-98, 216-225,
    245-254, 348-357, 377-386; push_control_block_cc.ipp:60-69, 91-100, 191-200,
    222-231, 309-318, 340-349.  (abi::__forced_unwind, pthread cancellation, is not
    modelled.) *)
Definition fn_handler (k : nat) (x : exn) : lcode :=
  match x with
  | XUnwind => LThrow x
  | XUser e => LDo (b <-- get_cb (Outer k) ;; put_cb (Outer k) (with_except (Some e) b)) (fun _ => LRet RVUnit)
  end.

(** [if ( none == ( state & destroy) ) { try { fn( synthesized); } catch ... } tail]
    pull_control_block_cc.ipp:55-74, 84-103 ...; push: 55-75, 86-105 ... *)
Definition run_fn (k : nat) (h : nat) (fn : nat -> strat) (tail : lcode) : lcode :=
  LDo (get_cb (Outer k)) (fun b =>
  if bool_decide (st_none = st_and (cb_state b) st_destroy)
  then LTry (LDo (mlog (EvEnter k h)) (fun _ => LFn k (fn h))) (fn_handler k) tail
  else tail).

(** other = & synthesized_cb; *)
Definition set_other (k : nat) : M unit :=
  b <-- get_cb (Outer k) ;; put_cb (Outer k) (with_other (Some (Inner k)) b).

(** Destructor of the automatic object [synthesized] of the lambdas
    (pull_control_block_cc.ipp:53, 82, 209, 238, 341, 370; push: 52, 83, 183, 214, 301, 332). *)
Definition synth_dtor (k h : nat) : lcode :=
  LDo (mlog (EvGone k h)) (fun _ => coro_dtor h (LRet RVUnit)).

(** Lambda of the pull control block: pull_control_block_cc.ipp:50-75, 79-104,
    206-231, 235-260, 338-363, 367-392.  [c] is the fiber of the context that
    resumed for the first time. *)
Definition pull_entry (kd : kind) (k : nat) (fn : nat -> strat) (c : option nat) : lcode :=
  LDo (put_cb (Inner k) (new_cb c (Some (Outer k)) st_none)) (fun _ =>
  LScope (synth_cb_dtor Push kd (Inner k)) (
  LDo (h <-- fresh_h ;; put_h h (HObj Push kd (Some (Inner k))) ;;; mret h) (fun h =>
  LScope (synth_dtor k h) (
  LDo (set_other k) (fun _ =>
  run_fn k h fn (pull_tail kd k)))))).

(** Lambda of the push control block: push_control_block_cc.ipp:49-76, 80-106,
    180-207, 211-238, 298-325, 329-356.  Control goes back to the constructor
    before the function is called. *)
Definition push_entry (kd : kind) (k : nat) (fn : nat -> strat) (c : option nat) : lcode :=
  LDo (put_cb (Inner k) (new_cb c (Some (Outer k)) st_none)) (fun _ =>
  LScope (synth_cb_dtor Pull kd (Inner k)) (
  LDo (h <-- fresh_h ;; put_h h (HObj Pull kd (Some (Inner k))) ;;; mret h) (fun h =>
  LScope (synth_dtor k h) (
  LDo (set_other k) (fun _ =>
  LDo (o <-- other_of (Outer k) ;; take_c o) (fun f =>
  LResume f (fun r =>
  LDo (other_of (Outer k)) (fun o =>
  fiber_assign o r (
  run_fn k h fn (push_tail kd k)))))))))).

(** ** Constructors *)

(** create_control_block.ipp:31-52: salloc.allocate() (may throw), then the
    control block is constructed on that stack.  The address computation is
    modelled separately in Layout.v. *)
Definition salloc_allocate (np : newp) : M nat := fun m =>
  match np_alloc np with
  | Some e => MThrow e m
  | None => MOk (m_nk m) (log (EvAlloc (m_nk m)) (set_stk ({[ m_nk m ]} ∪ m_stk m) (set_nk (S (m_nk m)) m)))
  end.
(** fn_=std::forward< Fn >( fn): the lambda captures the function object
    (pull_control_block_cc.ipp:79, push_control_block_cc.ipp:80; or wrap.hpp:36-39). *)
Definition capture_fn (np : newp) : M unit :=
  match np_fn np with Some e => mthrow e | None => mret tt end.

(** If the body of a control_block constructor throws, the members constructed so
    far are destroyed (~control_block is not called), [c] last. *)
Definition ctor_cleanup (e : ep) (x : exn) : lcode :=
  LDo (b <-- get_cb e ;; put_cb e (with_alive false (with_c None b)) ;;; mret (cb_c b))
      (fun f => LKill f (LThrow x)).

(** pull_coroutine( salloc, fn): pull_coroutine.ipp:51-59, 120-128, 182-189, with the
    control_block constructor pull_control_block_cc.ipp:44-115, 200-271, 333-401. *)
Definition new_pull (kd : kind) (np : newp) (fn : nat -> strat) : lcode :=
  LDo fresh_h (fun h =>
  LDo (salloc_allocate np) (fun k =>
  LDo (capture_fn np) (fun _ =>
  LMkFiber k (pull_entry kd k fn) (
  LDo (put_cb (Outer k) (new_cb (Some k) None st_unwind)) (fun _ =>
  LTry (resume_assign (Outer k) (rethrow_if (Outer k) (LRet RVUnit)))
       (ctor_cleanup (Outer k)) (
  LDo (pull_cb_valid kd (Outer k)) (fun v =>
  if v then LDo (put_h h (HObj Pull kd (Some (Outer k))) ;;; mlog (EvNew k h)) (fun _ => LRet (RVAns (AH h)))
  else cb_deallocate Pull kd (Outer k)
         (LDo (put_h h (HObj Pull kd None)) (fun _ => LRet (RVAns (AH h))))))))))).

(** push_coroutine( salloc, fn): push_coroutine.ipp:44-48, 104-108, 156-159, with the
    control_block constructor push_control_block_cc.ipp:43-112, 174-244, 294-362. *)
Definition new_push (kd : kind) (np : newp) (fn : nat -> strat) : lcode :=
  LDo fresh_h (fun h =>
  LDo (salloc_allocate np) (fun k =>
  LDo (capture_fn np) (fun _ =>
  LMkFiber k (push_entry kd k fn) (
  LDo (put_cb (Outer k) (new_cb (Some k) None st_unwind)) (fun _ =>
  LTry (resume_assign (Outer k) (LRet RVUnit))
       (ctor_cleanup (Outer k)) (
  LDo (put_h h (HObj Push kd (Some (Outer k))) ;;; mlog (EvNew k h)) (fun _ => LRet (RVAns (AH h))))))))).

Definition new_coro (sd : side) (kd : kind) (np : newp) (fn : nat -> strat) : lcode :=
  match sd with Pull => new_pull kd np fn | Push => new_push kd np fn end.

(** ** Public members *)

(** operator bool: pull_coroutine.ipp:81-84, 150-153, 211-214; push_coroutine.ipp:77-80,
    130-133, 181-184. *)
Definition pull_bool (o : hobj) : M bool :=
  match h_ep o with None => mret false | Some e => pull_cb_valid (h_kind o) e end.
Definition push_bool (o : hobj) : M bool :=
  match h_ep o with None => mret false | Some e => push_cb_valid (h_kind o) e end.
Definition coro_bool (o : hobj) : M bool :=
  match h_side o with Pull => pull_bool o | Push => push_bool o end.
(** operator!: pull_coroutine.ipp:86-90, 155-159, 216-220; push_coroutine.ipp:82-86,
    135-139, 186-190. *)
Definition pull_not (o : hobj) : M bool :=
  match h_ep o with None => mret true | Some e => v <-- pull_cb_valid (h_kind o) e ;; mret (negb v) end.
Definition push_not (o : hobj) : M bool :=
  match h_ep o with None => mret true | Some e => v <-- push_cb_valid (h_kind o) e ;; mret (negb v) end.
Definition coro_not (o : hobj) : M bool :=
  match h_side o with Pull => pull_not o | Push => push_not o end.

(** Move constructors: pull_coroutine.ipp:68-72, 137-141, 198-202; push_coroutine.ipp:57-61,
    117-121, 168-172: cb_{ nullptr }, then std::swap( cb_, other.cb_). *)
Definition coro_move (h : nat) : M nat :=
  o <-- get_h h ;; h' <-- fresh_h ;;
  put_h h' (HObj (h_side o) (h_kind o) (h_ep o)) ;;;
  put_h h (HObj (h_side o) (h_kind o) None) ;;; mret h'.

(** Move assignment: pull_coroutine.hpp:57-60, 168-171, 277-280 (swap);
    push_coroutine.hpp:55-59, 140-144, 223-227 (self test, then swap). *)
Definition coro_assign (h1 h2 : nat) : M unit :=
  o1 <-- get_h h1 ;; o2 <-- get_h h2 ;;
  check (bool_decide (h_side o1 = h_side o2) && bool_decide (h_kind o1 = h_kind o2)) UbType ;;;
  if (match h_side o1 with Push => bool_decide (h1 = h2) | Pull => false end) then mret tt else
  put_h h1 (HObj (h_side o1) (h_kind o1) (h_ep o2)) ;;;
  put_h h2 (HObj (h_side o2) (h_kind o2) (h_ep o1)).

(** iterator::fetch_: pull_coroutine.hpp:74-80, 185-191. *)
Definition it_fetch (h : nat) : M iter :=
  o <-- get_h h ;; n <-- pull_not o ;; mret (if n then None else Some h).

(** Type checks the C++ compiler performs on the argument of a push. *)
Definition arg_ok (kd : kind) (a : arg) : bool :=
  match kd, a with
  | KVal, ACopy _ | KVal, AMove _ | KVal, AImm _ => true
  | KRef, ARefTo _ => true
  | KVoid, ANone => true
  | _, _ => false
  end.
Definition out_arg_ok (kd : kind) (a : arg) : bool :=
  match kd, a with KVal, AImm _ | KRef, ARefTo _ => true | _, _ => false end.

Definition is_pull_range (o : hobj) : bool :=
  match h_side o, h_kind o with Pull, KVal | Pull, KRef => true | _, _ => false end.
Definition is_push_range (o : hobj) : bool :=
  match h_side o, h_kind o with Push, KVal | Push, KRef => true | _, _ => false end.

(** The API calls.
    OResume: pull_coroutine.ipp:74-79, 143-148, 204-209.
    OPush: push_coroutine.ipp:63-75, 123-128, 174-179.
    OBegin/OEnd: pull_coroutine.hpp:134-135, 245-246, 291-301; the iterator
    constructor 101-104, 212-215.  OItInc: 82-87, 114-121, 193-198, 225-232.
    OItDeref: 123-129, 234-240.  OItEq/OItNe: 106-112, 217-223 and
    push_coroutine.hpp:94-100, 177-183.  OOutBegin/OOutEnd: push_coroutine.hpp:236-246.
    OOutAssign: push_coroutine.hpp:86-92, 169-175. *)
Definition api (o : op) : lcode :=
  match o with
  | OMoveCtor h => LDo (coro_move h) (fun h' => LRet (RVAns (AH h')))
  | OMoveAssign h1 h2 => LDo (coro_assign h1 h2) (fun _ => LRet (RVAns AUnit))
  | ODestroy h => coro_dtor h (LRet (RVAns AUnit))
  | OResume h =>
      LDo (deref_h Pull h) (fun p => pull_cb_resume (snd p) (LRet (RVAns AUnit)))
  | OPush h a =>
      LDo (p <-- deref_h Push h ;; check (arg_ok (fst p) a) UbType ;;; mret p)
          (fun p => push_cb_resume (fst p) (snd p) false a (LRet (RVAns AUnit)))
  | OBool h => LDo (o <-- get_h h ;; coro_bool o) (fun b => LRet (RVAns (AB b)))
  | ONot h => LDo (o <-- get_h h ;; coro_not o) (fun b => LRet (RVAns (AB b)))
  | OGet h => LDo (p <-- deref_h Pull h ;; pull_get (fst p) (snd p)) (fun a => LRet (RVAns a))
  | OBegin h => LDo (o <-- get_h h ;; check (is_pull_range o) UbType ;;; it_fetch h)
                    (fun i => LRet (RVAns (AIt i)))
  | OEnd => LRet (RVAns (AIt None))
  | OItInc None => LDo (A := unit) (mub UbAssert) (fun _ => LRet RVUnit)
  | OItInc (Some h) =>
      LDo (o <-- get_h h ;; check (is_pull_range o) UbType ;;;
           v <-- pull_bool o ;; check v UbAssert ;;;
           deref_h Pull h)
          (fun p => pull_cb_resume (snd p) (
             LDo (it_fetch h) (fun i => LRet (RVAns (AIt i)))))
  | OItDeref None => LDo (A := unit) (mub UbNull) (fun _ => LRet RVUnit)
  | OItDeref (Some h) => LDo (p <-- deref_h Pull h ;; pull_deref (fst p) (snd p)) (fun a => LRet (RVAns a))
  | OItEq i j => LRet (RVAns (AB (bool_decide (i = j))))
  | OItNe i j => LRet (RVAns (AB (bool_decide (i <> j))))
  | OOutBegin h => LDo (o <-- get_h h ;; check (is_push_range o) UbType) (fun _ => LRet (RVAns (AIt (Some h))))
  | OOutEnd => LRet (RVAns (AIt None))
  | OOutAssign None a => LDo (A := unit) (mub UbAssert) (fun _ => LRet RVUnit)
  | OOutAssign (Some h) a =>
      LDo (p <-- deref_h Push h ;; check (out_arg_ok (fst p) a) UbType ;;; mret p)
          (fun p => push_cb_resume (fst p) (snd p) true a (
             LDo (o <-- get_h h ;; n <-- push_not o ;; mret (if n then None else Some h))
                 (fun i => LRet (RVAns (AIt i)))))
  | OEmit v => LRet (RVAns AUnit)
  | OLog n => LRet (RVAns AUnit)
  | OLoad l => LDo (user_load l) (fun v => LRet (RVAns (AV v)))
  | OStore l v => LDo (user_store l v) (fun _ => LRet (RVAns AUnit))
  end.

(** ** The machine: contexts (fibers) with their own stacks of frames *)

Inductive frame :=
| KUser (o : opn) (k : resp -> strat)       (* user code waiting for API call o         *)
| KFn (n : nat)                             (* the coroutine-function of n runs above   *)
| KTry (h : exn -> lcode) (k : lcode)       (* try block of library code                *)
| KThen (k : lcode)                         (* handler above, then k                    *)
| KScope (d : lcode)                        (* automatic object with destructor d       *)
| KPend (r : rv + exn)                      (* destructor above; then go on returning/throwing *)
| KResume (k : option nat -> lcode)         (* suspended in resume()                    *)
| KUnwind (k : lcode)                       (* suspended in ~fiber()                    *)
| KEntry (n : nat)                          (* fiber_entry of coroutine n               *)
| KMain.                                    (* caller of main                           *)

Inductive focus := FStrat (s : strat) | FCode (l : lcode) | FRet (r : rv) | FExn (x : exn).

(** [c_fib]: the suspended contexts; [c_unw]: for a context being unwound, the
    context that executes ~fiber() on it (forced_unwind::fctx). *)
Record cstate := CState {
  c_mem : mem;
  c_fib : gmap nat (list frame);
  c_unw : gmap nat nat;
  c_cur : nat;
  c_focus : focus;
  c_stack : list frame }.

Inductive cres := CNext (s : cstate) | CHalt (o : outcome) (m : mem).

(** End of a fiber (boost::context: fiber_entry, fiber_exit): the stack of [n] is
    released and context [g] goes on; a resume() there returns an empty fiber. *)
Definition fiber_exit (n g : nat) (m : mem) (fib : gmap nat (list frame)) (unw : gmap nat nat) : cres :=
  if decide (n ∈ m_stk m) then
    let m' := log (EvFree n) (set_stk (m_stk m ∖ {[ n ]})
                (set_cbs (delete (Outer n) (delete (Inner n) (m_cbs m))) m)) in
    match fib !! g with
    | Some (KResume k :: K) => CNext (CState m' (delete g fib) (delete n unw) g (FCode (k None)) K)
    | Some (KUnwind k :: K) => CNext (CState m' (delete g fib) (delete n unw) g (FCode k) K)
    | _ => CHalt (Undefined UbEmptyFiber) m'
    end
  else CHalt (Undefined UbDangling) m.

Definition step (s : cstate) : cres :=
  let '(CState m fib unw cur fc K) := s in
  match fc with
  | FStrat st =>
      match st with
      | STau st' => CNext (CState m fib unw cur (FStrat st') K)
      | SDo o k => CNext (CState (log (EvCall cur (NOp o)) m) fib unw cur (FCode (api o)) (KUser (NOp o) k :: K))
      | SNew sd kd np fn k =>
          CNext (CState (log (EvCall cur (NNew sd kd)) m) fib unw cur (FCode (new_coro sd kd np fn))
                        (KUser (NNew sd kd) k :: K))
      | SRet =>
          match K with
          | KFn n :: K' => CNext (CState (log (EvLeave n None) m) fib unw cur (FRet RVUnit) K')
          | KMain :: _ => CHalt Finished m
          | _ => CHalt (Undefined UbType) m
          end
      | SThrow x =>
          match K with
          | KFn n :: K' => CNext (CState (log (EvLeave n (Some x)) m) fib unw cur (FExn x) K')
          | KMain :: _ => match x with XUser _ => CHalt Terminated m | XUnwind => CHalt (Undefined UbUnwind) m end
          | _ => CHalt (Undefined UbType) m
          end
      end
  | FCode l =>
      match l with
      | LDo f k =>
          match f m with
          | MOk a m' => CNext (CState m' fib unw cur (FCode (k a)) K)
          | MThrow e m' => CNext (CState m' fib unw cur (FExn (XUser e)) K)
          | MUB r => CHalt (Undefined r) m
          | MTerm m' => CHalt Terminated m'
          end
      | LMkFiber n entry k =>
          CNext (CState m (<[ n := [KResume entry; KEntry n] ]> fib) unw cur (FCode k) K)
      | LResume f k =>
          match f with
          | Some g =>
              match fib !! g with
              | Some (KResume k' :: K') =>
                  CNext (CState m (<[ cur := KResume k :: K ]> (delete g fib)) unw g (FCode (k' (Some cur))) K')
              | _ => CHalt (Undefined UbEmptyFiber) m
              end
          | None => CHalt (Undefined UbEmptyFiber) m
          end
      | LKill f k =>
          match f with
          | Some g =>
              match fib !! g with
              | Some (KResume _ :: K') =>
                  CNext (CState m (<[ cur := KUnwind k :: K ]> (delete g fib)) (<[ g := cur ]> unw) g (FExn XUnwind) K')
              | _ => CHalt (Undefined UbEmptyFiber) m
              end
          | None => CNext (CState m fib unw cur (FCode k) K)
          end
      | LFn n st => CNext (CState m fib unw cur (FStrat st) (KFn n :: K))
      | LTry b h k => CNext (CState m fib unw cur (FCode b) (KTry h k :: K))
      | LScope d b => CNext (CState m fib unw cur (FCode b) (KScope d :: K))
      | LRet r => CNext (CState m fib unw cur (FRet r) K)
      | LThrow x => CNext (CState m fib unw cur (FExn x) K)
      end
  | FRet r =>
      match K with
      | KUser o k :: K' =>
          match r with
          | RVAns a => CNext (CState (log (EvRet cur o a) m) fib unw cur (FStrat (k (ROk a))) K')
          | _ => CHalt (Undefined UbType) m
          end
      | KTry _ k :: K' => CNext (CState m fib unw cur (FCode k) K')
      | KThen k :: K' => CNext (CState m fib unw cur (FCode k) K')
      | KScope d :: K' => CNext (CState m fib unw cur (FCode d) (KPend (inl r) :: K'))
      | KPend (inl r') :: K' => CNext (CState m fib unw cur (FRet r') K')
      | KPend (inr x) :: K' => CNext (CState m fib unw cur (FExn x) K')
      | KEntry n :: _ =>
          match r with
          | RVFiber (Some g) => fiber_exit n g m fib unw
          | RVFiber None => CHalt (Undefined UbEmptyFiber) m
          | _ => CHalt (Undefined UbType) m
          end
      | _ => CHalt (Undefined UbType) m
      end
  | FExn x =>
      match K with
      | KUser o k :: K' => CNext (CState (log (EvExn cur o x) m) fib unw cur (FStrat (k (RExn x))) K')
      | KTry h k :: K' => CNext (CState m fib unw cur (FCode (h x)) (KThen k :: K'))
      | KThen _ :: K' => CNext (CState m fib unw cur (FExn x) K')
      | KScope d :: K' => CNext (CState m fib unw cur (FCode d) (KPend (inr x) :: K'))
      | KPend _ :: _ => CHalt Terminated m
      | KEntry n :: _ =>
          match x with
          | XUnwind => match unw !! n with
                       | Some g => fiber_exit n g m fib unw
                       | None => CHalt (Undefined UbUnwind) m
                       end
          | XUser _ => CHalt Terminated m
          end
      | _ => CHalt (Undefined UbType) m
      end
  end.

(** A program: the strategy of main and the initial user memory. *)
Definition init_mem (u : gmap nat T) : mem := Mem ∅ ∅ ∅ u 0 1 [].
Definition cinit (p : strat) (u : gmap nat T) : cstate :=
  CState (init_mem u) ∅ ∅ 0 (FStrat p) [KMain].

Fixpoint crun (n : nat) (s : cstate) : cres :=
  match n with
  | O => CNext s
  | S n' => match step s with CNext s' => crun n' s' | CHalt o m => CHalt o m end
  end.

Definition cres_mem (r : cres) : mem := match r with CNext s => c_mem s | CHalt _ m => m end.
(** Observable history, oldest event first. *)
Definition ctrace (r : cres) : list event := rev (m_tr (cres_mem r)).
(** History of the first [n] steps of program [p] started with user memory [u];
    newest event first. *)
Definition hist (p : strat) (u : gmap nat T) (n : nat) : list event := m_tr (cres_mem (crun n (cinit p u))).

End model.

Arguments MOk {env A}. Arguments MThrow {env A}. Arguments MUB {env A}. Arguments MTerm {env A}.
