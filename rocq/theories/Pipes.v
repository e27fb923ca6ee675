(** Pipes.v -- pipelines of consumers, and their meaning without coroutines (C52).

    A consumer is the function of a push coroutine that reads what is pushed into it; for each
    value it writes and pushes values into the next consumer, then waits for the next value,
    returns or throws.  [pipe_main] writes a pipeline of any number of consumers in the language
    of Cpp.v, with one coroutine for each; [piped] says what it does. *)
From stdpp Require Import prelude.
From Verif Require Import Base Cpp Progs.

Section pipes.
Context {env : Env}.

(** For a value, [react] is what the consumer does: [inl w], it writes w; [inr v], it passes
    v on.  If the next consumer throws meanwhile, it stops doing so and does what [rescue]
    says: it writes some values.  Then it goes on with the next value as another consumer, returns or throws. *)
CoInductive consumer :=
| Consumer (react : T -> list (T + T)) (next : T -> after) (rescue : T -> E -> list T * after)
with after := Again (c : consumer) | Done | Fails (e : E).
Definition react (c : consumer) := match c with Consumer r _ _ => r end.
Definition next (c : consumer) := match c with Consumer _ n _ => n end.
Definition rescue (c : consumer) := match c with Consumer _ _ r => r end.

(** ** The program *)
(** As in example/layout.cpp:14-44 (the consumer reads with get() and asks for more with
    operator()), doc/motivation.qbk (chains of coroutines). *)

(** [if ( x) x( v);] *)
Definition pass (x : nat) (v : T) (k : stm) : stm :=
  Do (OBool x) eq_refl (fun b => match b with AB true => push x (AImm v) k | _ => k end).
Fixpoint work (give : T -> stm -> stm) (l : list (T + T)) : stm :=
  match l with
  | [] => Skip
  | inl w :: l => emit w (work give l)
  | inr v :: l => give v (work give l)
  end.
Fixpoint writes (l : list T) : stm := match l with [] => Skip | w :: l => emit w (writes l) end.

(** [for (;;) { T v = in.get(); try { react } catch ( E & e) { rescue } in(); }], where [s] is the
    counterpart [in] and [give v] is what passing v on stands for. *)
CoFixpoint consume (give : T -> stm -> stm) (s : nat) (c : consumer) : stm :=
  Do (OGet s) eq_refl (fun a =>
  match a with
  | AV v =>
      Try (work give (react c v))
        (fun e => Block (writes (rescue c v e).1)
          (match (rescue c v e).2 with Again c' => Do (OResume s) eq_refl (fun _ => consume give s c') | Done => Return | Fails e => Throw e end))
        (match next c v with Again c' => Do (OResume s) eq_refl (fun _ => consume give s c') | Done => Return | Fails e => Throw e end)
  | _ => Return
  end).
(** main, which gets the values [ins] and is a consumer otherwise. *)
Fixpoint drive (give : T -> stm -> stm) (c : consumer) (ins : list T) : stm :=
  match ins with
  | [] => Return
  | v :: ins =>
      Try (work give (react c v))
        (fun e => Block (writes (rescue c v e).1)
          (match (rescue c v e).2 with Again c' => drive give c' ins | Done => Return | Fails e => Throw e end))
        (match next c v with Again c' => drive give c' ins | Done => Return | Fails e => Throw e end)
  end.
(** [coroutine< T >::push_type x( [&](auto & in) { ... }); ...]: the objects are automatic objects
    of main, from the last consumer of the pipeline to the first; each function refers to the object made before. *)
Fixpoint setup (give : T -> stm -> stm) (cs : list consumer) (body : (T -> stm -> stm) -> stm) : stm :=
  match cs with
  | [] => body give
  | c :: cs => LocalCo Push KVal plain_new (fun s => consume give s c) (fun x => setup (pass x) cs body) Skip
  end.
(** What the last consumer passes on is written. *)
Definition pipe_main (c : consumer) (ins : list T) (cs : list consumer) : strat :=
  cxx (setup emit (rev cs) (fun give => drive give c ins)).

(** ** Its meaning *)
(** The consumers that follow, the next one first; [None]: its function has ended. *)
Definition line : Type := list (option consumer).

(** [fd p v]: what passing v on to [p] does: what is written, how the consumers go on, and the
    exception it ends with. *)
Fixpoint does (fd : line -> T -> list T * line * option E) (l : list (T + T)) (p : line) : list T * line * option E :=
  match l with
  | [] => ([], p, None)
  | inl w :: l => match does fd l p with (o, p', x) => (w :: o, p', x) end
  | inr v :: l =>
      match fd p v with
      | (o, p', Some e) => (o, p', Some e)
      | (o, p', None) => match does fd l p' with (o', p'', x) => (o ++ o', p'', x) end
      end
  end.
(** What consumer [c] does for [v]. *)
Definition round (fd : line -> T -> list T * line * option E) (c : consumer) (v : T) (p : line) : list T * line * after :=
  match does fd (react c v) p with
  | (o, p', None) => (o, p', next c v)
  | (o, p', Some e) => (o ++ (rescue c v e).1, p', (rescue c v e).2)
  end.
(** Passing [v] on to [n] consumers. *)
Fixpoint feed (n : nat) (p : line) (v : T) : list T * line * option E :=
  match n, p with
  | S n, Some c :: p =>
      match round (feed n) c v p with
      | (o, p', Again c') => (o, Some c' :: p', None)
      | (o, p', Done) => (o, None :: p', None)
      | (o, p', Fails e) => (o, None :: p', Some e)
      end
  | S n, None :: p => ([], None :: p, None)
  | _, _ => ([v], p, None)
  end.
Fixpoint driven (n : nat) (c : consumer) (ins : list T) (p : line) : list T * option E :=
  match ins with
  | [] => ([], None)
  | v :: ins =>
      match round (feed n) c v p with
      | (o, p', Again c') => (o ++ (driven n c' ins p').1, (driven n c' ins p').2)
      | (o, _, Done) => (o, None)
      | (o, _, Fails e) => (o, Some e)
      end
  end.
(** What is written, and the uncaught exception. *)
Definition piped (c : consumer) (ins : list T) (cs : list consumer) : list T * option E := driven (length cs) c ins (Some <$> cs).
End pipes.
