(** Chain.v -- generators that read from generators declared outside of them (C55).

    In the programs of Many.v a generator makes the generators it reads from itself, as
    automatic objects of its function.  The documentation ("chaining coroutines",
    doc/motivation.qbk:440-548) declares all of them in the scope of the consumer and passes
    each to the next one by reference:

      coro_t::pull_type reader( std::bind( readlines, _1, std::ref( infile) ) );
      coro_t::pull_type tokenizer( std::bind( tokenize, _1, std::ref( reader) ) );
      coro_t::pull_type filter( std::bind( only_words, _1, std::ref( tokenizer) ) );

    Here programs of Many.v are written this way: the objects a generator declares at the
    beginning of its function are declared before the generator instead. *)
From stdpp Require Import prelude.
From Verif Require Import Base Cpp Progs Gens Many.

Section chain.
Context {env : Env}.

(** [coroutine< T >::pull_type x( [&](auto & sink) { c }); k]: [c] uses the objects [ys]. *)
Definition declare (c : list nat -> (T -> stm) -> stm) (ys : list nat) (k : nat -> stm) : stm :=
  LocalCo Pull KVal plain_new (fun sink => c ys (fun v => push sink (AImm v) Skip)) k Skip.

(** [up] says which declarations are moved out of the function they begin.  The first component
    of [both up p] is the code of [p] as [pcode] (Many.v); the second one declares a generator
    [p] that uses the objects [ys], after the objects that are moved out of [p]. *)
Fixpoint both (up : P -> bool) (p : P) : (list nat -> (T -> stm) -> stm) * (list nat -> (nat -> stm) -> stm) :=
  let c := fun (xs : list nat) (yield : T -> stm) =>
    match p with
    | PNil => Skip
    | PYield v => yield v
    | PNote w => emit w Skip
    | PFail e => Throw e
    | PQuit => Return
    | PSeq p q => Block ((both up p).1 xs yield) ((both up q).1 xs yield)
    | PCatch p h => Try ((both up p).1 xs yield) (fun e => (both up (h e)).1 xs yield) Skip
    | PLet src body => (both up src).2 [] (fun x => (both up body).1 (x :: xs) yield)
    | PGet i f q =>
        match xs !! i with
        | Some x =>
            Do (OBool x) eq_refl (fun c =>
            match c with
            | AB true => Do (OGet x) eq_refl (fun a => match a with AV v => (both up (f v)).1 xs yield | _ => Skip end)
            | _ => (both up q).1 xs yield
            end)
        | None => (both up q).1 xs yield
        end
    | PPeek i f q =>
        match xs !! i with
        | Some x =>
            Do (OBegin x) eq_refl (fun it => Do OEnd eq_refl (fun e =>
            match it, e with
            | AIt it, AIt e =>
                Do (OItNe it e) eq_refl (fun c =>
                match c with
                | AB true => Do (OItDeref it) eq_refl (fun a => match a with AV v => (both up (f v)).1 xs yield | _ => Skip end)
                | _ => (both up q).1 xs yield
                end)
            | _, _ => Skip
            end))
        | None => (both up q).1 xs yield
        end
    | PNext i =>
        match xs !! i with
        | Some x => Do (OBool x) eq_refl (fun c => match c with AB true => Do (OResume x) eq_refl (fun _ => Skip) | _ => Skip end)
        | None => Skip
        end
    | PWhile i f => match xs !! i with Some x => while_do x (fun j => (both up (f j)).1 xs yield) 0 | None => Skip end
    | PLoop f => forever_do (fun j => (both up (f j)).1 xs yield) 0
    end in
  (c, fun ys k =>
    match p with
    | PLet src body => if up p then (both up src).2 [] (fun y => (both up body).2 (y :: ys) k) else declare c ys k
    | _ => declare c ys k
    end).
Definition ccode (up : P -> bool) (p : P) : list nat -> (T -> stm) -> stm := (both up p).1.
Definition chain (up : P -> bool) (p : P) : list nat -> (nat -> stm) -> stm := (both up p).2.
(** As main. *)
Definition cmain (up : P -> bool) (p : P) : strat := cxx (ccode up p [] (fun v => emit v Skip)).

(** ** The chain of the documentation *)
(** Writing ([inl]) and yielding ([inr]). *)
Definition pwork (l : list (T + T)) : P := foldr (fun x p => PSeq (match x with inl w => PNote w | inr v => PYield v end) p) PNil l.
(** tokenize(), only_words(), trace() (doc/motivation.qbk:452-494): a loop over a generator that
    does [g v] for the value [v]. *)
Definition pstage (g : T -> list (T + T)) (src : P) : P :=
  PLet src (PWhile 0 (fun _ => PSeq (PPeek 0 (fun v => pwork (g v)) PNil) (PNext 0))).
Definition pstages (gs : list (T -> list (T + T))) (src : P) : P := foldl (fun p g => pstage g p) src gs.
(** What it does: what the generator writes is written; each of its values is replaced. *)
Definition flow (g : T -> list (T + T)) (l : list (T + T)) : list (T + T) :=
  l ≫= (fun x => match x with inl w => [inl w] | inr v => g v end).
Definition flows (gs : list (T -> list (T + T))) (l : list (T + T)) : list (T + T) := foldl (fun l g => flow g l) l gs.
(** [pacts p l x]: as a generator, [p] writes and yields [l], then ends - with an exception if [x] is one. *)
Definition pacts (p : P) (l : list (T + T)) (x : option E) : Prop :=
  exists n0, forall n, n0 <= n -> exists st, (pmeans n p []).1 = (l, st) /\
    match st with Ends | Returns => x = None | Raises e => x = Some e | Cut => False end.
End chain.
