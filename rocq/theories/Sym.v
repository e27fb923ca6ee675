(** Sym.v -- the functions of a chain, used by pull coroutines and by push coroutines (C57).

    The documentation (doc/motivation.qbk:553-566, "chaining coroutines"): "Because of the symmetry
    of the API, we can use any of these chaining functions in a push_type coroutine chain as
    well."  [stage g] is such a function; [gstages] makes pull coroutines of them, [smain] push
    coroutines, [mixed] some of both. *)
From stdpp Require Import prelude.
From Verif Require Import Base Cpp Progs Gens.

Section sym.
Context {env : Env}.

(** Writing ([inl]) and yielding ([inr]). *)
Definition gwork (l : list (T + T)) : G := foldr (fun x g => Seq (match x with inl w => Note w | inr v => Yield v end) g) Nil l.

(** A piece of code that writes and yields [l] and then ends, with an exception if there is one. *)
Definition fin (x : option E) : G := match x with None => Nil | Some e => Fail e end.
Definition source_of (l : list (T + T)) (x : option E) : G := Seq (gwork l) (fin x).

(** What a function does for a value: it writes and passes on, and possibly throws then. *)
Definition fn : Type := T -> list (T + T) * option E.
Definition gbody (g : fn) (v : T) : G := source_of (g v).1 (g v).2.
(** [void f( push_type & sink, pull_type & source) { for ( T v : source) { g v } }], as tokenize(),
    only_words() and trace() (doc/motivation.qbk:452-494): [x] is the source, [yield v] stands for
    [sink( v)]. *)
Definition stage (g : fn) (x : nat) (yield : T -> stm) : stm :=
  Do (OBegin x) eq_refl (fun i => Do OEnd eq_refl (fun e =>
  match i, e with AIt i, AIt e => for_loop None (fun v => code (gbody g v) yield) i e | _, _ => Skip end)).

(** With pull coroutines: [sink] is the counterpart (or main writes), the source is a pull
    coroutine with the function before (doc/motivation.qbk:529-539).  Simplification: a function declares
    the coroutine it reads from itself (C55 has them declared by main). *)
Definition gstages (gs : list fn) (src : G) : G := foldl (fun s g => For None s (gbody g)) src gs.

(** With push coroutines: the source is the counterpart, [sink] is a push coroutine with
    the function that follows:

      coro_t::push_type writer( ...);
      coro_t::push_type filter( std::bind( only_words, std::ref( writer), _1) );

    The objects are made from the last to the first (doc/motivation.qbk:558-561). *)
Fixpoint sinks (gs : list fn) (yield : T -> stm) (body : (T -> stm) -> stm) : stm :=
  match gs with
  | [] => body yield
  | g :: gs => LocalCo Push KVal plain_new (fun s => stage g s yield) (fun x => sinks gs (fun v => push x (AImm v) Skip) body) Skip
  end.
(** main is the source (as in doc/motivation.qbk:562-564, where it passes on tokens); what the last
    function yields is written. *)
Definition smain (gs : list fn) (l : list (T + T)) (x : option E) : strat :=
  cxx (sinks (rev gs) (fun v => emit v Skip) (code (source_of l x))).
(** Pull coroutines that are declared one after the other; each gets the one before it by reference:

      coro_t::pull_type reader( ...);
      coro_t::pull_type tokenizer( std::bind( tokenize, _1, std::ref( reader) ) );

    (doc/motivation.qbk:532-535, 544-546, 556-557); [x] is the one before. *)
Fixpoint pulls (gs : list fn) (x : nat) (body : nat -> stm) : stm :=
  match gs with
  | [] => body x
  | g :: gs => LocalCo Pull KVal plain_new (fun s => stage g x (fun v => push s (AImm v) Skip)) (fun y => pulls gs y body) Skip
  end.
(** A chain of pull coroutines with the functions [gs] and a chain of push coroutines with the functions
    [hs]; main reads from the one, does itself what [g] does for each value and pushes into the other
    (doc/motivation.qbk:553-566: [for ( std::string token : tokenizer) { filter( token); }]). *)
Definition mixed (gs : list fn) (g : fn) (hs : list fn) (l : list (T + T)) (x : option E) : strat :=
  cxx (LocalCo Pull KVal plain_new (generator (source_of l x)) (fun y => pulls gs y (fun y =>
       sinks (rev hs) (fun v => emit v Skip) (fun yield => stage g y yield))) Skip).

(** ** What they do *)
(** What the function does with what its source does: what the source writes is written, each of
    its values is replaced, an exception ends it. *)
Fixpoint flow (g : fn) (l : list (T + T)) (x : option E) : list (T + T) * option E :=
  match l with
  | [] => ([], x)
  | inl w :: l => (inl w :: (flow g l x).1, (flow g l x).2)
  | inr v :: l =>
      match g v with
      | (k, Some e) => (k, Some e)
      | (k, None) => (k ++ (flow g l x).1, (flow g l x).2)
      end
  end.
Definition flows (gs : list fn) (l : list (T + T)) (x : option E) : list (T + T) * option E := foldl (fun t g => flow g t.1 t.2) (l, x) gs.
End sym.
