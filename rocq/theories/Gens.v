(** Gens.v -- a language of generators, and its meaning without coroutines (C50).

    Programs built from loops over generators: bodies of loops may yield, write, loop over
    further generators (which are coroutines of their own, nested to any depth and made
    while others are suspended), throw and catch, return early.  [code] writes such a program
    in the language of Cpp.v, with one coroutine for each loop; [means] says what it does,
    as a list. *)
From stdpp Require Import prelude.
From Verif Require Import Base Cpp Progs.

Section gens.
Context {env : Env}.

Inductive G :=
| Nil                                           (* ;                                                  *)
| Yield (v : T)                                 (* sink( v);                                          *)
| Note (w : T)                                  (* std::cout << w;                                    *)
| Fail (e : E)                                  (* throw e;                                           *)
| Quit                                          (* return;                                            *)
| Seq (g1 g2 : G)                               (* g1 g2                                              *)
| Catch (g : G) (h : E -> G)                    (* try { g } catch ( E & e) { h }                     *)
| For (n : option nat) (src : G) (body : T -> G)
    (* coroutine< T >::pull_type x( [](auto & sink) { src }); for ( auto v : x) { body }; with [n]:
       leave the loop after n rounds *)
| Loop (f : nat -> G).                          (* for ( int i = 0;; ++i) { f }                       *)

(** ** The program *)
(** The loops are those of example/fibonacci.cpp:13-27 (a generator and a range-for over it),
    example/parser.cpp:99-121 (with exceptions). *)

(** [for (; i != e; ++i) { b( * i) }], at most [n] rounds. *)
CoFixpoint for_loop (n : option nat) (b : T -> stm) (i e : iter) : stm :=
  match n with
  | Some 0 => Skip
  | _ =>
    Do (OItNe i e) eq_refl (fun c =>
    match c with
    | AB true =>
        Do (OItDeref i) eq_refl (fun v =>
        match v with
        | AV v => Block (b v)
            (match n with
             | Some 1 => Skip
             | _ => Do (OItInc i) eq_refl (fun j => match j with AIt j => for_loop (pred <$> n) b j e | _ => Skip end)
             end)
        | _ => Skip
        end)
    | _ => Skip
    end)
  end.
Definition for_in (n : option nat) (src : nat -> stm) (b : T -> stm) : stm :=
  LocalCo Pull KVal plain_new src (fun x =>
    Do (OBegin x) eq_refl (fun i => Do OEnd eq_refl (fun e =>
    match i, e with AIt i, AIt e => for_loop n b i e | _, _ => Skip end))) Skip.
CoFixpoint forever_do (b : nat -> stm) (i : nat) : stm := Block (b i) (forever_do b (S i)).

(** [yield v] is what [sink( v)] stands for. *)
Fixpoint code (g : G) (yield : T -> stm) : stm :=
  match g with
  | Nil => Skip
  | Yield v => yield v
  | Note w => emit w Skip
  | Fail e => Throw e
  | Quit => Return
  | Seq g1 g2 => Block (code g1 yield) (code g2 yield)
  | Catch g h => Try (code g yield) (fun e => code (h e) yield) Skip
  | For n src body => for_in n (fun sink => code src (fun v => push sink (AImm v) Skip)) (fun v => code (body v) yield)
  | Loop f => forever_do (fun i => code (f i) yield) 0
  end.
(** As a coroutine-function with counterpart [sink]. *)
Definition generator (g : G) (sink : nat) : stm := code g (fun v => push sink (AImm v) Skip).
(** As main: what would be yielded is written. *)
Definition gmain (g : G) : strat := cxx (code g (fun v => emit v Skip)).

(** ** Its meaning *)

(** How it ends: at its end, by [return], by an exception; [Cut]: it goes on, but this is
    not looked at. *)
Inductive stop := Ends | Returns | Raises (e : E) | Cut.
(** What it does until then: [inl w], it writes w; [inr v], it yields v. *)
Definition trace : Type := list (T + T) * stop.

Definition then_ (t1 t2 : trace) : trace := match t1 with (l1, Ends) => (l1 ++ t2.1, t2.2) | _ => t1 end.
Definition or_catch (t : trace) (h : E -> trace) : trace := match t with (l, Raises e) => (l ++ (h e).1, (h e).2) | _ => t end.

(** A loop with body [B] over what the source does: its values are replaced by the body, what
    it writes in between is written in between.  When the loop is left the source is not
    continued. *)
Fixpoint over (B : T -> trace) (n : option nat) (l : list (T + T)) (st : stop) : trace :=
  match l with
  | [] => ([], match st with Returns => Ends | _ => st end)
  | inl w :: l => (inl w :: (over B n l st).1, (over B n l st).2)
  | inr v :: l =>
      match n with
      | Some 0 => ([], Ends)
      | Some 1 => B v
      | _ => then_ (B v) (over B (pred <$> n) l st)
      end
  end.
Fixpoint rounds (f : nat -> trace) (i n : nat) : trace :=
  match n with O => ([], Cut) | S n => then_ (f i) (rounds f (S i) n) end.

(** [means n g]: loops without end are followed for [n] rounds. *)
Fixpoint means (n : nat) (g : G) : trace :=
  match g with
  | Nil => ([], Ends)
  | Yield v => ([inr v], Ends)
  | Note w => ([inl w], Ends)
  | Fail e => ([], Raises e)
  | Quit => ([], Returns)
  | Seq g1 g2 => then_ (means n g1) (means n g2)
  | Catch g h => or_catch (means n g) (fun e => means n (h e))
  | For m src body => over (fun v => means n (body v)) m (means n src).1 (means n src).2
  | Loop f => rounds (fun i => means n (f i)) 0 n
  end.

(** What is written when yielded values are written, too. *)
Definition written (l : list (T + T)) : list T := (fun x => match x with inl w => w | inr v => v end) <$> l.

(** ** Some generators *)
Definition from_list (l : list T) : G := foldr (fun v g => Seq (Yield v) g) Nil l.
Definition gmap_ (f : T -> T) (g : G) : G := For None g (fun v => Yield (f v)).
Definition gfilter (p : T -> bool) (g : G) : G := For None g (fun v => if p v then Yield v else Nil).
Definition gtake (n : nat) (g : G) : G := For (Some n) g Yield.
Definition gappend (g1 g2 : G) : G := Seq (For None g1 Yield) (For None g2 Yield).
Definition gbind (g : G) (h : T -> G) : G := For None g (fun v => For None (h v) Yield).
(** Walking a tree with one coroutine for each node. *)
Fixpoint walk (t : tree) : G :=
  match t with
  | Null => Nil
  | Node l _ v r => Seq (For None (walk l) Yield) (Seq (Yield v) (For None (walk r) Yield))
  end.
(** Values without end. *)
Definition count_up (f : nat -> T) : G := Loop (fun i => Yield (f i)).

(** [lists g l]: [g] yields the values [l], then ends; it writes nothing. *)
Definition lists (g : G) (l : list T) : Prop := forall n, means n g = (inr <$> l, Ends).

(** [swaps g1 g2 p q]: [q] is [p] with any number of parts [g1] (as statements, sources, bodies of
    loops, handlers) replaced by [g2]. *)
Inductive swaps (g1 g2 : G) : G -> G -> Prop :=
| sw_here : swaps g1 g2 g1 g2
| sw_same p : swaps g1 g2 p p
| sw_seq p q p' q' : swaps g1 g2 p q -> swaps g1 g2 p' q' -> swaps g1 g2 (Seq p p') (Seq q q')
| sw_catch p q h k : swaps g1 g2 p q -> (forall e, swaps g1 g2 (h e) (k e)) -> swaps g1 g2 (Catch p h) (Catch q k)
| sw_for m p q b d : swaps g1 g2 p q -> (forall v, swaps g1 g2 (b v) (d v)) -> swaps g1 g2 (For m p b) (For m q d)
| sw_loop f h : (forall i, swaps g1 g2 (f i) (h i)) -> swaps g1 g2 (Loop f) (Loop h).
End gens.
