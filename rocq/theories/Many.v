(** Many.v -- programs that drive several generators at once, and their meaning without
    coroutines (C54).

    Gens.v has loops that run over one generator each.  Here generators are named objects
    that can be tested, read and advanced in any order: zipping, merging, comparing.
    [pcode] writes such a program in the language of Cpp.v, with one coroutine for each
    object; [pmeans] says what it does, with one list for each object. *)
From stdpp Require Import prelude.
From Verif Require Import Base Cpp Progs Gens.

Section many.
Context {env : Env}.

(** Objects are named by numbers: 0 is the one declared last. *)
Inductive P :=
| PNil                                      (* ;                                                  *)
| PYield (v : T)                            (* sink( v);                                          *)
| PNote (w : T)                             (* std::cout << w;                                    *)
| PFail (e : E)                             (* throw e;                                           *)
| PQuit                                     (* return;                                            *)
| PSeq (p q : P)                            (* { p } q                                            *)
| PCatch (p : P) (h : E -> P)               (* try { p } catch ( E & e) { h }                     *)
| PLet (src : P) (body : P)                 (* { coroutine< T >::pull_type x( [](auto & sink) { src }); body } *)
| PGet (i : nat) (f : T -> P) (q : P)       (* if ( x_i) { T v = x_i.get(); f } else { q }        *)
| PPeek (i : nat) (f : T -> P) (q : P)      (* auto it = begin( x_i); if ( it != end( x_i)) { T v = * it; f } else { q } *)
| PNext (i : nat)                           (* if ( x_i) x_i();                                   *)
| PWhile (i : nat) (f : nat -> P)           (* for ( int j = 0; x_i; ++j) { f }                   *)
| PLoop (f : nat -> P).                     (* for ( int j = 0;; ++j) { f }                       *)

(** ** The program *)
(** Operations of pull_type as in doc/asymmetric.qbk (operator bool, get(), operator()) and
    example/same_fringe.cpp:142-144 (two generators advanced in turn). *)
CoFixpoint while_do (x : nat) (b : nat -> stm) (j : nat) : stm :=
  Do (OBool x) eq_refl (fun c => match c with AB true => Block (b j) (while_do x b (S j)) | _ => Skip end).
(** [xs]: the objects; [yield v] is what [sink( v)] stands for. *)
Fixpoint pcode (p : P) (xs : list nat) (yield : T -> stm) : stm :=
  match p with
  | PNil => Skip
  | PYield v => yield v
  | PNote w => emit w Skip
  | PFail e => Throw e
  | PQuit => Return
  | PSeq p q => Block (pcode p xs yield) (pcode q xs yield)
  | PCatch p h => Try (pcode p xs yield) (fun e => pcode (h e) xs yield) Skip
  | PLet src body =>
      LocalCo Pull KVal plain_new (fun sink => pcode src [] (fun v => push sink (AImm v) Skip)) (fun x => pcode body (x :: xs) yield) Skip
  | PGet i f q =>
      match xs !! i with
      | Some x =>
          Do (OBool x) eq_refl (fun c =>
          match c with
          | AB true => Do (OGet x) eq_refl (fun a => match a with AV v => pcode (f v) xs yield | _ => Skip end)
          | _ => pcode q xs yield
          end)
      | None => pcode q xs yield
      end
  | PPeek i f q =>
      match xs !! i with
      | Some x =>
          Do (OBegin x) eq_refl (fun it => Do OEnd eq_refl (fun e =>
          match it, e with
          | AIt it, AIt e =>
              Do (OItNe it e) eq_refl (fun c =>
              match c with
              | AB true => Do (OItDeref it) eq_refl (fun a => match a with AV v => pcode (f v) xs yield | _ => Skip end)
              | _ => pcode q xs yield
              end)
          | _, _ => Skip
          end))
      | None => pcode q xs yield
      end
  | PNext i =>
      match xs !! i with
      | Some x => Do (OBool x) eq_refl (fun c => match c with AB true => Do (OResume x) eq_refl (fun _ => Skip) | _ => Skip end)
      | None => Skip
      end
  | PWhile i f => match xs !! i with Some x => while_do x (fun j => pcode (f j) xs yield) 0 | None => Skip end
  | PLoop f => forever_do (fun j => pcode (f j) xs yield) 0
  end.
(** As main: what would be yielded is written. *)
Definition pmain (p : P) : strat := cxx (pcode p [] (fun v => emit v Skip)).

(** ** Its meaning *)
(** What is left of a generator: its value and what it does when it is advanced; or nothing. *)
Definition rest : Type := option (T * trace).
(** Of object [i]; an object that does not exist has nothing. *)
Definition rest_of (R : list rest) (i : nat) : rest := match R !! i with Some r => r | None => None end.

(** A generator runs to its next value: what it writes; how the one who asked goes on ([Ends]) or
    ends (the generator threw; [Cut]: it does not get there); what is left of it. *)
Fixpoint turn (l : list (T + T)) (st : stop) : list T * stop * rest :=
  match l with
  | [] => ([], match st with Returns => Ends | _ => st end, None)
  | inl w :: l => (w :: (turn l st).1.1, (turn l st).1.2, (turn l st).2)
  | inr v :: l => ([], Ends, Some (v, (l, st)))
  end.

(** What a program does and what it leaves of each object. *)
Definition outcome_ : Type := trace * list rest.
Definition and_then (r : outcome_) (k : list rest -> outcome_) : outcome_ :=
  match r with ((l, Ends), R) => ((l ++ (k R).1.1, (k R).1.2), (k R).2) | _ => r end.
Definition or_else (r : outcome_) (h : E -> list rest -> outcome_) : outcome_ :=
  match r with ((l, Raises e), R) => ((l ++ (h e R).1.1, (h e R).1.2), (h e R).2) | _ => r end.
(** [n] rounds of a loop without end, from round [j]; of a loop that ends with object [i]. *)
Fixpoint ploops (f : nat -> list rest -> outcome_) (j n : nat) (R : list rest) : outcome_ :=
  match n with O => (([], Cut), R) | S n => and_then (f j R) (ploops f (S j) n) end.
Fixpoint whiles (f : nat -> list rest -> outcome_) (i j n : nat) (R : list rest) : outcome_ :=
  match rest_of R i with
  | Some _ => match n with O => (([], Cut), R) | S n => and_then (f j R) (whiles f i (S j) n) end
  | _ => (([], Ends), R)
  end.

(** get() moves the value out, so what it leaves is a moved-from value; reading through an
    iterator leaves it.
    [pmeans n p R]: [R] is what is left of the objects at the beginning; loops are followed for [n] rounds. *)
Fixpoint pmeans (n : nat) (p : P) (R : list rest) : outcome_ :=
  match p with
  | PNil => (([], Ends), R)
  | PYield v => (([inr v], Ends), R)
  | PNote w => (([inl w], Ends), R)
  | PFail e => (([], Raises e), R)
  | PQuit => (([], Returns), R)
  | PSeq p q => and_then (pmeans n p R) (pmeans n q)
  | PCatch p h => or_else (pmeans n p R) (fun e => pmeans n (h e))
  | PLet src body =>
      match turn (pmeans n src []).1.1 (pmeans n src []).1.2 with
      | (ns, Ends, r) => (((inl <$> ns) ++ (pmeans n body (r :: R)).1.1, (pmeans n body (r :: R)).1.2), tail (pmeans n body (r :: R)).2)
      | (ns, st, _) => ((inl <$> ns, st), R)
      end
  | PGet i f q => match rest_of R i with Some (v, t) => pmeans n (f v) (<[ i := Some (moved_from v, t) ]> R) | _ => pmeans n q R end
  | PPeek i f q => match rest_of R i with Some (v, _) => pmeans n (f v) R | _ => pmeans n q R end
  | PNext i =>
      match rest_of R i with
      | Some (_, (l, st)) => ((inl <$> (turn l st).1.1, (turn l st).1.2), <[ i := (turn l st).2 ]> R)
      | _ => (([], Ends), R)
      end
  | PWhile i f => whiles (fun j => pmeans n (f j)) i 0 n R
  | PLoop f => ploops (fun j => pmeans n (f j)) 0 n R
  end.
(** As main. *)
Definition pdoes (n : nat) (p : P) : trace := (pmeans n p []).1.

(** ** Some programs *)
Definition pfrom (l : list T) : P := foldr (fun v p => PSeq (PYield v) p) PNil l.
Fixpoint pwalk (t : tree) : P :=
  match t with Null => PNil | Node l _ v r => PSeq (pwalk l) (PSeq (PYield v) (pwalk r)) end.
Definition pcount (f : nat -> T) : P := PLoop (fun i => PYield (f i)).
(** Two generators in step; object 1 is the one over [p]. *)
Definition pzip (f : T -> T -> T) (p q : P) : P :=
  PLet p (PLet q (PLoop (fun _ =>
    PPeek 1 (fun a => PPeek 0 (fun b => PSeq (PYield (f a b)) (PSeq (PNext 1) (PNext 0))) PQuit) PQuit))).
(** The smaller one of the next two values. *)
Definition pmerge (le : T -> T -> bool) (p q : P) : P :=
  PLet p (PLet q (PLoop (fun _ =>
    PPeek 1 (fun a => PPeek 0 (fun b => if le a b then PSeq (PYield a) (PNext 1) else PSeq (PYield b) (PNext 0)) (PSeq (PYield a) (PNext 1)))
            (PPeek 0 (fun b => PSeq (PYield b) (PNext 0)) PQuit)))).
(** Do two generators have the same values? *)
Definition psame (eq : T -> T -> bool) (yes no : T) (p q : P) : P :=
  PLet p (PLet q (PLoop (fun _ =>
    PPeek 1 (fun a => PPeek 0 (fun b => if eq a b then PSeq (PNext 1) (PNext 0) else PSeq (PNote no) PQuit) (PSeq (PNote no) PQuit))
            (PPeek 0 (fun _ => PSeq (PNote no) PQuit) (PSeq (PNote yes) PQuit))))).

(** [pgives p l]: as a generator, [p] yields the values [l], then ends; it writes nothing. *)
Definition pgives (p : P) (l : list T) : Prop :=
  exists n0, forall n, n0 <= n -> exists st, (st = Ends \/ st = Returns) /\ (pmeans n p []).1 = (inr <$> l, st).
(** [pstarts p l]: its first values are [l]; what follows is left open. *)
Definition pstarts (p : P) (l : list T) : Prop :=
  exists n0, forall n, n0 <= n -> (inr <$> l) `prefix_of` (pmeans n p []).1.1.

(** [pswaps s1 s2 p q]: [q] is [p] with the generator [s1] replaced by [s2] in any number of places. *)
Inductive pswaps (s1 s2 : P) : P -> P -> Prop :=
| ps_same p : pswaps s1 s2 p p
| ps_here body body' : pswaps s1 s2 body body' -> pswaps s1 s2 (PLet s1 body) (PLet s2 body')
| ps_seq p1 q1 p2 q2 : pswaps s1 s2 p1 q1 -> pswaps s1 s2 p2 q2 -> pswaps s1 s2 (PSeq p1 p2) (PSeq q1 q2)
| ps_catch p q h k : pswaps s1 s2 p q -> (forall e, pswaps s1 s2 (h e) (k e)) -> pswaps s1 s2 (PCatch p h) (PCatch q k)
| ps_let p q body body' : pswaps s1 s2 p q -> pswaps s1 s2 body body' -> pswaps s1 s2 (PLet p body) (PLet q body')
| ps_get i f g p q : (forall v, pswaps s1 s2 (f v) (g v)) -> pswaps s1 s2 p q -> pswaps s1 s2 (PGet i f p) (PGet i g q)
| ps_peek i f g p q : (forall v, pswaps s1 s2 (f v) (g v)) -> pswaps s1 s2 p q -> pswaps s1 s2 (PPeek i f p) (PPeek i g q)
| ps_while i f g : (forall j, pswaps s1 s2 (f j) (g j)) -> pswaps s1 s2 (PWhile i f) (PWhile i g)
| ps_loop f g : (forall j, pswaps s1 s2 (f j) (g j)) -> pswaps s1 s2 (PLoop f) (PLoop g).
End many.
