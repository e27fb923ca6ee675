(** Blocks.v -- who owns the coroutines of a program in the structured language (Cpp.v).
    The conditions are on histories; contexts are numbered in the order in which they are
    made, main is 0. *)
From stdpp Require Import prelude gmap.
From Verif Require Import Base Model Trace Cpp.

Section blocks.
Context {env : Env}.
Implicit Types h b : list event.

(** [x] is an automatic object of context [c] that is not being destroyed. *)
Definition held (c x : nat) h : Prop := ODestroy x ∈ live c h /\ pend c h <> Some (NOp (ODestroy x)).
(** Ownership of a coroutine is moved to automatic objects of main or of coroutines made before it only. *)
Definition moved_out h : Prop := forall c o r b, occurs h (EvRet c (NOp o) r) b -> forall k,
  match o with
  | OMoveCtor y => den b !! y = Some (Some (Outer k)) -> c < k
  | OMoveAssign x y =>
      (den b !! y = Some (Some (Outer k)) -> exists c', c' < k /\ held c' x b) /\
      (den b !! x = Some (Some (Outer k)) -> exists c', c' < k /\ held c' y b)
  | _ => True
  end.

End blocks.
