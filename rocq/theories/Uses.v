(** Uses.v -- a condition on histories under which the contract (Contract.v) is exactly
    what the reference semantics (Spec.v) needs (C53). *)
From stdpp Require Import prelude gmap.
From Verif Require Import Base Model Trace Contract Discipline.

Section uses.
Context {env : Env}.

(** A push was left by the exception of a copy or move of its argument: before anything
    was put into the slot. *)
Fixpoint push_failed (h : list event) : bool :=
  match h with
  | [] => false
  | e :: h' =>
      match e, h' with
      | EvExn _ _ (XUser _), EvCall _ o :: _ | EvExn _ _ (XUser _), EvDel _ :: EvCall _ o :: _ => bool_decide (is_Some (push_arg o))
      | _, _ => false
      end || push_failed h'
  end.

(** Pushes of values whose construction cannot fail ([arg_safe], Discipline.v) ... *)
Definition push_safe (o : op) : Prop :=
  match o with OPush _ g => arg_safe false g | OOutAssign _ g => arg_safe true g | _ => True end.
(** [only P p]: program [p] can come to operations with [P] only, whatever it is answered. *)
CoInductive only (P : op -> Prop) : strat -> Prop :=
| on_ret : only P SRet
| on_throw x : only P (SThrow x)
| on_do o k : P o -> (forall r, only P (k r)) -> only P (SDo o k)
| on_new sd kd np fn k : (forall h, only P (fn h)) -> (forall r, only P (k r)) -> only P (SNew sd kd np fn k)
| on_tau s : only P s -> only P (STau s).
Definition pushes_safe : strat -> Prop := only push_safe.
(** Operations that do not move coroutine objects. *)
Definition moves_no (o : op) : Prop := match o with OMoveCtor _ | OMoveAssign _ _ => False | _ => True end.
End uses.
