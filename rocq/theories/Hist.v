(** Hist.v -- histories of programs that respect the contract, and the positions in the
    reference semantics at which their events are recorded. *)
From stdpp Require Import prelude gmap relations.
From Coq Require Import Lia.
From Verif Require Import Base Model Spec InvSpec Main Micro Trace Life.
From Verif Require Export Contract Events ContractInv ContractProof.

Section hist.
Context {env : Env} {comp : Compiler}.

Theorem mreach_always p u (Φ : event -> list event -> Prop) :
  (forall x y e, mreach p u x -> micro x y -> a_tr y.1 = e :: a_tr x.1 -> Φ e (a_tr x.1)) ->
  forall n, respects p u n -> always Φ (hist p u n).
Proof.
  intros Hs n Hr. destruct (hist_mreach _ _ _ Hr) as (x&l&Hx&Hl). eapply (always_app _ l). rewrite <- Hl. clear Hl l Hr n.
  revert x Hx. apply mreach_ind; [apply always_nil|]. intros x y Hx IH Hm.
  assert (a_tr y.1 = a_tr x.1 \/ exists e, a_tr y.1 = e :: a_tr x.1) as [->|[e He]]; [|done|].
  - clear -Hm. destruct Hm; cbn; eauto.
    + right. eexists. f_equal. destruct o; cbn in H; repeat case_match; by simplify_eq.
    + right. destruct w as [|? ? []|]; [done|..]; subst; cbn; eauto.
  - rewrite He. apply always_cons; [|done]. by eapply Hs.
Qed.

Lemma hist_occurs p u n e b : respects p u n -> occurs (hist p u n) e b -> exists z, mreach p u z /\ occurs (a_tr z.1) e b.
Proof.
  intros Hr [l Hl]. destruct (hist_mreach _ _ _ Hr) as (x&l'&Hx&E). exists x. split; [done|]. exists (l' ++ l). by rewrite E, Hl, app_assoc.
Qed.

Theorem hist_at p u n e b : respects p u n -> occurs (hist p u n) e b -> exists x y, mreach p u x /\ micro x y /\ a_tr x.1 = b /\ ev_at x y e.
Proof.
  intros Hr Ho. destruct (hist_occurs _ _ _ _ _ Hr Ho) as (z&Hz&Hz'). destruct (occurs_at _ _ _ _ _ Hz Hz') as (x&y&Hx&Hm&Hb&He&_).
  exists x, y. repeat split; try done. apply micro_event; [done|]. by rewrite Hb.
Qed.

Theorem hist_next p u n e' e b : respects p u n -> occurs (hist p u n) e' (e :: b) ->
  exists x y x' y', mreach p u x /\ micro x y /\ a_tr x.1 = b /\ ev_at x y e /\ rtc silent y x' /\
    micro x' y' /\ mreach p u x' /\ a_tr x'.1 = e :: b /\ ev_at x' y' e'.
Proof.
  intros Hr Ho. destruct (hist_occurs _ _ _ _ _ Hr Ho) as (z&Hz&Hz'). destruct (occurs_next _ _ _ _ _ _ Hz Hz') as (x&y&x'&y'&Hx&Hm&Hb&He&Hs&Hm'&Hx'&Hb'&He').
  exists x, y, x', y'. repeat split; try done; apply micro_event; try done; congruence.
Qed.

(** Every history of the model is one of the reference semantics. *)
Lemma occurs_all p u n h : respects p u n -> hist p u n = h -> h <> [] -> exists z, mreach p u z /\ a_tr z.1 = h.
Proof.
  intros Hr Hh Hn. destruct h as [|e b]; [done|]. destruct (hist_occurs p u n e b Hr) as (z&Hz&Ho); [by exists []|].
  destruct (occurs_at _ _ _ _ _ Hz Ho) as (x&y&Hx&Hm&_&He&_). exists y. split; [by eapply rtc_r|done].
Qed.

End hist.
