(** FactsLife.v -- a coroutine goes through the phases of its life in one direction. *)
From stdpp Require Import prelude gmap relations.
From Coq Require Import Lia.
From Verif Require Import Base Model Spec InvSpec Main Micro Trace Life Den Hist.
From Verif Require Export Phase.

Section fl.
Context {env : Env}.
Context {comp : Compiler}.

Theorem hist_life p u n e b : respects p u n -> occurs (hist p u n) e b -> life_ok e b.
Proof.
  intros Hr Ho. destruct (hist_occurs _ _ _ _ _ Hr Ho) as (z&Hz&Hz'). destruct (occurs_at _ _ _ _ _ Hz Hz') as (x&y&Hx&Hm&Hb&He&_).
  by eapply life_at.
Qed.

Theorem life_later p u n h b k : respects p u n -> past (hist p u n) h -> past h b ->
  life k h = life k b \/ rank (life k b) < rank (life k h).
Proof.
  intros Hr Hh [l ->]. induction l as [|e l IH]; [by left|].
  destruct (life_cons k e (l ++ b)) as [E|E]; [by eapply hist_life| |]; (destruct IH as [IH|IH]; [by eapply past_tail|..]); cbn [app]; rewrite ?E; auto.
  - right. by rewrite <- IH.
  - right. lia.
Qed.

Lemma life_rank p u n h b k : respects p u n -> past (hist p u n) h -> past h b -> rank (life k b) <= rank (life k h).
Proof. intros Hr Hh Hb. destruct (life_later _ _ _ _ _ k Hr Hh Hb) as [->|]; lia. Qed.

(** Two events of one history: the same, or one before the other. *)
Lemma occurs_or h e b e' b' : occurs h e b -> occurs h e' b' -> (e = e' /\ b = b') \/ occurs b e' b' \/ occurs b' e b.
Proof.
  intros H1 H2. destruct (past_or h (e :: b) (e' :: b') H1 H2) as [H|H]; apply past_inv in H as [H|H]; try (injection H as -> ->; by left); auto.
Qed.

End fl.
