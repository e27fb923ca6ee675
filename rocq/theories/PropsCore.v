(** PropsCore.v -- properties that follow from the refinement as a whole:
    C18 (no undefined behaviour), C36 (both language-level variants), C38
    (determinism). *)
From stdpp Require Import prelude gmap.
From Coq Require Import NArith Lia.
From Verif Require Import Base Model Spec InvSpec Refine Sim Mono Main Hist Examples.

Section props.
Context {env : Env}.

Theorem C18_no_undefined_behaviour {comp : Compiler} p u n r m :
  respects p u n -> crun n (cinit p u) <> CHalt (Undefined r) m.
Proof. apply no_ub. Qed.

(** C36: whatever one variant shows, the other shows too, and they end alike. *)
Theorem C36_variants_same_history (c1 c2 : Compiler) p u n :
  @respects env c1 p u n -> exists N l, @hist env c2 p u N = l ++ @hist env c1 p u n.
Proof.
  intros H. destruct (@follows_spec _ c1 _ _ _ H) as (k&l&Hv&Hl&_). destruct (@hist_complete _ c2 _ _ _ Hv) as [N HN].
  exists N, l. congruence.
Qed.

Theorem C36_variants_same_outcome (c1 c2 : Compiler) p u n o m :
  @respects env c1 p u n -> @crun env c1 n (@cinit env p u) = CHalt o m ->
  exists N m', @crun env c2 N (@cinit env p u) = CHalt o m' /\ m_tr m' = m_tr m.
Proof.
  intros H Hc. destruct (@follows_spec _ c1 _ _ _ H) as (k&l&_&Hl&Hh). destruct (Hh _ _ Hc) as [-> [a Ha]].
  destruct (@sim_run_halt _ c2 _ _ _ _ _ Ha) as (N&m'&Hc'&Ht). exists N, m'. split; [done|]. rewrite Ha in Hl. cbn in Hl.
  rewrite Ht, Hl. unfold hist. by rewrite Hc.
Qed.

(** The contract is the same for both variants. *)
Theorem C36_same_contract (c1 c2 : Compiler) p u : @well_used env c1 p u -> @well_used env c2 p u.
Proof.
  intros Hw. pose proof (@respects_spec _ c1 _ _ Hw) as Hs.
  assert (Ho : forall n, obeys u (@hist env c2 p u n) = true).
  { intros n. destruct (@hist_prefix _ c2 _ _ _ (Hs n)) as [l Hl]. destruct (@hist_complete _ c1 _ _ _ (Hs n)) as [N HN].
    destruct (Hw N) as [H _]. rewrite HN, Hl in H. by eapply obeys_app. }
  intros n. split; [done|]. intros (m&s&_&H). revert m s H. intros m. induction m as [m IH] using lt_wf_ind. intros s (Hc&H0&Hf).
  assert (Hr : @respects env c2 p u m). { split; [done|]. intros (m'&s'&Hlt&H'). by eapply (IH m' Hlt). }
  destruct (@user_state _ c2 _ _ _ _ _ Hr Hc Hf) as (k&a&_&Ha&_&HR&Hfoc). apply (Hs (S k)). rewrite arun_S, Ha. unfold astep. rewrite Hfoc.
  unfold do_leave. rewrite decide_True; [done|]. rewrite <- H0. symmetry. apply (R_cur _ _ HR).
Qed.

(** C38: the history of a longer run extends that of a shorter run of the same
    program; two runs never disagree.  No precondition. *)
Theorem C38_histories_agree {comp : Compiler} p u n1 n2 :
  n1 <= n2 -> exists l, hist p u n2 = l ++ hist p u n1.
Proof. intros H. by destruct (crun_le p u n1 n2 H). Qed.

Theorem C38_one_outcome {comp : Compiler} p u n1 n2 o1 o2 m1 m2 :
  crun n1 (cinit p u) = CHalt o1 m1 -> crun n2 (cinit p u) = CHalt o2 m2 -> o1 = o2 /\ m1 = m2.
Proof.
  intros H1 H2. destruct (Nat.le_ge_cases n1 n2) as [Hle|Hle].
  - rewrite (crun_halt_le _ _ _ _ _ H1 Hle) in H2. by simplify_eq.
  - rewrite (crun_halt_le _ _ _ _ _ H2 Hle) in H1. by simplify_eq.
Qed.

End props.

(** ** Cases meeting the hypotheses *)
Example C18_case {comp : Compiler} : respects ex_nested u0 300 /\ finishes ex_nested = true.
Proof. split; [apply ok_run_respects|]; destruct comp as [[]]; by vm_compute. Qed.
Definition c11 : Compiler := {| cxx11_lambdas := true |}.
Definition c14 : Compiler := {| cxx11_lambdas := false |}.
Example C36_case : @respects nat_env c11 ex_push u0 300 /\ @respects nat_env c14 ex_push u0 300 /\
  @hist nat_env c11 ex_push u0 300 = @hist nat_env c14 ex_push u0 300.
Proof. split; [apply ok_run_respects; by vm_compute|]. split; [apply ok_run_respects; by vm_compute|]. by vm_compute. Qed.

Print Assumptions C18_no_undefined_behaviour.
Print Assumptions C36_variants_same_history.
Print Assumptions C36_variants_same_outcome.
Print Assumptions C36_same_contract.
Print Assumptions C38_histories_agree.
Print Assumptions C38_one_outcome.
