(** Main.v -- consequences of the simulation for runs: the model and the reference
    semantics produce the same histories, and the model has no undefined
    behaviour, as long as the program respects the preconditions. *)
From stdpp Require Import prelude gmap.
From Coq Require Import NArith Lia.
From Verif Require Import Base Model Spec InvSpec Refine Sim Mono.

Section main.
Notation steps := (rtc cstep_rel).
Context {env : Env} {comp : Compiler}.

(** The program has respected the preconditions of the reference semantics so far (one step of the reference
    semantics takes at least one step of the model, so this covers the first [n]
    steps of the model). *)
Definition arespects (p : strat) (u : gmap nat T) (n : nat) : Prop := arun n (ainit p u) <> AViol.

Lemma spec_used_arespects p u n : spec_used p u -> arespects p u n.
Proof. intros H. apply H. Qed.

Lemma R_init p u : R (ainit p u) (cinit p u).
Proof.
  split; cbn; [|done|done]. split; cbn; try done.
  intros k [x Hx]. by rewrite lookup_empty in Hx.
Qed.

Lemma steps_crun s s' : steps s s' -> exists n, crun n s = CNext s'.
Proof.
  induction 1 as [s|s1 s2 s3 [H _] _ [n IH]]; [by exists 0|]. exists (S n). cbn. by rewrite H.
Qed.

Lemma arun_S n a : arun (S n) a = match arun n a with ANext a' => astep a' | r => r end.
Proof.
  revert a. induction n as [|n IH]; intros a.
  - cbn. by destruct (astep a).
  - change (arun (S (S n)) a) with (match astep a with ANext a' => arun (S n) a' | r => r end).
    destruct (astep a) as [a1| |] eqn:E; [rewrite IH| |]; cbn; by rewrite E.
Qed.

Lemma sim_run p u n a : arun n (ainit p u) = ANext a ->
  Inv a /\ exists N s, n <= N /\ crun N (cinit p u) = CNext s /\ R a s.
Proof.
  revert a. induction n as [|n IH]; intros a H.
  - cbn in H. simplify_eq. split; [apply ainit_inv|]. exists 0, (cinit p u). split; [lia|]. split; [done|]. apply R_init.
  - rewrite arun_S in H. destruct (arun n (ainit p u)) as [a1| |] eqn:E; try done.
    destruct (IH _ eq_refl) as [I1 (N&s&Hle&Hc&HR)].
    split; [by eapply astep_inv|].
    destruct (sim_step _ _ _ HR I1 H) as (s1&Hs1&s2&Hs2&HR2).
    apply steps_crun in Hs2 as [N2 Hs2].
    exists (N + S N2), s2. split; [lia|]. split; [|done]. rewrite crun_add, Hc. cbn. by rewrite Hs1.
Qed.

Lemma sim_run_halt p u n o a : arun n (ainit p u) = AHalt o a ->
  exists N m, crun N (cinit p u) = CHalt o m /\ m_tr m = a_tr a.
Proof.
  revert o a. induction n as [|n IH]; intros o a H; [done|].
  rewrite arun_S in H. destruct (arun n (ainit p u)) as [a1|o1 a1|] eqn:E; try done.
  - destruct (sim_run _ _ _ _ E) as [I1 (N&s&Hle&Hc&HR)].
    destruct (sim_halt _ _ _ _ HR I1 H) as (m&Htr&[Hs1|(s1&s2&Hs1&Hs2&Hs3&_)]).
    + exists (N + 1), m. split; [|done]. rewrite crun_add, Hc. cbn. by rewrite Hs1.
    + apply steps_crun in Hs2 as [N1 Hs2].
      exists (N + S (N1 + 1)), m. split; [|done]. rewrite crun_add, Hc. cbn. rewrite Hs1, crun_add, Hs2. cbn. by rewrite Hs3.
  - simplify_eq. by eapply IH.
Qed.

Lemma crun_halt_le n N s o m : crun n s = CHalt o m -> n <= N -> crun N s = CHalt o m.
Proof. intros H Hle. replace N with (n + (N - n)) by lia. by rewrite crun_add, H. Qed.

Lemma crun_next_le n N s s' : crun N s = CNext s' -> n <= N -> exists s1, crun n s = CNext s1.
Proof.
  intros H Hle. destruct (crun n s) eqn:E; [by eexists|]. by rewrite (crun_halt_le _ _ _ _ _ E Hle) in H.
Qed.

(** The reference semantics only ends by the end of main or by std::terminate. *)
Lemma ahalt_outcome n p u o a : arun n (ainit p u) = AHalt o a -> o = Finished \/ o = Terminated.
Proof.
  revert o a. induction n as [|n IH]; intros o a H; [done|].
  rewrite arun_S in H. destruct (arun n (ainit p u)) as [a1|o1 a1|] eqn:E; try done; [|simplify_eq; by eapply IH].
  clear IH E. assert (Hk : forall j w b b' r, kill j w b <> AHalt r b').
  { intros. unfold kill, exn_to. repeat case_match; done. }
  assert (Hdl : forall j o po k x b b' r, deliver j o po k x b <> AHalt r b').
  { intros. unfold deliver, exn_to, ret_to. repeat case_match; try done; apply Hk. }
  assert (Hgb : forall n st x b b' r, give_back n st x b <> AHalt r b').
  { intros. unfold give_back. repeat case_match; try done. }
  assert (Htr : forall e o po k b b' r, transfer e o po k b <> AHalt r b').
  { intros. unfold transfer. repeat case_match; try done. }
  assert (Hpu : forall e kd lv g o po k b b' r, push_op e kd lv g o po k b <> AHalt r b').
  { intros. unfold push_op, exn_to. repeat case_match; try done. }
  unfold astep in H. repeat case_match.
  - unfold do_leave in H. repeat case_match; simplify_eq; auto; by destruct (Hgb _ _ _ _ _ _ H).
  - unfold do_leave in H. repeat case_match; simplify_eq; auto; by destruct (Hgb _ _ _ _ _ _ H).
  - done.
  - destruct o0; cbn in H; unfold ret_to in H; repeat case_match; simplify_eq; auto;
      try (by destruct (Hk _ _ _ _ _ H)); try (by destruct (Htr _ _ _ _ _ _ _ H)); try (by destruct (Hpu _ _ _ _ _ _ _ _ _ _ H)).
  - unfold do_new, exn_to, ret_to in H. repeat case_match; done.
  - done.
  - unfold do_exit in H. repeat case_match; try done. by destruct (Hk _ _ _ _ _ H).
  - unfold do_exit2, ret_to, exn_to in H. repeat case_match; done.
Qed.

(** How the first [n] steps of the model relate to the first [n] steps of the
    reference semantics. *)
Theorem refinement p u n : arespects p u n ->
  (exists a N s, arun n (ainit p u) = ANext a /\ n <= N /\ crun N (cinit p u) = CNext s /\ R a s /\ Inv a) \/
  (exists o a N m, arun n (ainit p u) = AHalt o a /\ crun N (cinit p u) = CHalt o m /\ m_tr m = a_tr a /\
                   (o = Finished \/ o = Terminated)).
Proof.
  intros H. unfold arespects in H. destruct (arun n (ainit p u)) as [a|o a|] eqn:E; [| |done].
  - left. destruct (sim_run _ _ _ _ E) as [I1 (N&s&?&?&?)]. exists a, N, s. done.
  - right. destruct (sim_run_halt _ _ _ _ _ E) as (N&m&?&?). exists o, a, N, m. eauto using ahalt_outcome.
Qed.

Lemma arespects_le p u n n' : arespects p u n' -> n <= n' -> arespects p u n.
Proof.
  unfold arespects. intros H Hle E. apply H. clear H. induction Hle as [|n' _ IH]; [done|]. by rewrite arun_S, IH.
Qed.

(** State of the reference semantics at the end of its first [n] steps. *)
Definition ares_tr (r : ares) : list event :=
  match r with ANext a | AHalt _ a => a_tr a | AViol => [] end.

(** Every history of the model is the beginning of one of the reference semantics. *)
Theorem hist_prefix p u n : arespects p u n -> exists l, ares_tr (arun n (ainit p u)) = l ++ hist p u n.
Proof.
  intros H. destruct (refinement _ _ _ H) as [(a&N&s&->&Hle&Hc&HR&_)|(o&a&N&m&->&Hc&Htr&_)]; cbn.
  - destruct (crun_le p u n N Hle) as [[l Hl] _ _]. rewrite Hc in Hl. cbn in Hl.
    exists l. unfold hist. rewrite <- Hl. destruct HR as [Rc _ _]. symmetry. apply Rc.
  - destruct (Nat.le_ge_cases n N) as [Hle|Hle].
    + destruct (crun_le p u n N Hle) as [[l Hl] _ _]. rewrite Hc in Hl. cbn in Hl. exists l. unfold hist. by rewrite <- Hl.
    + exists []. unfold hist. rewrite (crun_halt_le _ _ _ _ _ Hc Hle). done.
Qed.

(** Every history of the reference semantics is one of the model. *)
Theorem hist_complete p u n : arespects p u n -> exists N, hist p u N = ares_tr (arun n (ainit p u)).
Proof.
  intros H. destruct (refinement _ _ _ H) as [(a&N&s&->&Hle&Hc&HR&_)|(o&a&N&m&->&Hc&Htr&_)]; exists N; unfold hist; rewrite Hc; cbn.
  - destruct HR as [Rc _ _]. apply Rc.
  - done.
Qed.

(** ** Properties of histories *)

(** [Φ e before] holds for every event [e] of the history, where [before] is what
    happened before it. *)
Definition always (Φ : event -> list event -> Prop) (h : list event) : Prop :=
  forall l e before, h = l ++ e :: before -> Φ e before.

Lemma always_nil Φ : always Φ [].
Proof. intros [|] ??; done. Qed.
Lemma always_cons (Φ : event -> list event -> Prop) e h : Φ e h -> always Φ h -> always Φ (e :: h).
Proof. intros H1 H2 [|x l] e' b Heq; cbn in Heq; simplify_eq; [done|]. by eapply H2. Qed.
Lemma always_app Φ l h : always Φ (l ++ h) -> always Φ h.
Proof. intros H l' e b ->. eapply (H (l ++ l')). by rewrite app_assoc. Qed.

End main.
