(** FactsReplay.v -- consequences of Replay.v for histories. *)
From stdpp Require Import prelude gmap relations.
From Coq Require Import Lia.
From Verif Require Import Base Model Spec InvSpec Refine Main Micro Trace Life Pend Den Tgt Hist FactsLife FactsBack FactsObj FactsEnd Replay FactsCtl Ctl.

Section factsreplay.
Context {env : Env} {comp : Compiler}.
Implicit Types h b : list event.

(** *** [run_on] is a function, up to the silent steps of user code. *)
Inductive tau : strat -> strat -> Prop := tau_i s : tau (STau s) s.

Lemma tau_det s s1 s2 : rtc tau s s1 -> rtc tau s s2 -> rtc tau s1 s2 \/ rtc tau s2 s1.
Proof.
  induction 1 as [s|s t s1 Ht H1 IH]; [by left|]. intros H2. inversion H2 as [|? t' ? Ht' H2']; subst.
  - right. by eapply rtc_l.
  - inversion Ht; subst. inversion Ht'; subst. auto.
Qed.
Lemma run_taus s0 l s s' : run_on s0 l s -> rtc tau s s' -> run_on s0 l s'.
Proof. intros H. induction 1 as [|s t s' Ht _ IH]; [done|]. inversion Ht; subst. apply IH. by apply ro_tau. Qed.

Definition step_of (s : strat) (o : opn) (r : resp) (s' : strat) : Prop :=
  match s, o with
  | SDo o1 k, NOp o2 => o1 = o2 /\ s' = k r
  | SNew sd kd _ _ k, NNew sd' kd' => sd = sd' /\ kd = kd' /\ s' = k r
  | _, _ => False
  end.
Lemma step_of_tau s o r s' t : step_of s o r s' -> rtc tau s t -> t = s.
Proof. intros H Ht. inversion Ht as [|? ? ? H1]; [done|]. inversion H1; subst. done. Qed.
Lemma run_nil s0 s : run_on s0 [] s -> rtc tau s0 s.
Proof. remember [] as l eqn:E. induction 1; try done. eapply rtc_r; [by auto|]. constructor. Qed.
Lemma run_cons s0 o r l s : run_on s0 ((o, r) :: l) s -> exists s1 s2, run_on s0 l s1 /\ step_of s1 o r s2 /\ rtc tau s2 s.
Proof.
  remember ((o, r) :: l) as l' eqn:E. induction 1 as [|l0 s H IH|l0 o0 k r0 H _|l0 sd kd np fn k r0 H _]; try done.
  - destruct (IH E) as (s1&s2&?&?&?). exists s1, s2. split; [done|]. split; [done|]. eapply rtc_r; [done|constructor].
  - injection E as <- <- <-. by exists (SDo o0 k), (k r0).
  - injection E as <- <- <-. by exists (SNew sd kd np fn k), (k r0).
Qed.
Lemma run_det s0 l s s' : run_on s0 l s -> run_on s0 l s' -> rtc tau s s' \/ rtc tau s' s.
Proof.
  revert s s'. induction l as [|[o r] l IH]; intros s s' H H'.
  - eapply tau_det; by apply run_nil.
  - apply run_cons in H as (s1&s2&H1&H2&H3). apply run_cons in H' as (t1&t2&H1'&H2'&H3').
    assert (t1 = s1) as ->. { destruct (IH _ _ H1 H1') as [Ht|Ht]; [by eapply step_of_tau|]. symmetry. by eapply step_of_tau. }
    assert (t2 = s2) as ->. { destruct s1, o; cbn in H2, H2'; try done; naive_solver. }
    by eapply tau_det.
Qed.
Definition settled (s : strat) : Prop := match s with STau _ => False | _ => True end.
Lemma run_unique s0 l s s' : run_on s0 l s -> run_on s0 l s' -> settled s -> settled s' -> s = s'.
Proof.
  intros H H' Hs Hs'. destruct (run_det _ _ _ _ H H') as [Ht|Ht]; inversion Ht as [|? ? ? H1]; subst; try done; inversion H1; subst; done.
Qed.

(** *** The code of a context is determined by the history. *)
Lemma alloc_once p u n k b b' : respects p u n -> occurs (hist p u n) (EvAlloc k) b -> ~ occurs b (EvAlloc k) b'.
Proof.
  intros Hr Ho Ho'. pose proof (hist_life _ _ _ _ _ Hr Ho) as Hl. cbn in Hl.
  pose proof (life_rank p u n b (EvAlloc k :: b') k Hr (past_tail _ _ _ Ho) Ho') as Q. cbn in Q. rewrite decide_True in Q by done. rewrite Hl in Q. cbn in Q. lia.
Qed.
Lemma code_unique p u n c h s s' : respects p u n -> past (hist p u n) h -> code_of p c h s -> code_of p c h s' -> s = s'.
Proof.
  intros Hr Hp H. revert s' Hp. induction H as [h|h k x b c h0 sd kd np fn kk s0 He Ha Hc IH Hn]; intros s' Hp H'.
  - inversion H' as [|? ? x' b' c' h0' sd' kd' np' fn' kk' s0' He' Ha' Hc' Hn']; subst; [done|].
    destruct (history_origin _ u n _ _ Hr (past_occurs _ _ _ _ Hp Ha')) as [? _]. done.
  - inversion H' as [|? ? x' b' c' h0' sd' kd' np' fn' kk' s0' He' Ha' Hc' Hn']; subst.
    + destruct (history_origin _ u n _ _ Hr (past_occurs _ _ _ _ Hp Ha)) as [? _]. done.
    + assert (x' = x) as ->.
      { destruct (occurs_or _ _ _ _ _ He He') as [[E _]|[Ho|Ho]]; [by injection E as ->| |]; exfalso; eapply enter_once; try exact Ho; try done; by eapply past_occurs. }
      assert (EvCall c' (NNew sd' kd') :: h0' = EvCall c (NNew sd kd) :: h0) as E.
      { destruct (occurs_or _ _ _ _ _ Ha Ha') as [[_ E]|[Ho|Ho]]; [done| |]; exfalso; eapply alloc_once; try exact Ho; try done; by eapply past_occurs. }
      injection E as -> -> -> ->.
      assert (s0' = s0) as ->. { symmetry. apply IH; [|done]. eapply past_tail, past_tail. by eapply past_trans. }
      pose proof (run_unique _ _ _ _ Hn Hn' I I) as E. by injection E as _ ->.
Qed.

(** *** Histories *)
Lemma call_code p u n c o b : respects p u n -> occurs (hist p u n) (EvCall c o) b -> exists k, calling p c b o k.
Proof.
  intros Hr Ho. destruct (hist_at _ _ _ _ _ Hr Ho) as ([a f]&y&Hx&Hm&Hb&Hy). cbn [fst snd] in *. subst b.
  pose proof (rp_foc _ _ (mreach_rep _ _ _ Hx)) as Q. cbn [fst snd] in Q.
  destruct Hy as (->&Hf&Hy). cbn [fst snd] in *. subst f. cbn in Q.
  destruct Hy as [(o'&k&->&E&_)|(sd&kd&np&fn&k&->&E&_)]; rewrite E in Q; exists k; cbn; eauto.
Qed.

Lemma leave_code p u n c r b : respects p u n -> occurs (hist p u n) (EvLeave c r) b ->
  goes_on p c b (match r with None => SRet | Some x => SThrow x end).
Proof.
  intros Hr Ho. destruct (hist_at _ _ _ _ _ Hr Ho) as ([a f]&y&Hx&Hm&Hb&Hy). cbn [fst snd] in *. subst b.
  pose proof (rp_foc _ _ (mreach_rep _ _ _ Hx)) as Q. cbn [fst snd] in Q.
  destruct Hy as (->&Hf&Hy). cbn [fst snd] in *. subst f. cbn in Q.
  destruct Hy as [(s&co&ex&E&Hl&->&_)|(co&en&E&->&_)]; rewrite E in Q; [|done].
  destruct s as [|[e|]| | |]; cbn in Hl; try done; injection Hl as <-; done.
Qed.

(** The next thing a context does, as far as its own code decides. *)
Definition does (e : event) (s : strat) : Prop :=
  match e with
  | EvCall _ (NOp o) => exists k, s = SDo o k
  | EvCall _ (NNew sd kd) => exists np fn k, s = SNew sd kd np fn k
  | EvLeave _ None => s = SRet
  | EvLeave _ (Some x) => s = SThrow x
  | _ => False
  end.
Lemma does_settled e s : does e s -> settled s.
Proof. destruct e as [c [o|sd kd]| | | |c [x|]| | | | | |]; cbn; try done; naive_solver. Qed.
Lemma act_code p u n c e b : respects p u n -> occurs (hist p u n) e b -> (exists o, e = EvCall c o) \/ (exists r, e = EvLeave c r) ->
  exists s0 s, code_of p c b s0 /\ run_on s0 (completed c b) s /\ does e s.
Proof.
  intros Hr Ho [[o ->]|[r ->]].
  - destruct (call_code _ _ _ _ _ _ Hr Ho) as [k Hk]. destruct o as [o|sd kd].
    + destruct Hk as (s0&H1&H2). exists s0, (SDo o k). cbn. eauto.
    + destruct Hk as (np&fn&s0&H1&H2). exists s0, (SNew sd kd np fn k). cbn. eauto 10.
  - destruct (leave_code _ _ _ _ _ _ Hr Ho) as (s0&H1&H2). exists s0. eexists. split; [done|]. split; [done|]. by destruct r as [x|].
Qed.

(** What a context does next depends on its code and the results of its own calls only. *)
Lemma act_determined p u n c e b p' u' n' c' e' b' s0 : respects p u n -> respects p' u' n' ->
  occurs (hist p u n) e b -> occurs (hist p' u' n') e' b' ->
  (exists o, e = EvCall c o) \/ (exists r, e = EvLeave c r) -> (exists o, e' = EvCall c' o) \/ (exists r, e' = EvLeave c' r) ->
  code_of p c b s0 -> code_of p' c' b' s0 -> completed c b = completed c' b' ->
  exists s, does e s /\ does e' s.
Proof.
  intros Hr Hr' Ho Ho' He He' Hc Hc' E.
  destruct (act_code _ _ _ _ _ _ Hr Ho He) as (s1&s&H1&H2&H3). destruct (act_code _ _ _ _ _ _ Hr' Ho' He') as (s1'&s'&H1'&H2'&H3').
  assert (s1 = s0) as -> by (eapply code_unique; [exact Hr|by eapply past_tail, occurs_past|done|done]).
  assert (s1' = s0) as -> by (eapply code_unique; [exact Hr'|by eapply past_tail, occurs_past|done|done]).
  rewrite <- E in H2'. exists s. split; [done|]. by rewrite (run_unique _ _ _ _ H2 H2' (does_settled _ _ H3) (does_settled _ _ H3')).
Qed.

Lemma user_code p u n s st : respects p u n -> crun n (cinit p u) = CNext s -> c_focus s = FStrat st ->
  goes_on p (c_cur s) (m_tr (c_mem s)) st.
Proof.
  intros Hr Hs Hf. destruct (user_state _ _ _ _ _ Hr Hs Hf) as (k0&a&_&Ha&_&HR&Hfoc). apply arun_mreach in Ha.
  pose proof (rp_foc _ _ (mreach_rep _ _ _ Ha)) as Q. cbn in Q. rewrite Hfoc in Q. rewrite (R_cur _ _ HR).
  rewrite (f_tr _ _ (r_flat _ _ _ _ (R_core _ _ HR))). done.
Qed.
End factsreplay.
