(** FactsCall.v -- how calls come back, and forced unwinding. *)
From stdpp Require Import prelude gmap relations.
From Coq Require Import Lia.
From Verif Require Import Base Model Spec InvSpec Main Micro Trace Life Pend Den Tgt Stack Own Slot Turn ContractInv Hist FactsVal Next Rules RulesProof FactsLife FactsSeq FactsBack FactsObj.

Section fc.
Context {env : Env}.

Context {comp : Compiler}.

(** Forced unwinding leaves the function exactly if it was started. *)
Lemma leave_unw p u n k r b : respects p u n -> occurs (hist p u n) (EvLeave k r) b -> (r = Some XUnwind <-> unw k b).
Proof.
  intros Hr Ho. pose proof (hist_life _ _ _ _ _ Hr Ho) as Hl. cbn in Hl.
  destruct (hist_at _ _ _ _ _ Hr Ho) as ([a f]&y&Hx&Hm&Hb&Hk&Hf&H). cbn in *. subst f b.
  pose proof (mreach_unw _ _ _ Hx) as [U1 U2 U3]. cbn in *.
  destruct H as [(s&c&ex&Hfo&_&->&Hc&Hst&_)|(c&en&Hfo&->&Hc&Hst&_)].
  - split; [by destruct ex|]. intros Hu. destruct (U2 _ Hu Hl) as (c'&Hc'&Hs'). congruence.
  - split; [|done]. intros _. pose proof (li_st _ (mreach_life _ _ _ Hx) _ _ Hc) as Q. cbn in Q. rewrite Hst in Q. destruct en; [|cbn in Q; congruence].
    destruct (U1 k) as [(_&?&?&?)|]; try done. by exists c.
Qed.

(** ** How calls come back *)
Lemma ret_new_pull p u n c kd r b : respects p u n -> occurs (hist p u n) (EvRet c (NNew Pull kd) r) b ->
  exists k x b', r = AH x /\ tgt c b = Some (Outer k) /\
    ((b = EvNew k x :: b' /\ life k b' = PRun) \/ (b = EvFree k :: b' /\ life k b' = PDone None /\ den b !! x = None)).
Proof.
  intros Hr Ho. destruct (history_answers _ _ _ _ _ _ _ Hr Ho) as [_ (y&Er&A)].
  destruct (hist_at _ _ _ _ _ Hr Ho) as ([a f]&z&Hx&Hm&Hb&Hc&H). cbn in *. subst c.
  pose proof (tg_foc _ (mreach_tgt _ _ _ Hx)) as G. pose proof (mreach_life _ _ _ Hx) as L. cbn in G.
  destruct H as [(k&->&_)|[(o'&k&a'&_&?&_)|(h&kd'&k&->&->&_)]]; [|done|]; cbn in G.
  - destruct G as (j&h&h'&->&E&Ht&_&(co&Hco&Hsu)). exists j, h, h'. subst b. split; [done|]. split; [done|]. left. split; [done|].
    pose proof (li_st _ L _ _ Hco) as Q. cbn in Q, Hco. destruct Hsu as (?&?&?&Hs). rewrite Hs in Q. cbn in Q. rewrite E in Q. cbn in Q. rewrite decide_True in Q by done. by destruct (life j h').
  - destruct G as (j&h'&E&Ht&Hl). exists j, h, h'. subst b. split; [done|]. split; [done|]. right. split; [done|]. split; [done|].
    injection Er as <-. destruct A as [(k0&b0&E0)|(_&E0)]; [|done]. rewrite E in E0. done.
Qed.

Lemma ret_new_push p u n c kd r b : respects p u n -> occurs (hist p u n) (EvRet c (NNew Push kd) r) b ->
  exists k x b', r = AH x /\ b = EvNew k x :: EvAlloc k :: EvCall c (NNew Push kd) :: b'.
Proof.
  intros Hr Ho. destruct (hist_at _ _ _ _ _ Hr Ho) as ([a f]&z&Hx&Hm&Hb&Hc&H). cbn in *. subst c b.
  pose proof (tg_foc _ (mreach_tgt _ _ _ Hx)) as G. cbn in G.
  destruct H as [(k&->&_)|[(o'&k&a'&_&?&_)|(h&kd'&k&->&_)]]; [|done|]; cbn in G.
  - destruct G as (k0&h&h'&->&E). eauto.
  - pose proof (pi_foc _ (mreach_pend _ _ _ Hx)) as P. done.
Qed.

Lemma exn_new p u n c sd kd x b : respects p u n -> occurs (hist p u n) (EvExn c (NNew sd kd) x) b ->
  exists ex, x = XUser ex /\
    ((exists b', b = EvCall c (NNew sd kd) :: b') \/ (exists k b', b = EvAlloc k :: EvCall c (NNew sd kd) :: b') \/
     (sd = Pull /\ exists k b', tgt c b = Some (Outer k) /\ b = EvFree k :: b' /\ life k b' = PDone (Some ex))).
Proof.
  intros Hr Ho. destruct (hist_at _ _ _ _ _ Hr Ho) as ([a f]&z&Hx&Hm&Hb&Hc&kk&Hf&_). cbn in *. subst f c b.
  pose proof (tg_foc _ (mreach_tgt _ _ _ Hx)) as G. cbn in G. destruct x as [ex|].
  - exists ex. split; [done|]. destruct G as [(j&h'&_&_&_&_&po&Hp&Hn)|[(n0&h'&_&[]&_)|[(?&?&h'&_&E)|[(?&?&k&h'&_&E)|(kd'&j&h'&E0&E&Ht&Hl)]]]].
    + destruct po; cbn in Hp; try naive_solver. by destruct (Hn h kd0).
    + eauto.
    + eauto 10.
    + injection E0 as -> ->. right; right. eauto 10.
  - destruct G as (_&_&po&Hp&Hn). destruct po; cbn in Hp; try naive_solver. by destruct (Hn h kd0).
Qed.

Lemma exn_destroy p u n c x ex b : respects p u n -> ~ occurs (hist p u n) (EvExn c (NOp (ODestroy x)) ex) b.
Proof.
  intros Hr Ho. destruct (hist_at _ _ _ _ _ Hr Ho) as ([a f]&z&Hx&Hm&Hb&Hc&kk&Hf&_). cbn in *. subst f c b.
  pose proof (tg_foc _ (mreach_tgt _ _ _ Hx)) as G. cbn in G. destruct ex as [ex|].
  - destruct G as [(j&h'&_&_&_&_&po&Hp&Hn)|[(n0&h'&_&[]&_)|[(?&?&h'&?&E)|[(?&?&k&h'&?&E)|(kd'&j&h'&E0&E&Ht&Hl)]]]]; try done.
    destruct po; cbn in Hp; naive_solver.
  - destruct G as (_&_&po&Hp&Hn). destruct po; cbn in Hp; naive_solver.
Qed.

(** The operations that can exit by an exception. *)
Lemma exn_op p u n c o ex b : respects p u n -> occurs (hist p u n) (EvExn c (NOp o) ex) b ->
  exists x, o = OResume x \/ o = OItInc (Some x) \/ (exists g, o = OPush x g) \/ (exists g, o = OOutAssign (Some x) g).
Proof.
  intros Hr Ho. destruct (hist_at _ _ _ _ _ Hr Ho) as ([a f]&z&Hx&Hm&Hb&Hc&kk&Hf&_). cbn in *. subst f c b.
  pose proof (tg_foc _ (mreach_tgt _ _ _ Hx)) as G. cbn in G.
  assert (Hp : forall po, pst (NOp o) po -> npo po -> exists x, o = OResume x \/ o = OItInc (Some x) \/ (exists g, o = OPush x g) \/ (exists g, o = OOutAssign (Some x) g)).
  { intros po Hp Hn. destruct po; cbn in Hp; naive_solver. }
  destruct ex as [ex|].
  - destruct G as [(j&h'&_&_&_&_&po&Hpo&Hn)|[(n0&h'&Ht&Hpo&E)|[(?&?&h'&?&E)|[(?&?&k&h'&?&E)|(kd'&j&h'&E0&E&Ht&Hl)]]]]; try done.
    + by eapply Hp.
    + destruct o as [| | | | | | |h| | |[i|]|[i|]| | | | |[i|]| | | | ]; try done; eauto 10. exfalso.
      assert (Hc : exists b', occurs (hist p u n) (EvExn (a_cur a) (NOp (OOutAssign None a0)) (XUser ex)) b' /\ (b' = EvCall (a_cur a) (NOp (OOutAssign None a0)) :: h' \/ exists k, b' = EvDel k :: EvCall (a_cur a) (NOp (OOutAssign None a0)) :: h')) by (exists (a_tr a); destruct E; eauto).
      destruct Hc as (b'&Ho'&[->|[k ->]]).
      * exact (history_follows _ _ _ _ _ Hr Ho').
      * apply occurs_tail in Ho'. exact (history_follows _ _ _ _ _ Hr Ho').
  - destruct G as (_&_&po&Hpo&Hn). by eapply Hp.
Qed.

Lemma ret_destroy p u n c x r b k : respects p u n -> occurs (hist p u n) (EvRet c (NOp (ODestroy x)) r) b -> tgt c b = Some (Outer k) ->
  exists b', b = EvFree k :: b'.
Proof.
  intros Hr Ho Hk. destruct (ret_local _ _ _ _ _ _ _ Hr Ho) as [(a&kk&a'&Ha&Hb&Hc&Hl)|(a&kk&Ha&Hb&Hc)]; subst b c; pose proof (tg_foc _ (mreach_tgt _ _ _ Ha)) as G; cbn in G.
  - destruct G as (_&G). specialize (G _ eq_refl). rewrite Hk in G. cbn in Hl. destruct (a_h a !! x) as [[sd kd [[j|j]|]]|]; cbn in *; done.
  - destruct G as (j&h'&E&Ht). rewrite Hk in Ht. injection Ht as <-. eauto.
Qed.

(** The call during which a function ends. *)
Lemma leave_resumer p u n k r b sd kd : respects p u n -> occurs (hist p u n) (EvLeave k r) b -> r <> Some XUnwind -> cls k b = Some (sd, kd) ->
  exists c o s, cstack b = k :: c :: s /\ pend c b = Some o /\ tgt c b = Some (Outer k) /\ (recv o || isnew o) = ispull sd.
Proof.
  intros Hr Ho Hx Hcl. destruct (hist_at _ _ _ _ _ Hr Ho) as ([a f]&y&Hs&Hm&Hb&Hk&Hf&H). cbn in *. subst f b.
  destruct H as [(s&c&ex&Hfo&_&->&Hc&Hst&_)|(c&en&Hfo&->&Hc&Hst&_)]; [|done].
  pose proof (mreach_basic _ _ _ Hs) as B. cbn in B. subst k.
  destruct (ib_act _ B _ _ Hc) as [_ (w&Hw&Hwt)]; [by rewrite Hst|].
  assert (Hz : a_cur a <> 0) by (apply (ib_dom _ B) in Hc; lia).
  destruct (wait_resumer _ _ _ _ _ _ Hs ltac:(unfold visible; cbn; intros l s0; by rewrite Hfo) Hz Hc Hw) as (_&(s'&Es)&Ep).
  destruct (ib_wait _ B _ _ Hw) as (c1&Hc1&_&Hs1). rewrite Hwt in Hc1. assert (c1 = c) as -> by congruence.
  pose proof (tg_wait _ (mreach_tgt _ _ _ Hs) _ _ Hw) as G. pose proof (mreach_pend _ _ _ Hs) as P. pose proof (pi_pend _ P (ac_by c)) as Pp. cbn in G, Pp. unfold xop in Pp. cbn in Pp.
  destruct w as [j o po kk|j o ff kk|j]; cbn in *.
  - subst j. exists (ac_by c), o, s'. split; [done|]. destruct (r_wait _ (mreach_rcv _ _ _ Hs) _ _ _ _ _ Hw) as (c2&Hc2&Hsd). cbn in Hc2. assert (c2 = c) as -> by congruence.
    pose proof (sl_cls _ _ (mreach_slot _ _ _ Hs) _ _ Hc) as Q. cbn in Q. rewrite Hcl in Q. injection Q as -> _.
    done.
  - rewrite Hst in Hs1. done.
  - rewrite Hst in Hs1. by destruct Hs1.
Qed.

(** Only entered functions run. *)
Lemma entered p u n k h : respects p u n -> past (hist p u n) h -> life k h = PRun \/ life k h = PLeft \/ (exists x, life k h = PDone x) ->
  exists s b, occurs h (EvEnter k s) b.
Proof.
  intros Hr. induction h as [|e h IH]; [by intros _ [?|[?|[? ?]]]|]. intros Hh Hl.
  assert (Hrec : life k h = PRun \/ life k h = PLeft \/ (exists x, life k h = PDone x) -> exists s b, occurs (e :: h) (EvEnter k s) b).
  { intros Hp. destruct (IH (past_tail _ _ _ Hh) Hp) as (s&b&H). exists s, b. apply occurs_cons. by right. }
  pose proof (hist_life _ _ _ _ _ Hr Hh) as Hok.
  destruct e as [c o|c o r|c o ex|m y|m r|m p0|m|m y|m y|m|m]; try (by apply Hrec); cbn in Hl, Hok.
  - case_decide; [|by apply Hrec]. subst m. exists y, h. apply occurs_cons. by left.
  - apply Hrec. destruct r as [[?|]|]; (case_decide; [subst m; by left|done]).
  - case_decide; [|by apply Hrec]. subst m. destruct Hok as [E|E]; rewrite E in *; [naive_solver|by apply Hrec].
  - case_decide; [naive_solver|by apply Hrec].
  - case_decide; [naive_solver|by apply Hrec].
Qed.

(** The same in the reference semantics. *)
Definition EntI (x : astate * mfoc) : Prop :=
  forall k, life k (a_tr x.1) = PRun \/ life k (a_tr x.1) = PLeft \/ (exists y, life k (a_tr x.1) = PDone y) -> exists s b, occurs (a_tr x.1) (EvEnter k s) b.
Lemma mreach_entered p u x : mreach p u x -> EntI x.
Proof.
  apply (mreach_ind p u EntI).
  { by intros k [?|[?|[? ?]]]. }
  intros x0 y Hx IH Hm k. destruct (micro_tr _ _ Hm) as [->|(e&E)]; [apply IH|]. pose proof (life_at _ _ _ _ _ _ Hx Hm eq_refl E) as Hok. rewrite E. set (h := a_tr x0.1) in *. intros Hl.
  assert (Hrec : life k h = PRun \/ life k h = PLeft \/ (exists x, life k h = PDone x) -> exists s b, occurs (e :: h) (EvEnter k s) b).
  { intros Hp. destruct (IH k Hp) as (s&b&H). exists s, b. apply occurs_cons. by right. }
  destruct e as [c o|c o r|c o ex|m y0|m r|m p0|m|m y0|m y0|m|m]; try (by apply Hrec); cbn in Hl, Hok.
  - case_decide; [|by apply Hrec]. subst m. exists y0, h. apply occurs_cons. by left.
  - apply Hrec. destruct r as [[?|]|]; (case_decide; [subst m; by left|done]).
  - case_decide; [|by apply Hrec]. subst m. destruct Hok as [E'|E']; rewrite E' in *; [naive_solver|by apply Hrec].
  - case_decide; [naive_solver|by apply Hrec].
  - case_decide; [naive_solver|by apply Hrec].
Qed.

End fc.
