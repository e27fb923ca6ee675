(** FactsFin.v -- what is left when main has returned. *)
From stdpp Require Import prelude gmap relations.
From Coq Require Import Lia.
From Verif Require Import Base Model Spec InvSpec Main Micro Trace Hist Life Pend Den Own Stack Contract ContractProof
  Phase Rules RulesProof FactsLife FactsSeq FactsBack FactsEnd Discipline DiscInv DiscStep DiscProof.

Section fin.
Context {env : Env}.

Lemma finish_step a a' : astep a = AHalt Finished a' -> a' = a /\ a_cur a = 0 /\ a_foc a = AUser SRet.
Proof.
  intros H. assert (Hk : forall j w b b' r, kill j w b <> AHalt r b').
  { intros. unfold kill, exn_to. repeat case_match; done. }
  assert (Hdl : forall j o po k x b b' r, deliver j o po k x b <> AHalt r b').
  { intros. unfold deliver, exn_to, ret_to. repeat case_match; try done; apply Hk. }
  assert (Hgb : forall n st x b b' r, give_back n st x b <> AHalt r b').
  { intros. unfold give_back. repeat case_match; try done. }
  assert (Htr : forall e o po k b b' r, transfer e o po k b <> AHalt r b').
  { intros. unfold transfer. repeat case_match; try done. }
  assert (Hpu : forall e kd lv g o po k b b' r, push_op e kd lv g o po k b <> AHalt r b').
  { intros. unfold push_op, exn_to. repeat case_match; try done. }
  unfold astep in H. destruct (a_foc a) as [s| |] eqn:Hf; [destruct s| |].
  - unfold do_leave in H. repeat case_match; simplify_eq; auto; by destruct (Hgb _ _ _ _ _ _ H).
  - unfold do_leave in H. repeat case_match; simplify_eq; by destruct (Hgb _ _ _ _ _ _ H).
  - destruct (forallb (known a) (op_hs o)) eqn:Hn; [|done].
    destruct o; cbn in H; unfold ret_to in H; repeat case_match; simplify_eq; auto;
      try (by destruct (Hk _ _ _ _ _ H)); try (by destruct (Htr _ _ _ _ _ _ _ H)); try (by destruct (Hpu _ _ _ _ _ _ _ _ _ _ H)).
  - unfold do_new, exn_to, ret_to in H. repeat case_match; done.
  - done.
  - unfold do_exit in H. repeat case_match; try done. by destruct (Hk _ _ _ _ _ H).
  - unfold do_exit2, ret_to, exn_to in H. repeat case_match; done.
Qed.

Lemma finish_run p u n a : arun n (ainit p u) = AHalt Finished a -> mreach p u (a, MFoc) /\ a_cur a = 0 /\ a_foc a = AUser SRet.
Proof.
  induction n as [|n IH]; intros H; [done|]. rewrite arun_S in H. destruct (arun n (ainit p u)) as [a1|o1 a1|] eqn:E; try done; [|by simplify_eq; apply IH].
  apply finish_step in H as (->&H0&Hf). split; [by eapply arun_mreach|done].
Qed.

(** Main is alone. *)
Lemma main_idle p u a k c : mreach p u (a, MFoc) -> a_cur a = 0 -> a_co a !! k = Some c -> active (ac_st c) = false.
Proof.
  intros Hx H0 Hk. pose proof (mreach_cov _ _ _ Hx [0]) as Hc. cbn in Hc. rewrite H0 in Hc. specialize (Hc (ch_0 _)).
  destruct (active (ac_st c)) eqn:E; [|done]. pose proof (Hc _ _ Hk E) as Hin. apply elem_of_list_singleton in Hin as ->.
  pose proof (mreach_basic _ _ _ Hx) as B. destruct B as [B _]. pose proof (B _ _ Hk). lia.
Qed.
Lemma main_nowait p u a : mreach p u (a, MFoc) -> a_cur a = 0 -> a_wait a = ∅.
Proof.
  intros Hx H0. apply map_eq. intros c. rewrite lookup_empty. destruct (a_wait a !! c) as [w|] eqn:Hw; [|done].
  pose proof (mreach_minv _ _ _ Hx) as [I _]. destruct (ic_wait _ _ _ _ _ I _ _ Hw) as (x&Hx'&_&Hm).
  pose proof (main_idle _ _ _ _ _ Hx H0 Hx') as Hi. destruct w; [destruct Hm as [Hm _]; by rewrite Hm in Hi| |destruct Hm as [Hm _]]; apply unw_active in Hm; congruence.
Qed.

(** Every coroutine that is left has an owner. *)
Lemma left_owned p u a k c : mreach p u (a, MFoc) -> a_cur a = 0 -> a_co a !! k = Some c -> exists x, holds (a_h a) x (Outer k).
Proof.
  intros Hx H0 Hk. pose proof (main_idle _ _ _ _ _ Hx H0 Hk) as Hi.
  destruct (o_has _ (mreach_own _ _ _ Hx) k) as [[(c'&w&Hw&_)|[]]|(x&o&Ho&He)].
  - exists c. split; [done|]. destruct (unw_st (ac_st c)) eqn:E; [|done]. apply unw_active in E. congruence.
  - cbn in Hw. by rewrite (main_nowait _ _ _ Hx H0), lookup_empty in Hw.
  - exists x. destruct o as [sd kd e]. cbn in He. subst e. by exists sd, kd.
Qed.
Lemma holds_den p u a x k : mreach p u (a, MFoc) -> holds (a_h a) x (Outer k) -> den (a_tr a) !! x = Some (Some (Outer k)).
Proof.
  intros Hx (sd&kd&Ho). pose proof (mreach_den _ _ _ Hx) as D. assert (~ hid a x) as Hn.
  { intros (j&c&Hc&Hh&Es). destruct (hst (ac_st c)) as [|[|[|]]] eqn:E; try done.
    - pose proof (d_new _ D _ _ Hc E) as Q. cbn in Q. rewrite Es in Q. congruence.
    - destruct (d_unw _ D _ _ Hc E) as (_&_&Q1&Q2). cbn in Q1, Q2. rewrite Es in Q1, Q2. destruct (a_foc a) eqn:Ef.
      + rewrite Q2 in Ho; [done|]. by intros [_ ?].
      + rewrite Q1 in Ho; done.
      + rewrite Q2 in Ho; [done|]. by intros [_ ?].
    - by destruct (ac_st c) as [| | | |[]]. }
  assert (Q : den (a_tr a) !! x = h_ep <$> a_h a !! x) by (by apply (d_den2 _ D)). by rewrite Q, Ho.
Qed.

(** A disciplined program leaves nothing. *)
Lemma disc_empty (cells : nat -> Prop) p u a : (forall l, cells l -> is_Some (u !! l)) -> disciplined cells p ->
  mreach p u (a, MFoc) -> a_cur a = 0 -> a_foc a = AUser SRet -> a_co a = ∅.
Proof.
  intros H3 H4 Hx H0 Hf. destruct (run_view cells p u H3 H4 _ _ Hx Hf) as (G&w&I&Hw&S). rewrite H0 in Hw. inversion S as [w' Hu Hemp| | | | |]; subst.
  assert (Q : forall k c, a_co a !! k <> Some c).
  { intros k. induction k as [k IH] using lt_wf_ind. intros c Hk. destruct (left_owned _ _ _ _ _ Hx H0 Hk) as [x Ho].
    destruct (gi_all _ _ _ _ _ I _ _ Ho) as (c'&w'&n&Hc'&Hn&Hm). pose proof (gi_sees _ _ _ _ _ I _ _ Hc' _ _ Hn) as Hs. rewrite Hm in Hs.
    destruct Hs as (e&He&Hs). destruct Ho as (sd&kd&Ho). rewrite He in Ho. simplify_eq. destruct Hs as (Hlt&_).
    destruct (gi_dom _ _ _ _ _ I _ _ Hc') as [-> |(y&Hy&_)]; [|by eapply IH]. rewrite Hw in Hc'. simplify_eq. by rewrite (Hemp _ _ Hn) in Hm. }
  apply map_eq. intros k. rewrite lookup_empty. destruct (a_co a !! k) eqn:E; [by destruct (Q _ _ E)|done].
Qed.

Context {comp : Compiler}.
Lemma end_state p u n m : respects p u n -> crun n (cinit p u) = CHalt Finished m ->
  exists a, mreach p u (a, MFoc) /\ a_cur a = 0 /\ a_foc a = AUser SRet /\ a_tr a = m_tr m /\ m_tr m = hist p u n.
Proof.
  intros Hr Hc. destruct (follows_spec _ _ _ Hr) as (k&l&_&Hl&Hh). destruct (Hh _ _ Hc) as [-> [a Ha]].
  destruct (finish_run _ _ _ _ Ha) as (H1&H2&H3). exists a. rewrite Ha in Hl. cbn in Hl. unfold hist in *. rewrite Hc in *. done.
Qed.

(** What never became a coroutine. *)
Lemma alloc_only p u n k b : respects p u n -> occurs (hist p u n) (EvAlloc k) b -> life k (hist p u n) = PAlloc ->
  (exists l, hist p u n = EvAlloc k :: l) \/ exists c sd kd x, occurs (hist p u n) (EvExn c (NNew sd kd) x) (EvAlloc k :: b).
Proof.
  intros Hr Ho Hl. destruct Ho as [l E]. destruct l as [|e l _] using rev_ind; [left; by eexists|right]. rewrite <- app_assoc in E. cbn in E.
  assert (Ho' : occurs (hist p u n) e (EvAlloc k :: b)) by (by exists l).
  pose proof (history_follows _ _ _ _ _ Hr Ho') as F. cbn in F. destruct b as [|[c [o|sd kd]| | | | | | | | | |] b]; try done.
  destruct F as [[x ->]|F]; [by exists c, sd, kd, (XUser x)|]. exfalso.
  pose proof (life_rank p u n (hist p u n) (e :: EvAlloc k :: EvCall c (NNew sd kd) :: b) k Hr ltac:(by exists []) ltac:(by exists l)) as Q.
  rewrite Hl in Q. destruct sd; destruct F as [s ->]; cbn in Q; rewrite !decide_True in Q by done; cbn in Q; lia.
Qed.

Lemma freed_occurs k h : life k h = PFreed -> exists b, occurs h (EvFree k) b.
Proof.
  induction h as [|e h IH]; [done|]. intros H. assert (life k h = PFreed \/ e = EvFree k) as [Hl| ->].
  { destruct e as [c o|c o a|c o ex|m y|m r|m p0|m|m y|m y|m|m]; cbn in H; auto; try (destruct r as [[]|]); case_decide; subst; auto; try done; destruct (life k h); try done; auto. }
  - destruct (IH Hl) as [b [l ->]]. by exists b, (e :: l).
  - by exists h, [].
Qed.
Lemma left_occurs k h : (exists r, life k h = PDone r) \/ life k h = PLeft -> exists r b, occurs h (EvLeave k r) b.
Proof.
  induction h as [|e h IH]; [by intros [[]|]|]. intros H. assert (((exists r, life k h = PDone r) \/ life k h = PLeft) \/ exists r, e = EvLeave k r) as [Hl|[r ->]].
  { destruct e as [c o|c o a|c o ex|m y|m r|m p0|m|m y|m y|m|m]; cbn in H; auto; try (destruct r as [[]|]); case_decide; subst; eauto; try (by destruct H as [[]|]).
    destruct (life k h); eauto; by destruct H as [[]|]. }
  - destruct (IH Hl) as (r&b&l&->). by exists r, b, (e :: l).
  - by exists r, h, [].
Qed.

(** The end of a program that has destroyed every object that owned a coroutine. *)
Definition unowned (h : list event) : Prop := forall x k, den h !! x <> Some (Some (Outer k)).
Lemma unowned_end p u n m : respects p u n -> crun n (cinit p u) = CHalt Finished m -> unowned (m_tr m) ->
  (forall k, life k (m_tr m) = PNone \/ life k (m_tr m) = PFreed \/ life k (m_tr m) = PAlloc) /\ (forall c, pend c (m_tr m) = None).
Proof.
  intros Hr Hc Hw. destruct (end_state _ _ _ _ Hr Hc) as (a&Hx&H0&Hf&E&_). rewrite <- E in *.
  assert (He : a_co a = ∅).
  { apply map_empty. intros k. destruct (a_co a !! k) as [c|] eqn:Hk; [|done]. destruct (left_owned _ _ _ _ _ Hx H0 Hk) as [x Ho]. destruct (Hw x k). by eapply holds_den. }
  split.
  - intros k. pose proof (mreach_life _ _ _ Hx) as L. destruct (decide (0 < k < a_nk a)) as [Hk|Hk].
    + right. apply (li_gone _ L k Hk). cbn. by rewrite He, lookup_empty.
    + left. apply (li_none _ L k). cbn. lia.
  - intros c. pose proof (pi_pend _ (mreach_pend _ _ _ Hx) c) as Q. cbn in Q. rewrite Q. unfold xop. cbn. rewrite (main_nowait _ _ _ Hx H0), He, !lookup_empty. cbn. by case_decide.
Qed.
Lemma unowned_stacks p u n m k b : respects p u n -> crun n (cinit p u) = CHalt Finished m -> unowned (m_tr m) -> occurs (m_tr m) (EvAlloc k) b ->
  (exists b', occurs (m_tr m) (EvFree k) b') \/ exists c sd kd x, occurs (m_tr m) (EvExn c (NNew sd kd) x) (EvAlloc k :: b).
Proof.
  intros Hr Hc Hw Ho. destruct (unowned_end p u n m Hr Hc Hw) as [Hl Hp]. destruct (end_state _ _ _ _ Hr Hc) as (a&_&_&_&_&Eh).
  specialize (Hl k). destruct Hl as [Hl|[Hl|Hl]].
  - exfalso. rewrite Eh in Ho, Hl. destruct Ho as [l E]. pose proof (life_rank p u n (hist p u n) (EvAlloc k :: b) k Hr ltac:(by exists []) ltac:(by exists l)) as Q.
    rewrite Hl in Q. cbn in Q. rewrite decide_True in Q by done. cbn in Q. lia.
  - left. by apply freed_occurs.
  - right. rewrite Eh in *. destruct (alloc_only _ _ _ _ _ Hr Ho Hl) as [[l E]|?]; [|done]. exfalso. assert (Hol : occurs (hist p u n) (EvAlloc k) l) by (by exists []).
    destruct (history_origin _ _ _ _ _ Hr Hol) as (_&_&c&sd&kd&b'&->). specialize (Hp c). rewrite E in Hp. cbn in Hp. by rewrite decide_True in Hp.
Qed.
Lemma unowned_left p u n m k x b : respects p u n -> crun n (cinit p u) = CHalt Finished m -> unowned (m_tr m) -> occurs (m_tr m) (EvEnter k x) b -> exists r b', occurs (m_tr m) (EvLeave k r) b'.
Proof.
  intros Hr Hc Hw Ho. destruct (unowned_end p u n m Hr Hc Hw) as [Hl _]. destruct (end_state _ _ _ _ Hr Hc) as (a&_&_&_&_&Eh).
  specialize (Hl k). rewrite Eh in *. destruct Ho as [l E].
  assert (R : forall h, past (hist p u n) h -> past h (EvEnter k x :: b) -> rank PRun <= rank (life k h)).
  { intros h Hh Hb. pose proof (life_rank p u n h (EvEnter k x :: b) k Hr Hh Hb) as Q. cbn [life] in Q. by rewrite decide_True in Q. }
  pose proof (R (hist p u n) ltac:(by exists []) ltac:(by exists l)) as Q. destruct Hl as [Hl|[Hl|Hl]]; rewrite Hl in Q; cbn in Q; try lia.
  destruct (freed_occurs _ _ Hl) as [b' Hf]. pose proof (hist_life _ _ _ _ _ Hr Hf) as Hok. cbn in Hok.
  assert (Hol : occurs (hist p u n) (EvEnter k x) b) by (by exists l). pose proof (hist_life _ _ _ _ _ Hr Hol) as Hok'. cbn in Hok'.
  assert (Hp : past b' (EvEnter k x :: b)).
  { destruct (occurs_or _ _ _ _ _ Hol Hf) as [[? _]|[Hx|[l2 ->]]]; [done| |by exists l2].
    exfalso. pose proof (life_rank p u n b (EvFree k :: b') k Hr) as Q'. cbn [life] in Q'. rewrite decide_True in Q' by done.
    assert (rank PFreed <= rank (life k b)) as Q2. { apply Q'; [rewrite E; exists (l ++ [EvEnter k x]); by rewrite <- app_assoc|destruct Hx as [l2 ->]; by exists l2]. }
    cbn in Q2. destruct Hok' as [Hok' |Hok']; rewrite Hok' in Q2; cbn in Q2; lia. }
  assert (Hb : past (hist p u n) b'). { destruct Hf as [l2 ->]. exists (l2 ++ [EvFree k]). by rewrite <- app_assoc. }
  specialize (R b' Hb Hp). assert ((exists r, life k b' = PDone r) \/ life k b' = PLeft) as Hd. { destruct Hok as [Hok|[?|?]]; auto. rewrite Hok in R. cbn in R. lia. }
  destruct (left_occurs _ _ Hd) as (r&b2&l2&Hb2). exists r, b2. destruct Hb as [l3 ->]. rewrite Hb2. exists (l3 ++ l2). by rewrite <- app_assoc.
Qed.

Lemma made_set k h : 0 < nmade k h -> exists v b, occurs h (EvSet k v) b.
Proof.
  induction h as [|e h IH]; cbn; [lia|]. intros H.
  destruct e as [c o|c o a|c o ex|m y|m r|m p0|m|m y|m y|m|m]; try (destruct (IH H) as (v&b&l&->); exists v, b; by eexists (_ :: l)).
  assert (m = k \/ 0 < nmade k h) as [->|H']; [|by exists p0, h, []|].
  - destruct p0; auto. destruct (decide (m = k)); auto.
  - destruct (IH H') as (v&b&l&->). exists v, b. by eexists (_ :: l).
Qed.
Lemma unowned_values p u n m k : respects p u n -> crun n (cinit p u) = CHalt Finished m -> unowned (m_tr m) -> nmade k (m_tr m) = ndestroyed k (m_tr m).
Proof.
  intros Hr Hc Hw. destruct (unowned_end p u n m Hr Hc Hw) as [Hl _]. destruct (end_state _ _ _ _ Hr Hc) as (a&_&_&_&_&Eh).
  specialize (Hl k). rewrite Eh in *. assert (Hh : past (hist p u n) (hist p u n)) by (by exists []). assert (life k (hist p u n) = PFreed \/ rank (life k (hist p u n)) < 2) as [Hf|Hf].
  { destruct Hl as [Hl|[Hl|Hl]]; rewrite Hl; cbn; auto with lia. }
  - by eapply none_leaked.
  - pose proof (made_destroyed _ _ _ _ k Hr Hh). assert (nmade k (hist p u n) = 0); [|lia]. destruct (decide (0 < nmade k (hist p u n))) as [Hn|]; [|lia].
    destruct (made_set _ _ Hn) as (v&b&Ho). pose proof (hist_life _ _ _ _ _ Hr Ho) as Q. cbn in Q.
    pose proof (life_rank p u n (hist p u n) b k Hr Hh) as Q2. assert (rank (life k b) <= rank (life k (hist p u n))) as Q3.
    { apply Q2. destruct Ho as [l ->]. exists (l ++ [EvSet k v]). by rewrite <- app_assoc. }
    destruct Q as [Q|Q]; rewrite Q in Q3; cbn in Q3; lia.
Qed.

(** The end of a disciplined program. *)
Lemma disc_unowned (cells : nat -> Prop) p u n m : (forall l, cells l -> is_Some (u !! l)) -> disciplined cells p ->
  respects p u n -> crun n (cinit p u) = CHalt Finished m -> unowned (m_tr m).
Proof.
  intros H3 H4 Hr Hc. destruct (end_state _ _ _ _ Hr Hc) as (a&Hx&H0&Hf&E&_). rewrite <- E. pose proof (disc_empty cells p u a H3 H4 Hx H0 Hf) as He.
  intros x k Hd. destruct (uc_den _ _ _ Hx _ _ Hd) as (sd&kd&Ha&_&_). destruct (uc_owned _ _ _ Hx _ _ _ _ Ha) as (c&Hk&_). by rewrite He, lookup_empty in Hk.
Qed.


(** Without the discipline: what has not been released has an owner. *)
Lemma left_has_owner p u n m k : respects p u n -> crun n (cinit p u) = CHalt Finished m ->
  life k (m_tr m) <> PNone -> life k (m_tr m) <> PAlloc -> life k (m_tr m) <> PFreed -> exists x, den (m_tr m) !! x = Some (Some (Outer k)).
Proof.
  intros Hr Hc N1 N2 N3. destruct (end_state _ _ _ _ Hr Hc) as (a&Hx&H0&Hf&E&_). rewrite <- E in *. pose proof (mreach_life _ _ _ Hx) as L.
  destruct (a_co a !! k) as [c|] eqn:Hk.
  - destruct (left_owned _ _ _ _ _ Hx H0 Hk) as [x Ho]. exists x. by eapply holds_den.
  - exfalso. destruct (decide (0 < k < a_nk a)) as [Hlt|Hlt]; [destruct (li_gone _ L k Hlt Hk); done|]. apply N1, (li_none _ L k). cbn. lia.
Qed.
End fin.
