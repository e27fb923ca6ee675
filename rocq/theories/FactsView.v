(** FactsView.v -- facts about what objects denote and what slots hold, for PropsObj.v. *)
From stdpp Require Import prelude gmap relations.
From Coq Require Import Lia.
From Verif Require Import Base Model Spec InvSpec Refine Main Micro Trace Life Pend Den Slot Own Hist FactsVal Next Rules RulesProof FactsLife FactsSeq FactsBack FactsObj FactsCall FactsEnd.

Section fv.
Context {env : Env} {comp : Compiler}.
Implicit Types h b : list event.

(** ** Completion *)
Lemma done_left k x h : life k h = PDone x -> exists b, occurs h (EvLeave k (XUser <$> x)) b.
Proof.
  induction h as [|e h IH]; [done|]. intros H.
  assert (Hk : life k h = PDone x -> exists b, occurs (e :: h) (EvLeave k (XUser <$> x)) b).
  { intros Hl. destruct (IH Hl) as [b Hb]. exists b. by apply occurs_cons; right. }
  destruct e as [c o|c o a|c o ex|m y|m r|m p0|m|m y|m y|m|m]; cbn in H; auto; try (case_decide; [done|auto]).
  - destruct r as [[ex|]|]; (case_decide; [subst|by auto]); simplify_eq; exists h; by apply occurs_cons; left.
  - case_decide; [|auto]. destruct (life k h); try done; by apply Hk.
Qed.

Lemma owner_done p u n h k : respects p u n -> past (hist p u n) h -> owner k h ->
  (exists x, life k h = PDone x) <-> exists r b, r <> Some XUnwind /\ occurs h (EvLeave k r) b.
Proof.
  intros Hr Hh Ho. split.
  - intros [x Hx]. destruct (done_left _ _ _ Hx) as [b Hb]. exists (XUser <$> x), b. split; [by destruct x|done].
  - intros (r&b&Hn&Hb). destruct (leave_life k r b Hn) as [x Hx]. exists x. by eapply done_owned.
Qed.

(** ** The slot of a push coroutine whose function runs holds a value *)
Record BadI (x : astate * mfoc) : Prop := {
  bd_st : forall k c, a_co x.1 !! k = Some c -> ac_side c = Push -> ac_slot c = SlBad -> ac_st c <> ARun;
  bd_foc : forall n o po k c, x.2 = MXfer (Outer n) o po k -> a_co x.1 !! n = Some c -> ac_side c = Push -> ac_slot c <> SlBad }.

Lemma bad_same x y : BadI x -> a_co y.1 = a_co x.1 -> (forall n o po k, y.2 <> MXfer (Outer n) o po k) -> BadI y.
Proof. intros [B1 B2] E H. split; [rewrite E; done|]. intros n o po k c Hy. by destruct (H n o po k). Qed.

Lemma bad_put x y n c c' : BadI x -> a_co x.1 !! n = Some c -> a_co y.1 = <[n := c']> (a_co x.1) ->
  (ac_side c' = Push -> ac_slot c' = SlBad -> ac_st c' <> ARun) ->
  (forall m o po k, y.2 = MXfer (Outer m) o po k -> m = n /\ (ac_side c' = Push -> ac_slot c' <> SlBad)) -> BadI y.
Proof.
  intros [B1 B2] Hc E H1 H2. split.
  - intros k d. rewrite E. intros [[<- <-]|[_ ?]]%lookup_insert_Some; eauto.
  - intros m o po k d Hy. destruct (H2 _ _ _ _ Hy) as [-> Hs]. rewrite E, lookup_insert. intros [= <-]. done.
Qed.

Lemma bad_step p u x y : mreach p u x -> BadI x -> micro x y -> BadI y.
Proof.
  intros Hx B Hm. pose proof (mreach_minv _ _ _ Hx) as I. pose proof (mreach_basic _ _ _ Hx) as Bs.
  destruct Hm; cbn in I, Bs; try (apply (bad_same _ _ B); cbn; done).
  - (* local *) destruct o as [h|h1 h2|h|h|h g|h|h|h|h| |[h|]|[h|]|i j|i j|h| |[h|] g|v|m|l|l v]; cbn in H;
      try (repeat case_match; simplify_eq; by apply (bad_same _ _ B)).
    destruct (a_h a !! h) as [[[] kd [e|]]|]; try done. destruct (readable e a) as [c|] eqn:Hc; [|done].
    destruct kd; try done; destruct (ac_slot c) as [|[v|l]|] eqn:Hs; try done.
    + destruct (move_exn v); [done|]. simplify_eq. eapply (bad_put _ _ (ep_co e) c); [exact B|by apply readable_co|done|done|done].
    + simplify_eq. by apply (bad_same _ _ B).
  - (* resume *) split; [apply B|]. intros n o po k0 c [= -> <- <- <-] Hc Hs.
    destruct (ic_h _ _ _ _ _ I _ _ _ (Outer n) _ H Hc) as (_&E&_). congruence.
  - (* ++ *) split; [apply B|]. intros n o po k0 c [= -> <- <- <-] Hc Hs.
    destruct (ic_h _ _ _ _ _ I _ _ _ (Outer n) _ H Hc) as (_&E&_). congruence.
  - (* push void *) split; [apply B|]. intros n o' po' k0 c [= -> <- <- <-] Hc Hs Hb.
    destruct I as (I&_&_&c'&Hc'&Hok). cbn in Hc'. simplify_eq. destruct Hok as [Hk _].
    cbn in Hc. simplify_eq. pose proof (co_slot _ (ic_co _ _ _ _ _ I _ _ Hc')) as Hsl. rewrite Hb in Hsl. cbn in Hsl. congruence.
  - (* push ref *) eapply (bad_put _ _ (ep_co e) c); [exact B|done|done|done|]. intros m o' po' k' [= -> <- <- <-]. done.
  - (* push del *) destruct I as (I&_&Hres&c1&Hc1&Hok). eapply (bad_put _ _ (ep_co e) c); [exact B|done|done| |done].
    intros Hs _ Hst. cbn in Hs, Hst. assert (c1 = c) as -> by congruence. destruct e as [m|m]; cbn in H, Hres.
    + unfold resumable in Hres. by rewrite H, Hst in Hres.
    + destruct Hok as [_ Hok]. cbn in Hok. congruence.
  - eapply (bad_put _ _ (ep_co e) c); [exact B|done|done|done|]. intros m o' po' k' [= -> <- <- <-]. done.
  - (* resumed *) eapply (bad_put _ _ n c); [exact B|done|done| |done]. intros Hs Hb _. cbn in Hs, Hb. by destruct (bd_foc _ B _ _ _ _ _ eq_refl H Hs).
  - eapply (bad_put _ _ n c); [exact B|done|done| |done]. intros Hs Hb _. cbn in Hs, Hb. by destruct (bd_foc _ B _ _ _ _ _ eq_refl H Hs).
  - by eapply (bad_put _ _ n c).
  - by eapply (bad_put _ _ j c).
  - by eapply (bad_put _ _ j c).
  - (* new *) split; [|done]. intros m d. cbn. intros [[<- <-]|[_ ?]]%lookup_insert_Some; [done|]. by eapply (bd_st _ B).
  - split; [|done]. intros m d. cbn. intros [[<- <-]|[_ ?]]%lookup_insert_Some; [done|]. by eapply (bd_st _ B).
  - by eapply (bad_put _ _ (a_cur a) c).
  - split.
    + intros m d Hd. assert (a_co a !! m = Some d); [|by eapply (bd_st _ B)].
      subst a1. destruct w as [|? ? []|]; [done|..]; subst y; cbn in Hd; by apply lookup_delete_Some in Hd as [_ ?].
    + intros m o po k d Hy. subst a1. destruct w as [|? ? []|]; [done|..]; by subst y.
Qed.

Lemma mreach_bad p u x : mreach p u x -> BadI x.
Proof. apply mreach_ind; [by split|]. intros. by eapply bad_step. Qed.

Lemma running_value p u n k o b kd : respects p u n -> occurs (hist p u n) (EvCall k o) b ->
  cls k b = Some (Push, kd) -> kd <> KVoid -> ~ unw k b -> slotv k b <> None.
Proof.
  intros Hr Ho Hk Hv Hu. assert (Hk0 : k <> 0).
  { intros ->. apply cls_life in Hk. apply Hk. eapply zero_life; [done|]. by eapply past_tail, occurs_past. }
  pose proof (hist_life _ _ _ _ _ Hr Ho Hk0) as Hl.
  destruct (hist_at _ _ _ _ _ Hr Ho) as ([a f]&y&Hx&Hm&Hb&(Hc&Hf&Hd)). cbn in *. subst f b.
  destruct (cur_coro _ _ _ Hx) as [c Hco]; [cbn; congruence|]. cbn in Hco. rewrite <- Hc in Hco.
  pose proof (mreach_slot _ _ _ Hx) as S. pose proof (sl_cls _ _ S _ _ Hco) as Hcl. cbn in Hcl. rewrite Hk in Hcl. injection Hcl as Hsd Hkd.
  assert (Hfoc : exists s, a_foc a = AUser s).
  { destruct Hd as [(o'&kk&_&Hfo&_)|(sd&kd'&np&fn&kk&_&Hfo&_)]; eauto. }
  destruct Hfoc as [s0 Hfoc].
  pose proof (sl_slot _ _ S _ _ Hco) as Hs. unfold slot_exp in Hs. cbn in Hs. rewrite <- Hsd in Hs. cbn in Hs. rewrite Hs.
  assert (Hrun : ac_st c = ARun).
  { destruct (ib_cur _ (mreach_basic _ _ _ Hx)) as [?|(c'&Hc'&Ha)]; cbn in *; [congruence|]. rewrite <- Hc in Hc'. assert (c' = c) as -> by congruence.
    destruct (ac_st c) as [| | | |[]] eqn:Hst; try done.
    - destruct (un_on _ (mreach_unw _ _ _ Hx) k) as [(_&o1&k1&Hn)|?]; [exists c; split; done|done|done|done].
    - exfalso. destruct (d_unw _ (mreach_den _ _ _ Hx) k c Hco) as (_&He&_); [by rewrite Hst|]. unfold exitish in He. cbn in He. by rewrite Hfoc in He. }
  destruct (ac_slot c) as [|q|] eqn:Hsl; [|done|].
  - pose proof (mreach_minv _ _ _ Hx) as [I _]. by destruct (co_push _ (ic_co _ _ _ _ _ I _ _ Hco)); rewrite ?Hrun, <- ?Hkd.
  - by destruct (bd_st _ (mreach_bad _ _ _ Hx) k c Hco).
Qed.

(** ** The object handed to a coroutine-function *)
Record SynI (x : astate * mfoc) : Prop := {
  sy : forall k y b c, occurs (a_tr x.1) (EvEnter k y) b -> a_co x.1 !! k = Some c -> ac_syn c = y;
  sy_lt : forall k y b, occurs (a_tr x.1) (EvEnter k y) b -> k < a_nk x.1;
  sy_new : forall k y b sd kd np fn kk o n, x.2 = MNew2 sd kd np fn kk o n -> occurs (a_tr x.1) (EvEnter k y) b -> k <> n }.

Definition enters (e : event) : Prop := exists k y, e = EvEnter k y.
Lemma syn_gen x y es : SynI x -> a_tr y.1 = es ++ a_tr x.1 -> Forall (fun e => ~ enters e) es -> a_nk x.1 <= a_nk y.1 ->
  (forall k c, a_co y.1 !! k = Some c -> (exists c', a_co x.1 !! k = Some c' /\ ac_syn c' = ac_syn c) \/ (forall z b, ~ occurs (a_tr x.1) (EvEnter k z) b)) ->
  (forall sd kd np fn kk o n, y.2 = MNew2 sd kd np fn kk o n -> a_nk x.1 <= n) -> SynI y.
Proof.
  intros S Ht Hes Hn Hco Hnew.
  assert (Hb : forall k z b, occurs (a_tr y.1) (EvEnter k z) b -> occurs (a_tr x.1) (EvEnter k z) b).
  { intros k z b. rewrite Ht. clear -Hes. induction Hes as [|e es He _ IH]; [done|]. cbn. intros [[<- ->]|H]%occurs_cons; [|auto]. by destruct He; eexists _, _. }
  split.
  - intros k z b c Ho Hc. apply Hb in Ho. destruct (Hco _ _ Hc) as [(c'&Hc'&<-)|H]; [by eapply (sy _ S)|by destruct (H z b)].
  - intros k z b Ho%Hb. pose proof (sy_lt _ S _ _ _ Ho). lia.
  - intros k z b sd kd np fn kk o n Hy Ho%Hb. pose proof (sy_lt _ S _ _ _ Ho). pose proof (Hnew _ _ _ _ _ _ _ Hy). lia.
Qed.

Lemma local_syn o a a' r : local_op o a = Some (a', r) -> a_tr a' = a_tr a /\ a_nk a' = a_nk a /\
  forall k c, a_co a' !! k = Some c -> exists c', a_co a !! k = Some c' /\ ac_syn c' = ac_syn c.
Proof.
  intros H. destruct o as [h|h1 h2|h|h|h g|h|h|h|h| |[h|]|[h|]|i j|i j|h| |[h|] g|v|m|l|l v]; cbn in H;
    try (repeat case_match; simplify_eq; cbn; by eauto).
  destruct (a_h a !! h) as [[[] kd [e|]]|]; try done. destruct (readable e a) as [c|] eqn:Hc; [|done].
  destruct kd; try done; destruct (ac_slot c) as [|[v|l]|] eqn:Hs; try done.
  - destruct (move_exn v); [done|]. simplify_eq. cbn. split; [done|]. split; [done|]. intros k d.
    intros [[<- <-]|[_ ?]]%lookup_insert_Some; [|eauto]. exists c. split; [by apply readable_co|done].
  - simplify_eq. eauto.
Qed.

Lemma syn_insert (co : gmap nat acoro) n c c' (P : nat -> Prop) : co !! n = Some c -> ac_syn c' = ac_syn c ->
  forall k d, <[n := c']> co !! k = Some d -> (exists d', co !! k = Some d' /\ ac_syn d' = ac_syn d) \/ P k.
Proof. intros Hc Hs k d [[<- <-]|[_ ?]]%lookup_insert_Some; eauto. Qed.

Lemma syn_step p u x y : mreach p u x -> SynI x -> micro x y -> SynI y.
Proof.
  intros Hx S Hm. pose proof (mreach_minv _ _ _ Hx) as I.
  assert (Hne : forall e, (forall k z, e <> EvEnter k z) -> Forall (fun e => ~ enters e) [e]).
  { intros e He. constructor; [|done]. intros (k&z&E). by apply (He k z). }
  destruct Hm; cbn in I;
    try (apply (syn_gen _ _ [] S); cbn; [done|done|cbn; lia|first [by eauto|by eapply syn_insert]|done]);
    try (eapply (syn_gen _ _ [_] S); cbn; [done|by apply Hne|cbn; lia|first [by eauto|by eapply syn_insert]|done]).
  - (* local *) destruct (local_syn _ _ _ _ H) as (H1&H2&H3). eapply (syn_gen _ _ [_] S); cbn; [by rewrite H1|by apply Hne|lia|by eauto|done].
  - (* enter *) split; cbn.
    + intros k0 z b d [[[= -> ->] ->]|Ho]%occurs_cons.
      * rewrite lookup_insert. by intros [= <-].
      * intros [[<- <-]|[_ Hd]]%lookup_insert_Some; cbn; by eapply (sy _ S).
    + intros k0 z b [[[= -> ->] ->]|Ho]%occurs_cons; [|by eapply (sy_lt _ S)]. destruct I as (_&_&co&cc&ss&sd&kd&Iv&Hcc&_). apply (ic_dom _ _ _ _ _ Iv _ _ Hcc).
    + done.
  - (* alloc *) eapply (syn_gen _ _ [_] S); cbn; [done|by apply Hne|lia|by eauto|]. by intros ??????? [= <- <- <- <- <- <- <-].
  - (* new pull *) destruct I as (Iv&Hn&_). split; cbn.
    + intros k0 z b d [[[= -> ->] ->]|Ho]%occurs_cons.
      * rewrite lookup_insert. by intros [= <-].
      * intros [[<- <-]|[_ Hd]]%lookup_insert_Some; cbn; [|by eapply (sy _ S)]. by destruct (sy_new _ S _ _ _ _ _ _ _ _ _ _ eq_refl Ho).
    + intros k0 z b [[[= -> ->] ->]|Ho]%occurs_cons; [lia|by eapply (sy_lt _ S)].
    + done.
  - (* new push *) eapply (syn_gen _ _ [_] S); cbn; [done|by apply Hne|lia| |done].
    intros k0 d [[<- <-]|[_ Hd]]%lookup_insert_Some; [|by eauto]. right. intros z b Ho. by destruct (sy_new _ S _ _ _ _ _ _ _ _ _ _ eq_refl Ho).
  - (* exit *) destruct w as [|? ? []|]; [done|..]; subst y; eapply (syn_gen _ _ [_] S); cbn; try done; try (by apply Hne); subst a1; cbn; try done;
      intros k0 d [_ ?]%lookup_delete_Some; eauto.
Qed.
Lemma mreach_syn p u x : mreach p u x -> SynI x.
Proof. apply mreach_ind; [|intros; by eapply syn_step]. split; cbn; [by intros ??? ? [[] ?]|by intros ??? [[] ?]|done]. Qed.

(** User code gives the object away: moves from it, assigns it or to it, destroys it. *)
Definition disposes (x : nat) (e : event) : Prop :=
  match e with
  | EvRet _ (NOp (OMoveCtor y)) _ | EvCall _ (NOp (ODestroy y)) => y = x
  | EvRet _ (NOp (OMoveAssign y z)) _ => y = x \/ z = x
  | _ => False
  end.

Lemma gone_syn p u n k j x b0 b : respects p u n -> occurs (hist p u n) (EvGone j x) b -> past b (EvEnter k x :: b0) ->
  life k b = PRun -> den b !! x = Some (Some (Inner k)) -> False.
Proof.
  intros Hr Ho He Hl Hd.
  pose proof (hist_life _ _ _ _ _ Hr Ho) as Hj. cbn in Hj.
  destruct (hist_at _ _ _ _ _ Hr Ho) as ([a f]&y&Hx&Hm&Hb&Ha). cbn in Hb. subst b. cbn in Ha.
  destruct (life_co _ _ _ _ k Hx) as [c Hc]; [congruence..|].
  pose proof (sy _ (mreach_syn _ _ _ Hx) k x b0 c) as Hsk. cbn in Hsk. rewrite occurs_past in Hsk. specialize (Hsk He Hc).
  assert (exists d, a_co a !! j = Some d /\ ac_syn d = x) as (d&Hd'&Hs).
  { repeat match goal with H : _ /\ _ |- _ => destruct H | H : exists _, _ |- _ => destruct H | H : _ \/ _ |- _ => destruct H end; subst; cbn in *; eauto. }
  assert (k = j) as -> by (eapply (d_inj _ (mreach_den _ _ _ Hx)); eauto; congruence).
  destruct Hj as [?|[[? ?]|?]]; congruence.
Qed.

Lemma handed_kept p u n k x b0 h : respects p u n -> past (hist p u n) h -> past h (EvEnter k x :: b0) ->
  (forall e b, occurs h e b -> past b (EvEnter k x :: b0) -> ~ disposes x e) -> life k h = PRun ->
  den h !! x = Some (Some (Inner k)).
Proof.
  intros Hr Hh [l ->]. induction l as [|e l IH]; intros Hn Hl; [cbn; apply lookup_insert|]. change ((e :: l) ++ EvEnter k x :: b0) with (e :: (l ++ EvEnter k x :: b0)) in *.
  assert (Hh' : past (hist p u n) (l ++ EvEnter k x :: b0)) by (by eapply past_tail).
  assert (He : past (l ++ EvEnter k x :: b0) (EvEnter k x :: b0)) by (by exists l).
  assert (Hl' : life k (l ++ EvEnter k x :: b0) = PRun).
  { pose proof (life_rank _ _ _ _ _ k Hr Hh' He) as H1.
    pose proof (life_rank _ _ _ _ _ k Hr Hh (past_cons _ e _ (past_refl _))) as H2. rewrite Hl in H2. cbn [life] in H1. rewrite decide_True in H1 by done. cbn [rank] in H1, H2.
    destruct (life k (l ++ EvEnter k x :: b0)); cbn in *; try lia; done. }
  specialize (IH Hh'). set (h' := l ++ EvEnter k x :: b0) in *.
  assert (Hd : den h' !! x = Some (Some (Inner k))).
  { apply IH; [|done]. intros e' b' Ho. apply Hn. apply occurs_cons. by right. }
  assert (Hx : ~ disposes x e) by (apply (Hn e h'); [apply occurs_cons; by left|done]).
  assert (Hoc : occurs (hist p u n) e h') by (by apply occurs_past).
  destruct e as [c o|c o a|c o ex|m y|m r|m p0|m|m y|m y|m|m]; try done.
  - destruct o as [[]|]; try done. cbn in *. by rewrite lookup_delete_ne.
  - destruct (history_answers _ _ _ _ _ _ _ Hr Hoc) as [_ Ha].
    destruct o as [[z|z w| | | | | | | | | | | | | | | | | | | ]|sd kd]; try done.
    + destruct Ha as (z'&->&Hz'&_). cbn in *. destruct (den h' !! z) as [q|]; [|done].
      rewrite lookup_insert_ne by done. rewrite lookup_insert_ne; [done|]. intros ->. congruence.
    + cbn in *. destruct (den h' !! z) as [q|]; [|done]. destruct (den h' !! w) as [q'|]; [|done].
      rewrite !lookup_insert_ne; [done|tauto|tauto].
    + destruct a; try done. cbn. destruct (den h' !! h) eqn:Eh; [done|]. rewrite lookup_insert_ne; [done|]. intros ->. congruence.
  - cbn. pose proof (enter_fresh _ _ _ _ _ _ Hr Hoc). rewrite lookup_insert_ne; [done|]. intros ->. congruence.
  - cbn. pose proof (new_fresh _ _ _ _ _ _ Hr Hoc). rewrite lookup_insert_ne; [done|]. intros ->. congruence.
  - cbn. rewrite lookup_delete_ne; [done|]. intros ->. by eapply gone_syn.
Qed.

(** ** Reading with iterators *)

(** How often the value in the slot of [k] has been read, by get() or through an
    iterator, since it was pushed. *)
Fixpoint nreads (k : nat) h : nat :=
  match h with
  | [] => 0
  | EvSet n _ :: h' => if decide (n = k) then 0 else nreads k h'
  | EvRet _ (NOp (OGet x)) _ :: h' | EvRet _ (NOp (OItDeref (Some x))) _ :: h' =>
      match den h' !! x with
      | Some (Some e) => if decide (ep_co e = k) then S (nreads k h') else nreads k h'
      | _ => nreads k h'
      end
  | _ :: h' => nreads k h'
  end.

(** What a reader sees, newest first: the first reading of each pushed value. *)
Definition ans_payload (a : ans) : option payload :=
  match a with AV v => Some (PVal v) | ALoc l => Some (PRef l) | _ => None end.
Fixpoint visited (k : nat) h : list payload :=
  match h with
  | [] => []
  | EvRet _ (NOp (OGet x)) a :: h' | EvRet _ (NOp (OItDeref (Some x))) a :: h' =>
      match den h' !! x, ans_payload a with
      | Some (Some e), Some q => if decide (ep_co e = k /\ nreads k h' = 0) then q :: visited k h' else visited k h'
      | _, _ => visited k h'
      end
  | _ :: h' => visited k h'
  end.

Lemma ngets_nreads k h : ngets k h <= nreads k h.
Proof.
  induction h as [|e h IH]; [done|].
  destruct e as [c o|c o a|c o ex|m x|m r|m p0|m|m x|m x|m|m]; cbn; auto.
  - destruct o as [[]|]; auto.
    + destruct (den h !! h0) as [[e|]|]; [|destruct a; lia..]. destruct (decide (ep_co e = k)), a; lia.
    + destruct i; auto. destruct (den h !! n) as [[e|]|]; auto. destruct (decide (ep_co e = k)); lia.
  - case_decide; [done|auto].
Qed.

Lemma visited_inv p u n k h : respects p u n -> past (hist p u n) h ->
  let q := length (pushes k h) in
  let r := if decide (nreads k h = 0) then pred q else q in
  (q = 0 -> nreads k h = 0) /\ length (visited k h) <= r /\ (length (visited k h) = r -> visited k h = drop (q - r) (pushes k h)).
Proof.
  intros Hr. induction h as [|e h IH]; intros Hp; [done|].
  specialize (IH (past_tail _ _ _ Hp)). cbn zeta in IH |- *.
  assert (Hsame : visited k (e :: h) = visited k h -> nreads k (e :: h) = nreads k h -> pushes k (e :: h) = pushes k h ->
    (length (pushes k (e :: h)) = 0 → nreads k (e :: h) = 0) ∧ length (visited k (e :: h)) ≤ (if decide (nreads k (e :: h) = 0) then Nat.pred (length (pushes k (e :: h))) else length (pushes k (e :: h))) ∧
    (length (visited k (e :: h)) = (if decide (nreads k (e :: h) = 0) then Nat.pred (length (pushes k (e :: h))) else length (pushes k (e :: h))) →
     visited k (e :: h) = drop (length (pushes k (e :: h)) - (if decide (nreads k (e :: h) = 0) then Nat.pred (length (pushes k (e :: h))) else length (pushes k (e :: h)))) (pushes k (e :: h)))).
  { intros -> -> ->. exact IH. }
  assert (Hread : forall c o x a, e = EvRet c (NOp o) a -> robj o = Some x -> pushes k (e :: h) = pushes k h ->
    nreads k (e :: h) = match den h !! x with Some (Some e) => if decide (ep_co e = k) then S (nreads k h) else nreads k h | _ => nreads k h end ->
    visited k (e :: h) = match den h !! x, ans_payload a with
      | Some (Some e), Some q => if decide (ep_co e = k /\ nreads k h = 0) then q :: visited k h else visited k h
      | _, _ => visited k h end ->
    (length (pushes k (e :: h)) = 0 → nreads k (e :: h) = 0) ∧ length (visited k (e :: h)) ≤ (if decide (nreads k (e :: h) = 0) then Nat.pred (length (pushes k (e :: h))) else length (pushes k (e :: h))) ∧
    (length (visited k (e :: h)) = (if decide (nreads k (e :: h) = 0) then Nat.pred (length (pushes k (e :: h))) else length (pushes k (e :: h))) →
     visited k (e :: h) = drop (length (pushes k (e :: h)) - (if decide (nreads k (e :: h) = 0) then Nat.pred (length (pushes k (e :: h))) else length (pushes k (e :: h)))) (pushes k (e :: h)))).
  { intros c o x a He Hx Hpu Hn Hv. subst e. destruct (read_ans _ _ _ _ _ x _ _ Hr Hp Hx) as (sd&k'&Hd&_&Ha).
    destruct (decide (k' = k)) as [->|Hne].
    2:{ apply Hsame; [rewrite Hv|rewrite Hn|done]; rewrite Hd; cbn -[decide]; rewrite ?ep_receiver.
        - destruct (ans_payload a); [|done]. by rewrite decide_False by (by intros [? _]).
        - by rewrite decide_False. }
    rewrite Hd in Hv, Hn. rewrite Hv, Hn, Hpu. rewrite !ep_receiver. rewrite (decide_True (P := k = k)) by done.
    pose proof (ngets_nreads k h) as Hle.
    assert (Hq : exists q0 rest, pushes k h = q0 :: rest /\ exists q1, ans_payload a = Some q1 /\ (nreads k h = 0 -> q1 = q0)).
    { destruct Ha as [(w&rest&_&Epu&->)|(l&rest&_&Epu&->)]; eexists _, rest; (split; [exact Epu|]); eexists; (split; [done|]); [|done].
      intros E0. replace (ngets k h) with 0 by lia. done. }
    destruct Hq as (q0&rest&Epu&q1&Eq1&Hq1). rewrite Eq1. rewrite Epu in *. cbn [length] in *.
    destruct IH as (IH1&IH2&IH3). split; [done|]. rewrite (decide_False (P := S _ = 0)) by done.
    destruct (decide (nreads k h = 0)) as [E0|E0].
    + rewrite decide_True by done. cbn in IH2, IH3 |- *. split; [lia|]. intros El. rewrite Nat.sub_diag. cbn.
      rewrite (Hq1 E0). f_equal. rewrite IH3 by lia. replace (S (length rest) - length rest) with 1 by lia. done.
    + rewrite decide_False by (by intros [_ ?]). split; [lia|]. exact IH3. }
  destruct e as [c o|c o a|c o ex|m x|m r|m p0|m|m x|m x|m|m]; try (by apply Hsame).
  - destruct o as [o|]; [|by apply Hsame]. destruct o as [| | | | | | |x| | | |[x|]| | | | | | | | |]; try (by apply Hsame); by eapply Hread.
  - destruct (decide (m = k)) as [->|Hne]; [|apply Hsame; cbn; by rewrite ?decide_False].
    cbn -[decide]. rewrite !(decide_True (P := k = k)) by done. cbn -[decide]. rewrite (decide_True (P := 0 = 0)) by done.
    destruct IH as (IH1&IH2&IH3). split; [done|].
    destruct (decide (nreads k h = 0)) as [E0|E0].
    + split; [lia|]. intros El. destruct (pushes k h) as [|q0 rest] eqn:Eq; [|cbn in *; lia]. cbn in *. rewrite El in IH3. by apply IH3.
    + split; [lia|]. intros El. rewrite IH3 by done. rewrite Nat.sub_diag. by replace (S (length (pushes k h)) - length (pushes k h)) with 1 by lia.
Qed.

Lemma visited_all p u n c o b k sd kd : respects p u n -> occurs (hist p u n) (EvCall c o) b ->
  cls k b = Some (sd, kd) -> kd <> KVoid -> life k b <> PAlloc -> life k b <> PFreed -> length (visited k b) = turns sd k b ->
  visited k b = pushes k b.
Proof.
  intros Hr Ho Hcl Hkd H1 H2 Hg. pose proof (all_delivered _ _ _ _ _ _ _ _ _ Hr Ho Hcl Hkd H1 H2) as Hd.
  destruct (visited_inv p u n k b Hr (past_tail _ _ _ Ho)) as (G1&G2&G3). cbn zeta in *.
  destruct (decide (nreads k b = 0)).
  - assert (length (pushes k b) = 0) as E by lia. rewrite G3 by lia. by rewrite E.
  - rewrite G3 by lia. by rewrite Nat.sub_diag.
Qed.

End fv.
