(** Next.v -- what the next event is. *)
From stdpp Require Import prelude gmap relations.
From Coq Require Import Lia.
From Verif Require Import Base Model Spec InvSpec Main Micro Trace Rules Life Pend Den Tgt Stack Own Slot Turn Hist FactsVal.

Section next.
Context {env : Env}.

(** From [x], the next event that is recorded is [e]. *)
Definition nexts (x : astate * mfoc) (e : event) : Prop :=
  exists x' y', rtc silent x x' /\ micro x' y' /\ a_tr y'.1 = e :: a_tr x'.1.

Lemma nexts_step x e : nexts x e ->
  exists y, micro x y /\ (a_tr y.1 = e :: a_tr x.1 \/ (a_tr y.1 = a_tr x.1 /\ nexts y e)).
Proof.
  intros (x'&y'&Hs&Hm&He). inversion Hs as [|? y ? [H1 H2] H3]; subst.
  - exists y'. split; [done|]. by left.
  - exists y. split; [done|]. right. split; [done|]. by exists x', y'.
Qed.

(** ... and leads to [y']. *)
Definition nextst (x : astate * mfoc) (e : event) (y' : astate * mfoc) : Prop :=
  exists x', rtc silent x x' /\ micro x' y' /\ a_tr y'.1 = e :: a_tr x'.1.
Lemma nextst_nexts x e y : nextst x e y -> nexts x e.
Proof. intros (x'&?&?&?). by exists x', y. Qed.
Lemma nextst_step x e z : nextst x e z ->
  exists y, micro x y /\ ((y = z /\ a_tr y.1 = e :: a_tr x.1) \/ (a_tr y.1 = a_tr x.1 /\ nextst y e z)).
Proof.
  intros (x'&Hs&Hm&He). inversion Hs as [|? y ? [H1 H2] H3]; subst.
  - exists z. split; [done|]. by left.
  - exists y. split; [done|]. right. split; [done|]. by exists x'.
Qed.
Lemma nextst_reach p u x e y : mreach p u x -> nextst x e y -> mreach p u y /\ a_tr y.1 = e :: a_tr x.1.
Proof.
  intros Hx (x'&Hs&Hm&He). split; [eapply rtc_r; [by eapply silent_reach|done]|]. rewrite He. f_equal. clear -Hs. induction Hs as [|x y z [_ H] _ IH]; congruence.
Qed.

Lemma path_split y z l e : rtc micro y z -> a_tr z.1 = l ++ e :: a_tr y.1 -> exists y', nextst y e y' /\ rtc micro y' z.
Proof.
  induction 1 as [z|x y z H1 Hs IH]; intros E.
  - exfalso. apply (f_equal length) in E. rewrite app_length in E. cbn in E. lia.
  - destruct (micro_tr _ _ H1) as [E1|[e1 E1]].
    + rewrite <- E1 in E. destruct (IH E) as (y'&(x'&Hs'&Hm&He)&Hz). exists y'. split; [|done]. exists x'. split; [|done]. eapply rtc_l; [|exact Hs']. done.
    + assert (e1 = e) as ->.
      { assert (exists l', a_tr z.1 = l' ++ a_tr y.1) as [l' E2].
        { clear -Hs. induction Hs as [|? ? ? H _ [l IH]]; [by exists []|]. destruct (micro_tr _ _ H) as [E|[e E]]; rewrite IH, E; [by exists l|].
          exists (l ++ [e]). by rewrite <- app_assoc. }
        rewrite E2, E1 in E. replace (l' ++ e1 :: a_tr x.1) with ((l' ++ [e1]) ++ a_tr x.1) in E by (by rewrite <- app_assoc).
        replace (l ++ e :: a_tr x.1) with ((l ++ [e]) ++ a_tr x.1) in E by (by rewrite <- app_assoc).
        apply app_inv_tail in E. by apply app_inj_tail in E as [_ E]. }
      exists y. split; [|done]. exists x. split; [apply rtc_refl|]. done.
Qed.

(** The events [es], oldest first, are recorded one after the other. *)
Fixpoint after (y : astate * mfoc) (es : list event) : Prop :=
  match es with [] => True | e :: es => exists y', nextst y e y' /\ after y' es end.

Lemma path_after y z es l : rtc micro y z -> a_tr z.1 = l ++ rev es ++ a_tr y.1 -> after y es.
Proof.
  revert y. induction es as [|e es IH]; intros y Hz E; [done|]. cbn in E. rewrite <- (app_assoc _ [e]) in E. cbn in E. rewrite app_assoc in E.
  destruct (path_split _ _ _ _ Hz E) as (y'&Hn&Hz'). exists y'. split; [done|]. apply IH; [done|].
  destruct Hn as (x'&Hs&_&He). rewrite He. rewrite E, app_assoc. f_equal. f_equal. clear -Hs. induction Hs as [|x y z [_ H] _ IH]; congruence.
Qed.

Context {comp : Compiler}.

Theorem hist_after p u n es e b l : respects p u n -> hist p u n = l ++ rev es ++ e :: b ->
  exists x y, mreach p u x /\ micro x y /\ mreach p u y /\ a_tr x.1 = b /\ a_tr y.1 = e :: b /\ ev_at x y e /\ after y es.
Proof.
  intros Hr Hl. destruct (hist_mreach _ _ _ Hr) as (z&l'&Hz&E). rewrite Hl, !app_assoc, <- (app_assoc l') in E.
  destruct (occurs_at p u z e b Hz) as (x&y&Hx&Hm&Hb&He&Hs); [by eexists|].
  exists x, y. split; [done|]. split; [done|]. split; [eapply rtc_r; [exact Hx|exact Hm]|]. split; [done|]. split; [done|]. split; [apply micro_event; [done|congruence]|].
  eapply (path_after y z es (l' ++ l)); [done|]. by rewrite E, He, <- !app_assoc.
Qed.

Theorem hist_nexts p u n e' e b : respects p u n -> occurs (hist p u n) e' (e :: b) ->
  exists x y, mreach p u x /\ micro x y /\ mreach p u y /\ a_tr x.1 = b /\ a_tr y.1 = e :: b /\ ev_at x y e /\ nexts y e'.
Proof.
  intros Hr Ho. destruct (hist_occurs _ _ _ _ _ Hr Ho) as (z&Hz&Hz'). destruct (occurs_next _ _ _ _ _ _ Hz Hz') as (x&y&x'&y'&Hx&Hm&Hb&He&Hs&Hm'&Hx'&Hb'&He').
  exists x, y. split; [done|]. split; [done|]. split; [eapply rtc_r; [exact Hx|exact Hm]|]. split; [done|]. split; [done|]. split; [apply micro_event; [done|congruence]|].
  exists x', y'. split; [done|]. split; [done|]. congruence.
Qed.

Lemma call_nexts p u n e' c o b : respects p u n -> occurs (hist p u n) e' (EvCall c (NOp o) :: b) ->
  exists a k, mreach p u (a, MCall o k) /\ a_tr a = EvCall c (NOp o) :: b /\ c = a_cur a /\ nexts (a, MCall o k) e'.
Proof.
  intros Hr Ho. destruct (hist_nexts _ _ _ _ _ _ Hr Ho) as (x&y&Hx&Hm&Hy&Hb&He&(Hc&Hf&H)&Hn).
  destruct H as [(o'&k&Eo&Hfo&Hk&Ey)|(sd&kd&np&fn&k&Eo&_)]; [|done]. injection Eo as <-. subst y. cbn in He.
  exists (alog (EvCall c (NOp o)) x.1), k. split; [done|]. split; [cbn; congruence|]. done.
Qed.

(** Calls that do their work at once. *)
Definition is_local (o : op) : bool :=
  match o with ODestroy _ | OResume _ | OPush _ _ | OItInc _ | OOutAssign _ _ => false | _ => true end.

Lemma nexts_local a o k e : nexts (a, MCall o k) e -> is_local o = true ->
  exists a' r, local_op o a = Some (a', r) /\ e = EvRet (a_cur a) (NOp o) r.
Proof.
  intros H Ho. apply nexts_step in H as (y&Hm&H). inversion Hm; subst; try done; cbn in *.
  match goal with Hl : local_op _ _ = Some _ |- _ => rename Hl into Hlo end.
  destruct (local_op_frame _ _ _ _ Hlo) as (E1&E2&E3&_). rewrite E1, E3 in H. exists a', r. split; [done|].
  destruct H as [H|[H _]]; [by injection H as <-|]. exfalso. by eapply cons_self.
Qed.

Theorem next_local p u n e' c o b : respects p u n -> occurs (hist p u n) e' (EvCall c (NOp o) :: b) -> is_local o = true ->
  exists r, e' = EvRet c (NOp o) r.
Proof.
  intros Hr Ho Hl. destruct (call_nexts _ _ _ _ _ _ _ Hr Ho) as (a&k&Ha&Hb&->&Hn).
  destruct (nexts_local _ _ _ _ Hn Hl) as (a'&r&_&->). eauto.
Qed.

(** Which context gets control next when [e] is resumed. *)
Ltac rec H := destruct H as [H|[H _]]; [injection H as <-|exfalso; by eapply cons_self].
Ltac sil H Hn := destruct H as [H|[_ Hn]]; [exfalso; symmetry in H; by eapply cons_self|].

Lemma nexts_ret a o r k e : nexts (a, MRet o r k) e -> e = EvRet (a_cur a) o r.
Proof. intros H. apply nexts_step in H as (y&Hm&H). inversion Hm; subst. cbn in H. by rec H. Qed.
Lemma nexts_exn a o r k e : nexts (a, MExn o r k) e -> e = EvExn (a_cur a) o r.
Proof. intros H. apply nexts_step in H as (y&Hm&H). inversion Hm; subst. cbn in H. by rec H. Qed.

Lemma nexts_got a j o po k e : nexts (a, MGot j o po k None) e ->
  (exists r, e = EvRet (a_cur a) o r) \/ (exists h kd, po = PoNew h kd /\ (e = EvNew j h \/ sts a j (fun s => exists x, s = ADone x))).
Proof.
  intros H. apply nexts_step in H as (y&Hm&H). inversion Hm; subst; cbn in H.
  - sil H Hn. left. apply nexts_ret in Hn. eauto.
  - sil H Hn. left. apply nexts_ret in Hn. eauto.
  - sil H Hn. left. apply nexts_ret in Hn. eauto.
  - right. do 2 eexists. split; [done|]. right. exists c. eauto.
  - rec H. right. eauto.
Qed.

Lemma got_none a j o po k p u : mreach p u (a, MGot j o po k None) -> j = a_cur a -> npo po.
Proof. intros Hx ->. destruct (tg_foc _ (mreach_tgt _ _ _ Hx)) as [[? _]|(_&_&?)]; done. Qed.

Lemma stack_cur p u a f : mreach p u (a, f) -> (forall l s, visible a f l s -> same l s) ->
  exists s, cstack (a_tr a) = a_cur a :: s /\ chain (a_co a) (a_cur a) (a_cur a :: s).
Proof.
  intros Hx Hv. destruct (st_chain _ (mreach_stack _ _ _ Hx)) as (l&Hl&Hs). cbn in *. apply Hv in Hs. destruct (chain_head _ _ _ Hl) as [s ->].
  exists s. unfold same in Hs. by rewrite Hs.
Qed.

Lemma not_active_stack p u a f n c : mreach p u (a, f) -> (forall l s, visible a f l s -> same l s) ->
  a_co a !! n = Some c -> active (ac_st c) = false -> n ∉ cstack (a_tr a).
Proof.
  intros Hx Hv Hn Ha Hin. destruct (st_chain _ (mreach_stack _ _ _ Hx)) as (l&Hl&Hs). cbn in *. apply Hv in Hs. unfold same in Hs. rewrite Hs in Hin.
  destruct (chain_active _ _ _ _ Hl Hin) as [->|(c'&Hc'&?)].
  - apply (ib_dom _ (mreach_basic _ _ _ Hx)) in Hn. lia.
  - congruence.
Qed.

(** Control is transferred to the other side of endpoint [e]. *)
Lemma nexts_xfer p u a e o po k ev : mreach p u (a, MXfer e o po k) -> nexts (a, MXfer e o po k) ev ->
  handover e (a_tr a) ev.
Proof.
  intros Hx Hn. apply nexts_step in Hn as (y&Hm&H). assert (Hy : mreach p u y) by (eapply rtc_r; [exact Hx|exact Hm]).
  pose proof (mreach_basic _ _ _ Hx) as B. pose proof (mreach_life _ _ _ Hx) as L. pose proof (mreach_pend _ _ _ Hx) as P. pose proof (mreach_tgt _ _ _ Hx) as G.
  inversion Hm; subst; cbn in H.
  - match goal with Hc : a_co a !! n = Some c |- _ => rename Hc into Hco end. match goal with Hc : ac_st c = _ |- _ => rename Hc into Hst end.
    assert (n <> a_cur a). { intros ->. eapply cur_not_susp; [exact B|]. exists c. split; [done|]. rewrite Hst. unfold is_susp. eauto. }
    split; [eapply not_active_stack; [exact Hx|done|done|by rewrite Hst]|]. right.
    split; [pose proof (li_st _ L _ _ Hco) as Q; cbn in Q; by rewrite Hst in Q|].
    sil H Hn. apply nexts_got in Hn as [(r&->)|(h&kd&->&_)]; [|exfalso; by eapply (ib_post _ B)].
    exists o', r. cbn. split; [|split; [|done]].
    + rewrite (pi_pend _ P). unfold xop. cbn. rewrite decide_False by done. destruct (a_wait a !! n) as [w|] eqn:Hw.
      * destruct (ib_ctx _ B _ _ Hw) as [->|(c1&Hc1&Ha)]; [by apply (ib_dom _ B) in Hco; lia|]. cbn in Hc1. assert (c1 = c) as -> by congruence. by rewrite Hst in Ha.
      * by rewrite Hco; cbn; rewrite Hst.
    + apply (tg_susp _ G). exists c. split; [done|]. rewrite Hst. unfold is_susp. eauto.
  - match goal with Hc : a_co a !! n = Some c |- _ => rename Hc into Hco end. match goal with Hc : ac_st c = _ |- _ => rename Hc into Hst end.
    split; [eapply not_active_stack; [exact Hx|done|done|by rewrite Hst]|]. left.
    split; [pose proof (li_st _ L _ _ Hco) as Q; cbn in Q; by rewrite Hst in Q|]. rec H. eauto.
  - match goal with Hc : a_co a !! n = Some c |- _ => rename Hc into Hco end. match goal with Hc : a_wait a !! _ = _ |- _ => rename Hc into Hw end.
    assert (n = a_cur a) as ->.
    { destruct (mreach_minv _ _ _ Hx) as (_&Hr&_). cbn in Hr. by apply andb_prop in Hr as [?%bool_decide_eq_true _]. }
    destruct (stack_cur _ _ _ _ Hx) as (s&Es&Hch); [done|].
    assert (a_cur a <> 0). { intros E0. rewrite E0 in Hco. apply (ib_dom _ B) in Hco. lia. }
    destruct (chain_inv _ _ _ _ Hch Hco H0) as (l'&El&_&Hl'). injection El as <-. destruct (chain_head _ _ _ Hl') as [s' ->].
    exists (ac_by c), o', s'. split; [done|]. split.
    { rewrite (pi_pend _ P). unfold xop. cbn. destruct (decide (ac_by c = a_cur a)) as [E|]; [|by rewrite Hw]. pose proof (ib_wcur _ B) as Q. cbn in Q. congruence. }
    assert (j = a_cur a) as ->.
    { destruct (ib_cur _ B) as [?|(c1&Hc1&Hac)]; [done|]. cbn in Hc1. destruct (ib_act _ B _ _ Hc1 Hac) as (_&w&Hw1&Hw2). cbn in Hw1. assert (c1 = c) as -> by congruence.
      rewrite Hw in Hw1. by injection Hw1 as <-. }
    split; [exact (tg_wait _ G _ _ Hw)|].
    sil H Hn. apply nexts_got in Hn as [(r&->)|(h&kd&->&Q)]; [by left; eauto|].
    right. exists h, kd. split; [by apply (pi_wait _ P _ _ Hw)|]. destruct Q as [->|(c1&Hc1&x&Hd)]; [done|]. cbn in Hc1. rewrite lookup_insert in Hc1. injection Hc1 as <-. done.
Qed.

(** ** Pushes *)
Lemma construct_arg u o lv g b U : pusharg o = Some (lv, g) -> (lv = true -> forall l, g <> AMove l) -> U = umem u b ->
  forall r, aconstruct lv g U = Some r ->
  exists v, argval u g b = Some v /\ match r with inl e => arg_exn o v = Some e | inr (v', _) => v' = v /\ arg_exn o v = None end.
Proof.
  intros Ho Hlv -> r Hr. destruct o as [[]|]; try done; cbn in Ho; injection Ho as <- <-.
  - destruct a; cbn in *; try done.
    + destruct (umem u b !! l) as [v|]; [|done]. cbn in Hr. destruct (copy_exn v) eqn:E; simplify_eq; eauto.
    + destruct (umem u b !! l) as [v|]; [|done]. cbn in Hr. destruct (move_exn v) eqn:E; simplify_eq; eauto.
    + destruct (move_exn v) eqn:E; simplify_eq; eauto.
  - destruct a; cbn in *; try done.
    + destruct (umem u b !! l) as [v|]; [|done]. cbn in Hr. destruct (copy_exn v) eqn:E; simplify_eq; eauto.
    + by destruct (Hlv eq_refl l).
    + destruct (copy_exn v) eqn:E; simplify_eq; eauto.
Qed.

Lemma nexts_push2 p u a e lv g o po k ev : mreach p u (a, MPush2 e lv g o po k) -> nexts (a, MPush2 e lv g o po k) ev ->
  constructs u (a_cur a) o g (ep_co e) (a_tr a) ev.
Proof.
  intros Hx Hn. apply nexts_step in Hn as (y&Hm&H). destruct (sl_arg _ _ (mreach_slot _ _ _ Hx)) as [Ho Hlv].
  pose proof (sl_user _ _ (mreach_slot _ _ _ Hx)) as U. cbn in U.
  inversion Hm; subst; cbn in H.
  - match goal with Hc : aconstruct _ _ _ = _ |- _ => destruct (construct_arg _ _ _ _ _ _ Ho Hlv U _ Hc) as (v'&E1&->&E2) end.
    exists v'. rewrite E2. split; [done|]. by rec H.
  - match goal with Hc : aconstruct _ _ _ = _ |- _ => destruct (construct_arg _ _ _ _ _ _ Ho Hlv U _ Hc) as (v'&E1&E2) end.
    exists v'. rewrite E2. split; [done|]. sil H Hn. by apply nexts_exn in Hn.
Qed.

Lemma push_slotv p u a e kd lv g o po k c : mreach p u (a, MPush e kd lv g o po k) -> a_co a !! ep_co e = Some c ->
  slotv (ep_co e) (a_tr a) = slp (ac_slot c).
Proof.
  intros Hx Hc. pose proof (sl_slot _ _ (mreach_slot _ _ _ Hx) _ _ Hc) as Q. unfold slot_exp in Q. cbn in Q.
  destruct (mreach_minv _ _ _ Hx) as (_&_&Hres&_). erewrite resumable_unw in Q by done. by rewrite andb_false_r in Q.
Qed.

Lemma nexts_push p u a e kd lv g o po k ev : mreach p u (a, MPush e kd lv g o po k) -> nexts (a, MPush e kd lv g o po k) ev ->
  push_follows u (a_cur a) o g e kd (a_tr a) ev.
Proof.
  intros Hx Hn. apply nexts_step in Hn as (y&Hm&H). assert (Hy : mreach p u y) by (eapply rtc_r; [exact Hx|exact Hm]).
  inversion Hm; subst; cbn in H; cbn.
  - sil H Hn. by eapply nexts_xfer in Hn.
  - rec H. eauto.
  - rec H. left. split; [|done]. erewrite push_slotv by done. match goal with E : ac_slot c = _ |- _ => by rewrite E end.
  - right. split; [erewrite push_slotv by done; match goal with E : ac_slot c = _ |- _ => by rewrite E end|].
    sil H Hn. by eapply nexts_push2 in Hn.
Qed.

Theorem next_push p u n e' c o g b : respects p u n -> occurs (hist p u n) e' (EvCall c o :: b) -> push_arg o = Some g ->
  exists sd k kd, tgt c (EvCall c o :: b) = Some (sender sd k) /\ cls k b = Some (sd, kd) /\
    push_follows u c o g (sender sd k) kd (EvCall c o :: b) e'.
Proof.
  intros Hr Ho Hg. destruct o as [o|]; [|done]. destruct (call_nexts _ _ _ _ _ _ _ Hr Ho) as (a&k&Ha&Hb&->&Hn).
  apply nexts_step in Hn as (y&Hm&H). assert (Hy : mreach p u y) by (eapply rtc_r; [exact Ha|exact Hm]).
  inversion Hm; subst; try done; cbn in H.
  - exfalso. by destruct o as [| | | | | | |h| | |[i|]|[i|]| | | | |[i|]| | | | ].
  - injection Hg as ->. sil H Hn. pose proof (nexts_push _ _ _ _ _ _ _ _ _ _ _ Hy Hn) as Q. destruct (tg_foc _ (mreach_tgt _ _ _ Hy)) as (Ht&_). cbn in Ht.
    destruct (r_foc _ (mreach_rcv _ _ _ Hy)) as (_&_&c1&Hc1&E). cbn in Hc1.
    destruct (mreach_minv _ _ _ Hy) as (_&_&_&c2&Hc2&[Hkd _]). cbn in Hc2. assert (c2 = c1) as -> by congruence.
    exists (ac_side c1), (ep_co e), kd. rewrite <- E, <- Hb. split; [done|]. split; [|done].
    pose proof (sl_cls _ _ (mreach_slot _ _ _ Hy) _ _ Hc1) as Ec. cbn in Ec. rewrite Hb in Ec. cbn in Ec. congruence.
  - injection Hg as ->. sil H Hn. pose proof (nexts_push _ _ _ _ _ _ _ _ _ _ _ Hy Hn) as Q. destruct (tg_foc _ (mreach_tgt _ _ _ Hy)) as (Ht&_). cbn in Ht.
    destruct (r_foc _ (mreach_rcv _ _ _ Hy)) as (_&_&c1&Hc1&E). cbn in Hc1.
    destruct (mreach_minv _ _ _ Hy) as (_&_&_&c2&Hc2&[Hkd _]). cbn in Hc2. assert (c2 = c1) as -> by congruence.
    exists (ac_side c1), (ep_co e), kd. rewrite <- E, <- Hb. split; [done|]. split; [|done].
    pose proof (sl_cls _ _ (mreach_slot _ _ _ Hy) _ _ Hc1) as Ec. cbn in Ec. rewrite Hb in Ec. cbn in Ec. congruence.
Qed.

Lemma push_nextst p u a o k y e g : mreach p u (a, MCall o k) -> push_arg (NOp o) = Some g -> nextst (a, MCall o k) (EvDel e) y ->
  exists a' d lv po, y = (a', MPush2 d lv g (NOp o) po k) /\ ep_co d = e /\ a_cur a' = a_cur a.
Proof.
  intros Hx Hg Hn. assert (Hp : forall d kd lv po z, mreach p u (a, MPush d kd lv g (NOp o) po k) ->
    nextst (a, MPush d kd lv g (NOp o) po k) (EvDel e) z -> exists a', z = (a', MPush2 d lv g (NOp o) po k) /\ ep_co d = e /\ a_cur a' = a_cur a).
  { clear. intros d kd lv po z Hx H. apply nextst_step in H as (y&Hm&H). assert (Hy : mreach p u y) by (eapply rtc_r; [exact Hx|exact Hm]).
    inversion Hm; subst; cbn in H.
    + destruct H as [[_ H]|[_ H]]; [exfalso; symmetry in H; by eapply cons_self|]. apply nextst_nexts in H. eapply nexts_xfer in H; [|done]. exfalso. destruct d; naive_solver.
    + destruct H as [[_ H]|[H _]]; [by injection H|exfalso; by eapply cons_self].
    + destruct H as [[<- H]|[H _]]; [|exfalso; by eapply cons_self]. injection H as <-. eauto 10.
    + destruct H as [[_ H]|[_ H]]; [exfalso; symmetry in H; by eapply cons_self|]. apply nextst_nexts in H. eapply nexts_push2 in H as (v&_&H); [|done]. by destruct (arg_exn (NOp o) v). }
  apply nextst_step in Hn as (z&Hm&H). assert (Hz : mreach p u z) by (eapply rtc_r; [exact Hx|exact Hm]).
  inversion Hm; subst; try done; cbn in H.
  - exfalso. by destruct o as [| | | | | | |h| | |[i|]|[i|]| | | | |[i|]| | | | ].
  - injection Hg as ->. destruct H as [[_ H]|[_ H]]; [exfalso; symmetry in H; by eapply cons_self|]. destruct (Hp _ _ _ _ _ Hz H) as (a'&?&?&?). eauto 10.
  - injection Hg as ->. destruct H as [[_ H]|[_ H]]; [exfalso; symmetry in H; by eapply cons_self|]. destruct (Hp _ _ _ _ _ Hz H) as (a'&?&?&?). eauto 10.
Qed.

Theorem next_push_del p u n e' k c o g b l : respects p u n -> hist p u n = l ++ e' :: EvDel k :: EvCall c o :: b -> push_arg o = Some g ->
  constructs u c o g k (EvDel k :: EvCall c o :: b) e'.
Proof.
  intros Hr Ho Hg. destruct o as [o|]; [|done]. destruct (hist_after p u n [EvDel k; e'] _ _ l Hr Ho) as ([a f]&y&Hx&Hm&Hy&Hb&He&(Hc&Hf&H)&y1&Hn1&y2&Hn2&_).
  destruct H as [(o'&kk&Eo&_&_&->)|(sd&kd&np&fn&kk&Eo&_)]; [|done]. injection Eo as <-.
  destruct (nextst_reach _ _ _ _ _ Hy Hn1) as [Hy1 Htr]. destruct (push_nextst _ _ _ _ _ _ _ _ Hy Hg Hn1) as (a'&d&lv&po&->&<-&Hcur). cbn in *.
  pose proof (nexts_push2 _ _ _ _ _ _ _ _ _ _ Hy1 (nextst_nexts _ _ _ Hn2)) as Q. rewrite Htr, Hcur, Hb in Q. by subst c.
Qed.

Theorem next_set p u n e' k q b : respects p u n -> occurs (hist p u n) e' (EvSet k q :: b) ->
  exists sd kd, tgt (hd 0 (cstack b)) b = Some (sender sd k) /\ cls k b = Some (sd, kd) /\ handover (sender sd k) (EvSet k q :: b) e'.
Proof.
  intros Hr Ho. destruct (hist_nexts _ _ _ _ _ _ Hr Ho) as ([a f]&y&Hx&Hm&Hy&Hb&He&H&Hn). cbn in *.
  destruct (set_event _ _ _ _ _ _ Hr (occurs_tail _ _ _ _ Ho)) as (c&o&lv&g&sd&kd&b'&Hc&Hp&Ha&Ht&Hcl&_).
  exists sd, kd. subst c. split; [done|]. split; [done|].
  assert (hd 0 (cstack b) = a_cur a) as Hcur.
  { rewrite <- Hb. eapply cur_top; [exact Hx|]. destruct H as [(?&?&?&?&?&?&?&->&_)|(?&?&?&?&?&?&?&?&?&->&_)]; done. }
  rewrite Hcur, <- Hb in Ht.
  destruct H as [(d&lv'&l&o'&po&kk&c1&Hf&Hk&->&Hco&->)|(d&lv'&g'&o'&po&kk&c1&v&u'&Hf&Hk&->&Hco&Hag&->)]; subst f;
    (destruct (tg_foc _ (mreach_tgt _ _ _ Hx)) as (Ht'&_); cbn in Ht'; rewrite Ht in Ht'; injection Ht' as <-;
     eapply nexts_xfer in Hn; [|exact Hy]; cbn in Hn; by rewrite Hb in Hn).
Qed.

(** ** Destruction *)
Lemma nexts_kill2 p u a j w ev : mreach p u (a, MKill2 j w) -> nexts (a, MKill2 j w) ev -> dies j (a_tr a) ev.
Proof.
  intros Hx Hn. apply nexts_step in Hn as (y&Hm&H). assert (Hy : mreach p u y) by (eapply rtc_r; [exact Hx|exact Hm]).
  pose proof (mreach_basic _ _ _ Hx) as B. pose proof (mreach_life _ _ _ Hx) as L. pose proof (mreach_pend _ _ _ Hx) as P. pose proof (mreach_tgt _ _ _ Hx) as G.
  inversion Hm; subst; cbn in H.
  - match goal with Hc : a_co a !! j = Some c |- _ => rename Hc into Hco end. match goal with Hc : ac_st c = _ |- _ => rename Hc into Hst end.
    assert (Hs : sts a j is_susp) by (exists c; split; [done|]; rewrite Hst; unfold is_susp; eauto).
    left. split; [pose proof (li_st _ L _ _ Hco) as Q; cbn in Q; by rewrite Hst in Q|].
    assert (j <> a_cur a) by (intros ->; by eapply cur_not_susp).
    split.
    { intros Hin. destruct (st_chain _ (mreach_stack _ _ _ Hx)) as (l&Hl&Hv). cbn in *.
      assert (Hl2 : j ∉ l). { intros Hjl. destruct (chain_active _ _ _ _ Hl Hjl) as [->|(c'&Hc'&Ha)]; [apply (ib_dom _ B) in Hco; lia|]. assert (c' = c) as -> by congruence. by rewrite Hst in Ha. }
      destruct w as [| ? ? [|h kd|e] ?|]; unfold same, bck in Hv.
      - by rewrite Hv in Hin.
      - by rewrite Hv in Hin.
      - destruct (tg_foc _ G) as [_ Hf]. destruct (Hf ltac:(done)) as (c1&Hc1&Hd). cbn in Hc1. assert (c1 = c) as -> by congruence. by rewrite Hst in Hd.
      - destruct (tg_foc _ G) as [_ Hf]. destruct (Hf ltac:(done)) as (c1&Hc1&Hd). cbn in Hc1. assert (c1 = c) as -> by congruence. by rewrite Hst in Hd.
      - by rewrite Hv in Hin. }
    exists o. split.
    { rewrite (pi_pend _ P). unfold xop. cbn. rewrite decide_False by done. destruct (a_wait a !! j) as [w'|] eqn:Hw.
      * destruct (ib_ctx _ B _ _ Hw) as [->|(c1&Hc1&Ha)]; [by apply (ib_dom _ B) in Hco; lia|]. cbn in Hc1. assert (c1 = c) as -> by congruence. by rewrite Hst in Ha.
      * by rewrite Hco; cbn; rewrite Hst. }
    split; [by apply (tg_susp _ G)|]. sil H Hn. by apply nexts_exn in Hn.
  - match goal with Hc : a_co a !! j = Some c |- _ => rename Hc into Hco end. right. pose proof (li_st _ L _ _ Hco) as Q. cbn in Q.
    split; [destruct (ac_st c); try done; cbn in Q; eauto|].
    sil H Hn. apply nexts_step in Hn as (y&Hm'&H'). cbn in H'. inversion Hm'; subst; try done; cbn in *; simplify_eq; rec H'; eauto.
Qed.

Lemma kill_alive p u a j w c : mreach p u (a, MKill j w) -> a_co a !! j = Some c -> unw_st (ac_st c) = false.
Proof.
  intros Hx Hc. destruct (rtc_inv_r _ _ Hx) as [E|(y&Hy&Hm)]; [done|]. pose proof (mreach_own _ _ _ Hy) as O. pose proof (mreach_tgt _ _ _ Hy) as G.
  inversion Hm; subst; cbn in *.
  - match goal with Hh : a_h _ !! _ = _ |- _ => destruct (o_own _ O j) as [(c'&Hc'&?) _]; [by eapply owned_lookup|] end. cbn in Hc'. congruence.
  - destruct (tg_foc _ G) as (_&_&_&c'&Hc'&Hst). cbn in Hc'. assert (c' = c) as -> by congruence. by rewrite Hst.
  - assert (c0 = c) as -> by congruence. match goal with Hs : ac_st c = _ |- _ => by rewrite Hs end.
  - match goal with Hh : a_h _ !! _ = _ |- _ => destruct (o_own _ O j) as [(c'&Hc'&?) _]; [by eapply owned_lookup|] end. cbn in Hc'. congruence.
  - by match goal with Hy : match ?w with _ => _ end |- _ => destruct w as [|? ? []|] end.
Qed.

Lemma nexts_kill p u a j w ev : mreach p u (a, MKill j w) -> nexts (a, MKill j w) ev -> destroys j (a_tr a) ev.
Proof.
  intros Hx Hn. apply nexts_step in Hn as (y&Hm&H). assert (Hy : mreach p u y) by (eapply rtc_r; [exact Hx|exact Hm]).
  inversion Hm; subst; cbn in H.
  - match goal with Hc : a_co a !! j = Some c |- _ => rename Hc into Hco end.
    pose proof (sl_cls _ _ (mreach_slot _ _ _ Hx) _ _ Hco) as E. cbn in E.
    pose proof (sl_slot _ _ (mreach_slot _ _ _ Hx) _ _ Hco) as Q. unfold slot_exp in Q. cbn in Q.
    left. rec H. split; [by rewrite E; congruence|]. split; [|done].
    rewrite (kill_alive _ _ _ _ _ _ Hx Hco), andb_false_r in Q. cbn in Q. rewrite Q. match goal with Hs : ac_slot c = _ |- _ => by rewrite Hs end.
  - match goal with Hc : a_co a !! j = Some c |- _ => rename Hc into Hco end.
    pose proof (sl_cls _ _ (mreach_slot _ _ _ Hx) _ _ Hco) as E. cbn in E.
    pose proof (sl_slot _ _ (mreach_slot _ _ _ Hx) _ _ Hco) as Q. unfold slot_exp in Q. cbn in Q.
    right. split.
    + intros E'. rewrite E in E'. injection E' as E1 E2. rewrite E1 in Q. cbn in Q. destruct (_ || _) in Q; [auto|]. rewrite Q.
      match goal with Hs : ac_side c = Pull -> _ |- _ => by rewrite Hs end.
    + sil H Hn. by eapply nexts_kill2 in Hn.
Qed.

(** ** The function of a coroutine is left *)
Lemma wait_resumer p u a f c w : mreach p u (a, f) -> (forall l s, visible a f l s -> same l s) -> a_cur a <> 0 -> a_co a !! a_cur a = Some c -> a_wait a !! ac_by c = Some w ->
  wtarget w = a_cur a /\ (exists s, cstack (a_tr a) = a_cur a :: ac_by c :: s) /\ pend (ac_by c) (a_tr a) = wop w.
Proof.
  intros Hx Hv H0 Hco Hw. pose proof (mreach_basic _ _ _ Hx) as B. destruct (stack_cur _ _ _ _ Hx Hv) as (s&Es&Hch).
  destruct (chain_inv _ _ _ _ Hch Hco H0) as (l'&El&_&Hl'). injection El as <-. destruct (chain_head _ _ _ Hl') as [s' ->].
  destruct (ib_cur _ B) as [?|(c1&Hc1&Hac)]; [done|]. cbn in Hc1. assert (c1 = c) as -> by congruence.
  destruct (ib_act _ B _ _ Hc1 Hac) as (_&w1&Hw1&Hw2). cbn in Hw1. rewrite Hw in Hw1. injection Hw1 as <-.
  split; [done|]. split; [eauto|]. rewrite (pi_pend _ (mreach_pend _ _ _ Hx)). unfold xop. cbn.
  destruct (decide (ac_by c = a_cur a)) as [E|]; [|by rewrite Hw]. pose proof (ib_wcur _ B) as Q. cbn in Q. congruence.
Qed.

Lemma nexts_left p u a x ev : mreach p u (a, MLeft x) -> nexts (a, MLeft x) ev ->
  exists c o s, cstack (a_tr a) = a_cur a :: c :: s /\ pend c (a_tr a) = Some o /\ tgt c (a_tr a) = Some (Outer (a_cur a)) /\
    match o with
    | NNew _ _ => destroys (a_cur a) (a_tr a) ev
    | _ => match x with None => exists r, ev = EvRet c o r | Some e => ev = EvExn c o (XUser e) end
    end.
Proof.
  intros Hx Hn. apply nexts_step in Hn as (y&Hm&H). assert (Hy : mreach p u y) by (eapply rtc_r; [exact Hx|exact Hm]).
  pose proof (mreach_tgt _ _ _ Hx) as G. pose proof (mreach_pend _ _ _ Hx) as P.
  inversion Hm; subst; cbn in H.
  match goal with Hc : a_co a !! _ = Some c |- _ => rename Hc into Hco end. match goal with Hc : a_wait a !! _ = _ |- _ => rename Hc into Hw end.
  assert (H0 : a_cur a <> 0). { intros E0. rewrite E0 in Hco. apply (ib_dom _ (mreach_basic _ _ _ Hx)) in Hco. lia. }
  destruct (wait_resumer _ _ _ _ _ _ Hx ltac:(done) H0 Hco Hw) as (Ej&(s&Es)&Hp). cbn in Ej, Hp. subst j.
  exists (ac_by c), o, s. split; [done|]. split; [done|]. split; [exact (tg_wait _ G _ _ Hw)|].
  pose proof (pi_wait _ P _ _ Hw) as Hpo. cbn in Hpo. sil H Hn. apply nexts_step in Hn as (y&Hm'&H). assert (Hy' : mreach p u y) by (eapply rtc_r; [exact Hy|exact Hm']).
  inversion Hm'; subst; cbn in H, Hpo.
  - sil H Hn. subst o. by eapply nexts_kill in Hn.
  - sil H Hn. apply nexts_exn in Hn. cbn in Hn. destruct o; [done|]. exfalso. destruct po; cbn in Hpo; naive_solver.
  - sil H Hn. apply nexts_ret in Hn. cbn in Hn. destruct o; [eauto|]. exfalso. naive_solver.
  - sil H Hn. apply nexts_ret in Hn. cbn in Hn. destruct o; [eauto|]. exfalso. naive_solver.
  - sil H Hn. apply nexts_ret in Hn. cbn in Hn. destruct o; [eauto|]. exfalso. naive_solver.
  - sil H Hn. subst o. by eapply nexts_kill in Hn.
  - exfalso. match goal with Hs : ac_st _ = ASusp _ _ _ |- _ => rename Hs into Hs1 end. match goal with Hs : a_co _ !! _ = Some _ |- _ => cbn in Hs; rewrite lookup_insert in Hs; injection Hs as <- end. done.
Qed.

Lemma nexts_exit2 p u a ev : mreach p u (a, MFoc) -> a_foc a = AExit2 -> nexts (a, MFoc) ev ->
  (cls (a_cur a) (a_tr a) = Some (Push, KVal) /\ slotv (a_cur a) (a_tr a) <> None /\ ev = EvDel (a_cur a)) \/
  ((cls (a_cur a) (a_tr a) = Some (Push, KVal) -> slotv (a_cur a) (a_tr a) = None) /\ ev = EvFree (a_cur a)).
Proof.
  intros Hx Hf Hn. apply nexts_step in Hn as (y&Hm&H). assert (Hy : mreach p u y) by (eapply rtc_r; [exact Hx|exact Hm]).
  inversion Hm; subst; try congruence; cbn in H.
  - match goal with Hc : a_co a !! _ = Some c |- _ => rename Hc into Hco end.
    pose proof (sl_cls _ _ (mreach_slot _ _ _ Hx) _ _ Hco) as E. cbn in E.
    pose proof (sl_slot _ _ (mreach_slot _ _ _ Hx) _ _ Hco) as Q. unfold slot_exp in Q. cbn in Q.
    match goal with Hs : ac_side c = _ |- _ => rewrite Hs in Q, E end. match goal with Hs : ac_slot c = _ |- _ => rewrite Hs in Q end. match goal with Hs : ac_kind c = _ |- _ => rewrite Hs in E end.
    cbn in Q. rec H. left. rewrite Q. done.
  - match goal with Hc : a_co a !! _ = Some c |- _ => rename Hc into Hco end.
    pose proof (sl_cls _ _ (mreach_slot _ _ _ Hx) _ _ Hco) as E. cbn in E.
    pose proof (sl_slot _ _ (mreach_slot _ _ _ Hx) _ _ Hco) as Q. unfold slot_exp in Q. cbn in Q.
    right. split.
    + intros E'. rewrite E in E'. injection E' as E1 E2. rewrite E1 in Q. cbn in Q. rewrite Q. match goal with Hs : _ -> _ -> ac_slot c = SlEmpty |- _ => by rewrite Hs end.
    + sil H Hn. apply nexts_step in Hn as (y&Hm'&H'). inversion Hm'; subst.
      match goal with Hw : match ?w with _ => _ end |- _ => destruct w as [|? ? []|]; [done|..]; subst y end; cbn in H'; by rec H'.
Qed.

End next.
