(** Ctl.v -- who resumed a coroutine last, read off the history. *)
From stdpp Require Import prelude gmap relations.
From Coq Require Import Lia.
From Verif Require Import Base Model Spec InvSpec Main Hist Micro Trace Life Pend Den Tgt Stack.

Section ctl.
Context {env : Env}.
Implicit Types h b : list event.

(** The calls that transfer control. *)
Definition transfer (o : opn) : bool :=
  match o with NOp (OResume _) | NOp (OItInc (Some _)) | NOp (OPush _ _) | NOp (OOutAssign (Some _) _) => true | _ => false end.

Local Arguments transfer : simpl never.

(** The last call recorded in [h]: who called what, and the history before it. *)
Fixpoint last_call h : option (nat * opn * list event) :=
  match h with
  | [] => None
  | EvCall c o :: b => Some (c, o, b)
  | _ :: b => last_call b
  end.

(** Event [e], after [b], gives control to coroutine [k]: its function is entered, or the
    call by which it suspended itself returns. *)
Definition arrives (k : nat) (e : event) b : bool :=
  match e with
  | EvEnter n _ => bool_decide (n = k)
  | EvRet n o _ => bool_decide (n = k) && transfer o && bool_decide (tgt k b = Some (Inner k))
  | _ => false
  end.

(** The call by which [k] was resumed most recently: the last call before control came
    to it. *)
Fixpoint resumed (k : nat) h : option (nat * opn * list event) :=
  match h with
  | [] => None
  | e :: b => if arrives k e b then last_call b else resumed k b
  end.

(** [since c o b h]: after history [b], [c] called [o] and took part in no event from
    then to [h]. *)
Definition since (c : nat) (o : opn) b h : Prop := exists l, h = l ++ EvCall c o :: b /\ Forall (fun e => ev_ctx e <> Some c) l.

Lemma since_cons c o b h e : since c o b h -> ev_ctx e <> Some c -> since c o b (e :: h).
Proof. intros (l&->&Hl) He. exists (e :: l). split; [done|]. by constructor. Qed.
Lemma since_call c o b : since c o b (EvCall c o :: b).
Proof. exists []. by split. Qed.

Definition arriving (x : astate * mfoc) : Prop :=
  match x.2 with
  | MGot j _ _ _ _ => j = a_cur x.1
  | MRet o _ _ => transfer o = true /\ tgt (a_cur x.1) (a_tr x.1) = Some (Inner (a_cur x.1))
  | _ => False
  end.
Definition back (x : astate * mfoc) (j : nat) (o : opn) : Prop :=
  match x.2 with
  | MGot j' o' _ _ _ => j' = j /\ o' = o /\ j <> a_cur x.1
  | MRet o' _ _ => o' = o /\ transfer o = true /\ tgt (a_cur x.1) (a_tr x.1) = Some (Outer j)
  | MExn o' (XUser e) _ => o' = o /\ tgt (a_cur x.1) (a_tr x.1) = Some (Outer j) /\ exists h', a_tr x.1 = EvLeave j (Some (XUser e)) :: h'
  | _ => False
  end.

Record CtlI (x : astate * mfoc) : Prop := {
  ci_xfer : forall e o po k, x.2 = MXfer e o po k -> exists b, last_call (a_tr x.1) = Some (a_cur x.1, o, b) /\ since (a_cur x.1) o b (a_tr x.1);
  ci_run : forall k c, a_co x.1 !! k = Some c -> ac_st c = ARun -> exists o po kk b,
    a_wait x.1 !! ac_by c = Some (WOp k o po kk) /\ since (ac_by c) o b (a_tr x.1) /\
    (k = a_cur x.1 -> arriving x -> last_call (a_tr x.1) = Some (ac_by c, o, b)) /\
    (~ (k = a_cur x.1 /\ arriving x) -> resumed k (a_tr x.1) = Some (ac_by c, o, b));
  ci_back : forall j o, back x j o -> exists b, resumed j (a_tr x.1) = Some (a_cur x.1, o, b) /\ since (a_cur x.1) o b (a_tr x.1) }.

Lemma ctl_init p u : CtlI (ainit p u, MFoc).
Proof. by split. Qed.

(** Steps inside one context that do not end a transfer. *)
Lemma ctl_frame p u x y : mreach p u x -> CtlI x -> a_cur y.1 = a_cur x.1 -> a_wait y.1 = a_wait x.1 ->
  (forall k c', a_co y.1 !! k = Some c' -> ac_st c' = ARun -> exists c, a_co x.1 !! k = Some c /\ ac_st c = ARun /\ ac_by c' = ac_by c) ->
  ~ arriving x -> ~ arriving y ->
  (a_tr y.1 = a_tr x.1 \/ exists e, a_tr y.1 = e :: a_tr x.1 /\ (ev_ctx e = None \/ ev_ctx e = Some (a_cur x.1)) /\ forall k, arrives k e (a_tr x.1) = false) ->
  (forall e o po k, y.2 = MXfer e o po k -> exists b, last_call (a_tr y.1) = Some (a_cur y.1, o, b) /\ since (a_cur y.1) o b (a_tr y.1)) ->
  (forall j o, ~ back y j o) -> CtlI y.
Proof.
  intros Hx [_ I2 _] Hc Hw Hco Hax Hay Htr Hxf Hb. split; [done| |by intros j o H; destruct (Hb j o)].
  intros k c' Hk Hst. destruct (Hco _ _ Hk Hst) as (c&Hkc&Hsc&->).
  destruct (I2 _ _ Hkc Hsc) as (o&po&kk&b&H1&H2&H3&H4). exists o, po, kk, b. rewrite Hw. split; [done|].
  assert (Hne : ac_by c <> a_cur x.1). { intros E. rewrite E, (ib_wcur _ (mreach_basic _ _ _ Hx)) in H1. done. }
  destruct Htr as [->|(e&->&He&Har)].
  - split; [done|]. split; [done|]. intros _. apply H4. intros [_ ?]. done.
  - split; [apply since_cons; [done|]; destruct He as [-> | ->]; congruence|]. split; [done|]. intros _. cbn. rewrite Har. apply H4. by intros [_ ?].
Qed.

Ltac co_same := let H := fresh in intros ? ? H ?; eexists; split; [exact H|done].

Ltac frm := eapply ctl_frame; try done; try (by unfold arriving, back, not; cbn; intros).

Lemma slot_same (co : gmap nat acoro) n c s : co !! n = Some c ->
  forall k c', <[n := c_slot s c]> co !! k = Some c' -> ac_st c' = ARun -> exists c, co !! k = Some c /\ ac_st c = ARun /\ ac_by c' = ac_by c.
Proof. intros Hn k c' Hk Hs. apply lookup_insert_Some in Hk as [[<- <-]|[_ Hk]]; eauto. Qed.

Theorem ctl_step p u x y : mreach p u x -> CtlI x -> micro x y -> CtlI y.
Proof.
  intros Hx C Hm. pose proof (mreach_minv _ _ _ Hx) as M. pose proof (mreach_basic _ _ _ Hx) as B.
  pose proof (tg_foc _ (mreach_tgt _ _ _ Hx)) as F. pose proof (mreach_pend _ _ _ Hx) as P.
  destruct Hm; cbn in M, B, F.
  - frm; [co_same|by left].
  - frm; [co_same|]. right. eexists. split; [done|]. cbn. auto.
  - frm; [co_same|]. right. eexists. split; [done|]. cbn. auto.
  - (* return *)
    destruct C as [_ C2 C3]. split; [done| |done]. intros n c Hn Hs. cbn in Hn. destruct (C2 _ _ Hn Hs) as (o'&po&kk&b&H1&H2&H3&H4). cbn in *.
    exists o', po, kk, b. split; [done|].
    assert (Hne : ac_by c <> a_cur a). { intros E. rewrite E, (ib_wcur _ B) in H1. done. }
    split; [apply since_cons; [done|]; cbn; congruence|]. split; [done|]. intros _.
    destruct (bool_decide (a_cur a = n) && transfer o && bool_decide (tgt n (a_tr a) = Some (Inner n))) eqn:E.
    + apply andb_true_iff in E as [[E1%bool_decide_eq_true E2]%andb_true_iff E3%bool_decide_eq_true]. subst n. apply H3; [done|]. split; [done|done].
    + apply H4. intros [-> [? E2]]. rewrite bool_decide_true in E by done. cbn in E. rewrite H, bool_decide_true in E by done. done.
  - frm; [co_same|]. right. eexists. split; [done|]. cbn. auto.
  - (* local *)
    assert (Hnt : transfer (NOp o) = false).
    { destruct o as [h|h1 h2|h|h|h g|h|h|h|h| |[h|]|[h|]|i j|i j|h| |[h|] g|v|n|l|l v]; done. }
    apply local_op_frame in H as (E1&E2&E3&E4&E5&E6).
    frm.
    + cbn. destruct E6 as [->|(n&c&s&Hn&->)]; [co_same|by apply slot_same].
    + right. eexists. cbn. rewrite E1, E3. split; [done|]. split; [by right|]. intros n. cbn. rewrite Hnt. by rewrite andb_false_r.
  - frm; [co_same|]. right. eexists. split; [done|]. cbn. split; [by right|]. intros n.
    pose proof (pi_foc _ P) as Q. cbn in Q. subst o. change (transfer (NNew Pull kd)) with false. by rewrite andb_false_r.
  - frm; [co_same|by left].
  - frm; [co_same|by left|]. intros e0 o po k0 [= <- <- <- <-]. cbn. destruct F as [[h' ->] _]. eexists. split; [done|apply since_call].
  - frm; [co_same|by left|]. intros e0 o po k0 [= <- <- <- <-]. cbn. destruct F as [[h' ->] _]. eexists. split; [done|apply since_call].
  - frm; [co_same|by left].
  - frm; [co_same|by left].
  - frm; [co_same|by left|]. intros e0 o0 po0 k0 [= <- <- <- <-]. cbn. destruct F as (_&_&[h' ->]). eexists. split; [done|apply since_call].
  - frm; [by apply slot_same| |].
    + right. eexists. split; [done|]. cbn. auto.
    + intros e0 o0 po0 k0 [= <- <- <- <-]. cbn. destruct F as (_&_&[h' ->]). eexists. split; [done|]. by apply since_cons; [apply since_call|].
  - frm; [by apply slot_same|]. right. eexists. split; [done|]. cbn. auto.
  - frm; [co_same|by left].
  - frm; [by apply slot_same| |].
    + right. eexists. split; [done|]. cbn. auto.
    + intros e0 o0 po0 k0 [= <- <- <- <-]. cbn. destruct F as (_&_&[h' [-> | ->]]); (eexists; split; [done|]).
      * by apply since_cons; [apply since_call|].
      * apply since_cons; [apply since_cons; [apply since_call|done]|done].
  - frm; [co_same|by left|]. intros j o0 (E1&E2&h'&E3). cbn in E2, E3. destruct F as (_&_&[h'' [F|F]]); rewrite F in E3; done.
  - (* resumed *)
    destruct C as [C1 C2 C3]. destruct (C1 _ _ _ _ eq_refl) as (b&Hb1&Hb2). cbn in Hb1, Hb2.
    assert (Hne : n <> a_cur a). { intros ->. destruct (ib_cur _ B) as [E|(c'&E&Ha)]; [apply (ib_dom _ B) in H; lia|]. assert (c' = c) as -> by congruence. by rewrite H0 in Ha. }
    split; [done| |by intros ? ? (<-&_&?)].
    intros k0 c0 Hk Hs. cbn in Hk. apply lookup_insert_Some in Hk as [[<- <-]|[Hnk Hk]]; cbn.
    + exists o, po, k, b. split; [by rewrite lookup_insert|]. split; [done|]. split; [done|]. intros E. destruct E. done.
    + destruct (C2 _ _ Hk Hs) as (o0&po0&kk0&b0&H1&H2&H3&H4). cbn in *. exists o0, po0, kk0, b0.
      assert (ac_by c0 <> a_cur a). { intros E. rewrite E, (ib_wcur _ B) in H1. done. }
      rewrite lookup_insert_ne by done. split; [done|]. split; [done|]. split; [by intros ->|]. intros _. apply H4. by intros [_ ?].
  - (* entered *)
    destruct C as [C1 C2 C3]. destruct (C1 _ _ _ _ eq_refl) as (b&Hb1&Hb2). cbn in Hb1, Hb2.
    assert (Hne : n <> a_cur a). { intros ->. destruct (ib_cur _ B) as [E|(c'&E&Ha)]; [apply (ib_dom _ B) in H; lia|]. assert (c' = c) as -> by congruence. by rewrite H0 in Ha. }
    split; [done| |done].
    intros k0 c0 Hk Hs. cbn in Hk. apply lookup_insert_Some in Hk as [[<- <-]|[Hnk Hk]]; cbn.
    + exists o, po, k, b. split; [by rewrite lookup_insert|]. split; [apply since_cons; [done|cbn; congruence]|]. split; [done|]. intros _. by rewrite bool_decide_true.
    + destruct (C2 _ _ Hk Hs) as (o0&po0&kk0&b0&H1&H2&H3&H4). cbn in *. exists o0, po0, kk0, b0.
      assert (ac_by c0 <> a_cur a). { intros E. rewrite E, (ib_wcur _ B) in H1. done. }
      rewrite lookup_insert_ne by done. split; [done|]. split.
      { apply since_cons; [done|]. cbn. intros [= E]. destruct (ib_ctx _ B _ _ H1) as [E0|(z&Hz&Ha)]; [apply (ib_dom _ B) in H; lia|].
        rewrite <- E, H in Hz. injection Hz as <-. by rewrite H0 in Ha. }
      split; [done|]. intros _. rewrite bool_decide_false by done. apply H4. by intros [_ ?].
  - (* yield *)
    destruct M as (Hp&Hr&_). unfold resumable in Hr. apply andb_true_iff in Hr as [->%bool_decide_eq_true Hr]. rewrite H in Hr. cbn in Hr.
    assert (Hst : ac_st c = ARun) by (destruct (ac_st c); done).
    destruct C as [C1 C2 C3]. destruct (C2 _ _ H Hst) as (o1&po1&kk1&b1&H1&H2&H3&H4). cbn in *. rewrite H0 in H1. injection H1 as -> -> -> ->.
    assert (Hne : ac_by c <> a_cur a). { intros E. rewrite E, (ib_wcur _ B) in H0. done. }
    split; [done| |].
    + intros k0 c0 Hk Hs. cbn in Hk. apply lookup_insert_Some in Hk as [[<- <-]|[Hnk Hk]]; [done|]. cbn.
      destruct (C2 _ _ Hk Hs) as (o0&po0&kk0&b0&H1&H2'&H3'&H4'). cbn in *. exists o0, po0, kk0, b0.
      assert (ac_by c0 <> ac_by c). { intros E. rewrite E, H0 in H1. injection H1 as <-. done. }
      rewrite lookup_delete_ne by done. split; [done|]. split; [done|]. split.
      * intros _ E. unfold arriving in E. cbn in E. by destruct Hne.
      * intros _. apply H4'. by intros [_ ?].
    + intros j0 o0 (<-&<-&_). cbn. exists b1. split; [|done]. apply H4. by intros [_ ?].
  - destruct F as (F1&F2&_). frm; [co_same|by left].
  - (* exception arrives *)
    destruct F as (F1&F2&(h'&F3)&_). destruct C as [C1 C2 C3]. split; [done| |].
    + intros k0 c0 Hk Hs. destruct (C2 _ _ Hk Hs) as (o0&po0&kk0&b0&H1&H2&H3&H4). cbn in *. exists o0, po0, kk0, b0. repeat (split; [done|]).
      intros _. apply H4. intros [_ ?]. done.
    + intros j0 o0 (<-&E&_). cbn in E. rewrite F2 in E. injection E as <-. by apply (C3 j o).
  - (* return after a transfer *)
    pose proof (pi_foc _ P) as Q. cbn in Q. assert (Ht : transfer o = true) by (by destruct Q as [[? ->]|(?&?&->)]).
    destruct C as [C1 C2 C3]. split; [done| |].
    + intros k0 c0 Hk Hs. destruct (C2 _ _ Hk Hs) as (o0&po0&kk0&b0&H1&H2&H3&H4). cbn in *. exists o0, po0, kk0, b0. split; [done|]. split; [done|].
      destruct F as [(F1&F2&_)|(->&F2&_)].
      * split; [intros _ [_ E]; cbn in E; congruence|]. intros _. apply H4. intros [_ ?]. done.
      * split; [intros -> _; by apply H3|]. intros E. apply H4. intros [-> _]. apply E. split; [done|]. split; done.
    + intros j0 o0 (<-&_&E). cbn in E. destruct F as [(F1&F2&_)|(->&F2&_)]; [|congruence]. rewrite F2 in E. injection E as <-. by apply (C3 j o).
  - pose proof (pi_foc _ P) as Q. cbn in Q. assert (Ht : transfer o = true) by (by subst o).
    destruct C as [C1 C2 C3]. split; [done| |].
    + intros k0 c0 Hk Hs. destruct (C2 _ _ Hk Hs) as (o0&po0&kk0&b0&H1&H2&H3&H4). cbn in *. exists o0, po0, kk0, b0. split; [done|]. split; [done|].
      destruct F as [(F1&F2&_)|(->&F2&_)].
      * split; [intros _ [_ E]; cbn in E; congruence|]. intros _. apply H4. intros [_ ?]. done.
      * split; [intros -> _; by apply H3|]. intros E. apply H4. intros [-> _]. apply E. split; [done|]. split; done.
    + intros j0 o0 (<-&_&E). cbn in E. destruct F as [(F1&F2&_)|(->&F2&_)]; [|congruence]. rewrite F2 in E. injection E as <-. by apply (C3 j o).
  - pose proof (pi_foc _ P) as Q. cbn in Q. assert (Ht : transfer o = true) by (by destruct Q as [? ->]).
    destruct C as [C1 C2 C3]. split; [done| |].
    + intros k0 c0 Hk Hs. destruct (C2 _ _ Hk Hs) as (o0&po0&kk0&b0&H1&H2&H3&H4). cbn in *. exists o0, po0, kk0, b0. split; [done|]. split; [done|].
      destruct F as [(F1&F2&_)|(->&F2&_)].
      * split; [intros _ [_ E]; cbn in E; congruence|]. intros _. apply H4. intros [_ ?]. done.
      * split; [intros -> _; by apply H3|]. intros E. apply H4. intros [-> _]. apply E. split; [done|]. split; done.
    + intros j0 o0 (<-&_&E). cbn in E. destruct F as [(F1&F2&_)|(->&F2&_)]; [|congruence]. rewrite F2 in E. injection E as <-. by apply (C3 j o).
  - destruct F as [(F1&F2&F3)|(_&_&F)]; [|by destruct (F h kd)]. frm; [co_same|by left].
  - destruct F as [(F1&F2&F3)|(_&_&F)]; [|by destruct (F h kd)]. pose proof (pi_foc _ P) as Q. cbn in Q. subst o.
    frm; [co_same|by intros [? _]| |by intros ? ? (<-&?&_)]. right. eexists. split; [done|]. cbn. auto.
  - frm; [co_same|]. right. eexists. split; [done|]. cbn. auto.
  - frm; [co_same|by left].
  - (* destroy a suspended coroutine *)
    destruct C as [C1 C2 C3]. split; [done| |done].
    intros k0 c0 Hk Hs. cbn in Hk. apply lookup_insert_Some in Hk as [[<- <-]|[Hnk Hk]]; [done|]. cbn.
    destruct (C2 _ _ Hk Hs) as (o0&po0&kk0&b0&H1&H2'&H3'&H4'). cbn in *. exists o0, po0, kk0, b0.
    assert (ac_by c0 <> a_cur a). { intros E. rewrite E, (ib_wcur _ B) in H1. done. }
    rewrite lookup_insert_ne by done. repeat (split; [done|]). intros _. apply H4'. by intros [_ ?].
  - destruct C as [C1 C2 C3]. split; [done| |done].
    intros k0 c0 Hk Hs. cbn in Hk. apply lookup_insert_Some in Hk as [[<- <-]|[Hnk Hk]]; [done|]. cbn.
    destruct (C2 _ _ Hk Hs) as (o0&po0&kk0&b0&H1&H2'&H3'&H4'). cbn in *. exists o0, po0, kk0, b0.
    assert (ac_by c0 <> a_cur a). { intros E. rewrite E, (ib_wcur _ B) in H1. done. }
    rewrite lookup_insert_ne by done. repeat (split; [done|]). intros _. apply H4'. by intros [_ ?].
  - frm; [co_same|by left|]. intros j o0 (E1&E2&h'&E3). cbn in E2, E3. destruct F as [h'' F]. rewrite F in E3. done.
  - frm; [co_same|]. right. eexists. split; [done|]. cbn. auto.
  - frm; [co_same|by left|]. intros j o0 (E1&E2&h'&E3). cbn in E2, E3. destruct F as [h'' F]. rewrite F in E3. done.
  - (* a pull function is entered *)
    destruct M as (I&Hn&Hh). destruct F as [h' F].
    assert (Hnn : a_co a !! n = None). { destruct (a_co a !! n) eqn:E; [|done]. apply (ic_dom _ _ _ _ _ I) in E. lia. }
    assert (Hn0 : n <> 0) by (pose proof (ic_nk _ _ _ _ _ I); lia).
    assert (Hne : n <> a_cur a). { intros ->. destruct (ib_cur _ B) as [E|(c'&E&Ha)]; [done|congruence]. }
    destruct C as [C1 C2 C3]. split; [done| |done].
    intros k0 c0 Hk Hs. cbn in Hk. apply lookup_insert_Some in Hk as [[<- <-]|[Hnk Hk]]; cbn.
    + exists (NNew Pull kd), (PoNew h kd), k, h'. split; [by rewrite lookup_insert|]. rewrite F. split.
      { apply since_cons; [apply since_cons; [apply since_call|done]|cbn; congruence]. }
      split; [done|]. intros _. by rewrite bool_decide_true.
    + destruct (C2 _ _ Hk Hs) as (o0&po0&kk0&b0&H1&H2&H3&H4). cbn in *. exists o0, po0, kk0, b0.
      assert (ac_by c0 <> a_cur a). { intros E. rewrite E, (ib_wcur _ B) in H1. done. }
      rewrite lookup_insert_ne by done. split; [done|]. split.
      { apply since_cons; [done|]. cbn. intros [= E]. destruct (ib_ctx _ B _ _ H1) as [E0|(z&Hz&Ha)]; [congruence|]. congruence. }
      split; [done|]. intros _. rewrite bool_decide_false by done. apply H4. by intros [_ ?].
  - destruct M as (I&Hn&Hh).
    frm; [|by intros [? _]| |by intros ? ? (<-&?&_)].
    + cbn. intros k0 c0 Hk Hs. apply lookup_insert_Some in Hk as [[<- <-]|[Hnk Hk]]; [done|eauto].
    + right. eexists. split; [done|]. cbn. auto.
  - frm; [co_same|]. right. eexists. split; [done|]. cbn. auto.
  - (* control goes back after the function was left *)
    destruct M as (I&c'&Hc&Hst). assert (c' = c) as -> by congruence.
    destruct C as [C1 C2 C3]. destruct (C2 _ _ H Hst) as (o1&po1&kk1&b1&H1&H2&H3&H4). cbn in *. rewrite H0 in H1. injection H1 as -> -> -> ->.
    assert (Hne : ac_by c <> a_cur a). { intros E. rewrite E, (ib_wcur _ B) in H0. done. }
    split; [done| |].
    + intros k0 c0 Hk Hs. cbn in Hk. apply lookup_insert_Some in Hk as [[<- <-]|[Hnk Hk]]; [done|]. cbn.
      destruct (C2 _ _ Hk Hs) as (o0&po0&kk0&b0&H1&H2'&H3'&H4'). cbn in *. exists o0, po0, kk0, b0.
      assert (ac_by c0 <> ac_by c). { intros E. rewrite E, H0 in H1. injection H1 as <-. done. }
      rewrite lookup_delete_ne by done. split; [done|]. split; [done|]. split.
      * intros _ E. unfold arriving in E. cbn in E. by destruct Hne.
      * intros _. apply H4'. by intros [_ ?].
    + intros j0 o0 (<-&<-&_). cbn. exists b1. split; [|done]. apply H4. by intros [_ ?].
  - frm; [co_same|]. right. eexists. split; [done|]. cbn. auto.
  - frm; [co_same|]. right. eexists. split; [done|]. cbn. auto.
  - frm; [co_same|]. right. eexists. split; [done|]. cbn. auto.
  - frm; [co_same|]. right. eexists. split; [done|]. cbn. auto.
  - frm; [co_same|by left].
  - (* stack released *)
    destruct C as [C1 C2 C3].
    assert (Hrun : forall k0 c0, a_co a1 !! k0 = Some c0 -> ac_st c0 = ARun -> exists o po kk b, a_wait a1 !! ac_by c0 = Some (WOp k0 o po kk) /\
       since (ac_by c0) o b (a_tr a1) /\ resumed k0 (a_tr a1) = Some (ac_by c0, o, b)).
    { intros k0 c0 Hk Hs. cbn in Hk. apply lookup_delete_Some in Hk as [Hnk Hk].
      destruct (C2 _ _ Hk Hs) as (o0&po0&kk0&b0&H2&H2'&H3'&H4'). cbn in *. exists o0, po0, kk0, b0.
      assert (ac_by c0 <> ac_by c). { intros E. rewrite E, H0 in H2. injection H2 as ->. done. }
      rewrite lookup_delete_ne by done. split; [done|]. split; [by apply since_cons|]. apply H4'. by intros [_ ?]. }
    destruct w as [|j o [|h kd|e] k|j]; [done| | | |]; subst y.
    all: split; [done| |]; [intros k0 c0 Hk Hs; destruct (Hrun _ _ Hk Hs) as (o0&po0&kk0&b0&G1&G2&G3); exists o0, po0, kk0, b0; split; [done|]; split; [done|];
      split; [|done]; unfold arriving; cbn; try done|].
    + pose proof (pi_wait _ P _ _ H0) as Q. cbn in Q. destruct Q as [hh ->]. by intros _ [? _].
    + pose proof (pi_wait _ P _ _ H0) as Q. cbn in Q. destruct Q as [hh ->]. by intros ? ? (<-&?&_).
    + done.
    + intros ? ? (_&_&h'&E). done.
    + done.
Qed.

Theorem mreach_ctl p u x : mreach p u x -> CtlI x.
Proof. apply (mreach_ind p u CtlI); [apply ctl_init|intros ???; by eapply ctl_step]. Qed.

End ctl.
