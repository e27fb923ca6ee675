(** Own.v -- who owns which coroutine. *)
From stdpp Require Import prelude gmap relations.
From Coq Require Import Lia.
From Verif Require Import Base Model Spec InvSpec Main Micro Trace Life Pend Den.

Section own.
Context {env : Env}.

Definition owned (hs : gmap nat hobj) (e : ep) : Prop := exists h o, hs !! h = Some o /\ h_ep o = Some e.
Definition hinj (hs : gmap nat hobj) : Prop :=
  forall h h' o o' e, hs !! h = Some o -> hs !! h' = Some o' -> h_ep o = Some e -> h_ep o' = Some e -> h = h'.
Definition alive (a : astate) (k : nat) : Prop := exists c, a_co a !! k = Some c /\ unw_st (ac_st c) = false.

(** Coroutine [k] is being constructed or destroyed. *)
Definition fbare (f : mfoc) (k : nat) : Prop :=
  match f with
  | MGot j _ (PoNew _ _) _ _ | MKill j _ | MKill2 j _ => j = k
  | _ => False
  end.
Definition wnew (w : wait) (k : nat) : Prop := match w with WOp j _ (PoNew _ _) _ => j = k | _ => False end.
Definition wbare (wt : gmap nat wait) (k : nat) : Prop := exists c w, wt !! c = Some w /\ wnew w k.
Definition bare (x : astate * mfoc) (k : nat) : Prop :=
  wbare (a_wait x.1) k \/ fbare x.2 k.

Record OwnI (x : astate * mfoc) : Prop := {
  o_inj : hinj (a_h x.1);
  o_own : forall k, owned (a_h x.1) (Outer k) -> alive x.1 k /\ ~ bare x k;
  o_has : forall k, alive x.1 k -> bare x k \/ owned (a_h x.1) (Outer k) }.

Lemma wbare_insert wt c w k : wt !! c = None -> wbare (<[c := w]> wt) k <-> wnew w k \/ wbare wt k.
Proof.
  intros Hc. split.
  - intros (x&w'&Hx&Hw). apply lookup_insert_Some in Hx as [[_ <-]|[_ Hx]]; [by left|]. right. by exists x, w'.
  - intros [Hw|(x&w'&Hx&Hw)]; [exists c, w; by rewrite lookup_insert|]. exists x, w'. by rewrite lookup_insert_ne by congruence.
Qed.
Lemma wbare_delete wt c w k : wt !! c = Some w -> wbare wt k <-> wnew w k \/ wbare (delete c wt) k.
Proof.
  intros Hc. rewrite <- (wbare_insert (delete c wt) c) by apply lookup_delete. by rewrite insert_delete.
Qed.

Lemma npo_wnew j o po k k' : npo po -> wnew (WOp j o po k) k' -> False.
Proof. intros H. destruct po; try done. by destruct (H h kd). Qed.
Lemma npo_fbare j o po k x k' : npo po -> fbare (MGot j o po k x) k' -> False.
Proof. intros H. destruct po; try done. by destruct (H h kd). Qed.

Lemma own_gen x y : OwnI x -> a_h y.1 = a_h x.1 ->
  (forall k, alive x.1 k -> ~ bare x k -> alive y.1 k /\ ~ bare y k) ->
  (forall k, alive y.1 k -> alive x.1 k /\ (bare x k -> bare y k)) -> OwnI y.
Proof.
  intros [O1 O2 O3] Hh H1 H2. split; rewrite ?Hh; [done| |].
  - intros k [? ?]%O2. auto.
  - intros k Hk. destruct (H2 _ Hk) as [Hk' Hb]. destruct (O3 _ Hk'); auto.
Qed.

Lemma own_quiet x y : OwnI x -> a_h y.1 = a_h x.1 -> (forall k, alive y.1 k <-> alive x.1 k) ->
  a_wait y.1 = a_wait x.1 -> (forall k, fbare y.2 k <-> fbare x.2 k) -> OwnI y.
Proof.
  intros O Hh Ha Hw Hf. assert (Hb : forall k, bare y k <-> bare x k) by (intros; unfold bare; by rewrite Hw, Hf).
  eapply own_gen; [exact O|done| |]; intros k; rewrite Ha, Hb; auto.
Qed.

Lemma alive_insert co n c c' k a a' : a_co a !! n = Some c -> unw_st (ac_st c') = unw_st (ac_st c) -> a_co a = co -> a_co a' = <[n := c']> co ->
  alive a' k <-> alive a k.
Proof.
  intros Hn E Ha Ha'. subst co. unfold alive. rewrite Ha'. destruct (decide (n = k)) as [<-|].
  - rewrite lookup_insert. split; intros (x&Hx&Hs); simplify_eq; [exists c|exists c']; (split; [done|congruence]).
  - by rewrite lookup_insert_ne.
Qed.
Lemma alive_ins1 n c c' k a a' : alive a' k -> a_co a !! n = Some c -> a_co a' = <[n := c']> (a_co a) -> unw_st (ac_st c') = unw_st (ac_st c) ->
  alive a k.
Proof. intros Hk H Ea E. by apply (alive_insert _ _ _ _ k a a' H E eq_refl Ea). Qed.
Lemma alive_ins2 n c c' k a a' : alive a k -> a_co a !! n = Some c -> a_co a' = <[n := c']> (a_co a) -> unw_st (ac_st c') = unw_st (ac_st c) ->
  alive a' k.
Proof. intros Hk H Ea E. by apply (alive_insert _ _ _ _ k a a' H E eq_refl Ea). Qed.
Lemma alive_slot a a' n c s k : a_co a !! n = Some c -> a_co a' = <[n := c_slot s c]> (a_co a) -> alive a' k <-> alive a k.
Proof. intros H E. eapply alive_insert; [exact H| |reflexivity|exact E]. done. Qed.

Lemma owned_lookup hs h o e : hs !! h = Some o -> h_ep o = Some e -> owned hs e.
Proof. intros. by exists h, o. Qed.

Lemma hinj_delete hs h : hinj hs -> hinj (delete h hs).
Proof. intros H x y o o' e Hx Hy. apply lookup_delete_Some in Hx as [_ Hx]. apply lookup_delete_Some in Hy as [_ Hy]. by eapply H. Qed.
Lemma owned_delete hs h e : owned (delete h hs) e -> owned hs e.
Proof. intros (x&o&Hx&He). apply lookup_delete_Some in Hx as [_ Hx]. by exists x, o. Qed.
Lemma owned_delete' hs h o e : hs !! h = Some o -> h_ep o <> Some e -> owned hs e -> owned (delete h hs) e.
Proof. intros Hh Hn (x&o'&Hx&He). exists x, o'. split; [|done]. rewrite lookup_delete_ne; [done|]. intros ->. congruence. Qed.
Lemma owned_delete_own hs h o e : hinj hs -> hs !! h = Some o -> h_ep o = Some e -> ~ owned (delete h hs) e.
Proof. intros I Hh He (x&o'&Hx&He'). apply lookup_delete_Some in Hx as [Hn Hx]. by destruct Hn; eapply I. Qed.
Lemma hinj_none hs h sd kd : hinj hs -> hinj (<[h := HObj sd kd None]> hs).
Proof. intros H x y o o' e Hx Hy. apply lookup_insert_Some in Hx as [[<- <-]|[_ Hx]]; [done|]. apply lookup_insert_Some in Hy as [[<- <-]|[_ Hy]]; [done|]. by eapply H. Qed.
Lemma hinj_new hs h sd kd e : hinj hs -> ~ owned hs e -> hinj (<[h := HObj sd kd (Some e)]> hs).
Proof.
  intros H Hn x y o o' e' Hx Hy He He'. apply lookup_insert_Some in Hx as [[<- <-]|[_ Hx]]; apply lookup_insert_Some in Hy as [[<- <-]|[_ Hy]]; cbn in *; simplify_eq; try done.
  - destruct Hn. by exists y, o'.
  - destruct Hn. by exists x, o.
  - by eapply H.
Qed.
Lemma owned_insert hs h sd kd e e' : owned (<[h := HObj sd kd e]> hs) e' -> e = Some e' \/ owned hs e'.
Proof. intros (x&o&Hx&He). apply lookup_insert_Some in Hx as [[<- <-]|[_ Hx]]; [by left|]. right. by exists x, o. Qed.
Lemma owned_insert' hs h o e : owned hs e -> (forall o', hs !! h = Some o' -> h_ep o' <> Some e) -> owned (<[h := o]> hs) e.
Proof. intros (x&o'&Hx&He) Hn. exists x, o'. split; [|done]. rewrite lookup_insert_ne; [done|]. intros ->. by destruct (Hn _ Hx). Qed.
Lemma owned_here hs h sd kd e : owned (<[h := HObj sd kd (Some e)]> hs) e.
Proof. eexists h, _. by rewrite lookup_insert. Qed.

(** Exchanging what two objects denote. *)
Lemma swap_own hs h1 h2 sd1 sd2 kd1 kd2 e1 e2 : hs !! h1 = Some (HObj sd1 kd1 e1) -> hs !! h2 = Some (HObj sd2 kd2 e2) -> hinj hs ->
  hinj (<[ h2 := HObj sd2 kd2 e1 ]> (<[ h1 := HObj sd1 kd1 e2 ]> hs)) /\
  forall e, owned (<[ h2 := HObj sd2 kd2 e1 ]> (<[ h1 := HObj sd1 kd1 e2 ]> hs)) e <-> owned hs e.
Proof.
  intros H1 H2 I. destruct (decide (h1 = h2)) as [->|Hne].
  { simplify_eq. rewrite insert_insert, insert_id by done. done. }
  assert (Hl : forall x o, <[ h2 := HObj sd2 kd2 e1 ]> (<[ h1 := HObj sd1 kd1 e2 ]> hs) !! x = Some o ->
    exists y o', hs !! y = Some o' /\ h_ep o' = h_ep o /\ y = if decide (x = h1) then h2 else if decide (x = h2) then h1 else x).
  { intros x o Hx. apply lookup_insert_Some in Hx as [[<- <-]|[Hn Hx]]; [|apply lookup_insert_Some in Hx as [[<- <-]|[Hn' Hx]]].
    - rewrite decide_False, decide_True by done. by eexists h1, _.
    - rewrite decide_True by done. by eexists h2, _.
    - rewrite !decide_False by done. by exists x, o. }
  split.
  - intros x y o o' e Hx Hy He He'. destruct (Hl _ _ Hx) as (x'&ox&Hx1&Hx2&Ex). destruct (Hl _ _ Hy) as (y'&oy&Hy1&Hy2&Ey).
    assert (x' = y') by (apply (I _ _ _ _ e Hx1 Hy1); congruence). subst. repeat case_decide; congruence.
  - intros e. split.
    + intros (x&o&Hx&He). destruct (Hl _ _ Hx) as (y&o'&Hy&E&_). exists y, o'. split; [done|congruence].
    + intros (x&o&Hx&He). destruct (decide (x = h1)) as [->|]; [|destruct (decide (x = h2)) as [->|]].
      * exists h2. rewrite lookup_insert. eexists. split; [done|]. by simplify_eq.
      * exists h1. rewrite lookup_insert_ne, lookup_insert by done. eexists. split; [done|]. by simplify_eq.
      * exists x, o. by rewrite !lookup_insert_ne.
Qed.

(** Moving what one object denotes to a new one. *)
Lemma move_own hs h h' sd kd e : hs !! h = Some (HObj sd kd e) -> hs !! h' = None -> hinj hs ->
  hinj (<[ h := HObj sd kd None ]> (<[ h' := HObj sd kd e ]> hs)) /\
  forall x, owned (<[ h := HObj sd kd None ]> (<[ h' := HObj sd kd e ]> hs)) x <-> owned hs x.
Proof.
  intros H1 H2 I. assert (h <> h') by congruence.
  assert (Hl : forall x o y, <[ h := HObj sd kd None ]> (<[ h' := HObj sd kd e ]> hs) !! x = Some o -> h_ep o = Some y ->
    exists z o', hs !! z = Some o' /\ h_ep o' = Some y /\ z = if decide (x = h') then h else x).
  { intros x o y Hx Ho. apply lookup_insert_Some in Hx as [[<- <-]|[Hn Hx]]; [done|].
    apply lookup_insert_Some in Hx as [[<- <-]|[Hn' Hx]].
    - rewrite decide_True by done. by eexists h, _.
    - rewrite decide_False by done. by exists x, o. }
  split.
  - intros x y o o' z Hx Hy He He'. destruct (Hl _ _ _ Hx He) as (x'&ox&Hx1&Hx2&Ex). destruct (Hl _ _ _ Hy He') as (y'&oy&Hy1&Hy2&Ey).
    assert (x' = y') by (apply (I _ _ _ _ z Hx1 Hy1); congruence). subst. repeat case_decide; try congruence.
    + apply lookup_insert_Some in Hy as [[<- <-]|[Hn _]]; [done|]. congruence.
    + apply lookup_insert_Some in Hx as [[<- <-]|[Hn _]]; [done|]. congruence.
  - intros z. split.
    + intros (x&o&Hx&He). destruct (Hl _ _ _ Hx He) as (y&o'&Hy&E&_). by exists y, o'.
    + intros (x&o&Hx&He). destruct (decide (x = h)) as [->|].
      * exists h'. rewrite lookup_insert_ne, lookup_insert by done. eexists. split; [done|]. by simplify_eq.
      * exists x, o. rewrite !lookup_insert_ne; [done| |done]. intros ->. congruence.
Qed.

Lemma local_own o a a' r : a_h a !! a_nh a = None -> hinj (a_h a) -> local_op o a = Some (a', r) ->
  hinj (a_h a') /\ (forall k, owned (a_h a') (Outer k) <-> owned (a_h a) (Outer k)) /\ (forall k, alive a' k <-> alive a k).
Proof.
  intros Hn I H.
  assert (Hs : forall b, a_h b = a_h a -> (a_co b = a_co a \/ exists n c s, a_co a !! n = Some c /\ a_co b = <[n := c_slot s c]> (a_co a)) ->
    hinj (a_h b) /\ (forall k, owned (a_h b) (Outer k) <-> owned (a_h a) (Outer k)) /\ (forall k, alive b k <-> alive a k)).
  { intros b Eh Ec. rewrite Eh. split; [done|]. split; [done|]. intros k. destruct Ec as [Ec|(n&c&s&Hc&Ec)].
    - unfold alive. by rewrite Ec.
    - by eapply alive_slot. }
  pose proof (local_op_frame _ _ _ _ H) as (_&_&_&_&_&Hco).
  destruct o; cbn in H; repeat case_match; simplify_eq; try (by apply Hs); cbn.
  - destruct (move_own _ _ _ _ _ _ H0 Hn I) as [? Hi]. split; [done|]. split; [intros; apply Hi|done].
  - destruct (swap_own _ _ _ _ _ _ _ _ _ H0 H2 I) as [? Hi]. split; [done|]. split; [intros; apply Hi|done].
  - split; [by apply hinj_delete|]. split; [|done]. intros k'. split; [by apply owned_delete|]. by eapply owned_delete'.
  - split; [by apply hinj_delete|]. split; [|done]. intros k'. split; [by apply owned_delete|]. by eapply owned_delete'.
Qed.

Lemma own_init p u : OwnI (ainit p u, MFoc).
Proof.
  split; cbn.
  - intros h h' o o' e H. by rewrite lookup_empty in H.
  - intros k (h&o&H&_). by rewrite lookup_empty in H.
  - intros k (c&H&_). cbn in H. by rewrite lookup_empty in H.
Qed.

Lemma not_owned_ge a e : basic a -> a_nk a <= ep_co e -> ~ owned (a_h a) e.
Proof. intros B Hle (h&[sd kd o]&Hh&E). cbn in E. subst. apply (ib_hd _ B) in Hh. lia. Qed.

(** A constructor waits for a running coroutine. *)
Lemma wait_new_run a k : basic a -> wbare (a_wait a) k -> exists x, a_co a !! k = Some x /\ ac_st x = ARun.
Proof.
  intros B (c&w&Hw&Hn). destruct (ib_wait _ B _ _ Hw) as (x&Hx&_&Hs). exists x. destruct w as [j o [] kk| |]; try done. cbn in *. by subst.
Qed.

Theorem own_step p u x y : mreach p u x -> OwnI x -> micro x y -> OwnI y.
Proof.
  intros Hx O Hm. pose proof (mreach_minv _ _ _ Hx) as M. pose proof (mreach_basic _ _ _ Hx) as B. pose proof (mreach_den _ _ _ Hx) as D.
  destruct Hm; cbn in M, B; try (by eapply own_quiet; [exact O|..]).
  - (* local *)
    assert (Hn : a_h a !! a_nh a = None). { destruct (a_h a !! a_nh a) eqn:E; [|done]. apply (d_h _ D) in E. cbn in E. lia. }
    destruct O as [O1 O2 O3]. destruct (local_own _ _ _ _ Hn O1 H) as (I&Ho&Ha). apply local_op_frame in H as (E1&E2&E3&E4&E5&E6).
    assert (Hb : forall k', bare (w_foc (AUser (k (ROk r))) (alog (EvRet (a_cur a') (NOp o) r) a'), MFoc) k' <-> bare (a, MCall o k) k').
    { intros k'. unfold bare. cbn. by rewrite E2. }
    split; cbn; [done| |]; intros k'; rewrite Hb.
    + rewrite Ho. intros [? ?]%O2. split; [by apply Ha|done].
    + intros Hk%Ha. destruct (O3 _ Hk); [by left|right]. by apply Ho.
  - (* empty *)
    destruct (d_empty _ D _ _ _ _ eq_refl) as (Hn&_). destruct O as [O1 O2 O3]. split; cbn in *; [by apply hinj_none| |].
    + intros k' Hk'. apply owned_insert in Hk' as [|?]; [done|]. by apply O2.
    + intros k' Hk'. destruct (O3 _ Hk'); [by left|right]. apply owned_insert'; [done|]. intros o' Ho'. by rewrite Hn in Ho'.
  - (* destroy an owner *)
    destruct O as [O1 O2 O3]. split; cbn in *; [by apply hinj_delete| |].
    + intros k' Hk'. assert (k' <> n). { intros ->. revert Hk'. by eapply owned_delete_own. }
      apply owned_delete, O2 in Hk' as [? Hb]. split; [done|]. intros [?|?]; [|done]. apply Hb. by left.
    + intros k' Hk'. destruct (decide (k' = n)) as [->|]; [left; by right|]. destruct (O3 _ Hk') as [[?|?]|?]; [left; by left|done|].
      right. eapply owned_delete'; [exact H| |done]. cbn. congruence.
  - eapply own_quiet; [exact O|done| |done|done]. intros k'. by eapply alive_slot.
  - eapply own_quiet; [exact O|done| |done|done]. intros k'. by eapply alive_slot.
  - eapply own_quiet; [exact O|done| |done|done]. intros k'. by eapply alive_slot.
  - (* resume *)
    destruct M as (Hp&_). assert (Hpo : npo po'). { intros h kd ->. by eapply (ib_post _ B). }
    eapply own_gen; [exact O|done| |]; intros k''; cbn.
    + intros Hk Hb. split.
      * eapply alive_ins2; [exact Hk|exact H|done|]. by rewrite H0.
      * intros [Hw|Hf]; cbn in *; [|by eapply (npo_fbare n o' po' k' None)]. apply Hb. left. apply wbare_insert in Hw as [Hw|?]; [|done|by apply (ib_wcur _ B)]. exfalso; exact (npo_wnew _ _ _ _ _ Hp Hw).
    + intros Hk. split.
      * eapply alive_ins1; [exact Hk|exact H|done|]. by rewrite H0.
      * intros [Hw|Hf]; [|done]. left. cbn. apply wbare_insert; [by apply (ib_wcur _ B)|]. by right.
  - (* enter *)
    destruct M as (Hp&_).
    eapply own_gen; [exact O|done| |]; intros k''; cbn.
    + intros Hk Hb. split.
      * eapply alive_ins2; [exact Hk|exact H|done|]. by rewrite H0.
      * intros [Hw|Hf]; cbn in *; [|done]. apply Hb. left. apply wbare_insert in Hw as [Hw|?]; [|done|by apply (ib_wcur _ B)]. exfalso; exact (npo_wnew _ _ _ _ _ Hp Hw).
    + intros Hk. split.
      * eapply alive_ins1; [exact Hk|exact H|done|]. by rewrite H0.
      * intros [Hw|Hf]; [|done]. left. cbn. apply wbare_insert; [by apply (ib_wcur _ B)|]. by right.
  - (* yield *)
    destruct M as (Hp&Hr&_). unfold resumable in Hr. apply andb_true_iff in Hr as [->%bool_decide_eq_true Hr].
    rewrite H in Hr. destruct (ac_st c) eqn:Hst; try done.
    assert (j = a_cur a) as ->.
    { destruct (ib_act _ B _ _ H) as [_ (w&Hw&E)]; [by rewrite Hst|]. by simplify_eq. }
    eapply own_gen; [exact O|done| |]; intros k''; cbn.
    + intros Hk Hb. split.
      * eapply alive_ins2; [exact Hk|exact H|done|]. by rewrite Hst.
      * intros [Hw|Hf]; cbn in *; apply Hb; left; apply (wbare_delete _ _ _ _ H0); [by right|]. left. by destruct po'.
    + intros Hk. split.
      * eapply alive_ins1; [exact Hk|exact H|done|]. by rewrite Hst.
      * intros [Hw|Hf]; [|done]. apply (wbare_delete _ _ _ _ H0) in Hw as [Hw|Hw]; [right|by left]. by destruct po'.
  - eapply own_quiet; [exact O|done|done|done|]. intros k'. cbn. destruct po; try done. by destruct (H h kd).
  - (* constructor done *)
    destruct O as [O1 O2 O3]. cbn in *.
    assert (Hj : ~ owned (a_h a) (Outer j)). { intros Hj. destruct (O2 _ Hj) as [_ Hb]. apply Hb. by right. }
    assert (Hres : a_h a !! h = None). { eapply (d_res _ D). by right. }
    split; cbn.
    + by apply hinj_new.
    + intros kx [Hkx|Hkx]%owned_insert.
      * simplify_eq. split; [exists c; by rewrite H0|]. intros [Hw|?]; [|done].
        destruct (wait_new_run _ _ B Hw) as (x&Hx'&E). simplify_eq. congruence.
      * destruct (O2 _ Hkx) as [? Hb]. split; [done|]. intros [Hw|?]; [|done]. apply Hb. by left.
    + intros kx Hkx. destruct (decide (kx = j)) as [->|]; [right; apply owned_here|].
      destruct (O3 _ Hkx) as [[Hw|?]|?]; [left; by left|done|]. right. apply owned_insert'; [done|]. by rewrite Hres.
  - (* destroy a suspended coroutine *)
    destruct M as (_&_&Hnw&_). eapply own_gen; [exact O|done| |]; intros k''; cbn.
    + intros Hk Hb. assert (k'' <> j). { intros ->. apply Hb. by right. } split.
      * destruct Hk as (x&Hx'&?). exists x. cbn. by rewrite lookup_insert_ne.
      * intros [Hw|Hf]; [|done]. apply Hb. left. cbn in Hw. apply wbare_insert in Hw as [Hw|?]; [|done|by apply (ib_wcur _ B)].
        destruct w; [|done|done]. by destruct (Hnw j0 o0 po0 k0).
    + intros (x&Hx'&Hu). cbn in Hx'. apply lookup_insert_Some in Hx' as [[<- <-]|[Hne Hx']]; [done|]. split; [by exists x|].
      intros [Hw|Hf]; [|done]. left. cbn. apply wbare_insert; [by apply (ib_wcur _ B)|]. by right.
  - (* destroy an idle coroutine *)
    destruct M as (_&_&Hnw&_). eapply own_gen; [exact O|done| |]; intros k''; cbn.
    + intros Hk Hb. assert (k'' <> j). { intros ->. apply Hb. by right. } split.
      * destruct Hk as (x&Hx'&?). exists x. cbn. by rewrite lookup_insert_ne.
      * intros [Hw|Hf]; [|done]. apply Hb. left. cbn in Hw. apply wbare_insert in Hw as [Hw|?]; [|done|by apply (ib_wcur _ B)].
        destruct w; [|done|done]. by destruct (Hnw j0 o po k).
    + intros (x&Hx'&Hu). cbn in Hx'. apply lookup_insert_Some in Hx' as [[<- <-]|[Hne Hx']]; [done|]. split; [by exists x|].
      intros [Hw|Hf]; [|done]. left. cbn. apply wbare_insert; [by apply (ib_wcur _ B)|]. by right.
  - (* a pull function is entered *)
    destruct M as (I&Hnk&Hnh). destruct O as [O1 O2 O3]. cbn in *.
    assert (Hnn : a_co a !! n = None). { destruct (a_co a !! n) eqn:E; [|done]. apply (ic_dom _ _ _ _ _ I) in E. lia. }
    assert (Hno : forall e, ep_co e = n -> ~ owned (a_h a) e).
    { intros e <- (x&[sd kd' o]&Hh&E). cbn in E. subst. apply (ic_hd _ _ _ _ _ I) in Hh. lia. }
    assert (Hs : a_h a !! a_nh a = None). { destruct (a_h a !! a_nh a) eqn:E; [|done]. apply (d_h _ D) in E. cbn in E. lia. }
    split; cbn.
    + apply hinj_new; [done|]. by apply Hno.
    + intros k' [Hk'|Hk']%owned_insert; [done|]. destruct (O2 _ Hk') as [(x&Hx'&Hu) Hb].
      assert (k' <> n) by congruence. split; [exists x; cbn; by rewrite lookup_insert_ne|].
      intros [Hw|?]; [|done]. apply Hb. left. cbn in Hw. apply wbare_insert in Hw as [Hw|?]; [|done|by apply (ib_wcur _ B)]. by cbn in Hw.
    + intros k' (x&Hx'&Hu). cbn in Hx'. apply lookup_insert_Some in Hx' as [[<- <-]|[Hne Hx']].
      * left. left. cbn. apply wbare_insert; [by apply (ib_wcur _ B)|]. by left.
      * destruct (O3 k') as [[Hw|?]|?]; [by exists x| |done|].
        -- left. left. cbn. apply wbare_insert; [by apply (ib_wcur _ B)|]. by right.
        -- right. apply owned_insert'; [done|]. by rewrite Hs.
  - (* push object made *)
    destruct M as (I&Hnk&Hnh). destruct O as [O1 O2 O3]. cbn in *.
    assert (Hnn : a_co a !! n = None). { destruct (a_co a !! n) eqn:E; [|done]. apply (ic_dom _ _ _ _ _ I) in E. lia. }
    assert (Hno : forall e, ep_co e = n -> ~ owned (a_h a) e).
    { intros e <- (x&[sd kd' o]&Hh&E). cbn in E. subst. apply (ic_hd _ _ _ _ _ I) in Hh. lia. }
    assert (Hs : a_h a !! a_nh a = None). { destruct (a_h a !! a_nh a) eqn:E; [|done]. apply (d_h _ D) in E. cbn in E. lia. }
    assert (Hs' : a_h a !! h = None). { destruct (a_h a !! h) eqn:E; [|done]. apply (d_h _ D) in E. cbn in E. lia. }
    split; cbn.
    + apply hinj_new; [apply hinj_new; [done|by apply Hno]|]. intros [Hk'|Hk']%owned_insert; [done|]. by apply (Hno (Outer n)).
    + intros k' [Hk'|[Hk'|Hk']%owned_insert]%owned_insert; [|done|].
      * simplify_eq. split; [eexists; cbn; rewrite lookup_insert; done|]. intros [Hw|?]; [|done].
        destruct (wait_new_run _ _ B Hw) as (x&Hx'&E). congruence.
      * destruct (O2 _ Hk') as [(x&Hx'&Hu) Hb]. assert (k' <> n) by congruence.
        split; [exists x; cbn; by rewrite lookup_insert_ne|]. intros [Hw|?]; [|done]. apply Hb. by left.
    + intros k' (x&Hx'&Hu). cbn in Hx'. apply lookup_insert_Some in Hx' as [[<- <-]|[Hne Hx']]; [right; apply owned_here|].
      destruct (O3 k') as [[Hw|?]|?]; [by exists x|left; by left|done|].
      right. apply owned_insert'; [apply owned_insert'; [done|by rewrite Hs]|]. rewrite lookup_insert_ne by lia. by rewrite Hs'.
  - (* left *)
    destruct M as (I&c'&Hc&Hst). assert (c' = c) as -> by congruence.
    assert (j = a_cur a) as ->.
    { destruct (ib_act _ B _ _ H) as [_ (w&Hw&E)]; [by rewrite Hst|]. by simplify_eq. }
    eapply own_gen; [exact O|done| |]; intros k''; cbn.
    + intros Hk Hb. split.
      * eapply alive_ins2; [exact Hk|exact H|done|]. by rewrite Hst.
      * intros [Hw|Hf]; cbn in *; apply Hb; left; apply (wbare_delete _ _ _ _ H0); [by right|]. left. by destruct po.
    + intros Hk. split.
      * eapply alive_ins1; [exact Hk|exact H|done|]. by rewrite Hst.
      * intros [Hw|Hf]; [|done]. apply (wbare_delete _ _ _ _ H0) in Hw as [Hw|Hw]; [right|by left]. by destruct po.
  - (* counterpart destroyed *)
    destruct O as [O1 O2 O3]. cbn in *. split; cbn; [by apply hinj_delete| |].
    + intros k' Hk'. apply owned_delete in Hk'. by apply O2.
    + intros k' Hk'. destruct (O3 _ Hk'); [by left|]. right. eapply owned_delete'; [done|by apply H2|done].
  - destruct O as [O1 O2 O3]. cbn in *. split; cbn; [by apply hinj_delete| |].
    + intros k' Hk'. assert (k' <> j). { intros ->. revert Hk'. by eapply owned_delete_own. }
      apply owned_delete, O2 in Hk' as [? Hb]. split; [done|]. intros [?|?]; [|done]. apply Hb. by left.
    + intros k' Hk'. destruct (decide (k' = j)) as [->|]; [left; by right|]. destruct (O3 _ Hk') as [[?|?]|?]; [left; by left|done|].
      right. eapply owned_delete'; [done| |done]. cbn. congruence.
  - (* stack released *)
    destruct M as (I&c'&Hc&Hst). assert (c' = c) as -> by congruence.
    assert (Hy : OwnI (a1, MFoc)).
    { eapply own_gen; [exact O|done| |]; intros k''; cbn.
      - intros (x&Hx'&Hu) Hb. assert (k'' <> a_cur a) by congruence. split.
        + exists x. cbn. by rewrite lookup_delete_ne.
        + intros [Hw|Hf]; [|done]. apply Hb. left. cbn in *. apply (wbare_delete _ _ _ _ H0). by right.
      - intros (x&Hx'&Hu). cbn in Hx'. apply lookup_delete_Some in Hx' as [Hne Hx']. split; [by exists x|].
        intros [Hw|Hf]; [|done]. cbn in *. apply (wbare_delete _ _ _ _ H0) in Hw as [Hw|Hw]; [|by left]. by destruct w as [? ? [] ?| |]. }
    destruct w as [|? ? []|]; [done|..]; subst y; by eapply own_quiet; [exact Hy|..].
Qed.

Theorem mreach_own p u x : mreach p u x -> OwnI x.
Proof. apply (mreach_ind p u OwnI); [apply own_init|intros ???; by eapply own_step]. Qed.

End own.
