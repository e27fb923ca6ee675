(** Tgt.v -- what the calls in progress are about, and what has just happened when
    a call comes back. *)
From stdpp Require Import prelude gmap relations.
From Coq Require Import Lia.
From Verif Require Import Base Model Spec InvSpec Main Micro Trace Life Pend Den.

Section tgt.
Context {env : Env}.

Definition sts (a : astate) (k : nat) (P : astatus -> Prop) : Prop := exists c, a_co a !! k = Some c /\ P (ac_st c).
Definition is_susp (s : astatus) : Prop := exists o po k, s = ASusp o po k.

Definition kfl (f : kfin) (ph : phase) : Prop :=
  match f with KfEmpty _ _ => ph = PDone None | KfThrow e => ph = PDone (Some e) | KfDestroy => True end.
Definition kfs (f : kfin) (s : astatus) : Prop :=
  match f with KfEmpty _ _ => s = ADone None | KfThrow e => s = ADone (Some e) | KfDestroy => True end.

(** Operation [o], which transferred control, returns. *)
Definition xret (a : astate) (t : option ep) : Prop :=
  (exists j, j <> a_cur a /\ t = Some (Outer j) /\ sts a j (fun s => is_susp s \/ (s = ADone None /\ exists h, a_tr a = EvLeave j None :: h))) \/
  t = Some (Inner (a_cur a)).

Definition itret (a : astate) (h : nat) (r : ans) : Prop :=
  exists ho b, a_h a !! h = Some ho /\ avalid (h_ep ho) a = Some b /\ r = AIt (if b then Some h else None).

Definition tret (a : astate) (o : opn) (r : ans) : Prop :=
  let t := tgt (a_cur a) (a_tr a) in
  match o with
  | NNew Pull kd => exists j h h', r = AH h /\ a_tr a = EvNew j h :: h' /\ t = Some (Outer j) /\ j <> a_cur a /\ sts a j is_susp
  | NNew Push kd => exists n h h', r = AH h /\ a_tr a = EvNew n h :: EvAlloc n :: EvCall (a_cur a) (NNew Push kd) :: h'
  | NOp (ODestroy _) => exists j h', a_tr a = EvFree j :: h' /\ t = Some (Outer j)
  | NOp (OItInc (Some h)) => xret a t /\ itret a h r
  | NOp (OOutAssign (Some h) _) => xret a t /\ itret a h r
  | NOp _ => xret a t
  end.

Definition pushop (o : opn) : Prop :=
  match o with NOp (OPush _ _) | NOp (OOutAssign _ _) => True | _ => False end.

Definition texn (a : astate) (o : opn) (x : exn) : Prop :=
  let c := a_cur a in
  let t := tgt c (a_tr a) in
  match x with
  | XUnwind => t = Some (Inner c) /\ sts a c (fun s => s = AUnw true) /\ (exists po, pst o po /\ npo po)
  | XUser e =>
      (exists j h', j <> c /\ a_tr a = EvLeave j (Some (XUser e)) :: h' /\ t = Some (Outer j) /\ sts a j (fun s => s = ADone (Some e)) /\ exists po, pst o po /\ npo po) \/
      (exists n h', t = Some n /\ pushop o /\ (a_tr a = EvCall c o :: h' \/ a_tr a = EvDel (ep_co n) :: EvCall c o :: h')) \/
      (exists sd kd h', o = NNew sd kd /\ a_tr a = EvCall c o :: h') \/
      (exists sd kd n h', o = NNew sd kd /\ a_tr a = EvAlloc n :: EvCall c o :: h') \/
      (exists kd j h', o = NNew Pull kd /\ a_tr a = EvFree j :: h' /\ t = Some (Outer j) /\ life j h' = PDone (Some e))
  end.

Definition tfoc (a : astate) (f : mfoc) : Prop :=
  let c := a_cur a in
  let t := tgt c (a_tr a) in
  match f with
  | MFoc | MExit3 => True
  | MLeft y => exists h', a_tr a = EvLeave c (XUser <$> y) :: h'
  | MCall o _ => (exists h', a_tr a = EvCall c (NOp o) :: h') /\ (forall h, opobj o = Some h -> t = a_h a !! h ≫= h_ep)
  | MNew sd kd _ _ _ => exists h', a_tr a = EvCall c (NNew sd kd) :: h'
  | MNew2 sd kd _ _ _ _ n => exists h', a_tr a = EvAlloc n :: EvCall c (NNew sd kd) :: h'
  | MPush e _ _ _ o _ _ => t = Some e /\ pushop o /\ exists h', a_tr a = EvCall c o :: h'
  | MPush2 e _ _ o _ _ => t = Some e /\ pushop o /\ exists h', a_tr a = EvCall c o :: h' \/ a_tr a = EvDel (ep_co e) :: EvCall c o :: h'
  | MXfer e o _ _ => t = Some e
  | MGot j o po _ (Some e) => j <> c /\ t = Some (Outer j) /\ (exists h', a_tr a = EvLeave j (Some (XUser e)) :: h') /\ sts a j (fun s => s = ADone (Some e))
  | MGot j o po _ None =>
      (j <> c /\ t = Some (Outer j) /\ sts a j (fun s => is_susp s \/ (s = ADone None /\ exists h, a_tr a = EvLeave j None :: h))) \/ (j = c /\ t = Some (Inner j) /\ npo po)
  | MKill j w | MKill2 j w =>
      match w with
      | WKill _ o fin _ => t = Some (Outer j) /\ (fin <> KfDestroy -> sts a j (kfs fin))
      | WExit _ => True
      | WOp _ _ _ _ => False
      end
  | MEmpty _ _ _ _ => exists j h', a_tr a = EvFree j :: h' /\ t = Some (Outer j) /\ life j h' = PDone None
  | MRet o r _ => tret a o r
  | MExn o x _ => texn a o x
  end.

Record TgtI (x : astate * mfoc) : Prop := {
  tg_wait : forall c w, a_wait x.1 !! c = Some w ->
    match w with
    | WOp j _ _ _ => tgt c (a_tr x.1) = Some (Outer j)
    | WKill j _ f _ => tgt c (a_tr x.1) = Some (Outer j) /\ kfl f (life j (a_tr x.1))
    | WExit _ => True
    end;
  tg_susp : forall k, sts x.1 k is_susp -> tgt k (a_tr x.1) = Some (Inner k);
  tg_foc : tfoc x.1 x.2 }.

Lemma tgt_init p u : TgtI (ainit p u, MFoc).
Proof. split; cbn; try done. intros k (c&Hc&_). cbn in Hc. by rewrite lookup_empty in Hc. Qed.

(** Steps inside one context. *)
Lemma tgt_quiet x y : TgtI x -> basic x.1 -> a_cur y.1 = a_cur x.1 -> a_wait y.1 = a_wait x.1 ->
  (forall k, k <> a_cur x.1 -> sts y.1 k is_susp -> sts x.1 k is_susp) ->
  (forall c, c <> a_cur x.1 -> tgt c (a_tr y.1) = tgt c (a_tr x.1)) ->
  (forall c j o f k, a_wait x.1 !! c = Some (WKill j o f k) -> kfl f (life j (a_tr x.1)) -> kfl f (life j (a_tr y.1))) ->
  (sts y.1 (a_cur x.1) is_susp -> False) ->
  tfoc y.1 y.2 -> TgtI y.
Proof.
  intros [T1 T2 T3] B Hc Hw Hs Ht Hl Hn Hf. split; [| |done].
  - intros c w. rewrite Hw. intros Hcw. pose proof (T1 _ _ Hcw) as H1.
    assert (c <> a_cur x.1) by (intros ->; by rewrite (ib_wcur _ B) in Hcw).
    destruct w; [by rewrite Ht| |done]. rewrite Ht by done. destruct H1. split; [done|]. eauto.
  - intros k Hk. destruct (decide (k = a_cur x.1)) as [->|]; [done|]. rewrite Ht by done. auto.
Qed.

Lemma cur_not_susp a : basic a -> sts a (a_cur a) is_susp -> False.
Proof.
  intros B (c&Hc&o&po&k&E). destruct (basic_inactive _ _ _ B Hc); [by rewrite E|done].
Qed.

Lemma sts_insert a a' n c c' k P : a_co a !! n = Some c -> ac_st c' = ac_st c -> a_co a' = <[n := c']> (a_co a) -> sts a' k P -> sts a k P.
Proof.
  intros H E Hco (x&Hx&HP). rewrite Hco in Hx. destruct (decide (n = k)) as [<-|].
  - rewrite lookup_insert in Hx. simplify_eq. exists c. by rewrite <- E.
  - rewrite lookup_insert_ne in Hx by done. by exists x.
Qed.
Lemma sts_insert' a a' n c c' k P : a_co a !! n = Some c -> ac_st c' = ac_st c -> a_co a' = <[n := c']> (a_co a) -> sts a k P -> sts a' k P.
Proof.
  intros H E Hco (x&Hx&HP). unfold sts. rewrite Hco. destruct (decide (n = k)) as [<-|].
  - rewrite lookup_insert. simplify_eq. eexists. split; [done|]. by rewrite E.
  - rewrite lookup_insert_ne by done. by exists x.
Qed.

Lemma sts_slot a a' n c s k P : a_co a !! n = Some c -> a_co a' = <[n := c_slot s c]> (a_co a) -> sts a' k P -> sts a k P.
Proof. intros H E. eapply sts_insert; [exact H| |exact E]. done. Qed.

Lemma tgt_switch a f n c c' w a' f' : TgtI (a, f) -> basic a ->
  a_co a !! n = Some c -> active (ac_st c) = false -> active (ac_st c') = true ->
  match w with
  | WOp j _ _ _ => tgt (a_cur a) (a_tr a) = Some (Outer j)
  | WKill j _ f _ => tgt (a_cur a) (a_tr a) = Some (Outer j) /\ kfl f (life j (a_tr a))
  | WExit _ => True
  end ->
  (forall k, tgt k (a_tr a') = tgt k (a_tr a)) ->
  (forall c j o f k, a_wait a' !! c = Some (WKill j o f k) -> kfl f (life j (a_tr a)) -> kfl f (life j (a_tr a'))) ->
  a_co a' = <[n := c']> (a_co a) -> a_wait a' = <[a_cur a := w]> (a_wait a) -> a_cur a' = n ->
  tfoc a' f' -> TgtI (a', f').
Proof.
  intros [T1 T2 T3] B Hc Hna Hc' Hw Ht Hl Hco Hwt Hcur Hf. cbn in *.
  destruct (basic_inactive _ _ _ B Hc Hna) as [Hnc Hnw]. split; cbn; [| |done].
  - intros x v Hv. rewrite Ht. assert (Hm : match v with
      | WOp j _ _ _ => tgt x (a_tr a) = Some (Outer j)
      | WKill j _ f _ => tgt x (a_tr a) = Some (Outer j) /\ kfl f (life j (a_tr a))
      | WExit _ => True
      end).
    { pose proof Hv as Hv'. rewrite Hwt in Hv'. destruct (decide (x = a_cur a)) as [->|]; [rewrite lookup_insert in Hv'; by simplify_eq|].
      rewrite lookup_insert_ne in Hv' by done. by apply T1. }
    destruct v; [done| |done]. destruct Hm. split; [done|]. eauto.
  - intros k Hk. rewrite Ht. apply T2. destruct Hk as (x&Hx&o&po&k'&E). rewrite Hco in Hx. destruct (decide (k = n)) as [->|].
    + rewrite lookup_insert in Hx. simplify_eq. by rewrite E in Hc'.
    + rewrite lookup_insert_ne in Hx by done. exists x. split; [done|]. by do 3 eexists.
Qed.

Lemma tgt_back a f c c' a' f' : TgtI (a, f) -> basic a ->
  a_co a !! a_cur a = Some c ->
  (is_susp (ac_st c') -> tgt (a_cur a) (a_tr a) = Some (Inner (a_cur a))) ->
  a_tr a' = a_tr a ->
  a_co a' = <[a_cur a := c']> (a_co a) -> a_wait a' = delete (ac_by c) (a_wait a) ->
  tfoc a' f' -> TgtI (a', f').
Proof.
  intros [T1 T2 T3] B Hc Hs Ht Hco Hwt Hf. cbn in *. split; cbn; [| |done].
  - intros x v Hv. rewrite Ht. rewrite Hwt in Hv. apply lookup_delete_Some in Hv as [_ Hv]. by apply T1.
  - intros k (x&Hx&E). rewrite Ht. rewrite Hco in Hx. destruct (decide (k = a_cur a)) as [->|].
    + rewrite lookup_insert in Hx. simplify_eq. auto.
    + rewrite lookup_insert_ne in Hx by done. apply T2. by exists x.
Qed.

Ltac tq T B := eapply (tgt_quiet _ _ T B); cbn; try done; try (exact (cur_not_susp _ B)).

Lemma wkill_life x c j o f k : LifeI x -> basic x.1 -> a_wait x.1 !! c = Some (WKill j o f k) -> f <> KfDestroy ->
  kfl f (life j (a_tr x.1)) -> 0 < j < a_nk x.1 /\ exists y, life j (a_tr x.1) = PDone y.
Proof.
  intros L B Hw Hf Hk. destruct (ib_wait _ B _ _ Hw) as (z&Hz&_). cbn in Hz. split; [by eapply (ib_dom _ B)|].
  destruct f; cbn in *; eauto. done.
Qed.

Lemma tgt_step p u x y : mreach p u x -> TgtI x -> micro x y -> TgtI y.
Proof.
  intros Hx T Hm. pose proof (mreach_minv _ _ _ Hx) as M. pose proof (mreach_basic _ _ _ Hx) as B.
  pose proof (mreach_pend _ _ _ Hx) as P. pose proof (mreach_den _ _ _ Hx) as D. pose proof (mreach_life _ _ _ Hx) as L.
  pose proof (tg_foc _ T) as F.
  destruct Hm; cbn in M, B, F.
  - tq T B.
  - (* call *)
    tq T B.
    + intros c Hc. by rewrite decide_False.
    + split; [by eexists|]. intros h Hh. rewrite decide_True by done. cbn. rewrite Hh. cbn.
      rewrite (d_den2 _ D); cbn; [by destruct (a_h a !! h) as [[? ? []]|]| |done].
      apply known_hid; [|intros k0 c Hk0; apply (no_unw (a, MFoc) k0 c D); [cbn; by rewrite H|done]].
      rewrite forallb_forall in H0. apply H0. apply elem_of_list_In. destruct o; cbn in Hh; simplify_eq; cbn; try set_solver; destruct i; cbn; set_solver.
  - tq T B.
    + intros c Hc. by rewrite decide_False.
    + by eexists.
  - tq T B.
  - tq T B.
  - (* local *)
    apply local_op_frame in H as (E1&E2&E3&E4&E5&E6).
    assert (Hst : forall k0, sts a' k0 is_susp -> sts a k0 is_susp).
    { intros k0. destruct E6 as [E6|(n&c&s&Hn&E6)].
      - intros (z&Hz&Hzs). rewrite E6 in Hz. by exists z.
      - exact (sts_slot _ _ _ _ _ _ _ Hn E6). }
    eapply (tgt_quiet _ _ T B); cbn; rewrite ?E1, ?E2, ?E3; try done.
    + intros k0 _. apply Hst.
    + intros Hk. eapply cur_not_susp; [exact B|]. by apply Hst.
  - tq T B.
  - (* destroying an owner *)
    destruct F as [_ F]. specialize (F h eq_refl). rewrite H in F. cbn in F.
    tq T B.
  - destruct F as [_ F]. specialize (F h eq_refl). rewrite H in F. tq T B.
  - destruct F as [_ F]. specialize (F h eq_refl). rewrite H in F. tq T B.
  - destruct F as [F1 F]. specialize (F h eq_refl). rewrite H in F. tq T B.
  - destruct F as [F1 F]. specialize (F h eq_refl). rewrite H in F. tq T B.
  - destruct F as (F1&F2&F3). tq T B.
  - destruct F as (F1&F2&F3). tq T B; [intros k0 _; refine (sts_slot a _ _ _ _ _ _ H _); reflexivity|]. intros Hs. eapply cur_not_susp; [exact B|]. revert Hs; refine (sts_slot a _ _ _ _ _ _ H _); reflexivity.
  - destruct F as (F1&F2&h'&F3). tq T B; [intros k0 _; refine (sts_slot a _ _ _ _ _ _ H _); reflexivity| |].
    + intros Hs. eapply cur_not_susp; [exact B|]. revert Hs; refine (sts_slot a _ _ _ _ _ _ H _); reflexivity.
    + split; [done|]. split; [done|]. exists h'. right. by rewrite F3.
  - destruct F as (F1&F2&h'&F3). tq T B. split; [done|]. split; [done|]. exists h'. by left.
  - destruct F as (F1&F2&h'&F3). tq T B; [intros k0 _; refine (sts_slot a _ _ _ _ _ _ H _); reflexivity|]. intros Hs. eapply cur_not_susp; [exact B|]. revert Hs; refine (sts_slot a _ _ _ _ _ _ H _); reflexivity.
  - destruct F as (F1&F2&h'&F3). tq T B. right; left. exists e, h'. done.
  - (* resume *)
    eapply (tgt_switch _ _ n c _ (WOp n o po k) _ _ T B); cbn; try done.
    + by rewrite H0.
    + done.
    + right. split; [done|]. split; [apply (tg_susp _ T); exists c; split; [done|]; rewrite H0; by do 3 eexists|].
      intros h kd ->. by destruct (ib_post _ B _ _ o' h kd k' H).
  - (* enter *)
    eapply (tgt_switch _ _ n c _ (WOp n o po k) _ _ T B); cbn; try done.
    + by rewrite H0.
    + done.
    + intros c0 j o0 f0 k0 Hw Hf. destruct (decide (n = j)) as [->|]; [|done]. exfalso.
      destruct (basic_inactive _ _ _ B H) as [Hnc Hnw]; [by rewrite H0|].
      destruct (decide (c0 = a_cur a)) as [->|]; [by rewrite lookup_insert in Hw|]. rewrite lookup_insert_ne in Hw by done.
      destruct (ib_wait _ B _ _ Hw) as (z&Hz&_&Hu). cbn in Hz. simplify_eq. by rewrite H0 in Hu.
  - (* yield *)
    destruct M as (Hp&Hr&_). unfold resumable in Hr. apply andb_true_iff in Hr as [->%bool_decide_eq_true Hr].
    rewrite H in Hr. destruct (ac_st c) eqn:Hst; try done.
    destruct (ib_act _ B _ _ H) as [_ (w&Hw&Hwt)]; [by rewrite Hst|]. simplify_eq. cbn in Hwt. subst j.
    assert (Hne : ac_by c <> a_cur a). { intros E. rewrite E, (ib_wcur _ B) in H0. done. }
    eapply (tgt_back _ _ c _ _ _ T B); cbn; try done.
    left. split; [done|]. split; [by apply (tg_wait _ T _ _ H0)|]. eexists. cbn. rewrite lookup_insert. split; [done|]. cbn. left. by do 3 eexists.
  - tq T B. destruct F as (?&?&?&?). done.
  - destruct F as (F1&F2&(h'&F3)&F4). tq T B. left. exists j, h'. repeat (split; [done|]). exists po. split; [|done]. apply (pi_foc _ P).
  - tq T B. pose proof (pi_foc _ P) as [[h' ->]|(h'&g&->)]; cbn.
    + destruct F as [(?&?&?)|(->&?&?)]; [by left; eauto|by right].
    + destruct F as [(?&?&?)|(->&?&?)]; [by left; eauto|by right].
  - tq T B. pose proof (pi_foc _ P) as E. cbn in E. subst o. cbn. split; [|by exists (HObj Pull kd e), b].
    destruct F as [(?&?&?)|(->&?&?)]; [by left; eauto|by right].
  - tq T B. pose proof (pi_foc _ P) as [g E]. subst o. cbn. split; [|by exists (HObj Push kd e), b].
    destruct F as [(?&?&?)|(->&?&?)]; [by left; eauto|by right].
  - destruct F as [(F1&F2&F3)|(_&_&F)]; [|by destruct (F h kd)]. destruct F3 as (c'&Hc'&Hs). assert (c' = c) as -> by congruence.
    tq T B. split; [done|]. intros _. exists c. split; [done|]. cbn. destruct Hs as [(?&?&?&?)|[? _]]; congruence.
  - pose proof (pi_foc _ P) as E. cbn in E. subst o.
    destruct F as [(F1&F2&F3)|(_&_&F)]; [|by destruct (F h kd)]. tq T B.
    { intros c0 j0 o f k0 _ Hk. case_decide; [|done]. destruct f; cbn in *; [done| |]; by rewrite Hk. }
    exists j, h, (a_tr a). repeat (split; [done|]). exists c. split; [done|]. rewrite H0. by do 3 eexists.
  - tq T B.
  - tq T B.
  - (* destroy a suspended coroutine *)
    destruct M as (_&Hwt&Hop&_).
    eapply (tgt_switch _ _ j c _ w _ _ T B); cbn; try done.
    + by rewrite H0.
    + done.
    + destruct w as [|j' o' fin k'|]; [done| |done]. cbn in Hwt. subst j'. destruct F as [F1 F]. split; [done|].
      destruct fin; [done| |]; (destruct F as (c'&Hc'&F2); [done|]; assert (c' = c) as -> by congruence; rewrite H0 in F2; done).
    + split; [apply (tg_susp _ T); exists c; split; [done|]; rewrite H0; by do 3 eexists|].
      split; [eexists; cbn; rewrite lookup_insert; done|]. exists po. split; [by eapply (pi_susp _ P)|].
      intros h kd ->. by destruct (ib_post _ B _ _ o h kd k H).
  - (* destroy an idle coroutine *)
    destruct M as (_&Hwt&Hop&_).
    eapply (tgt_switch _ _ j c _ w _ _ T B); cbn; try done.
    + by destruct (ac_st c).
    + done.
    + destruct w as [|j' o' fin k'|]; [done| |done]. cbn in Hwt. subst j'. destruct F as [F1 F]. split; [done|].
      pose proof (li_st _ L _ _ H) as Hph. destruct fin; [done| |]; (destruct F as (c'&Hc'&F2); [done|]; assert (c' = c) as -> by congruence; cbn in *; rewrite F2 in Hph; done).
  - destruct F as [h' F]. tq T B. right; right; left. by exists sd, kd, h'.
  - destruct F as [h' F]. tq T B.
    + intros c Hc. rewrite F. rewrite decide_False by done. done.
    + intros c j o f k0 Hw Hf. destruct (ib_wait _ B _ _ Hw) as (z&Hz&_). cbn in Hz. apply (ib_dom _ B) in Hz.
      rewrite decide_False by lia. done.
    + exists h'. by rewrite F.
  - destruct F as [h' F]. tq T B. right; right; right; left. by exists sd, kd, n, h'.
  - (* a pull function is entered *)
    destruct F as [h' F]. destruct M as (I&Hn&Hh).
    assert (Hnn : a_co a !! n = None).
    { destruct (a_co a !! n) eqn:E; [|done]. apply (ic_dom _ _ _ _ _ I) in E. lia. }
    split; cbn; [| |done].
    + intros c w Hw. destruct (decide (c = a_cur a)) as [->|].
      * rewrite lookup_insert in Hw. simplify_eq. cbn. rewrite F. cbn. by rewrite decide_True.
      * rewrite lookup_insert_ne in Hw by done. pose proof (tg_wait _ T _ _ Hw) as H1. cbn in H1.
        destruct w as [|j o f k'|]; [done| |done]. destruct H1 as [H1 H2]. split; [done|].
        destruct (ib_wait _ B _ _ Hw) as (z&Hz&_). cbn in Hz. rewrite decide_False; [done|congruence].
    + intros k0 (z&Hz&Hs). cbn in Hz. destruct (decide (k0 = n)) as [->|].
      * rewrite lookup_insert in Hz. simplify_eq. destruct Hs as (?&?&?&?); done.
      * rewrite lookup_insert_ne in Hz by done. apply (tg_susp _ T). by exists z.
  - (* push object constructed *)
    destruct F as [h' F]. destruct M as (I&Hn&Hh).
    assert (Hnn : a_co a !! n = None).
    { destruct (a_co a !! n) eqn:E; [|done]. apply (ic_dom _ _ _ _ _ I) in E. lia. }
    assert (Hs : forall k0, sts (put_co n (ACo Push kd (ANew fn) SlEmpty (a_nh a) (a_cur a)) a) k0 is_susp -> sts a k0 is_susp).
    { intros k0 (z&Hz&Hs). cbn in Hz. destruct (decide (k0 = n)) as [->|].
      - rewrite lookup_insert in Hz. simplify_eq. destruct Hs as (?&?&?&?); done.
      - rewrite lookup_insert_ne in Hz by done. by exists z. }
    tq T B.
    + intros k0 _. apply Hs.
    + intros c j o f k0 Hw Hf. destruct (ib_wait _ B _ _ Hw) as (z&Hz&_). cbn in Hz. rewrite decide_False; [done|congruence].
    + intros Hk. eapply cur_not_susp; [exact B|]. by apply Hs.
    + exists n, h, h'. split; [done|]. by rewrite F.
  - (* leaving *)
    assert (a_cur a <> 0) as Hne. { intros E. apply (ib_dom _ B) in H1. lia. }
    pose proof (li_cur _ L Hne) as Hl. cbn in Hl. rewrite H in Hl. specialize (Hl eq_refl).
    tq T B; [|by eexists].
    intros c0 j o f k Hw Hf. destruct (decide (j = a_cur a)) as [->|].
    + exfalso. destruct f; cbn in Hf; [|congruence|congruence]. destruct (ib_wait _ B _ _ Hw) as (z&Hz&_&Hu). cbn in Hz. simplify_eq. by rewrite H2 in Hu.
    + destruct x; cbn; by rewrite decide_False.
  - (* control goes back after the function was left *)
    destruct F as [h' F]. destruct M as (I&c'&Hc&Hst). assert (c' = c) as -> by congruence.
    destruct (ib_act _ B _ _ H) as [_ (w&Hw&Hwt)]; [by rewrite Hst|]. simplify_eq. cbn in Hwt. subst j.
    assert (Hne : ac_by c <> a_cur a). { intros E. rewrite E, (ib_wcur _ B) in H0. done. }
    eapply (tgt_back _ _ c _ _ _ T B); cbn; try done.
    + by intros (?&?&?&?).
    + pose proof (tg_wait _ T _ _ H0) as Ht. cbn in Ht. destruct x as [e|]; cbn.
      * split; [done|]. split; [done|]. split; [by eexists|]. eexists. cbn. by rewrite lookup_insert.
      * left. split; [done|]. split; [done|]. eexists. cbn. rewrite lookup_insert. split; [done|]. cbn. right. split; [done|]. by eexists.
  - (* unwinding is over *)
    assert (a_cur a <> 0) as Hne. { intros E. apply (ib_dom _ B) in H0. lia. }
    pose proof (li_cur _ L Hne) as Hl. cbn in Hl. rewrite H in Hl. specialize (Hl eq_refl).
    tq T B.
    intros c0 j o f k Hw Hf. destruct (decide (a_cur a = j)) as [<-|]; [|done].
    destruct f; cbn in *; [done|congruence|congruence].
  - tq T B.
  - tq T B.
  - tq T B.
  - tq T B.
  - (* stack released *)
    destruct M as (I&c'&Hc&Hu). assert (c' = c) as -> by congruence.
    destruct (ib_act _ B _ _ H) as [_ (w'&Hw'&Hwt)]; [by apply unw_active|]. simplify_eq.
    pose proof (tg_wait _ T _ _ H0) as Q1.
    assert (Hall : forall f, tfoc a1 f -> TgtI (a1, f)).
    { intros f Hf. split; cbn; [| |done].
      - intros c0 w0 [Hne Hw0]%lookup_delete_Some. pose proof (tg_wait _ T _ _ Hw0) as Q2. cbn in Q2.
        destruct w0 as [|j o f0 k'|]; [done| |done]. destruct Q2 as [Q2 Q3]. split; [done|].
        destruct (ib_wait _ B _ _ Hw0) as (z&Hz&Hby&_). cbn in Hz. rewrite decide_False; [done|]. congruence.
      - intros k0 (z&Hz&Hs). cbn in Hz. apply lookup_delete_Some in Hz as [Hne Hz]. apply (tg_susp _ T). by exists z. }
    destruct w as [|j o [|h kd|e] k|j]; [done| | | |].
    + subst y. apply Hall. destruct Q1 as [Q1 _]. cbn in Hwt. subst j. pose proof (pi_wait _ P _ _ H0) as [h ->]. cbn. by exists (a_cur a), (a_tr a).
    + subst y. apply Hall. destruct Q1 as [Q1 Q2]. cbn in Hwt. subst j. by exists (a_cur a), (a_tr a).
    + subst y. apply Hall. destruct Q1 as [Q1 Q2]. cbn in Hwt. subst j. pose proof (pi_wait _ P _ _ H0) as [kd ->]. right; right; right; right.
      by exists kd, (a_cur a), (a_tr a).
    + subst y. destruct (Hall MFoc Logic.I) as [G1 G2 G3]. by split.
Qed.

Theorem mreach_tgt p u x : mreach p u x -> TgtI x.
Proof. apply (mreach_ind p u TgtI); [apply tgt_init|intros ???; by eapply tgt_step]. Qed.

End tgt.
