(** Den.v -- link between the history and the coroutine objects. *)
From stdpp Require Import prelude gmap relations.
From Coq Require Import Lia.
From Verif Require Import Base Model Spec InvSpec Main Micro Trace Life Pend.

Section den.
Context {env : Env}.

Definition hst (s : astatus) : nat := match s with ANew _ => 0 | AUnw false => 1 | _ => 2 end.

(** Object [h] is the counterpart of a coroutine that was not entered. *)
Definition hid (a : astate) (h : nat) : Prop :=
  exists k c, a_co a !! k = Some c /\ hst (ac_st c) <> 2 /\ ac_syn c = h.

(** Address set aside by a constructor in progress. *)
Definition wres (w : wait) : option nat :=
  match w with WOp _ _ (PoNew h _) _ | WKill _ _ (KfEmpty h _) _ => Some h | _ => None end.
Definition fres (f : mfoc) : option (nat * nat) :=
  match f with
  | MGot j _ (PoNew h _) _ _ => Some (h, j)
  | MKill j w | MKill2 j w => (fun h => (h, j)) <$> wres w
  | _ => None
  end.
Definition res (x : astate * mfoc) (h j : nat) : Prop :=
  (exists c w, a_wait x.1 !! c = Some w /\ wres w = Some h /\ wtarget w = j) \/ fres x.2 = Some (h, j).

Definition lim (x : astate * mfoc) : nat := match x.2 with MNew2 _ _ _ _ _ h _ => h | _ => a_nh x.1 end.

Definition exitish (x : astate * mfoc) : bool :=
  match x.2 with
  | MFoc => match a_foc x.1 with AUser _ => false | _ => true end
  | MExit3 => true
  | _ => false
  end.

Record DenI (x : astate * mfoc) : Prop := {
  d_h : forall h o, a_h x.1 !! h = Some o -> h < lim x;
  d_syn : forall k c, a_co x.1 !! k = Some c -> ac_syn c < lim x;
  d_inj : forall k k' c c', a_co x.1 !! k = Some c -> a_co x.1 !! k' = Some c' -> ac_syn c = ac_syn c' -> k = k';
  d_new : forall k c, a_co x.1 !! k = Some c -> hst (ac_st c) = 0 -> a_h x.1 !! ac_syn c = Some (HObj Pull (ac_kind c) (Some (Inner k)));
  d_unw : forall k c, a_co x.1 !! k = Some c -> hst (ac_st c) = 1 -> k = a_cur x.1 /\ exitish x = true /\
            (x.2 = MFoc -> a_foc x.1 = AExit -> a_h x.1 !! ac_syn c = Some (HObj Pull (ac_kind c) (Some (Inner k)))) /\
            (~ (x.2 = MFoc /\ a_foc x.1 = AExit) -> a_h x.1 !! ac_syn c = None);
  d_den1 : forall h, hid x.1 h -> den (a_tr x.1) !! h = None;
  d_den2 : forall h, ~ hid x.1 h -> (forall k, x.2 <> MCall (ODestroy h) k) -> den (a_tr x.1) !! h = h_ep <$> a_h x.1 !! h;
  d_den3 : forall h k, x.2 = MCall (ODestroy h) k -> den (a_tr x.1) !! h = None;
  d_known : forall o k, x.2 = MCall o k -> forall h, h ∈ op_hs o -> ~ hid x.1 h;
  d_res : forall h j, res x h j -> a_h x.1 !! h = None /\ exists c, a_co x.1 !! j = Some c /\ ac_syn c = S h;
  d_empty : forall o h kd k, x.2 = MEmpty o h kd k -> a_h x.1 !! h = None /\ h < a_nh x.1 /\ forall j, ~ res x h j;
  d_ret : forall sd kd h k, x.2 = MRet (NNew sd kd) (AH h) k -> is_Some (den (a_tr x.1) !! h) }.

Definition vw (c : acoro) := (ac_syn c, ac_kind c, hst (ac_st c)).
Definition colike (co co' : gmap nat acoro) : Prop := forall k, vw <$> co' !! k = vw <$> co !! k.

Lemma colike_refl co : colike co co. Proof. done. Qed.
Lemma colike_insert co n c c' : co !! n = Some c -> vw c' = vw c -> colike co (<[n := c']> co).
Proof.
  intros H E k. destruct (decide (n = k)) as [<-|]; [|by rewrite lookup_insert_ne].
  rewrite lookup_insert, H. cbn. by rewrite E.
Qed.
Lemma colike_l co co' k c' : colike co co' -> co' !! k = Some c' -> exists c, co !! k = Some c /\ ac_syn c = ac_syn c' /\ ac_kind c = ac_kind c' /\ hst (ac_st c) = hst (ac_st c').
Proof.
  intros H E. specialize (H k). rewrite E in H. destruct (co !! k) as [c|]; [|done]. cbn in H. unfold vw in H. exists c.
  injection H; intros. done.
Qed.
Lemma colike_sym co co' : colike co co' -> colike co' co.
Proof. intros H k. by rewrite H. Qed.
Lemma colike_r co co' k c : colike co co' -> co !! k = Some c -> exists c', co' !! k = Some c' /\ ac_syn c' = ac_syn c /\ ac_kind c' = ac_kind c /\ hst (ac_st c') = hst (ac_st c).
Proof. intros H. apply colike_l. by apply colike_sym. Qed.
Lemma colike_hid a a' h : colike (a_co a) (a_co a') -> hid a' h -> hid a h.
Proof. intros H (k&c&Hk&Hs&Hy). destruct (colike_l _ _ _ _ H Hk) as (c0&?&E1&E2&E3). exists k, c0. by rewrite E1, E3. Qed.

(** No un-entered coroutine is being destroyed when user code or the library works
    on behalf of user code. *)
Lemma no_unw x k c : DenI x -> exitish x = false -> a_co x.1 !! k = Some c -> hst (ac_st c) <> 1.
Proof. intros D He Hk H1. destruct (d_unw _ D _ _ Hk H1) as (_&He'&_). congruence. Qed.

Definition fplain (f : mfoc) : Prop :=
  match f with MCall _ _ | MEmpty _ _ _ _ | MRet (NNew _ _) (AH _) _ => False | _ => True end.

Lemma den_quiet x y : DenI x -> exitish x = false -> a_h y.1 = a_h x.1 -> lim x <= lim y -> colike (a_co x.1) (a_co y.1) ->
  den (a_tr y.1) = den (a_tr x.1) -> (forall h j, res y h j -> res x h j) ->
  (forall h k, x.2 <> MCall (ODestroy h) k) -> fplain y.2 -> DenI y.
Proof.
  intros D He Hh Hl Hc Hd Hr Hx Hy. pose proof (no_unw x) as Hnu. destruct D as [D1 D2 D3 D4 D5 D6 D7 D8 D9 D10 D11 D12].
  split; rewrite ?Hh, ?Hd.
  - intros. eapply Nat.lt_le_trans; [by eapply D1|done].
  - intros k c Hk. destruct (colike_l _ _ _ _ Hc Hk) as (c0&?&<-&_&_). eapply Nat.lt_le_trans; [by eapply D2|done].
  - intros k k' c c' Hk Hk' E. destruct (colike_l _ _ _ _ Hc Hk) as (c0&?&E1&_&_).
    destruct (colike_l _ _ _ _ Hc Hk') as (c0'&?&E2&_&_). eapply D3; eauto. congruence.
  - intros k c Hk Hs. destruct (colike_l _ _ _ _ Hc Hk) as (c0&?&E1&E2&E3). rewrite <- E1, <- E2. apply D4; congruence.
  - intros k c Hk Hs. exfalso. destruct (colike_l _ _ _ _ Hc Hk) as (c0&?&E1&E2&E3). eapply Hnu; eauto; [by split|congruence].
  - intros h Hh'. apply D6. by eapply colike_hid.
  - intros h Hh' _. apply D7; [|intros k E; by destruct (Hx h k)]. intros Hi. apply Hh'.
    eapply colike_hid; [|exact Hi]. by apply colike_sym.
  - intros h k E. rewrite E in Hy. done.
  - intros o k E. rewrite E in Hy. done.
  - intros h j Hj. destruct (D10 _ _ (Hr _ _ Hj)) as (?&c&Hc'&Hs). split; [done|].
    destruct (colike_r _ _ _ _ Hc Hc') as (c0&?&E1&_&_). exists c0. by rewrite E1.
  - intros o h kd k E. rewrite E in Hy. done.
  - intros sd kd h k E. rewrite E in Hy. done.
Qed.

Lemma den_init p u : DenI (ainit p u, MFoc).
Proof.
  split; cbn; try done.
  intros h j [(c&w&Hw&_)|Hf]; [|done]. cbn in Hw. by rewrite lookup_empty in Hw.
Qed.

Lemma den_ret o r c h : fst_ok (MRet o r c) -> match o with NNew _ _ => False | _ => True end -> forall n, den (EvRet n o r :: h) = den h.
Proof.
  intros F Ho n. cbn in *. destruct o as [o|]; [|done].
  destruct r; cbn in F; naive_solver.
Qed.

Lemma res_same x y : a_wait y.1 = a_wait x.1 -> fres y.2 = None -> forall h j, res y h j -> res x h j.
Proof. intros E F h j [?|?]; [|congruence]. left. by rewrite <- E. Qed.

Ltac dquiet D := eapply (den_quiet _ _ D); cbn; try done; try (by apply colike_refl); try (by apply res_same).

(** A reservation in a wait is for a running coroutine, distinct from one that is idle. *)
Lemma res_wait_active a c w h : basic a -> a_wait a !! c = Some w -> wres w = Some h ->
  exists x, a_co a !! wtarget w = Some x /\ active (ac_st x) = true.
Proof.
  intros B Hw Hr. destruct (ib_wait _ B _ _ Hw) as (x&Hx&_&Hm). exists x. split; [done|].
  destruct w; cbn in *; try done; [by rewrite Hm|by apply unw_active].
Qed.

Lemma local_den o a a' r k : DenI (a, MCall o k) -> local_op o a = Some (a', r) ->
  a_nh a <= a_nh a' /\
  (forall h, h < a_nh a -> a_h a !! h = None -> a_h a' !! h = None) /\
  (forall h x, a_h a' !! h = Some x -> h < a_nh a') /\
  (forall h, hid a h -> a_h a' !! h = a_h a !! h) /\
  (forall h, hid a h -> den (EvRet (a_cur a') (NOp o) r :: a_tr a) !! h = None) /\
  (forall h, ~ hid a h -> den (EvRet (a_cur a') (NOp o) r :: a_tr a) !! h = h_ep <$> a_h a' !! h) /\
  colike (a_co a) (a_co a').
Proof.
  intros D H. pose proof (d_known _ D _ _ eq_refl) as Hk. cbn in Hk.
  assert (Hsyn : forall h, hid a h -> h < a_nh a). { intros h (n&c&Hn&_&<-). by eapply (d_syn _ D). }
  assert (Hsame : a_h a' = a_h a -> a_nh a' = a_nh a -> colike (a_co a) (a_co a') -> (forall h, o <> ODestroy h) ->
            den (EvRet (a_cur a') (NOp o) r :: a_tr a) = den (a_tr a) ->
            a_nh a <= a_nh a' /\
            (forall h, h < a_nh a -> a_h a !! h = None -> a_h a' !! h = None) /\
            (forall h x, a_h a' !! h = Some x -> h < a_nh a') /\
            (forall h, hid a h -> a_h a' !! h = a_h a !! h) /\
            (forall h, hid a h -> den (EvRet (a_cur a') (NOp o) r :: a_tr a) !! h = None) /\
            (forall h, ~ hid a h -> den (EvRet (a_cur a') (NOp o) r :: a_tr a) !! h = h_ep <$> a_h a' !! h) /\
            colike (a_co a) (a_co a')).
  { intros -> -> Hc Ho Hd. split; [done|]. split; [done|]. split; [apply (d_h _ D)|]. split; [done|].
    split; [intros; rewrite Hd; by apply (d_den1 _ D)|]. split; [|done].
    intros h Hh. rewrite Hd. apply (d_den2 _ D); [done|]. cbn. intros k' [= E]. by destruct (Ho h). }
  destruct o; cbn in H; try (repeat case_match; simplify_eq; by apply Hsame).
  - (* move construction *)
    destruct (a_h a !! h) as [[sd kd e]|] eqn:Hh; [|done]. simplify_eq. cbn.
    assert (h < a_nh a) as Hlt by by eapply (d_h _ D).
    assert (~ hid a h) as Hnh by (apply Hk; set_solver).
    assert (Hdh : den (a_tr a) !! h = Some e). { rewrite (d_den2 _ D); [by cbn; rewrite Hh|done|done]. }
    rewrite Hdh. split; [lia|]. split; [|split; [|split; [|split; [|split; [|done]]]]].
    + intros h' Hh' Hn. rewrite !lookup_insert_ne by (try done; lia || congruence). done.
    + intros h' x Hx. destruct (decide (h' = h)) as [->|]; [lia|]. rewrite lookup_insert_ne in Hx by done.
      destruct (decide (h' = a_nh a)) as [->|]; [lia|]. rewrite lookup_insert_ne in Hx by done. apply (d_h _ D) in Hx. cbn in Hx. lia.
    + intros h' Hi. pose proof (Hsyn _ Hi). rewrite !lookup_insert_ne by (try lia; intros ->; done). done.
    + intros h' Hi. pose proof (Hsyn _ Hi). rewrite !lookup_insert_ne by (try lia; intros ->; done). by apply (d_den1 _ D).
    + intros h' Hi. destruct (decide (h' = h)) as [->|]; [by rewrite !lookup_insert|]. rewrite !(lookup_insert_ne _ h) by done.
      destruct (decide (h' = a_nh a)) as [->|]; [by rewrite !lookup_insert|]. rewrite !(lookup_insert_ne _ (a_nh a)) by done.
      by apply (d_den2 _ D).
  - (* move assignment *)
    destruct (a_h a !! h1) as [[sd1 kd1 e1]|] eqn:Hh1; [|done]. destruct (a_h a !! h2) as [[sd2 kd2 e2]|] eqn:Hh2; [|done].
    destruct (_ && _); [|done]. simplify_eq. cbn.
    assert (~ hid a h1) as Hn1 by (apply Hk; set_solver). assert (~ hid a h2) as Hn2 by (apply Hk; set_solver).
    assert (Hd1 : den (a_tr a) !! h1 = Some e1). { rewrite (d_den2 _ D); [by cbn; rewrite Hh1|done|done]. }
    assert (Hd2 : den (a_tr a) !! h2 = Some e2). { rewrite (d_den2 _ D); [by cbn; rewrite Hh2|done|done]. }
    rewrite Hd1, Hd2. split; [lia|]. split; [|split; [|split; [|split; [|split; [|done]]]]].
    + intros h' Hh' Hn. rewrite !lookup_insert_ne by congruence. done.
    + intros h' x Hx. destruct (decide (h' = h2)) as [->|]; [by eapply (d_h _ D)|]. rewrite lookup_insert_ne in Hx by done.
      destruct (decide (h' = h1)) as [->|]; [by eapply (d_h _ D)|]. rewrite lookup_insert_ne in Hx by done. by eapply (d_h _ D).
    + intros h' Hi. by rewrite !lookup_insert_ne by (intros ->; done).
    + intros h' Hi. rewrite !lookup_insert_ne by (intros ->; done). by apply (d_den1 _ D).
    + intros h' Hi. destruct (decide (h' = h2)) as [->|]; [by rewrite !lookup_insert|]. rewrite !(lookup_insert_ne _ h2) by done.
      destruct (decide (h' = h1)) as [->|]; [by rewrite !lookup_insert|]. rewrite !(lookup_insert_ne _ h1) by done.
      by apply (d_den2 _ D).
  - (* destruction of an object without coroutine, or of a counterpart *)
    assert (a' = w_h (delete h (a_h a)) a /\ r = AUnit) as [-> ->]. { repeat case_match; by simplify_eq. } clear H. cbn.
    assert (~ hid a h) as Hn by (apply Hk; set_solver).
    split; [done|]. split; [|split; [|split; [|split; [|split; [|done]]]]].
    + intros. rewrite lookup_delete_None. auto.
    + intros h' x Hx. apply lookup_delete_Some in Hx as [_ Hx]. by eapply (d_h _ D).
    + intros h' Hi. rewrite lookup_delete_ne; [done|]. by intros ->.
    + intros. by apply (d_den1 _ D).
    + intros h' Hi. destruct (decide (h' = h)) as [->|].
      * rewrite lookup_delete. by eapply (d_den3 _ D).
      * rewrite lookup_delete_ne by done. apply (d_den2 _ D); [done|]. cbn. congruence.
  - (* get *)
    destruct (a_h a !! h) as [[[] kd [e|]]|] eqn:Hh; try done.
    destruct (readable e a) as [c|] eqn:Hrd; [|done]. apply readable_co in Hrd.
    destruct kd; [| |done].
    + destruct (ac_slot c) as [|[v|]|] eqn:Hs; try done. destruct (move_exn v); [done|]. simplify_eq.
      apply Hsame; try done. cbn. by eapply colike_insert.
    + destruct (ac_slot c) as [|[v|]|] eqn:Hs; try done. simplify_eq. by apply Hsame.
Qed.

Lemma known_hid a h : known a h = true -> (forall k c, a_co a !! k = Some c -> hst (ac_st c) <> 1) -> ~ hid a h.
Proof.
  unfold known. intros Hk%bool_decide_eq_true Hn (k&c&Hc&Hs&Hy). specialize (Hk _ _ Hc). specialize (Hn _ _ Hc). cbn in Hk. unfold hides in Hk.
  destruct (ac_st c) as [| | | |[]]; cbn in *; try done. apply Nat.eqb_neq in Hk. done.
Qed.

(** A release, or a change of status, that leaves objects and history alone. *)
Theorem den_step p u x y : mreach p u x -> DenI x -> micro x y -> DenI y.
Proof.
  intros Hx D Hm. pose proof (mreach_minv _ _ _ Hx) as M. pose proof (mreach_basic _ _ _ Hx) as B.
  pose proof (mreach_pend _ _ _ Hx) as P.
  destruct Hm; cbn in M, B.
  - dquiet D; [by cbn; rewrite H].
  - (* call *)
    assert (He : exitish (a, MFoc) = false) by (cbn; by rewrite H).
    assert (Hkn : forall h, h ∈ op_hs o -> ~ hid a h).
    { intros h Hh. apply known_hid; [|intros ??; by apply (no_unw _ _ _ D)].
      rewrite forallb_forall in H0. apply H0. by apply elem_of_list_In. }
    pose proof (fun k c => no_unw (a, MFoc) k c D He) as Hnu. cbn in Hnu.
    destruct D as [D1 D2 D3 D4 D5 D6 D7 D8 D9 D10 D11 D12]. cbn in *. split; cbn; try done.
    + intros k0 c Hc Hs. by destruct (Hnu _ _ Hc).
    + intros h Hh. destruct o; try (by apply D6). by apply lookup_delete_None; right; apply D6.
    + intros h Hh Hne. destruct o; try (by apply D7). destruct (decide (h = h0)) as [->|]; [by destruct (Hne k)|].
      rewrite lookup_delete_ne by done. by apply D7.
    + intros h k0 [= -> ->]. by rewrite lookup_delete.
    + intros o0 k0 [= -> ->]. done.
  - dquiet D; [by cbn; rewrite H].
  - destruct o as [o|sd kd].
    + dquiet D. exact (den_ret (NOp o) r k (a_tr a) (pi_foc _ P) I (a_cur a)).
    + dquiet D. destruct r; try done.
      destruct (d_ret _ D sd kd h k eq_refl) as [e He]. cbn in He. by rewrite He.
  - dquiet D.
  - (* local operation *)
    destruct (local_den _ _ _ _ _ D H) as (L1&L2&L3&L4&L5&L6&L7).
    apply local_op_frame in H as (E1&E2&E3&E4&E5&_).
    pose proof (fun k0 c => no_unw (a, MCall o k) k0 c D eq_refl) as Hnu. cbn in Hnu.
    destruct D as [D1 D2 D3 D4 D5 D6 D7 D8 D9 D10 D11 D12]. cbn in *.
    assert (Hhid : forall h, hid a' h -> hid a h) by (intros; by eapply colike_hid).
    split; cbn -[den]; rewrite ?E1; try done.
    + intros k0 c Hk. destruct (colike_l _ _ _ _ L7 Hk) as (c0&Hc0&<-&_&_). pose proof (D2 _ _ Hc0). unfold lim; cbn in *. lia.
    + intros k0 k' c c' Hk Hk' E. destruct (colike_l _ _ _ _ L7 Hk) as (c0&?&Ea&_&_).
      destruct (colike_l _ _ _ _ L7 Hk') as (c0'&?&Eb&_&_). eapply D3; eauto. congruence.
    + intros k0 c Hk Hs. destruct (colike_l _ _ _ _ L7 Hk) as (c0&Hc0&Ea&Eb&Ec). rewrite <- Ea, <- Eb.
      rewrite L4; [apply D4; congruence|]. exists k0, c0. split; [done|]. split; [congruence|done].
    + intros k0 c Hk Hs. exfalso. destruct (colike_l _ _ _ _ L7 Hk) as (c0&Hc0&Ea&Eb&Ec). eapply Hnu; eauto. congruence.
    + intros h Hh. apply L5. by apply Hhid.
    + intros h Hh _. apply L6. intros Hi. apply Hh. eapply colike_hid; [|exact Hi]. by apply colike_sym.
    + intros h j [(c&w&Hw&Hr)|?]; [|done]. cbn in Hw. rewrite E2 in Hw. destruct (D10 h j) as (Hn&c0&Hc0&Hs); [left; eauto|].
      split; [|destruct (colike_r _ _ _ _ L7 Hc0) as (c1&?&Ea&_&_); exists c1; by rewrite Ea].
      apply L2; [|done]. pose proof (D2 _ _ Hc0). unfold lim in *; cbn in *. lia.
  - (* a pull constructor returns an empty object *)
    pose proof (pi_foc _ P) as F. cbn in F. subst o.
    destruct (d_empty _ D _ _ _ _ eq_refl) as (E1&E2&E3). cbn in E1, E2.
    pose proof (fun k0 c => no_unw _ k0 c D eq_refl) as Hnu. cbn in Hnu.
    destruct D as [D1 D2 D3 D4 D5 D6 D7 D8 D9 D10 D11 D12]. cbn in *.
    assert (Hnh : ~ hid a h).
    { intros (k0&c&Hc&Hs&Hy). specialize (Hnu _ _ Hc). rewrite <- Hy in E1. rewrite (D4 _ _ Hc) in E1; [done|].
      destruct (ac_st c) as [| | | |[]]; cbn in *; done. }
    assert (Hdh : den (a_tr a) !! h = None). { rewrite D7; [by rewrite E1|done|done]. }
    split; cbn; rewrite ?Hdh; try done.
    + intros h' x Hx'. destruct (decide (h' = h)) as [->|]; [done|]. rewrite lookup_insert_ne in Hx' by done. by eapply D1.
    + intros k0 c Hk Hs. rewrite lookup_insert_ne; [by apply D4|]. intros E. apply Hnh. exists k0, c. rewrite Hs. auto.
    + intros k0 c Hk Hs. by destruct (Hnu _ _ Hk).
    + intros h' Hh'. rewrite lookup_insert_ne by (intros <-; done). by apply D6.
    + intros h' Hh' _. destruct (decide (h' = h)) as [->|]; [by rewrite !lookup_insert|]. rewrite !lookup_insert_ne by done. by apply D7.
    + intros h' j [Hw|?]; [|done]. cbn in Hw. assert (h' <> h) by (intros ->; eapply E3; left; eauto). rewrite lookup_insert_ne by done. apply D10. by left.
  - (* destroying an owner *)
    assert (~ hid a h) as Hnh by (apply (d_known _ D _ _ eq_refl); set_solver).
    pose proof (d_den3 _ D _ _ eq_refl) as Hdh. cbn in Hdh.
    pose proof (fun k0 c => no_unw _ k0 c D eq_refl) as Hnu. cbn in Hnu.
    destruct D as [D1 D2 D3 D4 D5 D6 D7 D8 D9 D10 D11 D12]. cbn in *. split; cbn; try done.
    + intros h' o Ho. apply lookup_delete_Some in Ho as [_ Ho]. by eapply D1.
    + intros k0 c Hk Hs. rewrite lookup_delete_ne; [by apply D4|]. intros ->. apply Hnh. exists k0, c. rewrite Hs. auto.
    + intros k0 c Hk Hs. by destruct (Hnu _ _ Hk).
    + intros h' Hh' _. destruct (decide (h' = h)) as [->|]; [by rewrite lookup_delete|]. rewrite lookup_delete_ne by done.
      apply D7; [done|]. congruence.
    + intros h' j [Hw|?]; [|done]. cbn in Hw. rewrite lookup_delete_None. destruct (D10 h' j) as (?&?); [by left|]. auto.
  - dquiet D.
  - dquiet D.
  - dquiet D.
  - dquiet D.
  - dquiet D.
  - dquiet D; [by eapply colike_insert].
  - dquiet D; [by eapply colike_insert].
  - dquiet D.
  - dquiet D; [by eapply colike_insert].
  - dquiet D.
  - (* resume *)
    dquiet D; [eapply colike_insert; [done|]; unfold vw; cbn; by rewrite H0|].
    destruct M as (Hp&_). intros h j [(c0&w&Hw&Hr)|Hr]; cbn in *.
    + destruct (decide (c0 = a_cur a)) as [->|].
      * rewrite lookup_insert in Hw. destruct Hr as [Hr _]. simplify_eq. cbn in Hr. destruct po; try done. by destruct (Hp h0 kd).
      * rewrite lookup_insert_ne in Hw by done. left. eauto.
    + destruct po'; try done. by destruct (ib_post _ B _ _ o' h0 kd k' H).
  - (* enter *)
    destruct M as (Hp&_).
    pose proof (fun k0 c => no_unw _ k0 c D eq_refl) as Hnu. cbn in Hnu.
    destruct D as [D1 D2 D3 D4 D5 D6 D7 D8 D9 D10 D11 D12]. cbn in *.
    assert (Hs0 : hst (ac_st c) = 0) by by rewrite H0.
    pose proof (D4 _ _ H Hs0) as Hsyn.
    assert (Hhid : forall a' h, a_co a' = <[n:=c_by (a_cur a) (c_st ARun c)]> (a_co a) -> hid a' h <-> hid a h /\ h <> ac_syn c).
    { intros a' h Ha'. split.
      - intros (k0&c0&Hc0&Hs&Hy). rewrite Ha' in Hc0. destruct (decide (k0 = n)) as [->|]; [rewrite lookup_insert in Hc0; simplify_eq; done|].
        rewrite lookup_insert_ne in Hc0 by done. split; [exists k0, c0; done|]. intros ->. destruct (D3 _ _ _ _ Hc0 H Hy). done.
      - intros [(k0&c0&Hc0&Hs&Hy) Hne]. exists k0, c0. rewrite Ha'. rewrite lookup_insert_ne; [done|]. intros ->. by simplify_eq. }
    split; cbn; try done.
    + intros k0 c0 Hk. destruct (decide (k0 = n)) as [->|].
      * rewrite lookup_insert in Hk. simplify_eq. cbn. by eapply D2.
      * rewrite lookup_insert_ne in Hk by done. by eapply D2.
    + intros k0 k1 c0 c1 Hk0 Hk1 E. destruct (decide (k0 = n)) as [->|], (decide (k1 = n)) as [->|]; try done.
      * rewrite lookup_insert in Hk0. rewrite lookup_insert_ne in Hk1 by done. simplify_eq. by eapply D3.
      * rewrite lookup_insert in Hk1. rewrite lookup_insert_ne in Hk0 by done. simplify_eq. by eapply D3.
      * rewrite lookup_insert_ne in Hk0, Hk1 by done. by eapply D3.
    + intros k0 c0 Hk Hs. destruct (decide (k0 = n)) as [->|]; [rewrite lookup_insert in Hk; simplify_eq; done|].
      rewrite lookup_insert_ne in Hk by done. by apply D4.
    + intros k0 c0 Hk Hs. destruct (decide (k0 = n)) as [->|]; [rewrite lookup_insert in Hk; simplify_eq; done|].
      rewrite lookup_insert_ne in Hk by done. by destruct (Hnu _ _ Hk).
    + intros h Hh. apply Hhid in Hh as [Hh Hne]; [|done]. rewrite lookup_insert_ne by done. by apply D6.
    + intros h Hh _. destruct (decide (h = ac_syn c)) as [->|]; [by rewrite lookup_insert, Hsyn|]. rewrite lookup_insert_ne by done.
      apply D7; [|done]. intros Hi. apply Hh. by apply Hhid.
    + intros h j [(c0&w&Hw&Hr&Ht)|?]; [|done]. cbn in Hw. destruct (decide (c0 = a_cur a)) as [->|].
      * rewrite lookup_insert in Hw. simplify_eq. cbn in Hr. destruct po; try done. by destruct (Hp h0 kd).
      * rewrite lookup_insert_ne in Hw by done. destruct (D10 h j) as (?&c1&Hc1&?); [left; eauto|]. split; [done|].
        destruct (decide (j = n)) as [->|]; [rewrite lookup_insert; eexists; split; [done|]; simplify_eq; done|].
        rewrite lookup_insert_ne by done. eauto.
  - (* yield *)
    destruct M as (Hp&Hr&_). unfold resumable in Hr. rewrite H in Hr.
    apply andb_true_iff in Hr as [Hn%bool_decide_eq_true Hst]. destruct (ac_st c) eqn:Hst'; try done.
    dquiet D; [eapply colike_insert; [done|]; unfold vw; cbn; by rewrite Hst'|].
    assert (j = n) as ->. { destruct (ib_act _ B _ _ H) as [_ (w&Hw&<-)]; [by rewrite Hst'|]. by simplify_eq. }
    intros h j [(c0&w&Hw&Hr)|Hr]; cbn in *.
    + apply lookup_delete_Some in Hw as [_ Hw]. left. eauto.
    + left. exists (ac_by c), (WOp n o' po' k'). split; [done|]. destruct po'; try done. by simplify_eq/=.
  - dquiet D.
  - dquiet D.
  - dquiet D. by destruct o.
  - dquiet D. by destruct o.
  - dquiet D. by destruct o.
  - dquiet D.
  - (* pull object constructed *)
    assert (Hr : res (a, MGot j o (PoNew h kd) k None) h j) by by right.
    pose proof (fun k0 c => no_unw _ k0 c D eq_refl) as Hnu. cbn in Hnu.
    destruct D as [D1 D2 D3 D4 D5 D6 D7 D8 D9 D10 D11 D12]. cbn in *.
    destruct (D10 _ _ Hr) as (Hnone&c'&Hc'&Hsyn). cbn in Hnone, Hc'. assert (c' = c) as -> by congruence.
    pose proof (D2 _ _ H) as Hlt. unfold lim in Hlt; cbn in Hlt.
    assert (Hnh : ~ hid a h).
    { intros (k0&c0&Hc&Hs&Hy). specialize (Hnu _ _ Hc). rewrite <- Hy in Hnone. rewrite (D4 _ _ Hc) in Hnone; [done|].
      destruct (ac_st c0) as [| | | |[]]; cbn in *; done. }
    split; cbn; try done.
    + intros h' x Hx'. destruct (decide (h' = h)) as [->|]; [unfold lim; cbn; lia|]. rewrite lookup_insert_ne in Hx' by done. by eapply D1.
    + intros k0 c0 Hk Hs. rewrite lookup_insert_ne; [by apply D4|]. intros E. apply Hnh. exists k0, c0. rewrite Hs. auto.
    + intros k0 c0 Hk Hs. by destruct (Hnu _ _ Hk).
    + intros h' Hh'. rewrite lookup_insert_ne by (intros <-; done). by apply D6.
    + intros h' Hh' _. destruct (decide (h' = h)) as [->|]; [by rewrite !lookup_insert|]. rewrite !lookup_insert_ne by done. by apply D7.
    + intros h' j' [Hw|?]; [|done]. cbn in Hw. destruct (D10 h' j') as (?&c1&Hc1&Hs1); [by left|].
      assert (h' <> h); [|by rewrite lookup_insert_ne; eauto].
      intros ->. assert (j' = j) as -> by (eapply D3; eauto; congruence).
      destruct Hw as (c2&w&Hw&Hwr&Hwt). destruct (res_wait_active _ _ _ _ B Hw Hwr) as (x&Hxx&Hxa). rewrite Hwt in Hxx. simplify_eq.
      by rewrite H0 in Hxa.
    + intros sd kd0 h0 k0 E. injection E; intros; subst. rewrite lookup_insert. eauto.
  - dquiet D.
  - dquiet D.
  - (* destroy a suspended coroutine *)
    destruct M as (_&Hwt&_).
    dquiet D; [eapply colike_insert; [done|]; unfold vw; cbn; by rewrite H0|].
    intros h j' [(c0&w'&Hw&Hr&Ht)|?]; cbn in *; [|done]. destruct (decide (c0 = a_cur a)) as [->|].
    + rewrite lookup_insert in Hw. simplify_eq. right. cbn. by rewrite Hr.
    + rewrite lookup_insert_ne in Hw by done. left. eauto.
  - (* destroy an idle coroutine *)
    destruct M as (_&Hwt&_).
    assert (Hres : forall a', a_wait a' = <[a_cur a:=w]> (a_wait a) -> forall h j', res (a', MFoc) h j' -> res (a, MKill2 j w) h j').
    { intros a' Ha' h j' [(c0&w'&Hw&Hr&Ht)|?]; cbn in *; [|done]. rewrite Ha' in Hw. destruct (decide (c0 = a_cur a)) as [->|].
      + rewrite lookup_insert in Hw. simplify_eq. right. cbn. by rewrite Hr.
      + rewrite lookup_insert_ne in Hw by done. left. eauto. }
    destruct (ac_st c) as [fn| | |r|] eqn:Hst; try done; subst en.
    + pose proof (fun k0 c => no_unw _ k0 c D eq_refl) as Hnu. cbn in Hnu.
      destruct D as [D1 D2 D3 D4 D5 D6 D7 D8 D9 D10 D11 D12]. cbn in *.
      assert (Hs0 : hst (ac_st c) = 0) by by rewrite Hst. clear Hwt.
      set (c' := ACo _ _ _ _ _ _).
      assert (Hhid : forall a' h, a_co a' = <[j:=c']> (a_co a) -> hid a' h <-> hid a h).
      { intros a' h Ha'. split.
        - intros (k0&c0&Hc0&Hs&Hy). rewrite Ha' in Hc0. destruct (decide (k0 = j)) as [->|].
          + rewrite lookup_insert in Hc0. simplify_eq. exists j, c. rewrite Hs0. done.
          + rewrite lookup_insert_ne in Hc0 by done. exists k0, c0; done.
        - intros (k0&c0&Hc0&Hs&Hy). destruct (decide (k0 = j)) as [->|].
          + exists j, c'. rewrite Ha', lookup_insert. simplify_eq. done.
          + exists k0, c0. by rewrite Ha', lookup_insert_ne. }
      split; cbn; try done.
      * intros k0 c0 Hk. destruct (decide (k0 = j)) as [->|].
        -- rewrite lookup_insert in Hk. simplify_eq. cbn. by eapply D2.
        -- rewrite lookup_insert_ne in Hk by done. by eapply D2.
      * intros k0 k1 c0 c1 Hk0 Hk1 E. destruct (decide (k0 = j)) as [->|], (decide (k1 = j)) as [->|]; try done.
        -- rewrite lookup_insert in Hk0. rewrite lookup_insert_ne in Hk1 by done. simplify_eq. by eapply D3.
        -- rewrite lookup_insert in Hk1. rewrite lookup_insert_ne in Hk0 by done. simplify_eq. by eapply D3.
        -- rewrite lookup_insert_ne in Hk0, Hk1 by done. by eapply D3.
      * intros k0 c0 Hk Hs. destruct (decide (k0 = j)) as [->|]; [rewrite lookup_insert in Hk; simplify_eq; done|].
        rewrite lookup_insert_ne in Hk by done. by apply D4.
      * intros k0 c0 Hk Hs. destruct (decide (k0 = j)) as [->|].
        -- rewrite lookup_insert in Hk. simplify_eq. split; [done|]. split; [done|]. split; [intros _ _; exact (D4 _ _ H Hs0)|]. intros Hx'. by destruct Hx'.
        -- rewrite lookup_insert_ne in Hk by done. by destruct (Hnu _ _ Hk).
      * intros h Hh. apply D6. apply (Hhid _ h) in Hh; done.
      * intros h Hh _. apply D7; [|done]. intros Hi. apply Hh. apply (Hhid _ h); done.
      * intros h j' Hr. eapply Hres in Hr; [|done]. destruct (D10 _ _ Hr) as (?&c1&Hc1&?). split; [done|].
        destruct (decide (j' = j)) as [->|]; [rewrite lookup_insert; eexists; split; [done|]; simplify_eq; done|].
        rewrite lookup_insert_ne by done. eauto.
    + dquiet D; [eapply colike_insert; [done|]; unfold vw; cbn; by rewrite Hst|]. by apply Hres.
  - dquiet D; [unfold lim; cbn; lia].
  - dquiet D.
  - destruct M as (_&_&Hh). dquiet D; [unfold lim; cbn; lia].
  - (* entry of a pull coroutine *)
    destruct M as (I&Hn&Hh).
    assert (Hdom : forall k c, a_co a !! k = Some c -> 0 < k < n) by apply (ic_dom _ _ _ _ _ I).
    assert (Hnn : a_co a !! n = None). { destruct (a_co a !! n) eqn:E; [|done]. apply Hdom in E. lia. }
    pose proof (fun k0 c => no_unw _ k0 c D eq_refl) as Hnu. cbn in Hnu.
    destruct D as [D1 D2 D3 D4 D5 D6 D7 D8 D9 D10 D11 D12]. cbn in *.
    assert (Hhid : forall a' h, a_co a' = <[n := ACo Pull kd ARun SlEmpty (a_nh a) (a_cur a)]> (a_co a) -> hid a' h <-> hid a h).
    { intros a' h' Ha'. split.
      - intros (k0&c0&Hc0&Hs&Hy). rewrite Ha' in Hc0. destruct (decide (k0 = n)) as [->|]; [rewrite lookup_insert in Hc0; simplify_eq; done|].
        rewrite lookup_insert_ne in Hc0 by done. exists k0, c0; done.
      - intros (k0&c0&Hc0&Hs&Hy). exists k0, c0. rewrite Ha', lookup_insert_ne; [done|]. congruence. }
    assert (Hhs : forall h', hid a h' -> h' < h). { intros h' (k0&c0&Hc0&_&<-). by eapply D2. }
    split; cbn; try done.
    + intros h' o Ho. unfold lim; cbn. destruct (decide (h' = a_nh a)) as [->|]; [lia|]. rewrite lookup_insert_ne in Ho by done.
      apply D1 in Ho. unfold lim in Ho; cbn in Ho. lia.
    + intros k0 c Hk. unfold lim; cbn. destruct (decide (k0 = n)) as [->|].
      * rewrite lookup_insert in Hk. simplify_eq. cbn. lia.
      * rewrite lookup_insert_ne in Hk by done. apply D2 in Hk. unfold lim in Hk; cbn in Hk. lia.
    + intros k0 k1 c0 c1 Hk0 Hk1 E. destruct (decide (k0 = n)) as [->|], (decide (k1 = n)) as [->|]; try done.
      * rewrite lookup_insert in Hk0. rewrite lookup_insert_ne in Hk1 by done. simplify_eq. cbn in E. apply D2 in Hk1. unfold lim in Hk1; cbn in Hk1. lia.
      * rewrite lookup_insert in Hk1. rewrite lookup_insert_ne in Hk0 by done. simplify_eq. cbn in E. apply D2 in Hk0. unfold lim in Hk0; cbn in Hk0. lia.
      * rewrite lookup_insert_ne in Hk0, Hk1 by done. by eapply D3.
    + intros k0 c Hk Hs. destruct (decide (k0 = n)) as [->|]; [rewrite lookup_insert in Hk; simplify_eq; done|].
      rewrite lookup_insert_ne in Hk by done. pose proof (D2 _ _ Hk) as Hlt. unfold lim in Hlt; cbn in Hlt. rewrite lookup_insert_ne by lia. by apply D4.
    + intros k0 c Hk Hs. destruct (decide (k0 = n)) as [->|]; [rewrite lookup_insert in Hk; simplify_eq; done|].
      rewrite lookup_insert_ne in Hk by done. by destruct (Hnu _ _ Hk).
    + intros h' Hi. apply Hhid in Hi; [|done]. pose proof (Hhs _ Hi). rewrite lookup_insert_ne by lia. by apply D6.
    + intros h' Hi _. destruct (decide (h' = a_nh a)) as [->|]; [by rewrite !lookup_insert|]. rewrite !lookup_insert_ne by done.
      apply D7; [|done]. intros Hi'. apply Hi. by apply Hhid.
    + intros h' j [(c0&w&Hw&Hr&Ht)|?]; [|done]. cbn in Hw. destruct (decide (c0 = a_cur a)) as [->|].
      * rewrite lookup_insert in Hw. simplify_eq. cbn in *. simplify_eq. split.
        -- rewrite lookup_insert_ne by lia. destruct (a_h a !! h') eqn:E; [|done]. apply D1 in E. unfold lim in E; cbn in E. lia.
        -- rewrite lookup_insert. eexists. split; [done|]. cbn. lia.
      * rewrite lookup_insert_ne in Hw by done. destruct (D10 h' j) as (?&c1&Hc1&?); [left; eauto|].
        pose proof (D2 _ _ Hc1) as Hlt. unfold lim in Hlt; cbn in Hlt. rewrite lookup_insert_ne by lia. split; [done|].
        rewrite lookup_insert_ne by congruence. eauto.
  - (* push object constructed *)
    destruct M as (I&Hn&Hh).
    assert (Hdom : forall k c, a_co a !! k = Some c -> 0 < k < n) by apply (ic_dom _ _ _ _ _ I).
    assert (Hnn : a_co a !! n = None). { destruct (a_co a !! n) eqn:E; [|done]. apply Hdom in E. lia. }
    pose proof (fun k0 c => no_unw _ k0 c D eq_refl) as Hnu. cbn in Hnu.
    destruct D as [D1 D2 D3 D4 D5 D6 D7 D8 D9 D10 D11 D12]. cbn in *.
    assert (Hhid : forall a' h, a_co a' = <[n := ACo Push kd (ANew fn) SlEmpty (a_nh a) (a_cur a)]> (a_co a) -> hid a' h <-> hid a h \/ h = a_nh a).
    { intros a' h' Ha'. split.
      - intros (k0&c0&Hc0&Hs&Hy). rewrite Ha' in Hc0. destruct (decide (k0 = n)) as [->|]; [rewrite lookup_insert in Hc0; simplify_eq; by right|].
        rewrite lookup_insert_ne in Hc0 by done. left. exists k0, c0; done.
      - intros [(k0&c0&Hc0&Hs&Hy)| ->].
        + exists k0, c0. rewrite Ha', lookup_insert_ne; [done|]. congruence.
        + eexists n, _. rewrite Ha', lookup_insert. done. }
    assert (Hhs : forall h', hid a h' -> h' < h). { intros h' (k0&c0&Hc0&_&<-). by eapply D2. }
    assert (Hden : forall h', h <= h' -> den (a_tr a) !! h' = None).
    { intros h' Hle. rewrite D7; [|intros Hi; apply Hhs in Hi; lia|done]. destruct (a_h a !! h') eqn:E; [|done].
      apply D1 in E. unfold lim in E; cbn in E. lia. }
    split; cbn; try done.
    + intros h' o Ho. unfold lim; cbn. destruct (decide (h' = h)) as [->|]; [lia|]. rewrite lookup_insert_ne in Ho by done.
      destruct (decide (h' = a_nh a)) as [->|]; [lia|]. rewrite lookup_insert_ne in Ho by done.
      apply D1 in Ho. unfold lim in Ho; cbn in Ho. lia.
    + intros k0 c Hk. unfold lim; cbn. destruct (decide (k0 = n)) as [->|].
      * rewrite lookup_insert in Hk. simplify_eq. cbn. lia.
      * rewrite lookup_insert_ne in Hk by done. apply D2 in Hk. unfold lim in Hk; cbn in Hk. lia.
    + intros k0 k1 c0 c1 Hk0 Hk1 E. destruct (decide (k0 = n)) as [->|], (decide (k1 = n)) as [->|]; try done.
      * rewrite lookup_insert in Hk0. rewrite lookup_insert_ne in Hk1 by done. simplify_eq. cbn in E. apply D2 in Hk1. unfold lim in Hk1; cbn in Hk1. lia.
      * rewrite lookup_insert in Hk1. rewrite lookup_insert_ne in Hk0 by done. simplify_eq. cbn in E. apply D2 in Hk0. unfold lim in Hk0; cbn in Hk0. lia.
      * rewrite lookup_insert_ne in Hk0, Hk1 by done. by eapply D3.
    + intros k0 c Hk Hs. destruct (decide (k0 = n)) as [->|].
      * rewrite lookup_insert in Hk; simplify_eq; cbn. rewrite lookup_insert_ne by lia. by rewrite lookup_insert.
      * rewrite lookup_insert_ne in Hk by done. pose proof (D2 _ _ Hk) as Hlt. unfold lim in Hlt; cbn in Hlt. rewrite !lookup_insert_ne by lia. by apply D4.
    + intros k0 c Hk Hs. destruct (decide (k0 = n)) as [->|]; [rewrite lookup_insert in Hk; simplify_eq; done|].
      rewrite lookup_insert_ne in Hk by done. by destruct (Hnu _ _ Hk).
    + intros h' Hi. apply Hhid in Hi as [Hi| ->]; [| |done].
      * pose proof (Hhs _ Hi). rewrite lookup_insert_ne by lia. by apply D6.
      * rewrite lookup_insert_ne by lia. apply Hden. lia.
    + intros h' Hi _. destruct (decide (h' = h)) as [->|]; [by rewrite !lookup_insert|]. rewrite !(lookup_insert_ne _ h) by done.
      assert (h' <> a_nh a). { intros ->. apply Hi. apply Hhid; auto. }
      rewrite lookup_insert_ne by done. apply D7; [|done]. intros Hi'. apply Hi. apply Hhid; auto.
    + intros h' j [Hw|?]; [|done]. cbn in Hw. destruct (D10 h' j) as (?&c1&Hc1&?); [by left|].
      pose proof (D2 _ _ Hc1) as Hlt. unfold lim in Hlt; cbn in Hlt. rewrite !lookup_insert_ne by lia. split; [done|].
      rewrite lookup_insert_ne by congruence. eauto.
    + intros sd kd0 h0 k0 E. injection E; intros; subst. rewrite lookup_insert. eauto.
  - dquiet D; [by cbn; rewrite H].
  - (* control goes back after the function was left *)
    destruct M as (I&c'&Hc&Hst). assert (c' = c) as -> by congruence.
    dquiet D; [eapply colike_insert; [done|]; unfold vw; cbn; by rewrite Hst|].
    assert (j = a_cur a) as ->. { destruct (ib_act _ B _ _ H) as [_ (w&Hw&<-)]; [by rewrite Hst|]. by simplify_eq. }
    intros h j [(c0&w&Hw&Hr)|Hr]; cbn in *.
    + apply lookup_delete_Some in Hw as [_ Hw]. left. eauto.
    + left. exists (ac_by c), (WOp (a_cur a) o po k). split; [done|]. destruct po; try done. by simplify_eq/=.
  - dquiet D; [by cbn; rewrite H].
  - (* the counterpart object is destroyed *)
    pose proof (d_unw _ D) as D5'.
    destruct D as [D1 D2 D3 D4 D5 D6 D7 D8 D9 D10 D11 D12]. cbn in *.
    destruct M as [I F]. unfold foc_inv in F. rewrite H in F. destruct F as (c'&Hc'&Hu). assert (c' = c) as -> by congruence.
    split; cbn; try done.
    + intros h' o Ho. apply lookup_delete_Some in Ho as [_ Ho]. by eapply D1.
    + intros k0 c0 Hk Hs. rewrite lookup_delete_ne; [by apply D4|]. intros E.
      assert (k0 = a_cur a) as -> by (by eapply D3). simplify_eq. by destruct (ac_st c) as [| | | |[]].
    + intros k0 c0 Hk Hs. destruct (D5 _ _ Hk Hs) as (->&_). assert (c0 = c) as -> by congruence.
      split; [done|]. split; [done|]. split; [done|]. intros _. by rewrite lookup_delete.
    + intros h Hh. apply lookup_delete_None. right. by apply D6.
    + intros h Hh _. destruct (decide (h = ac_syn c)) as [->|]; [by rewrite !lookup_delete|]. rewrite !lookup_delete_ne by done. by apply D7.
    + intros h j [Hw|?]; [|done]. destruct (D10 h j) as (?&?); [by left|]. rewrite lookup_delete_None. auto.
  - (* ... and owns a coroutine *)
    destruct D as [D1 D2 D3 D4 D5 D6 D7 D8 D9 D10 D11 D12]. cbn in *.
    destruct M as [I F]. unfold foc_inv in F. rewrite H in F. destruct F as (c'&Hc'&Hu). assert (c' = c) as -> by congruence.
    split; cbn; try done.
    + intros h' o Ho. apply lookup_delete_Some in Ho as [_ Ho]. by eapply D1.
    + intros k0 c0 Hk Hs. rewrite lookup_delete_ne; [by apply D4|]. intros E.
      assert (k0 = a_cur a) as -> by (by eapply D3). simplify_eq. by destruct (ac_st c) as [| | | |[]].
    + intros k0 c0 Hk Hs. destruct (D5 _ _ Hk Hs) as (->&_&Hh'&_). simplify_eq. rewrite Hh' in H1 by done. done.
    + intros h Hh. apply lookup_delete_None. right. by apply D6.
    + intros h Hh _. destruct (decide (h = ac_syn c)) as [->|]; [by rewrite !lookup_delete|]. rewrite !lookup_delete_ne by done. by apply D7.
    + intros h j' [Hw|?]; [|done]. destruct (D10 h j') as (?&?); [by left|]. rewrite lookup_delete_None. auto.
  - (* slot *)
    destruct D as [D1 D2 D3 D4 D5 D6 D7 D8 D9 D10 D11 D12]. cbn in *. split; cbn; try done.
    + intros k0 c0 Hk Hs. destruct (D5 _ _ Hk Hs) as (->&_&_&Hn). split; [done|]. split; [done|]. split; [done|].
      intros _. apply Hn. rewrite H. by intros [_ ?].
    + intros h Hh _. by apply D7.
  - destruct D as [D1 D2 D3 D4 D5 D6 D7 D8 D9 D10 D11 D12]. cbn in *. split; cbn; try done.
    + intros k0 c0 Hk Hs. destruct (D5 _ _ Hk Hs) as (->&_&_&Hn). split; [done|]. split; [done|]. split; [done|].
      intros _. apply Hn. rewrite H. by intros [_ ?].
    + intros h Hh _. by apply D7.
  - (* stack released *)
    destruct M as (I&c'&Hc&Hu). assert (c' = c) as -> by congruence.
    assert (ac_by c <> a_cur a) as Hne. { intros E. rewrite E in H0. by rewrite (ib_wcur _ B) in H0. }
    destruct (ib_wait _ B _ _ H0) as (z&Hz&Hzb&_).
    assert (Hwt : wtarget w = a_cur a). { destruct (ib_act _ B _ _ Hc) as [_ (w'&Hw'&<-)]; [by apply unw_active|]. by simplify_eq. }
    destruct D as [D1 D2 D3 D4 D5 D6 D7 D8 D9 D10 D11 D12]. cbn in *.
    assert (Hwres : forall h j c1 w1, a_wait a !! c1 = Some w1 -> wres w1 = Some h -> wtarget w1 = j -> c1 <> ac_by c -> j <> a_cur a).
    { intros h j c1 w1 Hw1 _ Ht1 Hne1 ->. destruct (ib_wait _ B _ _ Hw1) as (z1&Hz1&Hzb1&_). rewrite Ht1 in Hz1.
      rewrite Hwt in Hz. simplify_eq. }
    assert (Hden : forall h, ~ hid a h -> den (a_tr a) !! h = h_ep <$> a_h a !! h) by (intros; by apply D7).
    assert (Hhid1 : forall a' h, a_co a' = delete (a_cur a) (a_co a) -> hid a' h -> hid a h).
    { intros a' h Ha' (k0&c0&Hk0&Hs&Hy). rewrite Ha' in Hk0. apply lookup_delete_Some in Hk0 as [_ Hk0]. exists k0, c0. done. }
    assert (Hsg : hst (ac_st c) <> 2 -> a_h a !! ac_syn c = None).
    { intros Hs. destruct (D5 _ _ H) as (_&_&_&Hn); [|by apply Hn; intros [? _]]. destruct (ac_st c) as [| | | |[]]; done. }
    assert (Hnu : forall k0 c0, delete (a_cur a) (a_co a) !! k0 = Some c0 -> hst (ac_st c0) <> 1).
    { intros k0 c0 [Hne0 Hk0]%lookup_delete_Some Hs. destruct (D5 _ _ Hk0 Hs) as (->&_). done. }
    assert (Hr10 : forall a' h j, a_wait a' = delete (ac_by c) (a_wait a) -> res (a', MFoc) h j -> a_h a !! h = None /\
              exists c0, delete (a_cur a) (a_co a) !! j = Some c0 /\ ac_syn c0 = S h).
    { intros a' h j Ha' [(c1&w1&Hw1&Hr1&Ht1)|?]; [|done]. cbn in Hw1. rewrite Ha' in Hw1. apply lookup_delete_Some in Hw1 as [Hne1 Hw1].
      destruct (D10 h j) as (?&c2&Hc2&?); [left; eauto|]. split; [done|]. exists c2. rewrite lookup_delete_ne; [done|].
      intros E. symmetry in E. revert E. eapply Hwres; eauto. }
    assert (Hemp : forall h o1 k1 kd1, w = WKill (wtarget w) o1 (KfEmpty h kd1) k1 -> a_h a !! h = None /\ h < a_nh a /\ ac_syn c = S h).
    { intros h o1 k1 kd1 Hw. destruct (D10 h (a_cur a)) as (?&c2&Hc2&Hs2); [left; exists (ac_by c), w; split; [done|]; split; [by rewrite Hw|done]|].
      assert (c2 = c) as -> by congruence. pose proof (D2 _ _ H) as Hlt. unfold lim in Hlt; cbn in Hlt. split; [done|]. split; [lia|done]. }
    assert (Hall : forall f, fplain f \/ (exists o1 h kd1 k1, f = MEmpty o1 h kd1 k1 /\ w = WKill (wtarget w) o1 (KfEmpty h kd1) k1) ->
              fres f = None -> (forall sd kd np fn k h n, f <> MNew2 sd kd np fn k h n) ->
              forall a2, a_h a2 = a_h a -> a_nh a2 = a_nh a -> a_co a2 = delete (a_cur a) (a_co a) -> a_tr a2 = EvFree (a_cur a) :: a_tr a ->
              a_wait a2 = delete (ac_by c) (a_wait a) -> DenI (a2, f)).
    { intros f Hf Hfr Hf2 a2 F1 F2 F3 F4 F5.
      assert (Hlim : lim (a2, f) = a_nh a). { unfold lim. cbn. rewrite F2. destruct f; try done. by destruct (Hf2 sd kd np fn k h n). }
      assert (Hr10' : forall h j, res (a2, f) h j -> a_h a !! h = None /\ exists c0, delete (a_cur a) (a_co a) !! j = Some c0 /\ ac_syn c0 = S h).
      { intros h j [Hw1|?]; [|cbn in *; congruence]. apply (Hr10 a2); [done|]. by left. }
      split; rewrite ?Hlim; cbn; rewrite ?F1, ?F3, ?F4.
      - intros h o1 Ho. by apply D1 in Ho.
      - intros k0 c0 Hk. apply lookup_delete_Some in Hk as [_ Hk]. by apply D2 in Hk.
      - intros k0 k1 c0 c1 [_ Hk0]%lookup_delete_Some [_ Hk1]%lookup_delete_Some. by eapply D3.
      - intros k0 c0 [_ Hk]%lookup_delete_Some. by apply D4.
      - intros k0 c0 Hk Hs. by destruct (Hnu _ _ Hk).
      - intros h Hh. cbn. apply D6. by eapply Hhid1.
      - intros h Hh _. cbn. assert (Hnn : hst (ac_st c) = 2 \/ h <> ac_syn c -> ~ hid a h).
        { intros Ho (k0&c0&Hk0&Hs0&Hy0). destruct (decide (k0 = a_cur a)) as [->|].
          - assert (c0 = c) as -> by congruence. destruct Ho; congruence.
          - destruct Hh. exists k0, c0. rewrite F3, lookup_delete_ne by done. done. }
        destruct (decide (hst (ac_st c) = 2)) as [E|Hs]; [apply Hden; auto|].
        destruct (decide (h = ac_syn c)) as [->|]; [|apply Hden; auto]. rewrite D6; [by rewrite Hsg|]. exists (a_cur a), c. done.
      - intros h k0 ->. destruct Hf as [[]|(?&?&?&?&?&_)]; done.
      - intros o0 k0 ->. destruct Hf as [[]|(?&?&?&?&?&_)]; done.
      - done.
      - intros o0 h kd0 k0 ->. destruct Hf as [[]|(?&?&?&?&[= -> -> -> ->]&Hw)]. destruct (Hemp _ _ _ _ Hw) as (?&?&Hs). rewrite F2. split; [done|]. split; [done|].
        intros j (_&c2&[Hj2 Hc2]%lookup_delete_Some&Hs2)%Hr10'. apply Hj2. eapply D3; eauto. congruence.
      - intros sd kd h k0 ->. destruct Hf as [[]|(?&?&?&?&?&_)]; done. }
    destruct w as [|j o [|h kd|e] k|j]; [done| | | |]; subst y; apply Hall; cbn; try done; try (by left); try (left; by destruct o).
    right. do 4 eexists. split; done.
Qed.

Theorem mreach_den p u x : mreach p u x -> DenI x.
Proof. apply (mreach_ind p u DenI); [apply den_init|intros ???; by eapply den_step]. Qed.

End den.
