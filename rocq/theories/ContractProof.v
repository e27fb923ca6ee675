(** ContractProof.v -- a program that respects the contract (Contract.v) does not leave
    the reference semantics (Spec.v). *)
From stdpp Require Import prelude gmap relations.
From Coq Require Import Lia.
From Verif Require Import Base Model Spec InvSpec Refine Sim Mono Main Micro Trace Contract Life Pend Den Tgt Stack Own Slot Turn Events Phase ContractInv.

Local Opaque gmap_lookup map_insert map_delete gmap_partial_alter.

Section cp.
Notation steps := (rtc cstep_rel).
Context {env : Env}.

(** ** Extra invariant of runs that respect the contract *)

(** The slot of a coroutine that is being destroyed is intact. *)
Definition x2 (co : gmap nat acoro) : Prop := map_Forall (fun _ c => unw_st (ac_st c) = true -> ac_slot c <> SlBad) co.

Definition goes (co : gmap nat acoro) (hs : gmap nat hobj) (d : nat -> bool) (x : nat) : bool :=
  match hs !! x with
  | Some o => match h_ep o with None => true | Some (Inner i) => bool_decide (is_Some (co !! i)) | Some (Outer i) => d i end
  | None => false
  end.

(** Coroutine [j] can be destroyed. *)
Fixpoint kl (co : gmap nat acoro) (hs : gmap nat hobj) (m j : nat) : bool :=
  match m with
  | O => false
  | S m =>
      match co !! j with
      | Some c =>
          match ac_slot c with
          | SlBad => false
          | _ => match ac_st c with
                 | ANew _ | ASusp _ _ _ => true
                 | ADone _ => goes co hs (kl co hs m) (ac_syn c)
                 | _ => false
                 end
          end
      | None => false
      end
  end.

Definition XI (a : astate) : Prop :=
  x2 (a_co a) /\
  (a_foc a = AExit -> exists c m, a_co a !! a_cur a = Some c /\ goes (a_co a) (a_h a) (kl (a_co a) (a_h a) m) (ac_syn c) = true).

Definition safe (r : ares) : Prop := r <> AViol /\ forall a', r = ANext a' -> XI a'.

Lemma goes_mono co hs (d d' : nat -> bool) x : (forall i, d i = true -> d' i = true) -> goes co hs d x = true -> goes co hs d' x = true.
Proof. unfold goes. intros H. destruct (hs !! x) as [[sd kd [[i|i]|]]|]; cbn; auto. Qed.

Lemma kl_S co hs m : forall j, kl co hs m j = true -> kl co hs (S m) j = true.
Proof.
  induction m as [|m IH]; intros j; [done|]. intros H. change (kl co hs (S m) j = true) in H.
  cbn in H |- *. destruct (co !! j) as [c|]; [|done]. destruct (ac_slot c); try done; destruct (ac_st c); try done; by eapply goes_mono.
Qed.
Lemma kl_le co hs m m' j : m <= m' -> kl co hs m j = true -> kl co hs m' j = true.
Proof. induction 1; [done|]. intros. by apply kl_S, IHle. Qed.

Lemma kl_min co hs m j : kl co hs m j = true -> exists m0, kl co hs (S m0) j = true /\ forall m', m' <= m0 -> kl co hs m' j = false.
Proof.
  induction m as [|m IH]; [done|]. intros H. destruct (kl co hs m j) eqn:E; [by apply IH|]. exists m. split; [done|].
  intros m' Hle. destruct (kl co hs m' j) eqn:E'; [|done]. by rewrite (kl_le _ _ _ _ _ Hle E') in E.
Qed.

(** Removal of the owner of [j] and a change of [j] do not affect the coroutines in
    whose destruction [j] does not take part. *)
Lemma kl_stab co hs co' hs' j : (forall i, i <> j -> co' !! i = co !! i) -> (is_Some (co !! j) -> is_Some (co' !! j)) ->
  (forall z o, hs !! z = Some o -> hs' !! z = Some o \/ h_ep o = Some (Outer j)) ->
  forall m, (forall m', m' <= m -> kl co hs m' j = false) -> forall i, kl co hs m i = true -> kl co' hs' m i = true.
Proof.
  intros Hco Hj Hhs. induction m as [|m IH]; intros Hm i Hi; [done|].
  assert (Hne : i <> j). { intros ->. by rewrite Hm in Hi. }
  cbn in Hi |- *. rewrite Hco by done. destruct (co !! i) as [c|]; [|done].
  assert (Hg : goes co hs (kl co hs m) (ac_syn c) = true -> goes co' hs' (kl co' hs' m) (ac_syn c) = true).
  { unfold goes. destruct (hs !! ac_syn c) as [o|] eqn:Ho; [|done]. intros Hg. destruct (Hhs _ _ Ho) as [-> | He].
    - destruct (h_ep o) as [[i'|i']|]; [|..|done].
      + apply IH; [|done]. intros; apply Hm; lia.
      + apply bool_decide_eq_true in Hg. apply bool_decide_eq_true. destruct (decide (i' = j)) as [->|]; [auto|]. by rewrite Hco.
    - rewrite He in Hg. rewrite Hm in Hg by lia. done. }
  destruct (ac_slot c); try done; destruct (ac_st c); auto.
Qed.

Lemma goes_stab co hs co' hs' j m x : (forall i, i <> j -> co' !! i = co !! i) -> (is_Some (co !! j) -> is_Some (co' !! j)) ->
  (forall z o, hs !! z = Some o -> hs' !! z = Some o \/ h_ep o = Some (Outer j)) ->
  (forall m', m' <= m -> kl co hs m' j = false) -> goes co hs (kl co hs m) x = true -> goes co' hs' (kl co' hs' m) x = true.
Proof.
  intros Hco Hj Hhs Hm. unfold goes. destruct (hs !! x) as [o|] eqn:Ho; [|done]. intros Hg. destruct (Hhs _ _ Ho) as [-> | He].
  - destruct (h_ep o) as [[i'|i']|]; [|..|done].
    + by eapply kl_stab.
    + apply bool_decide_eq_true in Hg. apply bool_decide_eq_true. destruct (decide (i' = j)) as [->|]; [auto|]. by rewrite Hco.
  - rewrite He in Hg. by rewrite Hm in Hg.
Qed.

(** ** Steps *)
Lemma x2_ins co k c : x2 co -> (unw_st (ac_st c) = true -> ac_slot c <> SlBad) -> x2 (<[k := c]> co).
Proof. intros H1 H2. by apply map_Forall_insert_2. Qed.
Lemma x2_del co k : x2 co -> x2 (delete k co).
Proof. intros H. by apply map_Forall_delete. Qed.

Lemma safe_user a s : x2 (a_co a) -> safe (ANext (w_foc (AUser s) a)).
Proof. intros H. split; [done|]. intros a' [= <-]. by split. Qed.
Lemma safe_ret o r k a : x2 (a_co a) -> safe (ret_to o r k a).
Proof. intros H. apply (safe_user (alog (EvRet (a_cur a) o r) a)). done. Qed.
Lemma safe_exn o x k a : x2 (a_co a) -> safe (exn_to o x k a).
Proof. intros H. apply (safe_user (alog (EvExn (a_cur a) o x) a)). done. Qed.
Lemma safe_exit2 a : x2 (a_co a) -> safe (ANext (w_foc AExit2 a)).
Proof. intros H. split; [done|]. intros a' [= <-]. by split. Qed.

(** Destruction of coroutine [j], whose owner is gone. *)
Lemma safe_kill a hs z j m w : x2 (a_co a) -> kl (a_co a) hs m j = true ->
  (forall k c fn, a_co a !! k = Some c -> ac_st c = ANew fn -> hs !! ac_syn c = Some (HObj Pull (ac_kind c) (Some (Inner k)))) ->
  a_h a = delete z hs -> (forall o, hs !! z = Some o -> h_ep o = Some (Outer j)) -> safe (kill j w a).
Proof.
  intros X K N Hh Hz. destruct (kl_min _ _ _ _ K) as (m0&K0&K1). cbn in K0. unfold kill.
  destruct (a_co a !! j) as [c|] eqn:Hj; [|done].
  assert (Hs : ac_slot c <> SlBad) by (intros E; by rewrite E in K0).
  assert (Hs' : match ac_side c with Pull => SlEmpty | Push => ac_slot c end <> SlBad) by by destruct (ac_side c).
  assert (K2 : match ac_st c with ANew _ | ASusp _ _ _ => true | ADone _ => goes (a_co a) hs (kl (a_co a) hs m0) (ac_syn c) | _ => false end = true) by by destruct (ac_slot c). clear K0.
  assert (G : forall a1, a_co a1 = a_co a -> a_h a1 = a_h a -> a_cur a1 = a_cur a -> safe (
    let slot := match ac_side c with Pull => SlEmpty | Push => ac_slot c end in
    let entered := match ac_st c with ANew _ => false | _ => true end in
    let a := put_co j (ACo (ac_side c) (ac_kind c) (AUnw entered) slot (ac_syn c) (a_cur a1)) a1 in
    let a := w_cur j (w_wait (<[ a_cur a := w ]> (a_wait a)) a) in
    match ac_st c with
    | ASusp o _ k => exn_to o XUnwind k a
    | ANew _ | ADone _ => ANext (w_foc AExit a)
    | ARun | AUnw _ => AViol
    end)).
  { intros a1 E1 E2 E3. cbv zeta. destruct (ac_st c) as [fn|o po k| |x|] eqn:Hst; try done.
    - split; [done|]. intros a' [= <-]. split; cbn; [rewrite E1; by apply x2_ins|]. intros _. rewrite E1, E2, Hh. eexists _, 0. split; [by rewrite lookup_insert|].
      cbn. unfold goes. rewrite lookup_delete_ne by (intros ->; by pose proof (Hz _ (N _ _ _ Hj Hst))).
      rewrite (N _ _ _ Hj Hst). cbn. apply bool_decide_eq_true. by rewrite lookup_insert.
    - apply safe_exn. cbn. rewrite E1. by apply x2_ins.
    - split; [done|]. intros a' [= <-]. split; cbn; [rewrite E1; by apply x2_ins|]. intros _. rewrite E1, E2, Hh. eexists _, m0. split; [by rewrite lookup_insert|]. cbn.
      eapply (goes_stab (a_co a) hs _ _ j); [..|done|done].
      + intros i Hi. by rewrite lookup_insert_ne.
      + rewrite lookup_insert. by eexists.
      + intros z' o Ho. destruct (decide (z = z')) as [->|]; [right; by apply Hz|left; by rewrite lookup_delete_ne]. }
  destruct (ac_side c), (ac_kind c), (ac_slot c); try done; by apply G.
Qed.

(** What the operation [po] needs when control comes back. *)
Definition dok (hs : gmap nat hobj) (co : gmap nat acoro) (po : post) : Prop :=
  let ok (e : option ep) :=
    match e with
    | None => True
    | Some (Outer k) => exists c, co !! k = Some c /\ unw_st (ac_st c) = false
    | Some (Inner k) => exists c, co !! k = Some c /\ hst (ac_st c) = 2
    end in
  match po with
  | PoInc h => exists kd e, hs !! h = Some (HObj Pull kd e) /\ ok e
  | PoOut h => exists kd e, hs !! h = Some (HObj Push kd e) /\ ok e
  | _ => True
  end.

Lemma dok_ins hs co po n c : dok hs co po -> unw_st (ac_st c) = false -> hst (ac_st c) = 2 -> dok hs (<[n := c]> co) po.
Proof.
  intros H H1 H2. destruct po as [|h|h|h kd]; cbn in H |- *; try done; destruct H as (kd&e&Hh&He); exists kd, e; (split; [done|]);
    destruct e as [[k|k]|]; try done; destruct (decide (n = k)) as [->|]; rewrite ?lookup_insert, ?lookup_insert_ne by done; eauto.
Qed.
Lemma dok_slot hs co po n c s : dok hs co po -> co !! n = Some c -> dok hs (<[n := c_slot s c]> co) po.
Proof.
  intros H Hn. destruct po as [|h|h|h kd]; cbn in H |- *; try done; destruct H as (kd&e&Hh&He); exists kd, e; (split; [done|]);
    destruct e as [[k|k]|]; try done; destruct (decide (n = k)) as [->|]; rewrite ?lookup_insert, ?lookup_insert_ne by done; try done;
    destruct He as (c0&Hc0&He); assert (c0 = c) as -> by congruence; eexists; (split; [done|]); done.
Qed.

(** Operations that get control back. *)
Lemma safe_deliver j o po k x a : x2 (a_co a) -> (x = None -> dok (a_h a) (a_co a) po) ->
  (forall h kd, po <> PoNew h kd) -> safe (deliver j o po k x a).
Proof.
  intros X D N. unfold deliver. destruct x as [e|]; [destruct po; try (by apply safe_exn); by destruct (N h kd)|].
  specialize (D eq_refl). assert (V : forall e, match e with
    | None => True
    | Some (Outer k) => exists c, a_co a !! k = Some c /\ unw_st (ac_st c) = false
    | Some (Inner k) => exists c, a_co a !! k = Some c /\ hst (ac_st c) = 2
    end -> exists b, avalid e a = Some b).
  { intros [[i|i]|] He; cbn; [| |by eexists]; destruct He as (c&->&He); destruct (ac_st c) as [| | | |[]]; try done; by eexists. }
  destruct po as [|h|h|h kd]; [by apply safe_ret|..|by destruct (N h kd)]; destruct D as (kd&e&->&He); destruct (V _ He) as [b ->]; by apply safe_ret.
Qed.

Definition xok (e : ep) (a : astate) : Prop :=
  match e with
  | Outer n => exists c, a_co a !! n = Some c /\
      ((exists fn, ac_st c = ANew fn) \/ exists o po k, ac_st c = ASusp o po k /\ (forall h kd, po <> PoNew h kd) /\ dok (a_h a) (a_co a) po)
  | Inner n => exists c j o po k, a_co a !! n = Some c /\ a_wait a !! ac_by c = Some (WOp j o po k) /\ dok (a_h a) (a_co a) po
  end.

Lemma safe_transfer e o po k a : x2 (a_co a) -> xok e a -> safe (transfer e o po k a).
Proof.
  intros X Hx. unfold transfer. destruct e as [n|n]; cbn in Hx.
  - destruct Hx as (c&->&[[fn ->]|(o'&po'&k'&->&Hn&Hd)]).
    + apply (safe_user (alog _ _)). cbn. by apply x2_ins.
    + apply safe_deliver; [cbn; by apply x2_ins| |done]. intros _. cbn. by apply dok_ins.
  - destruct Hx as (c&j&o'&po'&k'&Hc&Hw&Hd). unfold give_back. rewrite Hc, Hw.
    assert (Hpo : (exists h kd, po' = PoNew h kd) \/ forall h kd, po' <> PoNew h kd) by (destruct po'; eauto).
    destruct Hpo as [(h&kd&->)|Hpo].
    + unfold deliver. cbn. rewrite lookup_insert. cbn. apply safe_ret. cbn. by apply x2_ins.
    + apply safe_deliver; [cbn; by apply x2_ins| |done]. intros _. cbn. by apply dok_ins.
Qed.

Lemma safe_push e kd (lv : bool) g o po k a : x2 (a_co a) -> resumable e a = true -> xok e a ->
  (forall c, a_co a !! ep_co e = Some c -> ac_slot c <> SlBad /\ unw_st (ac_st c) = false) ->
  (if lv then aout_ok kd g else aarg_ok kd g) = true ->
  (forall l, g = ACopy l \/ g = AMove l -> is_Some (a_user a !! l)) -> safe (push_op e kd lv g o po k a).
Proof.
  intros X R XO S A U. unfold push_op. rewrite R. cbn [negb].
  assert (exists c, a_co a !! ep_co e = Some c) as [c Hc]. { destruct e; cbn in XO |- *; destruct XO as (c&XO); [|destruct XO as (?&?&?&?&XO)]; by destruct XO as [? _]; eexists. }
  rewrite Hc. destruct (S _ Hc) as [Hs Hu].
  assert (XO' : forall a1 s, a_co a1 = <[ep_co e := c_slot s c]> (a_co a) -> a_h a1 = a_h a -> a_wait a1 = a_wait a -> xok e a1).
  { intros a1 s E1 E2 E3. destruct e as [n|n]; cbn in XO, Hc, E1 |- *; rewrite E1, E2, ?E3, lookup_insert.
    - destruct XO as (c0&Hc0&Hx). assert (c0 = c) as -> by congruence. eexists; split; [done|]. destruct Hx as [[fn Hx]|(o'&po'&k'&Hx&Hn&Hd)]; [left; by eexists|].
      right. exists o', po', k'. split; [done|]. split; [done|]. by apply dok_slot.
    - destruct XO as (c0&j&o'&po'&k'&Hc0&Hx&Hd). assert (c0 = c) as -> by congruence. exists (c_slot s c), j, o', po', k'. split; [done|]. split; [done|]. by apply dok_slot. }
  assert (X' : forall s, x2 (<[ep_co e := c_slot s c]> (a_co a))). { intros s. apply x2_ins; [done|]. cbn. by rewrite Hu. }
  destruct kd.
  - destruct (ac_slot c) as [|p|] eqn:Hsl; [| |done].
    + destruct (aconstruct lv g (a_user a)) as [[e'|[v u']]|] eqn:Hcon.
      * apply safe_exn. cbn. apply X'.
      * apply safe_transfer; [cbn; apply X'|]. by eapply XO'.
      * exfalso. destruct lv, g as [l|l|v|l|]; cbn in A, Hcon; try done; destruct (U l) as [v Hv]; auto; by rewrite Hv in Hcon.
    + destruct (aconstruct lv g (a_user a)) as [[e'|[v u']]|] eqn:Hcon.
      * apply safe_exn. cbn. apply X'.
      * apply safe_transfer; [cbn; apply X'|]. by eapply XO'.
      * exfalso. destruct lv, g as [l|l|v|l|]; cbn in A, Hcon; try done; destruct (U l) as [v Hv]; auto; by rewrite Hv in Hcon.
  - destruct lv, g as [l|l|v|l|]; cbn in A; try done; (apply safe_transfer; [cbn; apply X'|by eapply XO']).
  - by apply safe_transfer.
Qed.

(** ** From the history to the state *)
Section user.
Context (p : strat) (u : gmap nat T) (a : astate) (st : strat).
Context (Hx : mreach p u (a, MFoc)) (HI : Inv a) (Hf : a_foc a = AUser st).

Let L := mreach_life _ _ _ Hx.
Let P := mreach_pend _ _ _ Hx.
Let D := mreach_den _ _ _ Hx.
Let O := mreach_own _ _ _ Hx.
Let SL := mreach_slot _ _ _ Hx.
Let UN := mreach_unw _ _ _ Hx.
Let SY := mreach_syn _ _ _ Hx.
Let BD := mreach_bad _ _ _ Hx.
Let TY := mreach_typ _ _ _ Hx.

Lemma uc_exitish : exitish (a, MFoc) = false.
Proof. unfold exitish. cbn. by rewrite Hf. Qed.

Lemma uc_hid h : den (a_tr a) !! h <> None -> ~ hid a h.
Proof. intros H Hh. apply H. apply (d_den1 _ D _ Hh). Qed.

Lemma uc_den h oe : den (a_tr a) !! h = Some oe -> exists sd kd, a_h a !! h = Some (HObj sd kd oe) /\ typ h (a_tr a) = Some (sd, kd) /\ ~ hid a h.
Proof.
  intros H. assert (Hh : ~ hid a h) by (apply uc_hid; congruence). assert (Q : den (a_tr a) !! h = h_ep <$> a_h a !! h) by (by apply (d_den2 _ D h Hh)). rewrite H in Q.
  destruct (a_h a !! h) as [[sd kd e]|] eqn:Ha; [|done]. cbn in Q. injection Q as ->. exists sd, kd. split; [done|]. split; [|done].
  by apply (ty_h _ TY h (HObj sd kd e)).
Qed.

Lemma uc_lives k : lives k (a_tr a) = true -> exists c, a_co a !! k = Some c.
Proof.
  intros H. destruct (a_co a !! k) as [c|] eqn:Hk; [by eexists|]. unfold lives in H.
  destruct (decide (0 < k < a_nk a)) as [Hd|Hd].
  - destruct (li_gone _ L k Hd Hk) as [E|E]; cbn in E; by rewrite E in H.
  - pose proof (li_none _ L k) as E. cbn in E. rewrite E in H by lia. done.
Qed.
Lemma uc_life k ph : life k (a_tr a) = ph -> rank ph = 2 \/ rank ph = 3 \/ rank ph = 4 -> exists c, a_co a !! k = Some c.
Proof. intros H Hr. apply uc_lives. unfold lives. rewrite H. destruct ph; cbn in Hr; try done; lia. Qed.

Lemma uc_owned k h sd kd : a_h a !! h = Some (HObj sd kd (Some (Outer k))) -> exists c, a_co a !! k = Some c /\ unw_st (ac_st c) = false.
Proof. intros H. destruct (o_own _ O k) as [(c&Hc&Hu) _]; [|by exists c]. by exists h, (HObj sd kd (Some (Outer k))). Qed.

Lemma uc_hst k c : a_co a !! k = Some c -> hst (ac_st c) <> 1.
Proof. intros H. by apply (no_unw _ _ _ D uc_exitish H). Qed.

Lemma uc_inner k h sd kd c : a_h a !! h = Some (HObj sd kd (Some (Inner k))) -> ~ hid a h -> a_co a !! k = Some c -> hst (ac_st c) = 2.
Proof.
  intros H Hh Hc. pose proof (uc_hst _ _ Hc) as Hh1. destruct (decide (hst (ac_st c) = 0)) as [H0|]; [|destruct (ac_st c) as [| | | |[]]; cbn in *; done].
  pose proof (d_new _ D _ _ Hc H0) as Q. cbn in Q. destruct Hh. exists k, c. split; [done|]. split; [lia|].
  eapply (o_inj _ O); [exact Q|exact H|done|done].
Qed.

Definition eok (e : option ep) : Prop :=
    match e with
    | None => True
    | Some (Outer k) => exists c, a_co a !! k = Some c /\ unw_st (ac_st c) = false
    | Some (Inner k) => exists c, a_co a !! k = Some c /\ hst (ac_st c) = 2
    end.
Lemma uc_valid e : eok e -> exists b, avalid e a = Some b.
Proof. intros He. destruct e as [[i|i]|]; cbn in *; [| |by eexists]; destruct He as (c&->&He); destruct (ac_st c) as [| | | |[]]; try done; by eexists. Qed.

Lemma uc_usable h : usable h (a_tr a) = true -> exists sd kd e, a_h a !! h = Some (HObj sd kd e) /\ typ h (a_tr a) = Some (sd, kd) /\ ~ hid a h /\ eok e /\ den (a_tr a) !! h = Some e.
Proof.
  unfold usable. destruct (den (a_tr a) !! h) as [e|] eqn:Hd; [|done]. intros Hl. destruct (uc_den _ _ Hd) as (sd&kd&Ha&Ht&Hn).
  exists sd, kd, e. split; [done|]. split; [done|]. split; [done|]. split; [|done]. destruct e as [[k|k]|]; [..|done].
  - by eapply uc_owned.
  - destruct (uc_lives _ Hl) as [c Hc]. exists c. split; [done|]. by eapply uc_inner.
Qed.

Lemma uc_known h : ~ hid a h -> known a h = true.
Proof.
  intros H. apply bool_decide_eq_true. intros k c Hc. unfold hides. destruct (ac_st c) eqn:E; try done.
  destruct (Nat.eqb (ac_syn c) h) eqn:Eq; [|done]. apply Nat.eqb_eq in Eq. destruct H. exists k, c. split; [done|]. by rewrite E.
Qed.

Lemma uc_stack : chain (a_co a) (a_cur a) (cstack (a_tr a)).
Proof. destruct (mreach_stack _ _ _ Hx) as [(l&Hl&V)]. cbn in Hl, V. rewrite Hf in V. by rewrite V. Qed.

Lemma uc_active k c : a_co a !! k = Some c -> active (ac_st c) = true -> k ∈ cstack (a_tr a).
Proof. intros H1 H2. by apply (mreach_cov _ _ _ Hx _ uc_stack _ _ H1). Qed.

Lemma uc_ph k c : a_co a !! k = Some c -> st_phase MFoc (a_cur a) k (ac_st c) (life k (a_tr a)).
Proof. apply (li_st _ L). Qed.

Lemma uc_bad k c : a_co a !! k = Some c -> spoiled k (a_tr a) = false -> ac_slot c <> SlBad.
Proof. intros H1 H2 H3. destruct (BD _ _ H1 H3) as [E|E]; cbn in E; [congruence|done]. Qed.

(** The operation in progress in a context can end. *)
Lemma uc_dok c o po : returns c (a_tr a) = true -> pend c (a_tr a) = Some o -> pst o po -> dok (a_h a) (a_co a) po.
Proof.
  unfold returns. intros H Hp Hs. rewrite Hp in H. destruct po as [|h|h|h kd]; cbn in Hs |- *; try done.
  - subst o. apply andb_true_iff in H as [H1 H2]. destruct (uc_usable _ H2) as (sd&kd&e&Ha&Ht&_&He&_). unfold is_class in H1. rewrite Ht in H1.
    apply bool_decide_eq_true in H1 as ->. by exists kd, e.
  - destruct Hs as [g ->]. apply andb_true_iff in H as [H1 H2]. destruct (uc_usable _ H2) as (sd&kd&e&Ha&Ht&_&He&_). unfold is_class in H1. rewrite Ht in H1.
    apply bool_decide_eq_true in H1 as ->. by exists kd, e.
Qed.

Lemma uc_pend_susp k c o po kk : a_co a !! k = Some c -> ac_st c = ASusp o po kk -> pend k (a_tr a) = Some o /\ pst o po /\ forall h kd, po <> PoNew h kd.
Proof.
  intros Hk Hs. destruct HI as [I _]. destruct (inactive_not_cur _ _ _ _ _ k c I Hk) as [Hc Hw]; [by rewrite Hs|].
  split; [|split].
  - rewrite (pi_pend _ P). unfold xop. cbn. rewrite decide_False by done. rewrite Hw, Hk. cbn. by rewrite Hs.
  - by eapply (pi_susp _ P).
  - intros h kd ->. by destruct (co_post _ (ic_co _ _ _ _ _ I _ _ Hk) o h kd kk).
Qed.

Lemma uc_run k : is_run (life k (a_tr a)) = true -> hd 0 (cstack (a_tr a)) = k -> unwinding k (a_tr a) = false ->
  k = a_cur a /\ exists c, a_co a !! k = Some c /\ ac_st c = ARun.
Proof.
  intros H1 H2 H3. destruct (chain_head _ _ _ uc_stack) as [l El]. rewrite El in H2. cbn in H2. subst k. split; [done|].
  destruct (uc_life (a_cur a) PRun) as [c Hc]; [by destruct (life (a_cur a) (a_tr a))|by right; left|]. exists c. split; [done|].
  destruct HI as [I _]. pose proof (cur_active _ _ _ _ _ _ I Hc) as Ha. destruct (ac_st c) as [| | | |en] eqn:Hs; try done.
  pose proof (uc_hst _ _ Hc) as Hh. rewrite Hs in Hh. destruct en; [|done].
  destruct (un_on _ UN (a_cur a)) as [[_ (?&?&Hm)]|Hu]; [by exists c|cbn; by destruct (life (a_cur a) (a_tr a))|done|].
  apply unwinding_unw in Hu. cbn in Hu. congruence.
Qed.

(** The context that waits for the running one. *)
Lemma uc_rsm c : a_co a !! a_cur a = Some c -> resumer (a_tr a) = ac_by c.
Proof.
  intros Hc. destruct HI as [I _]. destruct (chain_inv _ _ _ _ uc_stack Hc) as (l'&El&_&Hl'); [by eapply cur_pos|].
  unfold resumer. rewrite El. destruct (chain_head _ _ _ Hl') as [l'' ->]. done.
Qed.
Lemma uc_waits c : a_co a !! a_cur a = Some c -> ac_st c = ARun ->
  exists j o po k, a_wait a !! ac_by c = Some (WOp j o po k) /\ j = a_cur a /\ pend (ac_by c) (a_tr a) = Some o /\ pst o po /\
    (forall h kd, po = PoNew h kd -> ac_slot c = SlEmpty).
Proof.
  intros Hc Hs. destruct HI as [I _]. destruct (ic_act _ _ _ _ _ I _ _ Hc) as (_&w&Hw&Ht); [by rewrite Hs|].
  destruct (ic_wait _ _ _ _ _ I _ _ Hw) as (x&Hx'&Hb&Hm). rewrite Ht in Hx'. assert (x = c) as -> by congruence.
  assert (Hne : ac_by c <> a_cur a). { intros E. rewrite E, (ic_wcur _ _ _ _ _ I) in Hw. done. }
  destruct w as [j o po k|j o f k|j]; [|by rewrite Hs in Hm|by rewrite Hs in Hm; destruct Hm].
  exists j, o, po, k. split; [done|]. split; [done|]. split.
  { rewrite (pi_pend _ P). unfold xop. cbn. rewrite decide_False by done. by rewrite Hw. }
  split; [apply (pi_wait _ P _ _ Hw)|]. intros h kd E. by apply Hm in E as (_&_&?).
Qed.

Lemma uc_transfer e h sd kd : a_h a !! h = Some (HObj sd kd (Some e)) -> transferable e (a_tr a) = true ->
  resumable e a = true /\ xok e a /\ forall c, a_co a !! ep_co e = Some c -> unw_st (ac_st c) = false.
Proof.
  intros Ha Ht. destruct e as [k|k]; cbn in Ht.
  - apply andb_true_iff in Ht as [H1 H2]. destruct (uc_owned _ _ _ _ Ha) as (c&Hc&Hu). pose proof (uc_ph _ _ Hc) as Hs.
    assert (Hst : (exists fn, ac_st c = ANew fn) \/ exists o po k, ac_st c = ASusp o po k).
    { destruct (ac_st c) as [fn|o po kk| |y|] eqn:E; cbn in Hs; eauto; try done.
      - rewrite Hs in H1. apply bool_decide_eq_true in H1. destruct H1. apply (uc_active _ _ Hc). by rewrite E.
      - by rewrite Hs in H1. }
    split; [|split; [|cbn; congruence]].
    + unfold resumable. rewrite Hc. by destruct Hst as [[fn ->]|(o&po&kk&->)].
    + exists c. split; [done|]. destruct Hst as [Hst|(o&po&kk&Hst)]; [by left|]. right. destruct (uc_pend_susp _ _ _ _ _ Hc Hst) as (Hp&Hps&Hn).
      exists o, po, kk. split; [done|]. split; [done|]. by eapply uc_dok.
  - rewrite !andb_true_iff in Ht. destruct Ht as [[[H1 H2] H3] H4]. apply bool_decide_eq_true in H2. apply negb_true_iff in H3.
    destruct (uc_run _ H1 H2 H3) as (->&c&Hc&Hs). rewrite (uc_rsm _ Hc) in H4. destruct (uc_waits _ Hc Hs) as (j&o&po&kk&Hw&_&Hp&Hps&_).
    split; [|split].
    + unfold resumable. rewrite bool_decide_eq_true_2 by done. by rewrite Hc, Hs.
    + exists c, j, o, po, kk. split; [done|]. split; [done|]. by eapply uc_dok.
    + cbn. intros c' Hc'. assert (c' = c) as -> by congruence. by rewrite Hs.
Qed.

(** Destruction. *)
Lemma uc_goes (d d' : nat -> bool) k c : a_co a !! k = Some c -> hst (ac_st c) = 2 ->
  (forall j h sd kd, a_h a !! h = Some (HObj sd kd (Some (Outer j))) -> d j = true -> d' j = true) ->
  counterpart_goes d k (a_tr a) = true -> goes (a_co a) (a_h a) d' (ac_syn c) = true.
Proof.
  intros Hc Hs Hd. unfold counterpart_goes. assert (Hy : handed k (a_tr a) = Some (ac_syn c)) by (by apply (SY _ _ Hc Hs)). rewrite Hy. destruct (den (a_tr a) !! ac_syn c) as [e|] eqn:E; [|done].
  destruct (uc_den _ _ E) as (sd&kd&Ha&_&_). unfold goes. rewrite Ha. cbn. destruct e as [[j|j]|]; [|..|done].
  - intros Hj. by eapply Hd.
  - intros Hj. apply bool_decide_eq_true. by apply uc_lives.
Qed.

Lemma uc_kl m : forall k h sd kd, a_h a !! h = Some (HObj sd kd (Some (Outer k))) -> destroyable m k (a_tr a) = true -> kl (a_co a) (a_h a) m k = true.
Proof.
  induction m as [|m IH]; intros k h sd kd Ha Hd; [done|]. cbn in Hd. apply andb_true_iff in Hd as [Hsp Hd]. apply negb_true_iff in Hsp.
  destruct (uc_owned _ _ _ _ Ha) as (c&Hc&Hu). pose proof (uc_ph _ _ Hc) as Hs. cbn. rewrite Hc.
  assert (G : match ac_st c with ANew _ | ASusp _ _ _ => true | ADone _ => goes (a_co a) (a_h a) (kl (a_co a) (a_h a) m) (ac_syn c) | _ => false end = true).
  { destruct (ac_st c) as [fn|o po kk| |y|] eqn:E; cbn in Hs; try done.
    - rewrite Hs in Hd. apply bool_decide_eq_true in Hd. destruct Hd. apply (uc_active _ _ Hc). by rewrite E.
    - rewrite Hs in Hd. eapply uc_goes; [done|by rewrite E| |exact Hd]. intros; by eapply IH. }
  pose proof (uc_bad _ _ Hc Hsp). by destruct (ac_slot c).
Qed.

Lemma uc_new k c fn : a_co a !! k = Some c -> ac_st c = ANew fn -> a_h a !! ac_syn c = Some (HObj Pull (ac_kind c) (Some (Inner k))).
Proof. intros H1 H2. apply (d_new _ D _ _ H1). by rewrite H2. Qed.

Context (X : x2 (a_co a)).

Lemma uc_read h : has_data Pull h (a_tr a) = true -> can_read h (a_tr a) = true ->
  exists kd e c pl, a_h a !! h = Some (HObj Pull kd (Some e)) /\ ~ hid a h /\ readable e a = Some c /\ ac_slot c = SlFull pl /\
    match kd, pl with KVal, PVal _ | KRef, PRef _ => True | _, _ => False end.
Proof.
  unfold has_data, can_read. intros H1 H2. destruct (den (a_tr a) !! h) as [[e|]|] eqn:Hd; try done.
  destruct (uc_den _ _ Hd) as (sd&kd&Ha&Ht&Hn). rewrite Ht in H1. rewrite !andb_true_iff in H2. destruct H2 as [[H2 H3] H4]. apply bool_decide_eq_true in H3.
  assert (sd = Pull /\ kd <> KVoid) as [-> Hkd]. { destruct kd; try done; by apply bool_decide_eq_true in H1. }
  destruct (uc_lives _ H2) as [c Hc]. destruct HI as [I _]. pose proof (ic_h _ _ _ _ _ I _ _ _ _ _ Ha Hc) as [Hk Hs].
  assert (Hr : readable e a = Some c /\ slotv (ep_co e) (a_tr a) = slp (ac_slot c)).
  { pose proof (sl_slot _ _ SL _ _ Hc) as Q. unfold slot_exp in Q. cbn in Q. rewrite !orb_false_r in Q. destruct e as [k|k]; cbn in *.
    - destruct (uc_owned _ _ _ _ Ha) as (c'&Hc'&Hu). assert (c' = c) as -> by congruence. rewrite Hu, andb_false_r in Q. split; [|done].
      rewrite Hc. cbn. pose proof (uc_ph _ _ Hc) as Hph. destruct (ac_st c); try done. cbn in Hph. by rewrite Hph in H4.
    - rewrite Hs in Q. cbn in Q. split; [|done]. rewrite Hc. cbn. pose proof (uc_inner _ _ _ _ _ Ha Hn Hc) as Hh. by destruct (ac_st c) as [| | | |[]]. }
  destruct Hr as [Hr Hsl]. rewrite Hsl in H3. destruct (ac_slot c) as [|pl|] eqn:Hslot; try (by destruct H3).
  exists kd, e, c, pl. split; [done|]. split; [done|]. split; [done|]. split; [done|].
  pose proof (co_slot _ (ic_co _ _ _ _ _ I _ _ Hc)) as Q. rewrite Hslot, Hk in Q. destruct pl, kd; done.
Qed.

Lemma safe_op o k : st = SDo o k -> pre u (a_tr a) o = true -> safe (astep a).
Proof.
  intros Hst Hp. unfold astep. rewrite Hf, Hst.
  assert (Hall : forall b, (forall h, h ∈ op_hs o -> ~ hid a h) -> safe (do_op o k b) -> safe (if negb (forallb (known a) (op_hs o)) then AViol else do_op o k b)).
  { intros b Hh Hs. assert (forallb (known a) (op_hs o) = true) as ->; [|done]. apply forallb_forall. intros h Hin. apply uc_known, Hh. by apply elem_of_list_In. }
  assert (K1 : forall h, ~ hid a h -> forall h', h' ∈ [h] -> ~ hid a h') by (intros h Hh h' ->%elem_of_list_singleton; done).
  assert (Xf : forall h, can_resume h (a_tr a) = true -> exists sd kd e, a_h a !! h = Some (HObj sd kd (Some e)) /\ typ h (a_tr a) = Some (sd, kd) /\ ~ hid a h /\
     resumable e a = true /\ xok e a).
  { intros h. unfold can_resume. destruct (den (a_tr a) !! h) as [[e|]|] eqn:Hd; try done. intros Ht. destruct (uc_den _ _ Hd) as (sd&kd&Ha&Hty&Hn).
    destruct (uc_transfer _ _ _ _ Ha Ht) as (H1&H2&_). exists sd, kd, e. done. }
  assert (Xp : forall h g, can_push u h g (a_tr a) = true -> exists sd kd e, a_h a !! h = Some (HObj sd kd (Some e)) /\ typ h (a_tr a) = Some (sd, kd) /\ ~ hid a h /\
     resumable e a = true /\ xok e a /\ (forall c, a_co a !! ep_co e = Some c -> ac_slot c <> SlBad /\ unw_st (ac_st c) = false) /\
     (forall l, g = ACopy l \/ g = AMove l -> is_Some (a_user a !! l))).
  { intros h g. unfold can_push. destruct (den (a_tr a) !! h) as [[e|]|] eqn:Hd; try done. rewrite !andb_true_iff. intros [[Ht Hsp] Hg]. apply negb_true_iff in Hsp.
    destruct (uc_den _ _ Hd) as (sd&kd&Ha&Hty&Hn). destruct (uc_transfer _ _ _ _ Ha Ht) as (H1&H2&H3). exists sd, kd, e.
    split; [done|]. split; [done|]. split; [done|]. split; [done|]. split; [done|]. split.
    - intros c Hc. split; [by eapply uc_bad|by apply H3].
    - pose proof (sl_user _ _ SL) as Hu. cbn in Hu. rewrite Hu. intros l [-> | ->]; by apply bool_decide_eq_true in Hg. }
  destruct o as [h|h1 h2|h|h|h g|h|h|h|h| |[h|]|[h|]|i j|i j|h| |[h|] g|v|n|l|l v]; cbn in Hp; try done; apply Hall; clear Hall; try (by intros ? ?%elem_of_nil).
  - apply bool_decide_eq_true in Hp as [e Hd]. destruct (uc_den _ _ Hd) as (sd&kd&Ha&Ht&Hn). by apply K1.
  - apply bool_decide_eq_true in Hp as [e Hd]. destruct (uc_den _ _ Hd) as (sd&kd&Ha&Ht&Hn). cbn. rewrite Ha. by apply safe_ret.
  - rewrite !andb_true_iff in Hp. destruct Hp as [[[e1 H1]%bool_decide_eq_true [e2 H2]%bool_decide_eq_true] H3].
    destruct (uc_den _ _ H1) as (?&?&?&?&?), (uc_den _ _ H2) as (?&?&?&?&?). by intros h [-> | ->%elem_of_list_singleton]%elem_of_cons.
  - rewrite !andb_true_iff in Hp. destruct Hp as [[[e1 H1]%bool_decide_eq_true [e2 H2]%bool_decide_eq_true] H3%bool_decide_eq_true].
    destruct (uc_den _ _ H1) as (sd1&kd1&Ha1&Ht1&_), (uc_den _ _ H2) as (sd2&kd2&Ha2&Ht2&_). cbn. rewrite Ha1, Ha2. rewrite Ht1, Ht2 in H3. injection H3 as -> ->.
    rewrite !bool_decide_eq_true_2 by done. by apply safe_ret.
  - destruct (den (a_tr a) !! h) as [e|] eqn:Hd; [|done]. destruct (uc_den _ _ Hd) as (?&?&?&?&?). by apply K1.
  - destruct (den (a_tr a) !! h) as [e|] eqn:Hd; [|done]. destruct (uc_den _ _ Hd) as (sd&kd&Ha&_&_). cbn. rewrite Ha.
    destruct e as [[n|n]|]; [|destruct (uc_lives _ Hp) as [c Hc]; cbn; rewrite Hc; by apply safe_ret|by apply safe_ret].
    eapply (safe_kill _ (a_h a) h n); [done|by eapply uc_kl|apply uc_new|done|]. intros o' Ho. by rewrite Ha in Ho; injection Ho as <-.
  - apply andb_true_iff in Hp as [_ Hp]. destruct (Xf _ Hp) as (?&?&?&?&?&?&_). by apply K1.
  - apply andb_true_iff in Hp as [Hc Hp]. destruct (Xf _ Hp) as (sd&kd&e&Ha&Ht&_&Hr&Hxo). cbn. rewrite Ha. unfold is_class in Hc. rewrite Ht in Hc. apply bool_decide_eq_true in Hc as ->.
    assert (resumable e (alog (EvCall (a_cur a) (NOp (OResume h))) a) = true) as -> by done. by apply safe_transfer.
  - apply andb_true_iff in Hp as [_ Hp]. destruct (Xp _ _ Hp) as (?&?&?&?&?&?&_). by apply K1.
  - apply andb_true_iff in Hp as [Hc Hp]. destruct (Xp _ _ Hp) as (sd&kd&e&Ha&Ht&_&Hr&Hxo&Hb&Hu). rewrite Ht in Hc. destruct sd; [done|]. cbn. rewrite Ha.
    assert (aarg_ok kd g = true) as Hg by by destruct kd, g. rewrite Hg. by apply safe_push.
  - destruct (uc_usable _ Hp) as (?&?&?&?&?&?&_). by apply K1.
  - destruct (uc_usable _ Hp) as (sd&kd&e&Ha&_&_&He&_). destruct (uc_valid _ He) as [b Hb]. cbn -[avalid]. rewrite Ha.
    assert (avalid e (alog (EvCall (a_cur a) (NOp (OBool h))) a) = Some b) as -> by done. by apply safe_ret.
  - destruct (uc_usable _ Hp) as (?&?&?&?&?&?&_). by apply K1.
  - destruct (uc_usable _ Hp) as (sd&kd&e&Ha&_&_&He&_). destruct (uc_valid _ He) as [b Hb]. cbn -[avalid]. rewrite Ha.
    assert (avalid e (alog (EvCall (a_cur a) (NOp (ONot h))) a) = Some b) as -> by done. by apply safe_ret.
  - apply andb_true_iff in Hp as [Hp1 Hp2]. destruct (uc_read _ Hp1 Hp2) as (?&?&?&?&?&?&_). by apply K1.
  - apply andb_true_iff in Hp as [Hp1 Hp2]. destruct (uc_read _ Hp1 Hp2) as (kd&e&c&pl&Ha&_&Hr&Hs&Hk). cbn -[readable]. rewrite Ha.
    assert (readable e (alog (EvCall (a_cur a) (NOp (OGet h))) a) = Some c) as -> by done. rewrite Hs.
    destruct kd, pl as [v|l]; try done; [|by apply safe_ret]. destruct (move_exn v); [by split|]. apply safe_ret. cbn. apply x2_ins; [done|]. done.
  - apply andb_true_iff in Hp as [_ Hp]. destruct (uc_usable _ Hp) as (?&?&?&?&?&?&_). by apply K1.
  - apply andb_true_iff in Hp as [Hp1 Hp]. destruct (uc_usable _ Hp) as (sd&kd&e&Ha&Ht&_&He&_). destruct (uc_valid _ He) as [b Hb]. unfold has_data in Hp1. rewrite Ht in Hp1.
    cbn -[avalid]. rewrite Ha. assert (avalid e (alog (EvCall (a_cur a) (NOp (OBegin h))) a) = Some b) as -> by done.
    destruct kd; try done; apply bool_decide_eq_true in Hp1 as ->; by apply safe_ret.
  - by apply safe_ret.
  - apply andb_true_iff in Hp as [_ Hp]. destruct (Xf _ Hp) as (?&?&?&?&?&?&_). by apply K1.
  - apply andb_true_iff in Hp as [Hc Hp]. destruct (Xf _ Hp) as (sd&kd&e&Ha&Ht&_&Hr&Hxo). cbn -[resumable]. rewrite Ha. unfold has_data in Hc. rewrite Ht in Hc.
    assert (resumable e (alog (EvCall (a_cur a) (NOp (OItInc (Some h)))) a) = true) as -> by done.
    destruct kd; try done; apply bool_decide_eq_true in Hc as ->; by apply safe_transfer.
  - apply andb_true_iff in Hp as [Hp1 Hp2]. destruct (uc_read _ Hp1 Hp2) as (?&?&?&?&?&?&_). by apply K1.
  - apply andb_true_iff in Hp as [Hp1 Hp2]. destruct (uc_read _ Hp1 Hp2) as (kd&e&c&pl&Ha&_&Hr&Hs&Hk). cbn -[readable]. rewrite Ha.
    assert (readable e (alog (EvCall (a_cur a) (NOp (OItDeref (Some h)))) a) = Some c) as -> by done. rewrite Hs.
    destruct kd, pl as [v|l]; try done; by apply safe_ret.
  - by apply safe_ret.
  - by apply safe_ret.
  - apply andb_true_iff in Hp as [_ [e Hd]%bool_decide_eq_true]. destruct (uc_den _ _ Hd) as (?&?&?&?&?). by apply K1.
  - apply andb_true_iff in Hp as [Hp1 [e Hd]%bool_decide_eq_true]. destruct (uc_den _ _ Hd) as (sd&kd&Ha&Ht&_). unfold has_data in Hp1. rewrite Ht in Hp1. cbn. rewrite Ha.
    destruct kd; try done; apply bool_decide_eq_true in Hp1 as ->; by apply safe_ret.
  - by apply safe_ret.
  - apply andb_true_iff in Hp as [_ Hp]. destruct (Xp _ _ Hp) as (?&?&?&?&?&?&_). by apply K1.
  - apply andb_true_iff in Hp as [Hc Hp]. destruct (Xp _ _ Hp) as (sd&kd&e&Ha&Ht&_&Hr&Hxo&Hb&Hu). rewrite Ht in Hc. destruct sd; [done|]. cbn. rewrite Ha.
    assert (aout_ok kd g = true) as Hg by by destruct kd, g. rewrite Hg. by apply safe_push.
  - by apply safe_ret.
  - by apply safe_ret.
  - apply bool_decide_eq_true in Hp as [v Hv]. pose proof (sl_user _ _ SL) as Hu. cbn in Hu. cbn. rewrite Hu, Hv. by apply safe_ret.
  - by apply safe_ret.
Qed.

Lemma safe_new sd kd np fn k b : x2 (a_co b) -> safe (do_new sd kd np fn k b).
Proof.
  intros Xb. unfold do_new. destruct (np_alloc np); [by apply safe_exn|]. destruct (np_fn np); [by apply safe_exn|]. destruct sd.
  - apply (safe_user (alog _ _)). cbn. by apply x2_ins.
  - apply safe_ret. cbn. by apply x2_ins.
Qed.

Lemma safe_leave r : may_leave (a_cur a) r (a_tr a) = true -> a_cur a <> 0 -> safe (do_leave r a).
Proof.
  intros Hm Hn. unfold do_leave. rewrite decide_False by done. destruct HI as [I F].
  destruct (ic_cur _ _ _ _ _ I) as [?|(c&Hc&Ha)]; [done|]. rewrite Hc.
  assert (Hunw : ac_st c = ARun /\ unwinding (a_cur a) (a_tr a) = false \/ ac_st c = AUnw true /\ unwinding (a_cur a) (a_tr a) = true).
  { pose proof (uc_hst _ _ Hc) as Hh. assert (Hr : life (a_cur a) (a_tr a) = PRun). { apply (li_cur _ L); [done|]. unfold userish. cbn. by rewrite Hf. }
    destruct (ac_st c) as [| | | |en] eqn:Hs; try done.
    - left. split; [done|]. destruct (unwinding (a_cur a) (a_tr a)) eqn:E; [|done]. apply unwinding_unw in E.
      destruct (un_st _ UN (a_cur a) E Hr) as (c'&Hc'&Hs'). cbn in Hc'. congruence.
    - destruct en; [|done]. right. split; [done|]. destruct (un_on _ UN (a_cur a)) as [[_ (?&?&Hm')]|Hu]; [by exists c|done|done|]. by apply unwinding_unw in Hu. }
  unfold may_leave in Hm. destruct Hunw as [[Hs Hu]|[Hs Hu]]; rewrite Hs; rewrite Hu in Hm.
  - destruct (uc_waits _ Hc Hs) as (j&o&po&k&Hw&->&Hp&Hps&Hempty). rewrite (uc_rsm _ Hc), Hp in Hm.
    assert (Hg : forall x, (x = None -> r = None) -> match r with Some XUnwind => False | _ => True end ->
      safe (give_back (a_cur a) (ADone x) x (alog (EvLeave (a_cur a) r) a))).
    { intros x Hxr Hr. unfold give_back. cbn. rewrite Hc, Hw.
      assert (Hpo : (exists h kd, po = PoNew h kd) \/ forall h kd, po <> PoNew h kd) by (destruct po; eauto).
      destruct Hpo as [(h&kd&->)|Hpo].
      - cbn in Hps. subst o. assert (Hdis : disposable (a_cur a) (a_tr a) = true). { destruct r as [[]|]; try done; by apply andb_true_iff in Hm as [_ Hm]. }
        unfold disposable in Hdis. pose proof (Hempty _ _ eq_refl) as Hse.
        assert (Hgo : goes (a_co a) (a_h a) (kl (a_co a) (a_h a) (length (a_tr a))) (ac_syn c) = true).
        { eapply uc_goes; [done|by rewrite Hs| |exact Hdis]. intros; by eapply uc_kl. }
        assert (Hk : forall w b, a_co b = <[a_cur a := c_st (ADone x) c]> (a_co a) -> a_h b = a_h a -> safe (kill (a_cur a) w b)).
        { intros w b E1 E2. unfold kill. rewrite E1, lookup_insert. cbn. rewrite Hse.
          assert (G : safe (ANext (w_foc AExit (w_cur (a_cur a) (w_wait (<[ a_cur b := w ]> (a_wait b))
             (put_co (a_cur a) (ACo (ac_side c) (ac_kind c) (AUnw true) SlEmpty (ac_syn c) (a_cur b)) b)))))).
          { split; [done|]. intros a' [= <-]. split; cbn; rewrite E1, insert_insert; [by apply x2_ins|]. intros _. eexists _, (length (a_tr a)). split; [by rewrite lookup_insert|].
            rewrite E2. cbn. eapply (goes_stab (a_co a) (a_h a) _ _ (a_cur a)); [..|exact Hgo].
            - intros i Hi. by rewrite lookup_insert_ne.
            - rewrite lookup_insert. by eexists.
            - by left.
            - intros m' _. destruct m'; [done|]. cbn. rewrite Hc, Hse, Hs. done. }
          destruct (ac_side c), (ac_kind c); exact G. }
        destruct x as [e|]; unfold deliver; [by apply Hk|]. cbn. rewrite lookup_insert. cbn. by apply Hk.
      - apply safe_deliver; [cbn; by apply x2_ins| |done]. intros ->. rewrite (Hxr eq_refl) in Hm. cbn. apply dok_ins; [|done|done].
        eapply (uc_dok (ac_by c) o); [|done|done]. destruct o as [o|sd kd]; [by destruct o|]. destruct po as [|h|h|h kd']; cbn in Hps; try done; naive_solver. }
    destruct r as [[e|]|]; [|done|]; by apply Hg.
  - destruct r as [[e|]|]; try done. apply andb_true_iff in Hm as [_ Hm]. split; [done|]. intros a' [= <-]. split; [done|]. cbn. intros _.
    exists c, (length (a_tr a)). split; [done|]. unfold disposable in Hm. eapply uc_goes; [done|by rewrite Hs| |exact Hm]. intros; by eapply uc_kl.
Qed.

End user.

Lemma safe_exit p u a : mreach p u (a, MFoc) -> Inv a -> XI a -> a_foc a = AExit -> safe (astep a).
Proof.
  intros Hx [I F] [X G] Hf. unfold astep. rewrite Hf. unfold do_exit. destruct (G Hf) as (c&m&Hc&Hg). rewrite Hc. unfold goes in Hg.
  destruct (a_h a !! ac_syn c) as [[sd kd e]|] eqn:Ha; [|done]. cbn in Hg. unfold foc_inv in F. rewrite Hf in F. destruct F as (c'&Hc'&Hu). assert (c' = c) as -> by congruence.
  destruct e as [[j|j]|]; [|cbn; apply bool_decide_eq_true in Hg as [? ->]; by apply (safe_exit2 (alog _ _))|by apply (safe_exit2 (alog _ _))].
  eapply (safe_kill _ (a_h a) (ac_syn c) j m); [done|done| |done|].
  - intros k c0 fn Hk Hs. apply (d_new _ (mreach_den _ _ _ Hx) _ _ Hk). by rewrite Hs.
  - intros o Ho. rewrite Ha in Ho. by injection Ho as <-.
Qed.

Lemma safe_end a : Inv a -> XI a -> a_foc a = AExit2 -> safe (astep a).
Proof.
  intros [I F] [X G] Hf. unfold astep. rewrite Hf. unfold do_exit2. unfold foc_inv in F. rewrite Hf in F. destruct F as (c&Hc&Hu). rewrite Hc.
  destruct (ic_act _ _ _ _ _ I _ _ Hc) as (_&w&Hw&Ht); [by apply unw_active|].
  destruct (ic_wait _ _ _ _ _ I _ _ Hw) as (x&Hx'&Hb&Hm). rewrite Ht in Hx'. assert (x = c) as -> by congruence.
  assert (S : forall a1, a_co a1 = a_co a -> a_wait a1 = a_wait a -> safe (
     let a := alog (EvFree (a_cur a)) (w_co (delete (a_cur a) (a_co a1)) a1) in
          match a_wait a !! ac_by c with
          | None => AViol
          | Some w =>
              let a := w_cur (ac_by c) (w_wait (delete (ac_by c) (a_wait a)) a) in
              match w with
              | WExit _ => ANext (w_foc AExit2 a)
              | WKill _ o KfDestroy k => ret_to o AUnit k a
              | WKill _ o (KfEmpty h kd) k => ret_to o (AH h) k (w_h (<[ h := HObj Pull kd None ]> (a_h a)) a)
              | WKill _ o (KfThrow e) k => exn_to o (XUser e) k a
              | WOp _ _ _ _ => AViol
              end
          end)).
  { intros a1 E1 E2. cbn. rewrite E2, Hw. destruct w as [j o po k|j o f k|j].
    - destruct Hm as [Hm _]. by rewrite Hm in Hu.
    - destruct f; [apply safe_ret|apply safe_ret|apply safe_exn]; cbn; rewrite E1; by apply x2_del.
    - apply (safe_exit2 (w_cur _ _)). cbn. rewrite E1. by apply x2_del. }
  pose proof (X _ _ Hc Hu) as Hsl.
  destruct (ac_side c), (ac_kind c), (ac_slot c); try done; by apply S.
Qed.


(** ** Runs *)
Context {comp : Compiler}.

Lemma obeys_app u l h : obeys u (l ++ h) = true -> obeys u h = true.
Proof. induction l as [|e l IH]; [done|]. cbn. intros [_ H]%andb_true_iff. auto. Qed.

Lemma respects_le p u n n' : respects p u n' -> n <= n' -> respects p u n.
Proof.
  intros [H1 H2] Hle. split.
  - destruct (crun_le p u n n' Hle) as [[l Hl] _ _]. unfold hist in H1. rewrite Hl in H1. by eapply obeys_app.
  - intros (m&s&Hm&Hr). apply H2. exists m, s. split; [lia|done].
Qed.

Lemma hist_next_step p u n s : crun n (cinit p u) = CNext s -> hist p u (S n) = m_tr (cres_mem (step s)).
Proof. intros H. unfold hist. replace (S n) with (n + 1) by lia. rewrite crun_add, H. cbn. by destruct (step s). Qed.

Lemma good_step p u n k a s : respects p u (S n) -> arun k (ainit p u) = ANext a -> Inv a -> XI a ->
  crun n (cinit p u) = CNext s -> R a s -> safe (astep a).
Proof.
  intros [Ho Hm] Ha I XX Hc HR. pose proof (arun_mreach _ _ _ _ Ha) as Hx. destruct (a_foc a) as [st| |] eqn:Hf; [|by eapply safe_exit|by eapply safe_end].
  rewrite (hist_next_step _ _ _ _ Hc) in Ho. destruct XX as [X _].
  assert (Htr : m_tr (c_mem s) = a_tr a). { destruct HR as [Rc _ _]. apply Rc. }
  pose proof (R_cur _ _ HR) as Hcur. pose proof (R_foc _ _ HR) as HF. unfold foc_ok in HF. rewrite Hf in HF. destruct HF as [Hfoc HK].
  assert (Hl : forall r, (st = SRet /\ r = None \/ exists x, st = SThrow x /\ r = Some x) -> safe (do_leave r a)).
  { intros r Hst. destruct (decide (a_cur a = 0)) as [E0|E0].
    - unfold do_leave. rewrite decide_True by done. destruct r as [[e|]|]; [by split| |by split]. exfalso. apply Hm. exists n, s. split; [lia|]. split; [done|]. split; [congruence|].
      rewrite Hfoc. f_equal. destruct Hst as [[_ ?]|(x&->&[= ->])]; done.
    - eapply safe_leave; [done|done|done|done| |done].
      assert (exists c, a_co a !! a_cur a = Some c) as [c Hcc]. { destruct I as [I _]. destruct (ic_cur _ _ _ _ _ I) as [?|(c&Hc'&_)]; [done|by exists c]. }
      assert (Ho' : allowed u (a_tr a) (EvLeave (a_cur a) r) = true); [|done].
      assert (Hs : cres_mem (step s) = log (EvLeave (a_cur a) r) (c_mem s)).
      { destruct s as [m fib uw cur fc K]. cbn in *. subst fc K. unfold ctxbase. rewrite Hcc. by destruct Hst as [[-> ->]|(x&->&->)]. }
      rewrite Hs in Ho. cbn in Ho. rewrite Htr in Ho. by apply andb_true_iff in Ho as [Ho _]. }
  destruct st as [|x|o kk|sd kd np fn kk|st].
  - unfold astep. rewrite Hf. apply Hl. by left.
  - unfold astep. rewrite Hf. apply Hl. right. by exists x.
  - eapply safe_op; [done|done|done|done|done|].
    assert (Hs : cres_mem (step s) = log (EvCall (a_cur a) (NOp o)) (c_mem s)). { destruct s as [m fib uw cur fc K]. cbn in *. by subst fc cur. }
    rewrite Hs in Ho. cbn in Ho. rewrite Htr in Ho. by apply andb_true_iff in Ho as [Ho _].
  - unfold astep. rewrite Hf. by apply safe_new.
  - unfold astep. rewrite Hf. by apply safe_user.
Qed.

(** Where the model is after [n] steps: at a state described by one of the
    reference semantics, or inside library code between two of them. *)
Definition located (p : strat) (u : gmap nat T) (n : nat) (s : cstate) : Prop :=
  exists k a, arun k (ainit p u) = ANext a /\ Inv a /\ XI a /\
    ((k <= n /\ R a s) \/
     (S k <= n /\ not_user s /\ exists a', astep a = ANext a' /\ XI a' /\ reaches s a') \/
     (S k <= n /\ not_user s /\ exists o a' m s2, astep a = AHalt o a' /\ m_tr m = a_tr a' /\ steps s s2 /\ step s2 = CHalt o m /\ not_user s2)).

Lemma XI_init p u : XI (ainit p u).
Proof. split; [apply map_Forall_empty|done]. Qed.

Lemma run_located p u n s : respects p u n -> crun n (cinit p u) = CNext s -> located p u n s.
Proof.
  revert s. induction n as [|n IH]; intros s Hr Hc.
  - cbn in Hc. simplify_eq. exists 0, (ainit p u). split; [done|]. split; [apply ainit_inv|]. split; [apply XI_init|]. left. split; [lia|]. apply R_init.
  - pose proof Hc as Hc0. replace (S n) with (n + 1) in Hc by lia. rewrite crun_add in Hc.
    destruct (crun n (cinit p u)) as [s0|] eqn:E; [|done]. cbn in Hc. destruct (step s0) as [s1|] eqn:Es; [|done]. simplify_eq.
    assert (Hat : forall k a, arun k (ainit p u) = ANext a -> Inv a -> XI a -> k <= n -> R a s0 -> located p u (S n) s).
    { intros k a Ha I XX Hle HR. destruct (good_step _ _ _ _ _ _ Hr Ha I XX E HR) as [Hv HX]. destruct (astep a) as [a'|o a'|] eqn:Ea.
      - specialize (HX _ eq_refl). destruct (sim_step _ _ _ HR I Ea) as (s1'&Hs1&s2&Hs2&HR2). rewrite Es in Hs1. simplify_eq.
        assert (Ha' : arun (S k) (ainit p u) = ANext a') by by rewrite arun_S, Ha.
        inversion Hs2 as [|? y ? [Hy1 Hy2] Hy3]; subst.
        + exists (S k), a'. split; [done|]. split; [by eapply astep_inv|]. split; [done|]. left. split; [lia|done].
        + exists k, a. split; [done|]. split; [done|]. split; [done|]. right; left. split; [lia|]. split; [done|]. exists a'. split; [done|]. split; [done|].
          by exists s2.
      - destruct (sim_halt _ _ _ _ HR I Ea) as (m&Htr&[Hs1|(s1'&s2&Hs1&Hs2&Hs3&Hs4)]); [by rewrite Es in Hs1|].
        rewrite Es in Hs1. simplify_eq. exists k, a. split; [done|]. split; [done|]. split; [done|]. right; right. split; [lia|].
        split; [|by eauto 10]. inversion Hs2 as [|? y ? [Hy1 Hy2] Hy3]; by subst.
      - done. }
    destruct (IH s0) as (k&a&Ha&I&XX&[[Hle HR]|[(Hle&Hn&a'&Ea&HX&s2&Hs2&HR2)|(Hle&Hn&o&a'&m&s2&Ea&Htr&Hs2&Hs3&Hs4)]]); [|done|..].
    { eapply respects_le; [done|lia]. }
    + by eapply Hat.
    + inversion Hs2 as [|? y ? [Hy1 Hy2] Hy3]; subst.
      * eapply (Hat (S k) a'); [by rewrite arun_S, Ha|by eapply astep_inv|done|lia|done].
      * rewrite Es in Hy1. simplify_eq. inversion Hy3 as [|? z ? [Hz1 Hz2] Hz3]; subst.
        -- exists (S k), a'. split; [by rewrite arun_S, Ha|]. split; [by eapply astep_inv|]. split; [done|]. left. split; [lia|done].
        -- exists k, a. split; [done|]. split; [done|]. split; [done|]. right; left. split; [lia|]. split; [done|]. exists a'. split; [done|]. split; [done|]. by exists s2.
    + inversion Hs2 as [|? y ? [Hy1 Hy2] Hy3]; subst; [by rewrite Es in Hs3|].
      rewrite Es in Hy1. simplify_eq. exists k, a. split; [done|]. split; [done|]. split; [done|]. right; right. split; [lia|].
      split; [|by eauto 10]. inversion Hy3 as [|? z ? [Hz1 Hz2] Hz3]; by subst.
Qed.

(** Whenever user code is in control, the state of the model is described by a
    state of the reference semantics. *)
Theorem user_state p u n s st : respects p u n -> crun n (cinit p u) = CNext s -> c_focus s = FStrat st ->
  exists k a, k <= n /\ arun k (ainit p u) = ANext a /\ Inv a /\ R a s /\ a_foc a = AUser st.
Proof.
  intros Hr Hc Hf. destruct (run_located _ _ _ _ Hr Hc) as (k&a&Ha&I&_&[[Hle HR]|[(_&Hn&_)|(_&Hn&_)]]).
  - exists k, a. split; [done|]. split; [done|]. split; [done|]. split; [done|].
    destruct HR as [_ _ HF]. unfold foc_ok in HF. rewrite Hf in HF. destruct (a_foc a).
    + destruct HF as [HF _]. by simplify_eq.
    + by destruct HF as (?&?&?&?).
    + by destruct HF as (?&?&?&?).
  - unfold not_user in Hn. by rewrite Hf in Hn.
  - unfold not_user in Hn. by rewrite Hf in Hn.
Qed.

Lemma crun_first n s o m : crun n s = CHalt o m -> exists n0 s0, n0 < n /\ crun n0 s = CNext s0 /\ step s0 = CHalt o m.
Proof.
  revert s. induction n as [|n IH]; intros s H; [done|]. cbn in H. destruct (step s) as [s1|o1 m1] eqn:E.
  - destruct (IH _ H) as (n0&s0&Hlt&Hc&Hs). exists (S n0), s0. split; [lia|]. split; [|done]. cbn. by rewrite E.
  - exists 0, s. split; [lia|]. split; [done|]. congruence.
Qed.

Lemma steps_hist p u n s s2 : crun n (cinit p u) = CNext s -> steps s s2 -> exists l, m_tr (c_mem s2) = l ++ hist p u n.
Proof.
  intros Hc Hs. apply steps_crun in Hs as [n2 Hs]. destruct (crun_le p u n (n + n2)) as [[l Hl] _ _]; [lia|].
  rewrite crun_add, Hc, Hs in Hl. cbn in Hl. exists l. unfold hist. by rewrite Hc.
Qed.

(** The first [n] steps of a program that respects the contract follow the reference
    semantics. *)
Theorem follows_spec p u n : respects p u n ->
  exists k l, arun k (ainit p u) <> AViol /\ ares_tr (arun k (ainit p u)) = l ++ hist p u n /\
    forall o m, crun n (cinit p u) = CHalt o m -> l = [] /\ exists a, arun k (ainit p u) = AHalt o a.
Proof.
  intros Hr. destruct (crun n (cinit p u)) as [s|o m] eqn:Hc.
  - destruct (run_located _ _ _ _ Hr Hc) as (k&a&Ha&I&_&[[Hle HR]|[(_&Hn&a'&Ea&_&s2&Hs2&HR2)|(_&Hn&o&a'&m&s2&Ea&Htr&Hs2&Hs3&_)]]).
    + exists k, []. rewrite Ha. split; [done|]. split; [|done]. unfold hist. rewrite Hc. destruct HR as [Rc _ _]. cbn. symmetry. apply Rc.
    + exists (S k). assert (E : arun (S k) (ainit p u) = ANext a') by by rewrite arun_S, Ha. rewrite E.
      destruct (steps_hist _ _ _ _ _ Hc Hs2) as [l Hl]. exists l. split; [done|]. split; [|done]. cbn. rewrite <- Hl. destruct HR2 as [Rc _ _]. symmetry. apply Rc.
    + exists (S k). assert (E : arun (S k) (ainit p u) = AHalt o a') by by rewrite arun_S, Ha. rewrite E.
      pose proof (steps_crun _ _ Hs2) as [n2 Hn2]. destruct (crun_le p u n (n + (n2 + 1))) as [[l Hl] _ _]; [lia|].
      rewrite crun_add, Hc, crun_add, Hn2 in Hl. cbn in Hl. rewrite Hs3 in Hl. cbn in Hl. exists l. split; [done|]. split; [|done].
      cbn. unfold hist. by rewrite <- Htr, Hl, Hc.
  - destruct (crun_first _ _ _ _ Hc) as (n0&s0&Hlt&Hc0&Hs0). assert (Hr0 : respects p u (S n0)) by (by eapply respects_le).
    assert (Hr1 : respects p u n0) by (eapply respects_le; [done|lia]).
    assert (Hh : hist p u n = m_tr m) by (unfold hist; by rewrite Hc). rewrite Hh.
    assert (G : forall k a, arun k (ainit p u) = ANext a -> Inv a -> XI a -> R a s0 -> exists k l, arun k (ainit p u) <> AViol /\ ares_tr (arun k (ainit p u)) = l ++ m_tr m /\
      forall o' m', CHalt o m = CHalt o' m' -> l = [] /\ exists a, arun k (ainit p u) = AHalt o' a).
    { intros k a Ha I XX HR. destruct (good_step _ _ _ _ _ _ Hr0 Ha I XX Hc0 HR) as [Hv _]. destruct (astep a) as [a'|o1 a'|] eqn:Ea; [| |done].
      - destruct (sim_step _ _ _ HR I Ea) as (s1'&Hs1&_). congruence.
      - destruct (sim_halt _ _ _ _ HR I Ea) as (m1&Htr&[Hs1|(s1'&s2&Hs1&_)]); [|congruence]. assert (o1 = o /\ m1 = m) as [-> ->] by (split; congruence).
        exists (S k), []. assert (E : arun (S k) (ainit p u) = AHalt o a') by by rewrite arun_S, Ha. rewrite E. split; [done|]. split; [done|].
        intros o' m' [= <- <-]. split; [done|]. by exists a'. }
    destruct (run_located _ _ _ _ Hr1 Hc0) as (k&a&Ha&I&XX&[[Hle HR]|[(_&Hn&a'&Ea&HX&s2&Hs2&HR2)|(_&Hn&o1&a'&m1&s2&Ea&Htr&Hs2&Hs3&_)]]).
    + by eapply G.
    + inversion Hs2 as [|? y ? [Hy1 Hy2] Hy3]; subst; [|congruence]. eapply (G (S k) a'); [by rewrite arun_S, Ha|by eapply astep_inv|done|done].
    + inversion Hs2 as [|? y ? [Hy1 Hy2] Hy3]; subst; [|congruence]. assert (o1 = o /\ m1 = m) as [-> ->] by (split; congruence).
      exists (S k), []. assert (E : arun (S k) (ainit p u) = AHalt o a') by by rewrite arun_S, Ha. rewrite E. split; [done|]. split; [done|].
      intros o' m' [= <- <-]. split; [done|]. by exists a'.
Qed.

(** No undefined behaviour. *)
Theorem no_ub p u n r m : respects p u n -> crun n (cinit p u) <> CHalt (Undefined r) m.
Proof.
  intros H Hc. destruct (follows_spec _ _ _ H) as (k&l&_&_&Hh). destruct (Hh _ _ Hc) as [_ [a Ha]].
  by destruct (ahalt_outcome _ _ _ _ _ Ha).
Qed.

Theorem hist_mreach p u n : respects p u n -> exists x l, mreach p u x /\ a_tr x.1 = l ++ hist p u n.
Proof.
  intros Hr. destruct (follows_spec _ _ _ Hr) as (k&l&Hv&Hl&_).
  destruct (arun k (ainit p u)) as [a|o a|] eqn:E; cbn in Hl; [| |done].
  - exists (a, MFoc), l. split; [by eapply arun_mreach|done].
  - destruct (ahalt_mreach _ _ _ _ _ E) as [f Hf]. by exists (a, f), l.
Qed.

(** A program that respects the contract stays within the reference semantics. *)
Theorem respects_spec p u : well_used p u -> spec_used p u.
Proof.
  intros Hw n. revert Hw. induction n as [|n IH]; intros Hw; [done|]. specialize (IH Hw). rewrite arun_S.
  destruct (arun n (ainit p u)) as [a|o a|] eqn:E; try done. destruct (sim_run _ _ _ _ E) as (I&N&s&Hle&Hc&HR).
  assert (XX : XI a).
  { clear IH HR Hc Hle. revert a E I. induction n as [|n IHn]; intros a E I; [cbn in E; injection E as <-; apply XI_init|]. rewrite arun_S in E.
    destruct (arun n (ainit p u)) as [a0| |] eqn:E0; try done. destruct (sim_run _ _ _ _ E0) as (I0&N0&s0&Hle0&Hc0&HR0).
    by apply (good_step p u N0 n a0 s0 (Hw _) E0 I0 (IHn _ eq_refl I0) Hc0 HR0). }
  by apply (good_step p u N n a s (Hw _) E I XX Hc HR).
Qed.

End cp.
