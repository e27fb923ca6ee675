(** Slot.v -- link between the history and transfer slots, classes and user memory. *)
From stdpp Require Import prelude gmap relations.
From Coq Require Import Lia.
From Verif Require Import Base Model Spec InvSpec Main Micro Trace Life Pend Den Tgt Stack.

Section slot.
Context {env : Env}.

Definition slp (s : aslot) : option payload := match s with SlFull p => Some p | _ => None end.

Definition pusharg (o : opn) : option (bool * arg) :=
  match o with NOp (OPush _ g) => Some (false, g) | NOp (OOutAssign _ g) => Some (true, g) | _ => None end.
Definition arg_foc (f : mfoc) : Prop :=
  match f with
  | MPush _ _ lv g o _ _ | MPush2 _ lv g o _ _ => pusharg o = Some (lv, g) /\ (lv = true -> forall l, g <> AMove l)
  | _ => True
  end.

(** The slot of [k] was emptied but the coroutine is still there. *)
Definition kb (f : mfoc) (k : nat) : bool := match f with MKill2 j _ => Nat.eqb j k | _ => false end.
Definition eb (f : mfoc) (cur k : nat) : bool := match f with MExit3 => Nat.eqb cur k | _ => false end.
Definition ispull (sd : side) : bool := match sd with Pull => true | Push => false end.

Definition slot_exp (f : mfoc) (cur k : nat) (c : acoro) (s : option payload) : Prop :=
  if ispull (ac_side c) && (unw_st (ac_st c) || kb f k) || eb f cur k then ac_kind c = KVal -> s = None else s = slp (ac_slot c).

Record SlotI (u : gmap nat T) (x : astate * mfoc) : Prop := {
  sl_cls : forall k c, a_co x.1 !! k = Some c -> cls k (a_tr x.1) = Some (ac_side c, ac_kind c);
  sl_new : forall sd kd np fn k h n, x.2 = MNew2 sd kd np fn k h n -> cls n (a_tr x.1) = Some (sd, kd) /\ slotv n (a_tr x.1) = None;
  sl_none : forall k, a_nk x.1 <= k -> slotv k (a_tr x.1) = None;
  sl_slot : forall k c, a_co x.1 !! k = Some c -> slot_exp x.2 (a_cur x.1) k c (slotv k (a_tr x.1));
  sl_user : a_user x.1 = umem u (a_tr x.1);
  sl_arg : arg_foc x.2 }.

Definition sv (c : acoro) := (ac_side c, ac_kind c, ac_slot c, unw_st (ac_st c)).

Lemma sv_insert (co : gmap nat acoro) n c c' : co !! n = Some c -> sv c' = sv c -> forall k, sv <$> <[n := c']> co !! k = sv <$> co !! k.
Proof.
  intros H E k. destruct (decide (n = k)) as [<-|]; [|by rewrite lookup_insert_ne]. rewrite lookup_insert, H. cbn. by rewrite E.
Qed.

Definition notnew2 (f : mfoc) : Prop := match f with MNew2 _ _ _ _ _ _ _ => False | _ => True end.

Lemma slot_exp_sv f cur f' cur' k c c' s : sv c' = sv c -> kb f' k = kb f k -> eb f' cur' k = eb f cur k -> slot_exp f cur k c s -> slot_exp f' cur' k c' s.
Proof. unfold sv, slot_exp. intros E -> ->. injection E as -> -> -> ->. done. Qed.

Lemma slot_quiet u x y : SlotI u x -> (forall k, sv <$> a_co y.1 !! k = sv <$> a_co x.1 !! k) -> a_nk y.1 = a_nk x.1 ->
  a_user y.1 = a_user x.1 -> (forall k, cls k (a_tr y.1) = cls k (a_tr x.1)) -> (forall k, slotv k (a_tr y.1) = slotv k (a_tr x.1)) ->
  umem u (a_tr y.1) = umem u (a_tr x.1) ->
  (forall k, kb y.2 k = kb x.2 k) -> (forall k, eb y.2 (a_cur y.1) k = eb x.2 (a_cur x.1) k) -> notnew2 y.2 -> arg_foc y.2 -> SlotI u y.
Proof.
  intros [S1 S2 S3 S4 S5 S6] Hco Hnk Hu Hc Hs Hm Hk He Hn Ha. split.
  - intros k c Hkc. specialize (Hco k). rewrite Hkc in Hco. destruct (a_co x.1 !! k) as [c0|] eqn:E; [|done].
    cbn in Hco. unfold sv in Hco. injection Hco as -> -> _ _. rewrite Hc. eauto.
  - intros ??????? E. by rewrite E in Hn.
  - intros k. rewrite Hs, Hnk. apply S3.
  - intros k c Hkc. specialize (Hco k). rewrite Hkc in Hco. destruct (a_co x.1 !! k) as [c0|] eqn:E; [|done].
    assert (E' : sv c = sv c0) by (cbn in Hco; congruence). rewrite Hs. eapply slot_exp_sv; [exact E'|by apply Hk|by apply He|]. eauto.
  - congruence.
  - done.
Qed.

Ltac squiet S := eapply (slot_quiet _ _ _ S); cbn; try done.

Lemma slot_init p u : SlotI u (ainit p u, MFoc).
Proof. split; cbn; try done. Qed.

Lemma cur_top p u a f : mreach p u (a, f) -> (forall l s, visible a f l s -> same l s) -> hd 0 (cstack (a_tr a)) = a_cur a.
Proof.
  intros Hx Hv. destruct (mreach_stack _ _ _ Hx) as [(l&Hl&V)]. cbn in *. apply Hv in V. rewrite V. by destruct (chain_head _ _ _ Hl) as [l' ->].
Qed.

(** Slot contents of one coroutine change. *)
Lemma slot_put u a f n c s a' f' : SlotI u (a, f) -> a_co a !! n = Some c -> unw_st (ac_st c) = false ->
  a_co a' = <[n := c_slot s c]> (a_co a) -> a_nk a' = a_nk a -> a_nk a > n -> a_user a' = umem u (a_tr a') ->
  (forall k, cls k (a_tr a') = cls k (a_tr a)) -> slotv n (a_tr a') = slp s -> (forall k, k <> n -> slotv k (a_tr a') = slotv k (a_tr a)) ->
  (forall k, kb f k = false) -> (forall k, eb f (a_cur a) k = false) -> (forall k, kb f' k = false) -> (forall k, eb f' (a_cur a') k = false) ->
  notnew2 f' -> arg_foc f' -> SlotI u (a', f').
Proof.
  intros [S1 S2 S3 S4 S5 S6] Hn Hu Hco Hnk Hgt Hus Hc Hs Hs' Hk He Hk' He' Hnn Ha. split; cbn.
  - intros k x. rewrite Hco, Hc. intros [[<- <-]|[_ Hx]]%lookup_insert_Some; [by apply (S1 _ c)|]. by apply S1.
  - intros ??????? E. by rewrite E in Hnn.
  - intros k Hle. rewrite Hs' by lia. apply S3. cbn. lia.
  - intros k x. rewrite Hco. intros [[<- <-]|[Hne Hx]]%lookup_insert_Some.
    + unfold slot_exp. cbn. rewrite Hu, Hk', He', andb_comm. done.
    + rewrite Hs' by done. specialize (S4 _ _ Hx). unfold slot_exp in *. cbn in *. rewrite Hk, He in S4. rewrite Hk', He'. done.
  - done.
  - done.
Qed.

Lemma resumable_unw e a c : resumable e a = true -> a_co a !! ep_co e = Some c -> unw_st (ac_st c) = false.
Proof.
  unfold resumable. intros Hr Hc. destruct e; cbn in Hc; rewrite Hc in Hr; [by destruct (ac_st c)|].
  apply andb_true_iff in Hr as [_ Hr]. by destruct (ac_st c).
Qed.

Theorem slot_step p u x y : mreach p u x -> SlotI u x -> micro x y -> SlotI u y.
Proof.
  intros Hx S Hm. pose proof (mreach_minv _ _ _ Hx) as M. pose proof (mreach_basic _ _ _ Hx) as B.
  pose proof (mreach_pend _ _ _ Hx) as P. pose proof (mreach_den _ _ _ Hx) as D.
  destruct Hm; cbn in M, B; try (by squiet S); try (by squiet S; apply (sl_arg _ _ S)).
  all: try (by squiet S; [by eapply sv_insert|..]).
  - (* return *)
    pose proof (pi_foc _ P) as F. cbn in F. squiet S.
    + intros k'. destruct o as [o|]; [|done]. destruct o; try done. destruct r; try done; naive_solver.
    + destruct o as [o|]; [|done]. destruct o; try done. destruct r; try done; naive_solver.
  - (* local *)
    pose proof (local_op_frame _ _ _ _ H) as (E1&E2&E3&E4&E5&_).
    assert (Hs : a_co a' = a_co a -> a_user a' = umem u (EvRet (a_cur a') (NOp o) r :: a_tr a) ->
      (forall k', slotv k' (EvRet (a_cur a') (NOp o) r :: a_tr a) = slotv k' (a_tr a)) -> SlotI u (w_foc (AUser (k (ROk r))) (alog (EvRet (a_cur a') (NOp o) r) a'), MFoc)).
    { intros Ec Eu Es. destruct S as [S1 S2 S3 S4 S5 S6]. split; cbn [fst snd a_tr a_co a_user a_nk a_cur w_foc alog]; rewrite ?Ec, ?E1, ?E3, ?E4; try done.
      - intros k' Hk'. rewrite <- E3, Es. by apply S3.
      - intros k' c Hk'. rewrite <- E3, Es, E3. by apply (S4 k' c Hk'). }
    destruct o; cbn in H; repeat case_match; simplify_eq; try (apply Hs; [done|apply (sl_user _ _ S)|done]).
    + (* get of a value *)
      match goal with H : readable _ _ = Some _ |- _ => rename H into Hr end.
      match goal with H : a_h a !! _ = Some _ |- _ => rename H into Hh end.
      assert (Hd : den (a_tr a) !! h = Some (Some e)).
      { rewrite (d_den2 _ D); cbn; [by rewrite Hh|eapply (d_known _ D); [done|cbn; set_solver]|done]. }
      assert (Hc : a_co a !! ep_co e = Some a0).
      { unfold readable in Hr. destruct e; cbn in *; destruct (a_co a !! k0) as [c0|]; try done; cbn in Hr; destruct (ac_st c0) as [| | | |[]]; naive_solver. }
      destruct S as [S1 S2 S3 S4 S5 S6]. cbn in *. split; cbn; try done.
      * intros k' c. intros [[<- <-]|[_ Hx']]%lookup_insert_Some; [by apply (S1 _ a0)|]. by apply S1.
      * intros k' Hk'. rewrite Hd. rewrite decide_False; [by apply S3|]. apply (ib_dom _ B) in Hc. lia.
      * intros k' c. rewrite Hd. intros [[<- <-]|[Hne Hx']]%lookup_insert_Some.
        -- rewrite decide_True by done. specialize (S4 _ _ Hc). unfold slot_exp in *. cbn in *. rewrite orb_false_r, orb_false_r in *.
           pose proof (ib_h _ B _ _ _ _ _ Hh Hc) as [_ Hsd].
           destruct (ispull (ac_side a0) && unw_st (ac_st a0)) eqn:Eb; [|match goal with H : ac_slot a0 = _ |- _ => rewrite H in S4 end; by rewrite S4]. exfalso.
           apply andb_true_iff in Eb as [Eb1 Eb2]. unfold readable in Hr. destruct e; cbn in *; [|by rewrite Hsd in Eb1].
           rewrite Hc in Hr. cbn in Hr. by destruct (ac_st a0).
        -- rewrite decide_False by done. by apply (S4 k' c Hx').
    + apply Hs; [done| |done]. cbn. pose proof (sl_user _ _ S) as E. cbn in E. by rewrite E.
  - (* empty *)
    pose proof (pi_foc _ P) as F. cbn in F. subst o. squiet S.
  - (* output iterator *)
    squiet S. split; [done|]. intros _ l ->. destruct kd; done.
  - (* reference pushed *)
    destruct M as (_&_&Hr&_). eapply slot_put; [exact S|exact H|by eapply resumable_unw|done|done| | | | | |done..]; cbn.
    + apply (ib_dom _ B) in H. lia.
    + apply (sl_user _ _ S).
    + done.
    + by rewrite decide_True.
    + intros k' Hk'. by rewrite decide_False.
  - (* old value destroyed *)
    destruct M as (_&_&Hr&_). eapply slot_put; [exact S|exact H|by eapply resumable_unw|done|done| | | | | |done..|]; cbn.
    + apply (ib_dom _ B) in H. lia.
    + apply (sl_user _ _ S).
    + done.
    + by rewrite decide_True.
    + intros k' Hk'. by rewrite decide_False.
    + apply (sl_arg _ _ S).
  - (* new value constructed *)
    destruct M as (_&_&Hr&_).
    assert (Htop : hd 0 (cstack (a_tr a)) = a_cur a) by by eapply cur_top.
    assert (Hpe : pend (a_cur a) (a_tr a) = Some o). { rewrite (pi_pend _ P). unfold xop. by rewrite decide_True. }
    destruct (sl_arg _ _ S) as [Ha Ha'].
    eapply slot_put; [exact S|exact H|by eapply resumable_unw|done|done| | | | | |done..]; cbn.
    + apply (ib_dom _ B) in H. lia.
    + rewrite Htop, Hpe. pose proof (sl_user _ _ S) as E. cbn in E. unfold pusharg in Ha.
      assert (Hg : u0 = match g with AMove l => <[l := moved_from v]> (a_user a) | _ => a_user a end).
      { destruct g; cbn in H0; try done; try (destruct (a_user a !! l) eqn:El; cbn in H0; [|done]); repeat case_match; by simplify_eq. }
      rewrite Hg. destruct o as [o|]; [|done]. destruct o; try done; injection Ha as <- ->; destruct g; rewrite ?E; try done.
      by destruct (Ha' eq_refl l).
    + done.
    + by rewrite decide_True.
    + intros k' Hk'. by rewrite decide_False.
  - squiet S. eapply sv_insert; [done|]. unfold sv. cbn. by rewrite H0.
  - squiet S. eapply sv_insert; [done|]. unfold sv. cbn. by rewrite H0.
  - destruct M as (_&Hr&_). squiet S. eapply sv_insert; [done|]. unfold sv. cbn. by rewrite (resumable_unw _ _ _ Hr H).
  - (* value of a pull coroutine destroyed *)
    destruct S as [S1 S2 S3 S4 S5 S6]. cbn in *. split; cbn; try done.
    + intros k' Hk'. case_decide; [done|]. by apply S3.
    + intros k' c' Hk'. specialize (S4 _ _ Hk'). unfold slot_exp in *. cbn in *. destruct (decide (j = k')) as [->|].
      * rewrite Nat.eqb_refl, orb_true_r, andb_true_r. assert (c' = c) as -> by congruence. by rewrite H0.
      * apply Nat.eqb_neq in n as ->. done.
  - destruct S as [S1 S2 S3 S4 S5 S6]. cbn in *. split; cbn; try done.
    intros k' c' Hk'. specialize (S4 _ _ Hk'). unfold slot_exp in *. cbn in *. destruct (decide (j = k')) as [->|].
    + rewrite Nat.eqb_refl, orb_true_r, andb_true_r, orb_false_r in *. assert (c' = c) as -> by congruence.
      destruct (ac_side c) eqn:Es; cbn in *; [|done]. intros Ek. rewrite H0 in S4 by done. destruct (unw_st (ac_st c)); cbn in S4; auto.
    + apply Nat.eqb_neq in n as ->. done.
  - (* destroyed: suspended *)
    destruct S as [S1 S2 S3 S4 S5 S6]. cbn in *. split; cbn; try done.
    + intros k' c' [[<- <-]|[_ Hk']]%lookup_insert_Some; [by apply (S1 _ c)|by apply S1].
    + intros k' c' [[<- <-]|[Hne Hk']]%lookup_insert_Some.
      * specialize (S4 _ _ H). unfold slot_exp in *. cbn in *. rewrite Nat.eqb_refl, orb_true_r in S4. by destruct (ac_side c).
      * specialize (S4 _ _ Hk'). unfold slot_exp in *. cbn in *. apply Nat.eqb_neq in Hne. by rewrite Hne in S4.
  - destruct S as [S1 S2 S3 S4 S5 S6]. cbn in *. split; cbn; try done.
    + intros k' c' [[<- <-]|[_ Hk']]%lookup_insert_Some; [by apply (S1 _ c)|by apply S1].
    + intros k' c' [[<- <-]|[Hne Hk']]%lookup_insert_Some.
      * specialize (S4 _ _ H). unfold slot_exp in *. cbn in *. rewrite Nat.eqb_refl, orb_true_r in S4. by destruct (ac_side c).
      * specialize (S4 _ _ Hk'). unfold slot_exp in *. cbn in *. apply Nat.eqb_neq in Hne. by rewrite Hne in S4.
  - (* allocation *)
    pose proof (mreach_tgt _ _ _ Hx) as T. destruct (tg_foc _ T) as [h' Et]. cbn in Et.
    destruct S as [S1 S2 S3 S4 S5 S6]. cbn in *. split; cbn; try done.
    + intros k' c' Hk'. rewrite decide_False; [by apply S1|]. apply (ib_dom _ B) in Hk'. lia.
    + intros ??????? E. injection E as <- <- <- <- <- <- <-. rewrite decide_True by done. rewrite Et. split; [done|].
      rewrite <- Et. by apply S3.
    + intros k' Hk'. apply S3. lia.
  - (* pull function entered *)
    destruct M as (I&Hnk&Hnh). destruct S as [S1 S2 S3 S4 S5 S6]. cbn in *. destruct (S2 _ _ _ _ _ _ _ eq_refl) as [Sa Sb].
    split; cbn; try done.
    + intros k' c' [[<- <-]|[_ Hk']]%lookup_insert_Some; [done|by apply S1].
    + intros k' c' [[<- <-]|[Hne Hk']]%lookup_insert_Some; [done|]. by apply (S4 _ _ Hk').
  - destruct M as (I&Hnk&Hnh). destruct S as [S1 S2 S3 S4 S5 S6]. cbn in *. destruct (S2 _ _ _ _ _ _ _ eq_refl) as [Sa Sb].
    split; cbn; try done.
    + intros k' c' [[<- <-]|[_ Hk']]%lookup_insert_Some; [done|by apply S1].
    + intros k' c' [[<- <-]|[Hne Hk']]%lookup_insert_Some; [done|]. by apply (S4 _ _ Hk').
  - destruct M as (_&c'&Hc&Hst). assert (c' = c) as -> by congruence. squiet S. eapply sv_insert; [done|]. unfold sv. cbn. by rewrite Hst.
  - (* value of a push coroutine destroyed *)
    destruct S as [S1 S2 S3 S4 S5 S6]. cbn in *. split; cbn; try done.
    + intros k' Hk'. case_decide; [done|]. by apply S3.
    + intros k' c' Hk'. specialize (S4 _ _ Hk'). unfold slot_exp in *. cbn in *. destruct (decide (a_cur a = k')) as [<-|].
      * by rewrite Nat.eqb_refl, orb_true_r.
      * by apply Nat.eqb_neq in n as ->.
  - destruct M as [_ M]. unfold foc_inv in M. rewrite H in M. destruct M as (c'&Hc'&Hu). assert (c' = c) as -> by congruence.
    destruct S as [S1 S2 S3 S4 S5 S6]. cbn in *. split; cbn; try done.
    intros k' c' Hk'. specialize (S4 _ _ Hk'). unfold slot_exp in *. cbn in *. destruct (decide (a_cur a = k')) as [<-|].
    + rewrite Nat.eqb_refl, orb_true_r, !orb_false_r in *. assert (c' = c) as -> by congruence. rewrite Hu in S4.
      intros Ek. destruct (ac_side c) eqn:Es; cbn in *; [auto|]. by rewrite H1 in S4.
    + by apply Nat.eqb_neq in n as ->.
  - (* stack released *)
    assert (Hy : SlotI u (a1, MFoc)).
    { destruct S as [S1 S2 S3 S4 S5 S6]. cbn in *. split; cbn; try done.
      - intros k' c' [_ Hk']%lookup_delete_Some. by apply S1.
      - intros k' c' [Hne Hk']%lookup_delete_Some. specialize (S4 _ _ Hk'). unfold slot_exp in *. cbn in *. apply Nat.eqb_neq in Hne. by rewrite Hne in S4. }
    destruct w as [|? ? []|]; [done|..]; subst y; by squiet Hy.
Qed.

Theorem mreach_slot p u x : mreach p u x -> SlotI u x.
Proof. apply (mreach_ind p u (SlotI u)); [apply slot_init|intros ???; by eapply slot_step]. Qed.

End slot.
