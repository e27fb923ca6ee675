(** Life.v -- link between the history and the status of coroutines. *)
From stdpp Require Import prelude gmap relations.
From Coq Require Import Lia.
From Verif Require Import Base Model Spec InvSpec Main Micro Trace.

Section life.
Context {env : Env}.

(** User code of the current context is running or in a call. *)
Definition userish (x : astate * mfoc) : bool :=
  match x.2 with
  | MFoc => match a_foc x.1 with AUser _ => true | _ => false end
  | MKill _ w | MKill2 _ w => match w with WExit _ => false | _ => true end
  | MExit3 | MLeft _ => false
  | _ => true
  end.

Definition st_phase (f : mfoc) (cur k : nat) (s : astatus) (ph : phase) : Prop :=
  match s with
  | ANew _ | AUnw false => ph = PNew
  | ASusp _ _ _ => ph = PRun
  | ARun => ph = match f with MLeft y => if decide (k = cur) then PDone y else PRun | _ => PRun end
  | ADone y => ph = PDone y
  | AUnw true => ph = PRun \/ (exists y, ph = PDone y) \/ ph = PLeft
  end.

Record LifeI (x : astate * mfoc) : Prop := {
  li_none : forall k, k = 0 \/ a_nk x.1 <= k -> life k (a_tr x.1) = PNone;
  li_gone : forall k, 0 < k < a_nk x.1 -> a_co x.1 !! k = None -> life k (a_tr x.1) = PFreed \/ life k (a_tr x.1) = PAlloc;
  li_st : forall k c, a_co x.1 !! k = Some c -> st_phase x.2 (a_cur x.1) k (ac_st c) (life k (a_tr x.1));
  li_wait : forall k w, k <> 0 -> a_wait x.1 !! k = Some w -> (forall j, w <> WExit j) -> life k (a_tr x.1) = PRun;
  li_cur : a_cur x.1 <> 0 -> userish x = true -> life (a_cur x.1) (a_tr x.1) = PRun;
  li_left : forall y, x.2 = MLeft y -> life (a_cur x.1) (a_tr x.1) = PDone y;
  li_new2 : forall sd kd np fn k h n, x.2 = MNew2 sd kd np fn k h n -> life n (a_tr x.1) = PAlloc }.

(** What a micro step does to the components. *)
Lemma local_op_frame o a a' r : local_op o a = Some (a', r) ->
  a_tr a' = a_tr a /\ a_wait a' = a_wait a /\ a_cur a' = a_cur a /\ a_nk a' = a_nk a /\ a_foc a' = a_foc a /\
  (a_co a' = a_co a \/ exists n c s, a_co a !! n = Some c /\ a_co a' = <[n := c_slot s c]> (a_co a)).
Proof.
  intros H. destruct o; cbn in H; repeat case_match; simplify_eq; cbn; repeat (split; [done|]); auto.
  right. match goal with H : readable _ _ = Some _ |- _ => apply readable_co in H end. eauto.
Qed.


Lemma st_phase_f f f' cur cur' k s ph : st_phase f cur k s ph -> (s = ARun -> ph = PRun) -> (forall y, f' <> MLeft y) -> st_phase f' cur' k s ph.
Proof. intros H H1 H2. destruct s as [| | | |[]]; cbn in *; try done. rewrite H1 by done. destruct f'; try done. by destruct (H2 x). Qed.

Definition plain (f : mfoc) : Prop := (forall y, f <> MLeft y) /\ (forall sd kd np fn k h n, f <> MNew2 sd kd np fn k h n).

(** Steps that change neither status nor phase nor control. *)
Lemma life_quiet x y : LifeI x -> (forall k, life k (a_tr y.1) = life k (a_tr x.1)) ->
  (forall k, ac_st <$> a_co y.1 !! k = ac_st <$> a_co x.1 !! k) -> a_wait y.1 = a_wait x.1 -> a_cur y.1 = a_cur x.1 ->
  a_nk y.1 = a_nk x.1 -> (userish y = true -> userish x = true) -> plain y.2 -> (forall z, x.2 <> MLeft z) -> LifeI y.
Proof.
  intros [L1 L2 L3 L4 L5 L6 L7] Ht Hc Hw Hcur Hnk Hu [Hp1 Hp2] Hx. split.
  - intros. rewrite Ht. apply L1. by rewrite <- Hnk.
  - intros k Hk Hn. rewrite Ht. apply L2; [by rewrite <- Hnk|]. specialize (Hc k). rewrite Hn in Hc.
    destruct (a_co x.1 !! k); done.
  - intros k c Hk. rewrite Ht, Hcur. specialize (Hc k). rewrite Hk in Hc. destruct (a_co x.1 !! k) as [c'|] eqn:E; [|done].
    cbn in Hc. injection Hc as ->. pose proof (L3 _ _ E) as H. eapply st_phase_f; [exact H| |done].
    intros Hs. rewrite Hs in H. cbn in H. destruct (x.2); try done. by destruct (Hx x0).
  - intros k w. rewrite Hw, Ht. apply L4.
  - rewrite Hcur, Ht. intros. apply L5; auto.
  - intros z Hz. by destruct (Hp1 z).
  - intros. by destruct (Hp2 sd kd np fn k h n).
Qed.

Ltac quiet L := eapply (life_quiet _ _ L); cbn; try done; try (split; done).

Lemma st_insert (co : gmap nat acoro) n c c' : co !! n = Some c -> ac_st c' = ac_st c ->
  forall k, ac_st <$> <[n := c']> co !! k = ac_st <$> co !! k.
Proof.
  intros H He k. destruct (decide (n = k)) as [<-|]; [|by rewrite lookup_insert_ne].
  rewrite lookup_insert, H. cbn. by rewrite He.
Qed.

Lemma life_init p u : LifeI (ainit p u, MFoc).
Proof. split; cbn; try done. intros. lia. Qed.

Lemma basic_inactive a n c : basic a -> a_co a !! n = Some c -> active (ac_st c) = false -> n <> a_cur a /\ a_wait a !! n = None.
Proof.
  intros I H Ha. split.
  - intros ->. destruct (ib_cur _ I) as [E|(x&Hx&?)]; [|congruence]. destruct (ib_dom _ I _ _ H). lia.
  - destruct (a_wait a !! n) eqn:W; [|done]. destruct (ib_ctx _ I _ _ W) as [->|(x&Hx&?)]; [|congruence].
    destruct (ib_dom _ I _ _ H). lia.
Qed.

(** Control goes to coroutine [n], which was not active. *)
Lemma life_switch a f n c c' w a' f' : LifeI (a, f) -> basic a ->
  a_co a !! n = Some c -> active (ac_st c) = false -> ac_st c' = ARun \/ unw_st (ac_st c') = true ->
  (forall z, f <> MLeft z) -> plain f' -> userish (a, f) = true \/ (exists j, w = WExit j) ->
  (forall k, k <> n -> life k (a_tr a') = life k (a_tr a)) ->
  a_co a' = <[n := c']> (a_co a) -> a_wait a' = <[a_cur a := w]> (a_wait a) -> a_cur a' = n -> a_nk a' = a_nk a ->
  st_phase f' n n (ac_st c') (life n (a_tr a')) -> (userish (a', f') = true -> life n (a_tr a') = PRun) ->
  LifeI (a', f').
Proof.
  intros [L1 L2 L3 L4 L5 L6 L7] I Hc Hna Hc' Hf [Hp1 Hp2] Hu Ht Hco Hw Hcur Hnk Hph Hup.
  pose proof (ib_dom _ I _ _ Hc) as Hdom. cbn in *.
  destruct (basic_inactive _ _ _ I Hc Hna) as [Hnc Hnw].
  split; cbn; rewrite ?Hco, ?Hw, ?Hcur, ?Hnk.
  - intros. rewrite Ht by lia. auto.
  - intros k Hk Hn. assert (k <> n) by (intros ->; by rewrite lookup_insert in Hn). rewrite lookup_insert_ne in Hn by done.
    rewrite Ht by done. auto.
  - intros k c0 Hk. destruct (decide (k = n)) as [->|].
    + rewrite lookup_insert in Hk. by simplify_eq.
    + rewrite lookup_insert_ne in Hk by done. rewrite Ht by done. pose proof (L3 _ _ Hk) as H.
      eapply st_phase_f; [exact H| |done]. intros Hs. rewrite Hs in H. cbn in H. destruct f; try done. by destruct (Hf x).
  - intros k w' Hk0 Hk Hwe. destruct (decide (k = a_cur a)) as [->|].
    + rewrite lookup_insert in Hk. simplify_eq. rewrite Ht by done. destruct Hu as [Hu|[j Hu]]; [by apply L5|]. by destruct (Hwe j).
    + rewrite lookup_insert_ne in Hk by done. assert (k <> n) by congruence. rewrite Ht by done. eauto.
  - intros _ Hus. auto.
  - intros y Hy. by destruct (Hp1 y).
  - intros. by destruct (Hp2 sd kd np fn k h n0).
Qed.

(** Control goes back from [n] to the context that resumed it. *)
Lemma life_back a f c c' w a' f' n : LifeI (a, f) -> basic a ->
  a_co a !! n = Some c -> n = a_cur a -> ac_st c = ARun ->
  a_wait a !! ac_by c = Some w -> (forall j, w <> WExit j) -> plain f' ->
  (forall k, life k (a_tr a') = life k (a_tr a)) ->
  a_co a' = <[n := c']> (a_co a) -> a_wait a' = delete (ac_by c) (a_wait a) -> a_cur a' = ac_by c -> a_nk a' = a_nk a ->
  active (ac_st c') = false -> st_phase f' (ac_by c) n (ac_st c') (life n (a_tr a)) ->
  LifeI (a', f').
Proof.
  intros [L1 L2 L3 L4 L5 L6 L7] I Hc Hn Hst Hw Hwe [Hp1 Hp2] Ht Hco Hwt Hcur Hnk Hna Hph.
  pose proof (ib_dom _ I _ _ Hc) as Hdom. cbn in *.
  split; cbn; rewrite ?Hco, ?Hwt, ?Hcur, ?Hnk.
  - intros. rewrite Ht. auto.
  - intros k Hk Hk2. rewrite Ht. assert (k <> n) by (intros ->; by rewrite lookup_insert in Hk2). rewrite lookup_insert_ne in Hk2 by done. auto.
  - intros k c0 Hk. rewrite Ht. destruct (decide (k = n)) as [E|].
    + subst k. rewrite lookup_insert in Hk. by simplify_eq.
    + rewrite lookup_insert_ne in Hk by done. pose proof (L3 _ _ Hk) as H.
      eapply st_phase_f; [exact H| |done]. intros Hs. rewrite Hs in H. cbn in H. destruct f; try done.
      case_decide; congruence.
  - intros k w' Hk0 Hk Hwe'. rewrite Ht. apply lookup_delete_Some in Hk as [_ Hk]. eauto.
  - intros H0 Hus. rewrite Ht. eauto.
  - intros y Hy. by destruct (Hp1 y).
  - intros. by destruct (Hp2 sd kd np fn k h n0).
Qed.

Theorem life_step p u x y : mreach p u x -> LifeI x -> micro x y -> LifeI y.
Proof.
  intros Hx L Hm. pose proof (mreach_minv _ _ _ Hx) as M. pose proof (mreach_basic _ _ _ Hx) as B.
  destruct Hm; cbn in M, B.
  - quiet L. unfold userish; cbn. by rewrite H.
  - quiet L. unfold userish; cbn. by rewrite H.
  - quiet L. unfold userish; cbn. by rewrite H.
  - quiet L.
  - quiet L.
  - apply local_op_frame in H as (E1&E2&E3&E4&E5&E6). quiet L; rewrite ?E1; try done.
    destruct E6 as [->|(n&c&s&Hc&->)]; [done|]. by eapply st_insert.
  - quiet L.
  - quiet L.
  - quiet L.
  - quiet L.
  - quiet L.
  - quiet L.
  - quiet L.
  - quiet L. by eapply st_insert.
  - quiet L. by eapply st_insert.
  - quiet L.
  - quiet L. by eapply st_insert.
  - quiet L.
  - (* resume *)
    eapply (life_switch a _ n c (c_by (a_cur a) (c_st ARun c))); [exact L|exact B|done|by rewrite H0|by left|done|by split|by left|..]; cbn; try done;
    pose proof (li_st _ L _ _ H) as Hs; rewrite H0 in Hs; done.
  - (* enter *)
    eapply (life_switch a _ n c (c_by (a_cur a) (c_st ARun c))); [exact L|exact B|done|by rewrite H0|by left|done|by split|by left|..]; cbn; try done;
      intros; by case_decide.
  - (* yield *)
    destruct M as (Hp&Hr&_). unfold resumable in Hr. rewrite H in Hr.
    apply andb_true_iff in Hr as [Hn%bool_decide_eq_true Hst]. destruct (ac_st c) eqn:Hst'; try done.
    eapply (life_back a _ c (c_st (ASusp o po k) c)); [exact L|exact B|exact H|done|done|exact H0|done|by split|..]; cbn; try done.
    pose proof (li_st _ L _ _ H) as Hs. rewrite Hst' in Hs. done.
  - quiet L.
  - quiet L.
  - quiet L.
  - quiet L.
  - quiet L.
  - quiet L.
  - quiet L. intros k0. case_decide as E; [|done]. subst k0. pose proof (li_st _ L _ _ H) as Hs. rewrite H0 in Hs. cbn in Hs. by rewrite Hs.
  - quiet L.
  - quiet L.
  - (* destroy a suspended coroutine *)
    eapply (life_switch a _ j c); [exact L|exact B|done|by rewrite H0|..|reflexivity|reflexivity|reflexivity|reflexivity| |]; cbn; try done; try (by right).
    + destruct w; try (by left). right; eauto.
    + pose proof (li_st _ L _ _ H) as Hs. rewrite H0 in Hs. cbn in Hs. by left.
    + pose proof (li_st _ L _ _ H) as Hs. by rewrite H0 in Hs.
  - (* destroy an idle one *)
    eapply (life_switch a _ j c); [exact L|exact B|done|..|reflexivity|reflexivity|reflexivity|reflexivity| |]; cbn; try done; try (by right).
    + by destruct (ac_st c).
    + destruct w; try (by left). right; eauto.
    + pose proof (li_st _ L _ _ H) as Hs. cbn in Hs. destruct (ac_st c); try done; subst en; cbn in *; eauto.
  - quiet L.
  - (* allocation *)
    destruct L as [L1 L2 L3 L4 L5 L6 L7]. cbn in *. pose proof (ib_nk _ B) as Hnk. cbn in Hnk.
    split; cbn.
    + intros k0 Hk0. rewrite decide_False by lia. apply L1. lia.
    + intros k0 Hk0 Hn. case_decide; [by right|]. apply L2; [lia|done].
    + intros k0 c Hk0. rewrite decide_False by (pose proof (ib_dom _ B _ _ Hk0); cbn in *; lia). by apply (L3 _ _ Hk0).
    + intros k0 w Hk0 Hw. destruct (ib_ctx _ B _ _ Hw) as [E|(c&Hc&_)]; [done|].
      rewrite decide_False by (pose proof (ib_dom _ B _ _ Hc); cbn in *; lia). by apply (L4 _ w).
    + intros Hc0 _. destruct (ib_cur _ B) as [E|(c&Hc&_)]; [done|].
      rewrite decide_False by (pose proof (ib_dom _ B _ _ Hc); cbn in *; lia). by apply L5.
    + done.
    + intros * E. injection E; intros; subst. by case_decide.
  - quiet L.
  - (* construction of a pull object *)
    destruct M as (I&Hn&_). destruct L as [L1 L2 L3 L4 L5 L6 L7]. cbn in *. pose proof (ic_nk _ _ _ _ _ I) as Hnk.
    assert (Hdom : forall k c, a_co a !! k = Some c -> 0 < k < n) by apply (ic_dom _ _ _ _ _ I).
    split; cbn; rewrite ?Hn.
    + intros k0 Hk0. rewrite decide_False by lia. apply L1. lia.
    + intros k0 Hk0 Hk1. assert (k0 <> n) by (intros ->; by rewrite lookup_insert in Hk1). rewrite lookup_insert_ne in Hk1 by done.
      rewrite decide_False by done. apply L2; [lia|done].
    + intros k0 c Hk0. destruct (decide (n = k0)) as [->|].
      * rewrite lookup_insert in Hk0. simplify_eq. done.
      * rewrite lookup_insert_ne in Hk0 by done. by apply (L3 _ _ Hk0).
    + intros k0 w Hk0 Hw Hwe. destruct (decide (k0 = a_cur a)) as [->|].
      * destruct (ib_cur _ B) as [E|(c&Hc&_)]; [done|]. rewrite decide_False by (pose proof (Hdom _ _ Hc); lia). by apply L5.
      * rewrite lookup_insert_ne in Hw by done. destruct (ib_ctx _ B _ _ Hw) as [E|(c&Hc&_)]; [done|].
        rewrite decide_False by (pose proof (Hdom _ _ Hc); lia). by apply (L4 _ w).
    + intros _ _. rewrite decide_True; done.
    + done.
    + done.
  - (* construction of a push object *)
    destruct M as (I&Hn&_). destruct L as [L1 L2 L3 L4 L5 L6 L7]. cbn in *. pose proof (ic_nk _ _ _ _ _ I) as Hnk.
    assert (Hdom : forall k c, a_co a !! k = Some c -> 0 < k < n) by apply (ic_dom _ _ _ _ _ I).
    pose proof (L7 _ _ _ _ _ _ _ eq_refl) as Hal.
    split; cbn; rewrite ?Hn.
    + intros k0 Hk0. rewrite decide_False by lia. apply L1. lia.
    + intros k0 Hk0 Hk1. assert (k0 <> n) by (intros ->; by rewrite lookup_insert in Hk1). rewrite lookup_insert_ne in Hk1 by done.
      rewrite decide_False by done. apply L2; [lia|done].
    + intros k0 c Hk0. destruct (decide (n = k0)) as [->|].
      * rewrite lookup_insert in Hk0. simplify_eq. cbn. by rewrite Hal.
      * rewrite lookup_insert_ne in Hk0 by done. by apply (L3 _ _ Hk0).
    + intros k0 w Hk0 Hw Hwe. destruct (ib_ctx _ B _ _ Hw) as [E|(c&Hc&_)]; [done|].
      rewrite decide_False by (pose proof (Hdom _ _ Hc); lia). by apply (L4 _ w).
    + intros Hc0 _. destruct (ib_cur _ B) as [E|(c&Hc&_)]; [done|]. rewrite decide_False by (pose proof (Hdom _ _ Hc); lia). by apply L5.
    + done.
    + done.
  - (* the function is left *)
    destruct M as [I _]. destruct L as [L1 L2 L3 L4 L5 L6 L7]. cbn in *. pose proof (ib_dom _ B _ _ H1) as Hcd. cbn in Hcd.
    assert (Hl : forall k, life k (EvLeave (a_cur a) (XUser <$> x) :: a_tr a) = if decide (a_cur a = k) then PDone x else life k (a_tr a)).
    { intros. destruct x; done. }
    split; cbn -[life]; rewrite ?Hn.
    + intros k0 Hk0. rewrite Hl, decide_False by lia. by apply L1.
    + intros k0 Hk0 Hk1. rewrite Hl. rewrite decide_False by (intros <-; congruence). by apply L2.
    + intros k0 c0 Hk0. rewrite Hl. pose proof (L3 _ _ Hk0) as Hs. destruct (decide (a_cur a = k0)) as [<-|].
      * simplify_eq. rewrite H2. cbn. rewrite decide_True; done.
      * destruct (ac_st c0) as [| | | |[]]; cbn in *; try done. by rewrite decide_False.
    + intros k0 w Hk0 Hw Hwe. rewrite Hl. rewrite decide_False; [by eapply L4|]. intros <-. by rewrite (ib_wcur _ B) in Hw.
    + done.
    + intros. simplify_eq. rewrite Hl. rewrite decide_True; done.
    + done.
  - (* control goes back after the function was left *)
    destruct M as (I&c'&Hc&Hst). assert (c' = c) as -> by congruence.
    eapply (life_back a _ c (c_st (ADone x) c)); [exact L|exact B|exact H|done|done|exact H0|done|by split|..]; cbn; try done.
    by apply (li_left _ L).
  - (* unwinding reaches the end of the function *)
    destruct L as [L1 L2 L3 L4 L5 L6 L7]. cbn in *. pose proof (ib_dom _ B _ _ H0) as Hcd. cbn in Hcd.
    split; cbn.
    + intros k0 Hk0. rewrite decide_False by lia. by apply L1.
    + intros k0 Hk0 Hk1. rewrite decide_False by (intros <-; congruence). by apply L2.
    + intros k0 c0 Hk0. pose proof (L3 _ _ Hk0) as Hs. destruct (decide (a_cur a = k0)) as [<-|].
      * simplify_eq. rewrite H1 in *. cbn in *. destruct en; [by auto|].
        rewrite L5 in Hs; [done|lia|]. unfold userish; cbn. by rewrite H.
      * destruct (ac_st c0) as [| | | |[]]; cbn in *; try done.
    + intros k0 w Hk0 Hw Hwe. rewrite decide_False; [by eapply L4|]. intros <-. by rewrite (ib_wcur _ B) in Hw.
    + done.
    + done.
    + done.
  - quiet L.
  - quiet L.
  - quiet L.
  - quiet L.
  - (* the stack is released *)
    destruct M as (I&c'&Hc&Hu). assert (c' = c) as -> by congruence.
    pose proof (ib_dom _ B _ _ Hc) as Hcd. cbn in Hcd.
    pose proof (ib_wait _ B _ _ H0) as (z&Hz&Hzb&Hzm). cbn in Hz, Hzm.
    assert (ac_by c <> a_cur a) as Hne. { intros E. rewrite E in H0. by rewrite (ib_wcur _ B) in H0. }
    assert (Hgen : forall b f, a_tr b = EvFree (a_cur a) :: a_tr a -> a_co b = delete (a_cur a) (a_co a) -> a_wait b = delete (ac_by c) (a_wait a) ->
              a_cur b = ac_by c -> a_nk b = a_nk a -> plain f -> (userish (b, f) = true -> forall j, w <> WExit j) -> LifeI (b, f)).
    { destruct L as [L1 L2 L3 L4 L5 L6 L7]. cbn in *. intros b f E1 E2 E3 E4 E5 [Hp1 Hp2] Hus.
      split; cbn; rewrite ?E1, ?E2, ?E3, ?E4, ?E5; cbn.
      + intros k0 Hk0. rewrite decide_False by lia. by apply L1.
      + intros k0 Hk0 Hk1. case_decide; [by left|]. rewrite lookup_delete_ne in Hk1 by done. by apply L2.
      + intros k0 c0 Hk0. apply lookup_delete_Some in Hk0 as [Hne0 Hk0]. rewrite decide_False by done.
        pose proof (L3 _ _ Hk0) as Hs. eapply st_phase_f; [exact Hs| |done].
        intros Hr. by rewrite Hr in Hs.
      + intros k0 w0 Hk0 Hw Hwe. apply lookup_delete_Some in Hw as [_ Hw]. rewrite decide_False; [by eapply L4|].
        intros <-. by rewrite (ib_wcur _ B) in Hw.
      + intros Hb Hu'. rewrite decide_False by done. eapply L4; eauto.
      + intros y0 Hy. by destruct (Hp1 y0).
      + intros. by destruct (Hp2 sd kd np fn k h n). }
    destruct w as [ |j o [] k|j]; [done| | | |]; subst y; apply Hgen; cbn; try done.
Qed.

Theorem mreach_life p u x : mreach p u x -> LifeI x.
Proof. apply mreach_ind; [apply life_init|]. apply life_step. Qed.
End life.
