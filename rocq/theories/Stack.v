(** Stack.v -- link between the history and the stack of contexts. *)
From stdpp Require Import prelude gmap relations.
From Coq Require Import Lia.
From Verif Require Import Base Model Spec InvSpec Main Micro Trace Life Pend Den Tgt.

Section stack.
Context {env : Env}.

(** [l]: context [k], the context that resumed it, ..., main. *)
Inductive chain (co : gmap nat acoro) : nat -> list nat -> Prop :=
| ch_0 : chain co 0 [0]
| ch_S k c l : co !! k = Some c -> active (ac_st c) = true -> k <> 0 -> k ∉ l -> chain co (ac_by c) l -> chain co k (k :: l).

Lemma chain_head co k l : chain co k l -> exists l', l = k :: l'.
Proof. destruct 1; by eexists. Qed.
Lemma chain_active co k l n : chain co k l -> n ∈ l -> n = 0 \/ exists c, co !! n = Some c /\ active (ac_st c) = true.
Proof.
  induction 1; intros Hn; [left; set_solver|]. apply elem_of_cons in Hn as [->|Hn]; [right; eauto|auto].
Qed.
Lemma chain_nodup co k l : chain co k l -> NoDup l.
Proof. induction 1; [apply NoDup_singleton|]. by apply NoDup_cons. Qed.

Lemma chain_frame co co' k l : chain co k l ->
  (forall n c, n ∈ l -> co !! n = Some c -> exists c', co' !! n = Some c' /\ active (ac_st c') = active (ac_st c) /\ ac_by c' = ac_by c) -> chain co' k l.
Proof.
  induction 1 as [|k c l Hk Ha Hk0 Hn Hc IH]; intros H; [constructor|].
  destruct (H k c) as (c'&Hc'&Ha'&Hb'); [set_solver|done|]. eapply (ch_S _ _ c'); [done|congruence|done|done|]. rewrite Hb'.
  apply IH. intros n x Hn'. apply H. set_solver.
Qed.

Lemma chain_slot co k l n c s : chain co k l -> co !! n = Some c -> chain (<[n := c_slot s c]> co) k l.
Proof.
  intros H Hn. eapply chain_frame; [exact H|]. intros m x _ Hx. destruct (decide (m = n)) as [->|].
  - rewrite lookup_insert. simplify_eq. eauto.
  - rewrite lookup_insert_ne by done. eauto.
Qed.

Lemma chain_other co k l n c : chain co k l -> n ∉ l -> chain (<[n := c]> co) k l.
Proof. intros H Hn. eapply chain_frame; [exact H|]. intros m x Hm Hx. rewrite lookup_insert_ne by set_solver. eauto. Qed.

Lemma chain_switch co k l n c c' : chain co k l -> co !! n = Some c -> n <> 0 -> active (ac_st c) = false -> active (ac_st c') = true -> ac_by c' = k ->
  chain (<[n := c']> co) n (n :: l).
Proof.
  intros H Hn Hn0 Hna Ha Hb. assert (Hnl : n ∉ l).
  { intros Hl. destruct (chain_active _ _ _ _ H Hl) as [|(x&?&?)]; congruence. }
  eapply ch_S; [by rewrite lookup_insert|done|done|done|]. rewrite Hb. by apply chain_other.
Qed.

Lemma chain_new co k l n c' : chain co k l -> co !! n = None -> n <> 0 -> active (ac_st c') = true -> ac_by c' = k ->
  chain (<[n := c']> co) n (n :: l).
Proof.
  intros H Hn Hn0 Ha Hb. assert (Hnl : n ∉ l).
  { intros Hl. destruct (chain_active _ _ _ _ H Hl) as [|(x&?&?)]; congruence. }
  eapply ch_S; [by rewrite lookup_insert|done|done|done|]. rewrite Hb. by apply chain_other.
Qed.

Lemma chain_inv co k l c : chain co k l -> co !! k = Some c -> k <> 0 -> exists l', l = k :: l' /\ k ∉ l' /\ chain co (ac_by c) l'.
Proof. destruct 1; intros; simplify_eq; eauto. Qed.

(** How the visible stack [s] relates to the real one [l] of the current context. *)
Definition same (l s : list nat) : Prop := s = l.
Definition fwd (cur : nat) (l s : list nat) : Prop := l = cur :: s.
Definition bck (j : nat) (l s : list nat) : Prop := s = j :: l.

Definition visible (a : astate) (f : mfoc) (l s : list nat) : Prop :=
  let cur := a_cur a in
  let t := tgt cur (a_tr a) in
  match f with
  | MFoc => match a_foc a with AExit => same l s \/ fwd cur l s | _ => same l s end
  | MGot j _ _ _ _ => if decide (j = cur) then fwd cur l s else bck j l s
  | MKill j w | MKill2 j w => match w with
                              | WKill _ _ (KfEmpty _ _) _ | WKill _ _ (KfThrow _) _ => bck j l s
                              | _ => same l s
                              end
  | MRet o _ _ =>
      match o with
      | NNew Push _ | NOp (ODestroy _) => same l s
      | _ => match t with Some (Outer j) => bck j l s | _ => fwd cur l s end
      end
  | MExn o x _ =>
      match x with
      | XUnwind => fwd cur l s
      | XUser _ => same l s \/ (exists j, t = Some (Outer j) /\ j <> cur /\ bck j l s)
      end
  | _ => same l s
  end.

Record StackI (x : astate * mfoc) : Prop := {
  st_chain : exists l, chain (a_co x.1) (a_cur x.1) l /\ visible x.1 x.2 l (cstack (a_tr x.1)) }.

Lemma stack_init p u : StackI (ainit p u, MFoc).
Proof. split. exists [0]. split; [constructor|done]. Qed.

Lemma stack_back a n c c' l : chain (a_co a) n l -> a_co a !! n = Some c -> n <> 0 ->
  exists l', l = n :: l' /\ n ∉ l' /\ chain (<[n := c']> (a_co a)) (ac_by c) l'.
Proof.
  intros Hl Hn Hn0. destruct (chain_inv _ _ _ _ Hl Hn Hn0) as (l'&->&Hnl&Hl'). exists l'. split; [done|]. split; [done|]. by apply chain_other.
Qed.

Lemma ret_visible cur l s : (exists l', l = cur :: l') -> NoDup l ->
  same l s \/ fwd cur l s \/ (exists j, j <> cur /\ bck j l s) ->
  (if decide (cur ∈ s) then match s with [] => [] | m :: s' => if decide (cur = m) then s else s' end else cur :: s) = l.
Proof.
  unfold same, fwd, bck. intros [l' ->] Hd [H|[H|(j&Hj&H)]]; [subst s| |subst s].
  - rewrite (decide_True (P := cur ∈ cur :: l')) by (apply elem_of_cons; auto). by rewrite decide_True.
  - unfold fwd in H. injection H as ->. apply NoDup_cons in Hd as [Hd _]. by rewrite decide_False.
  - rewrite (decide_True (P := cur ∈ j :: cur :: l')) by (rewrite !elem_of_cons; auto). by rewrite decide_False.
Qed.

Theorem stack_step p u x y : mreach p u x -> StackI x -> micro x y -> StackI y.
Proof.
  intros Hx [(l&Hl&V)] Hm. pose proof (mreach_minv _ _ _ Hx) as M. pose proof (mreach_basic _ _ _ Hx) as B.
  pose proof (mreach_tgt _ _ _ Hx) as T. pose proof (tg_foc _ T) as F. pose proof (mreach_pend _ _ _ Hx) as P.
  destruct Hm; cbn in M, B, Hl, V, F; split.
  - exists l. rewrite H in V. done.
  - exists l. rewrite H in V. done.
  - exists l. rewrite H in V. done.
  - (* return *)
    exists l. split; [done|]. cbn. unfold same. apply (ret_visible (a_cur a)); [by eapply chain_head|by eapply chain_nodup|].
    unfold tret in F. destruct o as [o|[] kd]; cbn in V.
    + destruct o as [ | | | | | | | | | |[]| | | | | |[] ? | | | | ]; cbn in V, F; try (by left);
        try (assert (F' : xret a (tgt (a_cur a) (a_tr a))) by (first [exact F|exact (proj1 F)]); clear F; destruct F' as [(jj&F1&F2&F3)|F'];
             [rewrite F2 in V; right; right; by exists jj|rewrite F' in V; right; by left]).
    + destruct F as (j&h&h'&->&F1&F2&F3&F4). rewrite F2 in V. right; right. by exists j.
    + by left.
  - (* exception *)
    exists l. split; [done|]. cbn. unfold same. apply (ret_visible (a_cur a)); [by eapply chain_head|by eapply chain_nodup|].
    destruct x; [|by right; left]. destruct V as [V|(j&?&?&?)]; [by left|]. right; right. by exists j.
  - (* local *)
    exists l. apply local_op_frame in H as (E1&E2&E3&E4&E5&E6). cbn. rewrite E1, E3. split.
    + destruct E6 as [->|(n&c&s&Hn&->)]; [done|]. by apply chain_slot.
    + unfold same. apply (ret_visible (a_cur a)); [by eapply chain_head|by eapply chain_nodup|]. by left.
  - (* empty *)
    exists l. split; [done|]. cbn. unfold same. apply (ret_visible (a_cur a)); [by eapply chain_head|by eapply chain_nodup|]. by left.
  - by exists l.
  - by exists l.
  - by exists l.
  - by exists l.
  - by exists l.
  - by exists l.
  - exists l. split; [by apply chain_slot|done].
  - exists l. split; [by apply chain_slot|done].
  - by exists l.
  - exists l. split; [by apply chain_slot|done].
  - exists l. split; [done|]. by left.
  - (* resume *)
    assert (n <> 0) by (apply (ib_dom _ B) in H; lia).
    exists (n :: l). split; [eapply chain_switch; eauto; by rewrite H0|]. cbn. rewrite decide_True by done. unfold fwd. by rewrite V.
  - (* enter *)
    assert (n <> 0) by (apply (ib_dom _ B) in H; lia).
    exists (n :: l). split; [eapply chain_switch; eauto; by rewrite H0|]. cbn. unfold same. by rewrite V.
  - (* yield *)
    destruct M as (Hp&Hr&_). unfold resumable in Hr. apply andb_true_iff in Hr as [->%bool_decide_eq_true Hr].
    assert (a_cur a <> 0) by (apply (ib_dom _ B) in H; lia).
    assert (Hne : ac_by c <> a_cur a). { intros E. rewrite E, (ib_wcur _ B) in H0. done. }
    destruct (stack_back _ _ _ (c_st (ASusp o po k) c) _ Hl H) as (l'&->&Hnl&Hl'); [done|]. exists l'. split; [done|]. cbn.
    rewrite decide_False by done. done.
  - destruct F as (F1&_). rewrite decide_False in V by done. by exists l.
  - destruct F as (F1&F2&_). rewrite decide_False in V by done. exists l. split; [done|]. cbn. right. by exists j.
  - exists l. split; [done|]. cbn. pose proof (pi_foc _ P) as [[h' ->]|(h'&g&->)]; cbn;
      (destruct F as [(F1&F2&F3)|(->&F2&F3)]; rewrite F2; [rewrite decide_False in V by done|rewrite decide_True in V by done]; done).
  - exists l. split; [done|]. cbn. pose proof (pi_foc _ P) as E. cbn in E. subst o. cbn.
      (destruct F as [(F1&F2&F3)|(->&F2&F3)]; rewrite F2; [rewrite decide_False in V by done|rewrite decide_True in V by done]; done).
  - exists l. split; [done|]. cbn. pose proof (pi_foc _ P) as [g E]. subst o. cbn.
      (destruct F as [(F1&F2&F3)|(->&F2&F3)]; rewrite F2; [rewrite decide_False in V by done|rewrite decide_True in V by done]; done).
  - destruct F as [(F1&F2&F3)|(_&_&F)]; [|by destruct (F h kd)]. rewrite decide_False in V by done. by exists l.
  - destruct F as [(F1&F2&F3)|(_&_&F)]; [|by destruct (F h kd)]. rewrite decide_False in V by done. exists l. split; [done|]. cbn.
    pose proof (pi_foc _ P) as E. cbn in E. subst o. cbn. by rewrite F2.
  - by exists l.
  - by exists l.
  - (* destroy a suspended coroutine *)
    assert (j <> 0) by (apply (ib_dom _ B) in H; lia). destruct M as (_&Hwt&_).
    exists (j :: l). split; [eapply chain_switch; eauto; by rewrite H0|]. cbn. unfold fwd.
    destruct w as [|j' o' fin k'|]; [done| |by rewrite V]. destruct F as [_ F].
    destruct fin; [by rewrite V| |]; (destruct F as (c'&Hc'&F); [done|]; assert (c' = c) as -> by congruence; rewrite H0 in F; done).
  - (* destroy an idle coroutine *)
    assert (j <> 0) by (apply (ib_dom _ B) in H; lia).
    exists (j :: l). split; [eapply chain_switch; eauto; by destruct (ac_st c)|]. cbn.
    destruct w as [|j' o' [] k'|]; [done| | | |]; unfold same, bck, fwd in *; rewrite V; auto.
  - exists l. split; [done|]. by left.
  - by exists l.
  - exists l. split; [done|]. by left.
  - (* a pull function is entered *)
    destruct M as (I&Hn&Hh).
    assert (Hnn : a_co a !! n = None). { destruct (a_co a !! n) eqn:E; [|done]. apply (ic_dom _ _ _ _ _ I) in E. lia. }
    assert (n <> 0) by (pose proof (ic_nk _ _ _ _ _ I); lia).
    exists (n :: l). split; [by eapply chain_new|]. cbn. unfold same. by rewrite V.
  - destruct M as (I&Hn&Hh).
    assert (Hnn : a_co a !! n = None). { destruct (a_co a !! n) eqn:E; [|done]. apply (ic_dom _ _ _ _ _ I) in E. lia. }
    exists l. split; [|done]. apply chain_other; [done|]. intros Hn'.
    destruct (chain_active _ _ _ _ Hl Hn') as [->|(x&?&?)]; [|congruence]. pose proof (ic_nk _ _ _ _ _ I). lia.
  - exists l. rewrite H in V. done.
  - (* control goes back after the function was left *)
    destruct M as (I&c'&Hc&Hst). assert (c' = c) as -> by congruence.
    assert (a_cur a <> 0) by (apply (ib_dom _ B) in H; lia).
    assert (Hne : ac_by c <> a_cur a). { intros E. rewrite E, (ib_wcur _ B) in H0. done. }
    destruct (stack_back _ _ _ (c_st (ADone x) c) _ Hl H) as (l'&->&Hnl&Hl'); [done|]. exists l'. split; [done|]. cbn.
    rewrite decide_False by done. done.
  - exists l. rewrite H in V. split; [done|]. by left.
  - (* counterpart destroyed *)
    exists l. rewrite H in V. split; [done|]. cbn. destruct (chain_head _ _ _ Hl) as [l' ->]. pose proof (chain_nodup _ _ _ Hl) as Hd.
    apply NoDup_cons in Hd as [Hd _]. destruct V as [->|V]; [by rewrite (decide_True (P := _ ∈ _ :: _)) by (rewrite elem_of_cons; auto)|].
    unfold fwd in V. injection V as ->. by rewrite decide_False.
  - exists l. rewrite H in V. split; [done|]. cbn. destruct (chain_head _ _ _ Hl) as [l' ->]. pose proof (chain_nodup _ _ _ Hl) as Hd.
    apply NoDup_cons in Hd as [Hd _]. destruct V as [->|V]; [by rewrite (decide_True (P := _ ∈ _ :: _)) by (rewrite elem_of_cons; auto)|].
    unfold fwd in V. injection V as ->. by rewrite decide_False.
  - exists l. rewrite H in V. done.
  - exists l. rewrite H in V. done.
  - (* stack released *)
    assert (a_cur a <> 0) by (apply (ib_dom _ B) in H; lia).
    destruct (chain_inv _ _ _ _ Hl H) as (l'&->&Hnl&Hl'); [done|].
    assert (Hl2 : chain (delete (a_cur a) (a_co a)) (ac_by c) l').
    { eapply chain_frame; [exact Hl'|]. intros m z Hm Hz. rewrite lookup_delete_ne by set_solver. eauto. }
    assert (Hs : cstack (a_tr a1) = l'). { cbn. rewrite V. by rewrite decide_True. }
    destruct w as [|j o [|h kd|e] k|j]; [done| | | |]; subst y; exists l'; (split; [done|]).
    + pose proof (pi_wait _ P _ _ H0) as [h ->]. done.
    + done.
    + by left.
    + done.
Qed.

Theorem mreach_stack p u x : mreach p u x -> StackI x.
Proof. apply (mreach_ind p u StackI); [apply stack_init|intros ???; by eapply stack_step]. Qed.

(** ** Every active coroutine is on the chain *)

Lemma chain_det co k l l' : chain co k l -> chain co k l' -> l = l'.
Proof.
  intros H. revert l'. induction H as [|k c l Hk Ha Hk0 Hn Hc IH]; intros l' H'; inversion H'; subst; try done.
  f_equal. apply IH. by simplify_eq.
Qed.

Definition covered (co : gmap nat acoro) (l : list nat) : Prop := forall k c, co !! k = Some c -> active (ac_st c) = true -> k ∈ l.
Definition CovI (x : astate * mfoc) : Prop := forall l, chain (a_co x.1) (a_cur x.1) l -> covered (a_co x.1) l.

Lemma cov_slot co l n c s : covered co l -> co !! n = Some c -> covered (<[n := c_slot s c]> co) l.
Proof.
  intros H Hn k c' Hk Ha. apply lookup_insert_Some in Hk as [[<- <-]|[_ Hk]]; by eapply H.
Qed.
Lemma cov_push co l n c : covered co l -> covered (<[n := c]> co) (n :: l).
Proof.
  intros H k c' Hk Ha. apply lookup_insert_Some in Hk as [[<- <-]|[_ Hk]]; [left|right]. by eapply H.
Qed.
Lemma cov_idle co l n c : covered co l -> active (ac_st c) = false -> covered (<[n := c]> co) l.
Proof.
  intros H Hc k c' Hk Ha. apply lookup_insert_Some in Hk as [[<- <-]|[_ Hk]]; [congruence|]. by eapply H.
Qed.
Lemma cov_pop co l n c : covered co (n :: l) -> active (ac_st c) = false -> covered (<[n := c]> co) l.
Proof.
  intros H Hc k c' Hk Ha. apply lookup_insert_Some in Hk as [[<- <-]|[Hne Hk]]; [congruence|].
  specialize (H _ _ Hk Ha). apply elem_of_cons in H as [->|]; done.
Qed.
Lemma cov_del co l n : covered co (n :: l) -> covered (delete n co) l.
Proof.
  intros H k c' Hk Ha. apply lookup_delete_Some in Hk as [Hne Hk]. specialize (H _ _ Hk Ha). apply elem_of_cons in H as [->|]; done.
Qed.

Lemma cov_intro co k l : chain co k l -> covered co l -> forall l', chain co k l' -> covered co l'.
Proof. intros H1 H2 l' H3. by rewrite <- (chain_det _ _ _ _ H1 H3). Qed.

Theorem cov_step p u x y : mreach p u x -> CovI x -> micro x y -> CovI y.
Proof.
  intros Hx C Hm. pose proof (mreach_minv _ _ _ Hx) as M. pose proof (mreach_basic _ _ _ Hx) as B.
  destruct (st_chain _ (mreach_stack _ _ _ Hx)) as (l&Hl&_). specialize (C _ Hl).
  destruct Hm; cbn in M, B, Hl, C; unfold CovI; try (by apply (cov_intro _ _ l)).
  - apply local_op_frame in H as (E1&E2&E3&E4&E5&E6). cbn. rewrite E3.
    destruct E6 as [->|(n&c&s&Hn&->)]; [by apply (cov_intro _ _ l)|]. apply (cov_intro _ _ l); [by apply chain_slot|by apply cov_slot].
  - apply (cov_intro _ _ l); [by apply chain_slot|by apply cov_slot].
  - apply (cov_intro _ _ l); [by apply chain_slot|by apply cov_slot].
  - apply (cov_intro _ _ l); [by apply chain_slot|by apply cov_slot].
  - assert (n <> 0) by (apply (ib_dom _ B) in H; lia).
    apply (cov_intro _ _ (n :: l)); [eapply chain_switch; eauto; by rewrite H0|]. by apply cov_push.
  - assert (n <> 0) by (apply (ib_dom _ B) in H; lia).
    apply (cov_intro _ _ (n :: l)); [eapply chain_switch; eauto; by rewrite H0|]. by apply cov_push.
  - destruct M as (Hp&Hr&_). unfold resumable in Hr. apply andb_true_iff in Hr as [->%bool_decide_eq_true Hr].
    assert (a_cur a <> 0) by (apply (ib_dom _ B) in H; lia).
    destruct (stack_back _ _ _ (c_st (ASusp o po k) c) _ Hl H) as (l'&->&Hnl&Hl'); [done|].
    apply (cov_intro _ _ l'); [done|]. by apply cov_pop.
  - assert (j <> 0) by (apply (ib_dom _ B) in H; lia).
    apply (cov_intro _ _ (j :: l)); [eapply chain_switch; eauto; by rewrite H0|]. by apply cov_push.
  - assert (j <> 0) by (apply (ib_dom _ B) in H; lia).
    apply (cov_intro _ _ (j :: l)); [eapply chain_switch; eauto; by destruct (ac_st c)|]. by apply cov_push.
  - destruct M as (I&Hn&Hh).
    assert (Hnn : a_co a !! n = None). { destruct (a_co a !! n) eqn:E; [|done]. apply (ic_dom _ _ _ _ _ I) in E. lia. }
    assert (n <> 0) by (pose proof (ic_nk _ _ _ _ _ I); lia).
    apply (cov_intro _ _ (n :: l)); [by eapply chain_new|]. by apply cov_push.
  - destruct M as (I&Hn&Hh).
    assert (Hnn : a_co a !! n = None). { destruct (a_co a !! n) eqn:E; [|done]. apply (ic_dom _ _ _ _ _ I) in E. lia. }
    apply (cov_intro _ _ l); [|by apply cov_idle]. apply chain_other; [done|]. intros Hn'.
    destruct (chain_active _ _ _ _ Hl Hn') as [->|(x&?&?)]; [|congruence]. pose proof (ic_nk _ _ _ _ _ I). lia.
  - destruct M as (I&c'&Hc&Hst). assert (c' = c) as -> by congruence.
    assert (a_cur a <> 0) by (apply (ib_dom _ B) in H; lia).
    destruct (stack_back _ _ _ (c_st (ADone x) c) _ Hl H) as (l'&->&Hnl&Hl'); [done|].
    apply (cov_intro _ _ l'); [done|]. by apply cov_pop.
  - assert (a_cur a <> 0) by (apply (ib_dom _ B) in H; lia).
    destruct (chain_inv _ _ _ _ Hl H) as (l'&->&Hnl&Hl'); [done|].
    assert (Hl2 : chain (delete (a_cur a) (a_co a)) (ac_by c) l').
    { eapply chain_frame; [exact Hl'|]. intros m z Hm Hz. rewrite lookup_delete_ne by set_solver. eauto. }
    destruct w as [|j o [|h kd|e] k|j]; [done| | | |]; subst y; (apply (cov_intro _ _ l'); [done|]); by apply cov_del.
Qed.

Theorem mreach_cov p u x : mreach p u x -> CovI x.
Proof.
  apply (mreach_ind p u CovI); [|intros ???; by eapply cov_step].
  intros l _ k c Hk. cbn in Hk. by rewrite lookup_empty in Hk.
Qed.

End stack.
