(** Sim.v -- every step of the reference semantics is matched by steps of the
    model of the code. *)
From stdpp Require Import prelude gmap relations.
From Coq Require Import NArith.
From Verif Require Import Base Model Spec InvSpec Refine.

Section sim.
Context {env : Env} {comp : Compiler}.
Notation steps := (rtc cstep_rel).

Definition reaches (s : cstate) (a : astate) : Prop := exists s', steps s s' /\ R a s'.

Lemma reaches_steps s s1 a : steps s s1 -> reaches s1 a -> reaches s a.
Proof. intros H1 (s'&H2&H3). exists s'. split; [|done]. by etrans. Qed.

Lemma reaches_step s s1 a : step s = CNext s1 /\ not_user s -> reaches s1 a -> reaches s a.
Proof. intros H. apply reaches_steps. by apply rtc_once. Qed.

(** Versions of the execution lemmas for [reaches]. *)
Lemma y_do {A} (f : M A) k m m' fib unw cur K x a :
  f m = MOk x m' -> reaches (CState m' fib unw cur (FCode (k x)) K) a ->
  reaches (CState m fib unw cur (FCode (LDo f k)) K) a.
Proof. intros H (s'&H2&?). exists s'. split; [by eapply x_do|done]. Qed.
Lemma y_do_throw {A} (f : M A) k m m' fib unw cur K e a :
  f m = MThrow e m' -> reaches (CState m' fib unw cur (FExn (XUser e)) K) a ->
  reaches (CState m fib unw cur (FCode (LDo f k)) K) a.
Proof. intros H (s'&H2&?). exists s'. split; [by eapply x_do_throw|done]. Qed.
Lemma y_resume g k k' K' m fib unw cur K a :
  fib !! g = Some (KResume k' :: K') ->
  reaches (CState m (<[cur := KResume k :: K]> (delete g fib)) unw g (FCode (k' (Some cur))) K') a ->
  reaches (CState m fib unw cur (FCode (LResume (Some g) k)) K) a.
Proof. intros H (s'&H2&?). exists s'. split; [by eapply x_resume|done]. Qed.
Lemma y_kill g k k' K' m fib unw cur K a :
  fib !! g = Some (KResume k' :: K') ->
  reaches (CState m (<[cur := KUnwind k :: K]> (delete g fib)) (<[g := cur]> unw) g (FExn XUnwind) K') a ->
  reaches (CState m fib unw cur (FCode (LKill (Some g) k)) K) a.
Proof. intros H (s'&H2&?). exists s'. split; [by eapply x_kill|done]. Qed.
Lemma y_kill_none k m fib unw cur K a :
  reaches (CState m fib unw cur (FCode k) K) a -> reaches (CState m fib unw cur (FCode (LKill None k)) K) a.
Proof. intros (s'&H2&?). exists s'. split; [by eapply x_kill_none|done]. Qed.
Lemma y_fiber_assign e f k m fib unw cur K b a :
  m_cbs m !! e = Some b -> cb_alive b = true -> cb_c b = None ->
  reaches (CState (upd e (with_c f b) m) fib unw cur (FCode k) K) a ->
  reaches (CState m fib unw cur (FCode (fiber_assign e f k)) K) a.
Proof. intros ??? (s'&H2&?). exists s'. split; [by eapply x_fiber_assign|done]. Qed.
Lemma y_resume_assign e k g k' K' m fib unw cur K b a :
  m_cbs m !! e = Some b -> cb_alive b = true -> cb_c b = Some g ->
  fib !! g = Some (KResume k' :: K') ->
  reaches (CState (upd e (with_c None b) m) (<[cur := KResume (fun r => fiber_assign e r k) :: K]> (delete g fib)) unw g
                (FCode (k' (Some cur))) K') a ->
  reaches (CState m fib unw cur (FCode (resume_assign e k)) K) a.
Proof. intros ???? (s'&H2&?). exists s'. split; [by eapply x_resume_assign|done]. Qed.
Lemma y_rethrow_none e k m fib unw cur K b a :
  m_cbs m !! e = Some b -> cb_alive b = true -> cb_except b = None ->
  reaches (CState m fib unw cur (FCode k) K) a ->
  reaches (CState m fib unw cur (FCode (rethrow_if e k)) K) a.
Proof. intros ??? (s'&H2&?). exists s'. split; [by eapply x_rethrow_none|done]. Qed.
Lemma y_rethrow_some e k m fib unw cur K b x a :
  m_cbs m !! e = Some b -> cb_alive b = true -> cb_except b = Some x ->
  reaches (CState m fib unw cur (FExn (XUser x)) K) a ->
  reaches (CState m fib unw cur (FCode (rethrow_if e k)) K) a.
Proof. intros ??? (s'&H2&?). exists s'. split; [by eapply x_rethrow_some|done]. Qed.

(** ** Back to user code *)

Lemma sim_ret o r k a a' m fib unw :
  Rcore a m fib unw -> ret_to o r k a = ANext a' ->
  reaches (CState m fib unw (a_cur a) (FCode (LRet (RVAns r))) (KUser o k :: ctxbase (a_co a) (a_cur a))) a'.
Proof.
  intros Rc H. unfold ret_to in H. simplify_eq.
  eapply reaches_step; [done|]. eapply reaches_step; [done|].
  eexists. split; [done|]. split; cbn; [|done|].
  - eapply Rcore_flat; eauto. destruct (r_flat _ _ _ _ Rc). split; cbn; congruence.
  - split; done.
Qed.

Lemma sim_exn o x k a a' m fib unw :
  Rcore a m fib unw -> exn_to o x k a = ANext a' ->
  reaches (CState m fib unw (a_cur a) (FExn x) (KUser o k :: ctxbase (a_co a) (a_cur a))) a'.
Proof.
  intros Rc H. unfold exn_to in H. simplify_eq.
  eapply reaches_step; [done|].
  eexists. split; [done|]. split; cbn; [|done|].
  - eapply Rcore_flat; eauto. destruct (r_flat _ _ _ _ Rc). split; cbn; congruence.
  - split; done.
Qed.

(** ** Destroying a coroutine *)

(** The trace after the value in a slot of side [sd] is gone. *)
Definition drop_tr (sd : side) (n : nat) (c : acoro) (tr : list event) : list event :=
  match ac_kind c, ac_slot c with
  | KVal, SlFull _ => if bool_decide (ac_side c = sd) then EvDel n :: tr else tr
  | _, _ => tr
  end.

Lemma sim_kill_core j w a a' c m fib unw m1 b kk K :
  Rcore a m fib unw -> InvS a -> kill j w a = ANext a' -> a_co a !! j = Some c ->
  m_cbs m1 = <[Outer j := b]> (m_cbs m) -> cb_alive b = false -> m_stk m1 = m_stk m ->
  m_h m1 = m_h m -> m_user m1 = m_user m -> m_nh m1 = m_nh m -> m_nk m1 = m_nk m ->
  m_tr m1 = drop_tr Pull j c (m_tr m) ->
  wait_fr (a_co a) (a_cur a) w (Some (KUnwind kk :: K)) ->
  reaches (CState m1 fib unw (a_cur a) (FCode (LKill (Some j) kk)) K) a'.
Proof.
  intros Rc I Hk Hc Ecb Hb Estk Eh Eu Enh Enk Etr Hw.
  unfold kill in Hk. rewrite Hc in Hk.
  set (drop := match ac_side c with Pull => _ | _ => _ end) in Hk.
  assert (Hdrop : forall a0, drop = Some a0 -> a0 = ASt (a_co a) (a_wait a) (a_h a) (a_user a) (a_nh a) (a_nk a) (a_cur a) (a_foc a) (drop_tr Pull j c (a_tr a))).
  { intros a0. unfold drop, drop_tr. destruct a. destruct (ac_side c), (ac_kind c), (ac_slot c); intros; simplify_eq/=; done. }
  destruct drop as [a0|]; [|done]. specialize (Hdrop a0 eq_refl). subst a0. cbn in Hk.
  set (c' := ACo _ _ _ _ _ _) in Hk.
  assert (Hna : active (ac_st c) = false). { by destruct (ac_st c). }
  destruct (inactive_not_cur _ _ _ _ _ _ _ I Hc Hna) as [Hnc Hnw].
  pose proof (r_fib _ _ _ _ Rc j Hnc) as Hfib. unfold fib_ok in Hfib. rewrite Hnw, Hc in Hfib.
  destruct (r_flat _ _ _ _ Rc).
  pose proof (core_inner _ _ _ _ _ _ Rc Hc) as Hi.
  assert (Rc' : forall a'', a_co a'' = <[j := c']> (a_co a) -> a_wait a'' = <[a_cur a := w]> (a_wait a) -> a_cur a'' = j ->
            flat a'' m1 -> Rcore a'' m1 (<[a_cur a := KUnwind kk :: K]> (delete j fib)) (<[j := a_cur a]> unw)).
  { intros a'' ????. eapply (Rcore_switch a m fib unw j c' w); eauto.
    - apply Rc. by eexists.
    - intros k Hkj. rewrite Ecb. rewrite !lookup_insert_ne; [done|congruence|congruence].
    - rewrite Ecb. rewrite lookup_insert, lookup_insert_ne by done. split; [|cbn; eauto].
      rewrite Hi. unfold inner_cb, inner_slot. subst c'; cbn. destruct (ac_side c); destruct (ac_st c); done.
    - intros k Hk'. by rewrite lookup_insert_ne.
    - intros _. by rewrite lookup_insert. }
  destruct (ac_st c) as [fn|o po k| |x|] eqn:Hst; try done.
  - simplify_eq. eapply y_kill; [done|].
    eexists. split; [done|]. split; cbn; [|done|].
    + eapply Rc'; try done. split; cbn; congruence.
    + exists c'. rewrite lookup_insert. done.
  - eapply y_kill; [done|].
    match type of Hk with exn_to _ _ _ ?A = _ => set (a1 := A) in * end.
    assert (ctxbase (a_co a1) (a_cur a1) = fnframes (ac_side c) (ac_kind c) (ac_syn c) j) as <-.
    { unfold ctxbase; cbn. by rewrite lookup_insert. }
    eapply (sim_exn o XUnwind k a1); [|done]. eapply Rc'; try done. split; cbn; congruence.
  - simplify_eq. eapply y_kill; [done|].
    eexists. split; [done|]. split; cbn; [|done|].
    + eapply Rc'; try done. split; cbn; congruence.
    + exists c'. rewrite lookup_insert. done.
Qed.

Lemma kill_facts j w a a' : kill j w a = ANext a' ->
  exists c, a_co a !! j = Some c /\ active (ac_st c) = false /\
            (ac_side c = Pull -> ac_kind c = KVal -> ac_slot c <> SlBad).
Proof.
  unfold kill. destruct (a_co a !! j) as [c|]; [|done]. intros H. exists c. split; [done|].
  destruct (ac_side c), (ac_kind c), (ac_slot c), (ac_st c); try done; simplify_eq/=; split; done.
Qed.

Lemma inactive_not_unw s : active s = false -> unw_st s = false.
Proof. by destruct s. Qed.

Lemma outer_c j c : active (ac_st c) = false -> cb_c (outer_cb j c) = Some j.
Proof. unfold outer_cb. by destruct (ac_st c). Qed.

Lemma sim_destroy j w a a' c m fib unw kk K :
  Rcore a m fib unw -> InvS a -> kill j w a = ANext a' -> a_co a !! j = Some c ->
  wait_fr (a_co a) (a_cur a) w (Some (KUnwind kk :: K)) ->
  reaches (CState m fib unw (a_cur a) (FCode (cb_destroy (ac_side c) (ac_kind c) (Outer j) kk)) K) a'.
Proof.
  intros Rc I Hk Hc Hw.
  destruct (kill_facts _ _ _ _ Hk) as (c'&Hc'&Hna&Hbad). simplify_eq.
  pose proof (core_outer _ _ _ _ _ _ Rc Hc (inactive_not_unw _ Hna)) as Ho.
  unfold cb_destroy. eapply y_do; [by eapply take_c_ok|]. rewrite outer_c by done.
  set (b0 := with_c None (outer_cb j c)).
  unfold cb_dtor.
  (* the destructor body *)
  set (b1 := with_alive false (if bool_decide (ac_side c = Pull) && bool_decide (ac_kind c = KVal) && slot_valid (ac_slot c) then with_storage StRaw b0 else b0)).
  eapply (y_do _ _ _ (Mem (<[Outer j := b1]> (m_cbs m)) (m_h m) (m_stk m) (m_user m) (m_nh m) (m_nk m) (drop_tr Pull j c (m_tr m))) _ _ _ _ None).
  - eapply mb_ok; [eapply get_cb_ok; [cbn; apply lookup_insert|done]|].
    destruct (ac_side c) eqn:Hsd; [destruct (ac_kind c) eqn:Hkd|].
    + destruct (ac_slot c) as [|p|] eqn:Hsl; [| |by destruct Hbad].
      * cbn. unfold outer_slot. rewrite Hsd, Hsl. cbn. unfold mb, get_cb, mret, put_cb; cbn. rewrite lookup_insert; cbn.
        unfold drop_tr. rewrite Hsl, Hkd. do 2 f_equal. by rewrite insert_insert.
      * cbn. unfold outer_slot. rewrite Hsd, Hsl. cbn. unfold destroy_T, mb, get_cb, mret, put_cb, mlog; cbn. rewrite lookup_insert; cbn.
        unfold outer_slot. rewrite Hsd, Hsl. cbn.
        destruct p as [v|l].
        2:{ pose proof (co_slot _ (ic_co _ _ _ _ _ I _ _ Hc)) as Hso. rewrite Hsl in Hso. cbn in Hso. congruence. }
        cbn. rewrite lookup_insert; cbn.
        unfold drop_tr. rewrite Hsl, Hkd, Hsd. do 2 f_equal. rewrite !insert_insert. f_equal.
    + unfold mb, get_cb, mret, put_cb; cbn. rewrite lookup_insert; cbn.
      unfold drop_tr. rewrite Hkd. do 2 f_equal. by rewrite insert_insert.
    + unfold mb, get_cb, mret, put_cb; cbn. rewrite lookup_insert; cbn.
      unfold drop_tr. rewrite Hkd. do 2 f_equal. by rewrite insert_insert.
    + unfold mb, get_cb, mret, put_cb; cbn. rewrite lookup_insert; cbn.
      assert (drop_tr Pull j c (m_tr m) = m_tr m) as -> by (unfold drop_tr; rewrite Hsd; by destruct (ac_kind c), (ac_slot c)).
      do 2 f_equal. by rewrite insert_insert.
  - apply y_kill_none.
    eapply y_do; [unfold or_state_raw; cbn; by rewrite lookup_insert|].
    eapply sim_kill_core; eauto; cbn.
    + by rewrite insert_insert.
    + unfold b1. by case_match.
Qed.

Lemma sim_deallocate j w a a' c sd kd m fib unw kk K :
  Rcore a m fib unw -> InvS a -> kill j w a = ANext a' -> a_co a !! j = Some c -> ac_side c = sd -> ac_kind c = kd ->
  wait_fr (a_co a) (a_cur a) w (Some (KUnwind kk :: K)) ->
  reaches (CState m fib unw (a_cur a) (FCode (cb_deallocate sd kd (Outer j) kk)) K) a'.
Proof.
  intros Rc I Hk Hc <- <- Hw.
  destruct (kill_facts _ _ _ _ Hk) as (c'&Hc'&Hna&_). simplify_eq.
  pose proof (core_outer _ _ _ _ _ _ Rc Hc (inactive_not_unw _ Hna)) as Ho.
  unfold cb_deallocate. eapply y_do; [by eapply get_cb_ok|].
  assert (bool_decide (st_none <> st_and (cb_state (outer_cb j c)) st_unwind) = true) as ->.
  { unfold outer_cb; cbn. by destruct (ac_st c). }
  by eapply sim_destroy.
Qed.

(** ~pull_coroutine / ~push_coroutine through a counterpart object. *)
Lemma sim_deallocate_inner j a a' c sd kd m fib unw kk K :
  Rcore a m fib unw -> a_co a !! j = Some c ->
  reaches (CState m fib unw (a_cur a) (FCode kk) K) a' ->
  reaches (CState m fib unw (a_cur a) (FCode (cb_deallocate sd kd (Inner j) kk)) K) a'.
Proof.
  intros Rc Hc H. pose proof (core_inner _ _ _ _ _ _ Rc Hc) as Hi.
  unfold cb_deallocate. eapply y_do; [by eapply get_cb_ok|]. done.
Qed.

(** ** An operation gets control back *)

Lemma sim_deliver j o po k x a a' m fib unw e be :
  Rcore a m fib unw -> InvS a -> deliver j o po k x a = ANext a' ->
  m_cbs m !! e = Some be -> cb_alive be = true -> cb_except be = x ->
  (forall h kd, po = PoNew h kd -> exists c, a_co a !! j = Some c /\ ac_side c = Pull /\ ac_kind c = kd /\
                 (x <> None -> ac_slot c = SlEmpty)) ->
  reaches (CState m fib unw (a_cur a) (FCode (rethrow_if e (post_code po)))
             (user_fr j o po k ++ ctxbase (a_co a) (a_cur a))) a'.
Proof.
  intros Rc I Hd He1 He2 He3 Hpo. unfold deliver in Hd.
  destruct x as [e'|].
  - eapply y_rethrow_some; [done..|].
    destruct po as [|h|h|h kd]; [by eapply sim_exn..|].
    destruct (Hpo h kd eq_refl) as (c&Hc&Hsd&Hkd&Hsl).
    cbn [user_fr app].
    eapply reaches_step; [done|].
    unfold ctor_cleanup.
    destruct (kill_facts _ _ _ _ Hd) as (c'&Hc'&Hna&_). simplify_eq.
    pose proof (core_outer _ _ _ _ _ _ Rc Hc (inactive_not_unw _ Hna)) as Ho.
    eapply y_do.
    { eapply mb_ok; [by eapply get_cb_ok|]. done. }
    rewrite outer_c by done.
    eapply sim_kill_core; eauto; try done.
    + unfold drop_tr. rewrite Hsl by done. by destruct (ac_kind c).
    + cbn. eauto.
  - eapply y_rethrow_none; [done..|].
    destruct po as [|h|h|h kd].
    + by eapply sim_ret.
    + destruct (a_h a !! h) as [[[] kd ep]|] eqn:Hh; try done.
      destruct (avalid ep a) as [b|] eqn:Hv; [|done].
      eapply y_do; [by eapply fetch_ok|]. by eapply sim_ret.
    + destruct (a_h a !! h) as [[[] kd ep]|] eqn:Hh; try done.
      destruct (avalid ep a) as [b|] eqn:Hv; [|done].
      eapply y_do.
      { eapply mb_ok; [apply get_h_ok; by rewrite (f_h _ _ (r_flat _ _ _ _ Rc))|].
        eapply mb_ok; [eapply (not_ok a m fib unw h Push kd ep b); done|]. done. }
      assert ((if negb b then None else Some h) = (if b then Some h else None)) as -> by by destruct b.
      by eapply sim_ret.
    + destruct (Hpo h kd eq_refl) as (c&Hc&Hsd&Hkd&_). rewrite Hc in Hd. cbn in Hd.
      pose proof (ic_co _ _ _ _ _ I _ _ Hc) as Hco.
      cbn [user_fr app post_code]. eapply reaches_step; [done|]. eapply reaches_step; [done|].
      unfold new_pull_rest.
      destruct (ac_st c) as [fn|o1 po1 k1| |x|] eqn:Hst; try done.
      * assert (Hv : pull_cb_valid kd (Outer j) m = MOk true m).
        { unfold pull_cb_valid. eapply mb_ok; [eapply get_cb_ok; [eapply core_outer; [done..|by rewrite Hst]|done]|].
          unfold mret. f_equal. unfold outer_cb; cbn. rewrite Hst. unfold outer_slot. rewrite Hsd.
          destruct kd; [rewrite slot_valid_ne by (eapply (co_pull _ Hco); eauto; congruence); done| |done].
          rewrite slot_valid_ne by (eapply (co_pull _ Hco); eauto; congruence); done. }
        eapply y_do; [exact Hv|]. eapply y_do; [done|].
        match type of Hd with ret_to _ _ _ ?A = _ => set (a1 := A) in * end.
        eapply (sim_ret o (AH h) k a1); [|done].
        eapply Rcore_flat; eauto. destruct (r_flat _ _ _ _ Rc). split; cbn; congruence.
      * assert (Hv : pull_cb_valid kd (Outer j) m = MOk false m).
        { unfold pull_cb_valid. eapply mb_ok; [eapply get_cb_ok; [eapply core_outer; [done..|by rewrite Hst]|done]|].
          unfold mret. f_equal. unfold outer_cb; cbn. rewrite Hst. destruct kd; done. }
        eapply y_do; [exact Hv|]. cbn match.
        eapply sim_deallocate; eauto. done.
Qed.

(** ** Transfer of control *)

Lemma upd_lookup e b m : m_cbs (upd e b m) !! e = Some b.
Proof. cbn. by rewrite lookup_insert. Qed.
Lemma upd_lookup_ne e e' b m : e <> e' -> m_cbs (upd e b m) !! e' = m_cbs m !! e'.
Proof. intros. cbn. by rewrite lookup_insert_ne. Qed.

Lemma sim_give_back n st x a a' c m m0 fib unw kf K ob :
  Rcore a m fib unw -> a_cur a = n -> a_co a !! n = Some c -> ac_st c = ARun ->
  InvC (<[n := c_st st c]> (a_co a)) (delete (ac_by c) (a_wait a)) (a_h a) (ac_by c) (a_nk a) ->
  a_wait a !! n = None ->
  (forall j o po k, a_wait a !! ac_by c = Some (WOp j o po k) -> j = n /\
     forall h kd, po = PoNew h kd -> ac_side c = Pull /\ ac_kind c = kd /\ (x <> None -> ac_slot c = SlEmpty)) ->
  match st with ASusp _ _ _ => x = None | ADone y => x = y | _ => False end ->
  cbs_same n m m0 -> m_cbs m0 !! Inner n = Some (with_c None (inner_cb n c)) ->
  m_cbs m0 !! Outer n = Some ob -> with_c (Some n) ob = outer_cb n (c_st st c) -> cb_c ob = None ->
  m_stk m0 = m_stk m -> flat a m0 ->
  fib_ok (<[n := c_st st c]> (a_co a)) (a_wait a) n (Some (KResume kf :: K)) ->
  give_back n st x a = ANext a' ->
  reaches (CState m0 fib unw n (FCode (LResume (Some (ac_by c)) kf)) K) a'.
Proof.
  intros Rc Hcur Hc Hrun I Hwn Hwb Hx Hcbs Hi Ho Hob Hobc Hstk Hf Hfr Hg.
  unfold give_back in Hg. rewrite Hc in Hg.
  destruct (a_wait a !! ac_by c) as [[j o po k| |]|] eqn:Hw; try done.
  destruct (Hwb j o po k eq_refl) as [-> Hnew].
  assert (Hne : n <> ac_by c). { intros E. rewrite <- E in Hw. congruence. }
  assert (Hne' : ac_by c <> a_cur a) by (rewrite Hcur; congruence).
  pose proof (r_fib _ _ _ _ Rc (ac_by c) Hne') as Hfb. unfold fib_ok in Hfb. rewrite Hw in Hfb. cbn in Hfb.
  eapply y_resume; [exact Hfb|]. unfold back_k at 1.
  eapply y_fiber_assign; [exact Ho| |done|].
  { by apply (f_equal cb_alive) in Hob. }
  rewrite Hob.
  match type of Hg with deliver _ _ _ _ _ ?A = _ => set (a1 := A) in * end.
  assert (ctxbase (a_co a) (ac_by c) = ctxbase (a_co a1) (a_cur a1)) as ->.
  { unfold ctxbase; cbn. by rewrite lookup_insert_ne. }
  eapply (sim_deliver _ _ _ _ x a1 _ _ _ _ (Outer n) (outer_cb n (c_st st c))); [|exact I|exact Hg|apply upd_lookup|done| |].
  - eapply (Rcore_back a m fib unw n (ac_by c) (c_st st c)); try done.
    + apply Rc. by eexists.
    + by apply cbs_same_upd.
    + rewrite upd_lookup, upd_lookup_ne by done. split.
      * rewrite Hi. unfold inner_cb; cbn. by destruct st.
      * cbn. by destruct st.
    + destruct Hf. split; cbn; congruence.
    + cbn. by destruct st.
  - destruct st; simplify_eq/=; done.
  - intros h kd ->. destruct (Hnew h kd eq_refl) as (?&?&?). exists (c_st st c). cbn. rewrite lookup_insert. done.
Qed.

Lemma sim_transfer e kd sd o po k a co0 c s a' m fib unw :
  InvC co0 (a_wait a) (a_h a) (a_cur a) (a_nk a) -> co0 !! ep_co e = Some c ->
  a_co a = <[ep_co e := c_slot s c]> co0 ->
  (s = SlEmpty -> ac_slot c = SlEmpty /\ (ac_kind c = KVoid \/ sd = Pull)) -> slot_ok (ac_kind c) s ->
  h_ok sd kd e c -> (forall h kd', po <> PoNew h kd') ->
  resumable e a = true -> transfer e o po k a = ANext a' ->
  Rcore a m fib unw ->
  reaches (CState m fib unw (a_cur a) (FCode (resume_assign e (rethrow_if e (post_code po))))
              (KUser o k :: ctxbase (a_co a) (a_cur a))) a'.
Proof.
  intros I Hc Ha Hs Hsl Hh Hpo Hr Ht Rc.
  pose proof (ic_co _ _ _ _ _ I _ _ Hc) as Hco.
  assert (Hac : a_co a !! ep_co e = Some (c_slot s c)). { by rewrite Ha, lookup_insert. }
  set (c1 := c_slot s c) in *.
  pose proof (core_inner _ _ _ _ _ _ Rc Hac) as Hi.
  pose proof (r_flat _ _ _ _ Rc) as Hf.
  destruct e as [n|n]; unfold resumable in Hr; unfold transfer in Ht; cbn [ep_co] in *.
  - rewrite Hac in *.
    assert (Hna : active (ac_st c) = false). { unfold c1 in Hr; cbn in Hr. by destruct (ac_st c). }
    destruct (inactive_not_cur _ _ _ _ _ _ _ I Hc Hna) as [Hnc Hnw].
    pose proof (enter_inv _ _ _ _ _ _ _ _ o po k _ _ I Hc Hs Hsl Hh Hpo Hna) as I'. fold c1 in I'.
    pose proof (core_outer _ _ _ _ _ _ Rc Hac (inactive_not_unw _ Hna)) as Ho.
    pose proof (r_fib _ _ _ _ Rc n Hnc) as Hfib. unfold fib_ok in Hfib. rewrite Hnw, Hac in Hfib.
    set (c2 := c_by (a_cur a) (c_st ARun c1)) in *.
    assert (Hkk : KUser o k :: ctxbase (a_co a) (a_cur a) = user_fr n o po k ++ ctxbase (a_co a) (a_cur a)).
    { destruct po; try done. by destruct (Hpo h kd0). }
    set (m1 := upd (Inner n) (with_c (Some (a_cur a)) (inner_cb n c1)) (upd (Outer n) (with_c None (outer_cb n c1)) m)).
    set (fr := KResume (back_k (Outer n) po) :: KUser o k :: ctxbase (a_co a) (a_cur a)).
    assert (Rc' : forall a1 m1', a_co a1 = <[n := c2]> (a_co a) -> a_wait a1 = <[a_cur a := WOp n o po k]> (a_wait a) -> a_cur a1 = n ->
              flat a1 m1' -> m_cbs m1' = m_cbs m1 -> m_stk m1' = m_stk m -> Rcore a1 m1' (<[a_cur a := fr]> (delete n fib)) unw).
    { intros. eapply (Rcore_switch a m fib unw n c2 (WOp n o po k)); eauto.
      - apply Rc. by eexists.
      - cbn. unfold fr. by rewrite Hkk.
      - eapply cbs_same_eq; [done|]. by repeat apply cbs_same_upd.
      - replace (m_cbs m1') with (m_cbs m1) by done. unfold m1. rewrite upd_lookup, upd_lookup_ne, upd_lookup by done.
        split; [done|]. cbn [c2 c_by c_st ac_st unw_st]. unfold outer_cb, outer_slot, with_c, mk_cb, c2; cbn.
        unfold c1 in Hr; cbn in Hr. by destruct (ac_st c).
      - done. }
    destruct (ac_st c1) as [fn|o1 po1 k1| |x|] eqn:Hst; try done.
    + simplify_eq. eapply y_resume_assign; [exact Ho|done|..].
      { unfold outer_cb; cbn. unfold c1 in Hst; cbn in Hst. by rewrite Hst. }
      { exact Hfib. }
      unfold new_k.
      eapply y_do. { unfold other_of. eapply mb_ok; [apply get_cb_ok; [apply upd_lookup|done]|]. done. }
      eapply y_fiber_assign; [rewrite upd_lookup_ne by done; exact Hi|done| |].
      { unfold inner_cb; cbn. unfold c1 in Hst; cbn in Hst. by rewrite Hst. }
      fold m1. fold fr.
      unfold run_fn. eapply y_do.
      { eapply get_cb_ok; [unfold m1; rewrite upd_lookup_ne by done; apply upd_lookup|done]. }
      assert (bool_decide (st_none = st_and (cb_state (with_c None (outer_cb n c1))) st_destroy) = true) as ->.
      { unfold outer_cb; cbn. unfold c1 in Hst; cbn in Hst. by rewrite Hst. }
      eapply reaches_step; [done|]. eapply y_do; [done|]. eapply reaches_step; [done|].
      eexists. split; [done|]. split; cbn; [|done|].
      * eapply Rc'; try done. destruct Hf. split; cbn; congruence.
      * split; [done|]. unfold ctxbase. rewrite lookup_insert. cbn.
        assert (ac_side c = Push) as Hsd. { eapply (co_new _ Hco). unfold c1 in Hst; cbn in Hst. exact Hst. }
        unfold fnframes. rewrite Hsd. done.
    + eapply y_resume_assign; [exact Ho|done|..].
      { unfold outer_cb; cbn. unfold c1 in Hst; cbn in Hst. by rewrite Hst. }
      { exact Hfib. }
      unfold back_k.
      eapply y_fiber_assign; [rewrite upd_lookup_ne by done; exact Hi|done| |].
      { unfold inner_cb; cbn. unfold c1 in Hst; cbn in Hst. by rewrite Hst. }
      fold m1. fold fr.
      match type of Ht with deliver _ _ _ _ _ ?A = _ => set (a1 := A) in * end.
      assert (Hpo1 : forall h kd', po1 <> PoNew h kd').
      { intros h kd' ->. destruct (co_post _ Hco o1 h kd' k1). unfold c1 in Hst; cbn in Hst. done. }
      assert (KUser o1 k1 :: fnframes (ac_side c1) (ac_kind c1) (ac_syn c1) n = user_fr n o1 po1 k1 ++ ctxbase (a_co a1) (a_cur a1)) as ->.
      { unfold ctxbase; cbn. rewrite lookup_insert. destruct po1; try done. by destruct (Hpo1 h kd0). }
      eapply (sim_deliver _ _ _ _ None a1); [..|exact Ht|apply upd_lookup|done|done|].
      * eapply Rc'; try done. destruct Hf. split; cbn; congruence.
      * unfold InvS. cbn. rewrite Ha. unfold c2 in I'. by rewrite insert_insert.
      * intros h kd' ->. by destruct (Hpo1 h kd').
  - rewrite Hac in Hr. apply andb_true_iff in Hr as [Hr1 Hr2]. apply bool_decide_eq_true in Hr1 as Hn. subst n.
    destruct (ac_st c) eqn:Hst; try (unfold c1 in Hr2; cbn in Hr2; rewrite Hst in Hr2; done).
    unfold resume_assign.
    eapply y_do; [by eapply take_c_ok|].
    assert (cb_c (inner_cb (a_cur a) c1) = Some (ac_by c1)) as ->.
    { unfold inner_cb; cbn. by rewrite Hst. }
    eapply (sim_give_back (a_cur a) (ASusp o po k) None a a' c1 m); try done.
    + rewrite Ha, insert_insert. eapply (back_inv _ _ _ _ _ (ASusp o po k) c s); try done.
      * by eapply yield_co_ok.
      * intros ->. by destruct Hs.
    + apply I.
    + intros j o' po' k' Hw'. split.
      * pose proof (cur_active _ _ _ _ _ _ I Hc) as Hact.
        destruct (ic_act _ _ _ _ _ I _ _ Hc Hact) as [_ (w&Hw&Hwt)]. unfold c1 in Hw'; cbn in Hw'. by simplify_eq/=.
      * intros h kd' ->. pose proof (ic_wait _ _ _ _ _ I _ _ Hw') as (y&Hy&Hyb&Hyr&Hyn). cbn in *.
        pose proof (cur_active _ _ _ _ _ _ I Hc) as Hact.
        destruct (ic_act _ _ _ _ _ I _ _ Hc Hact) as [_ (w&Hw&Hwt)]. simplify_eq/=.
        destruct (Hyn h kd' eq_refl) as (?&?&?). done.
    + apply cbs_same_upd; [done|]. apply cbs_same_refl.
    + apply upd_lookup.
    + rewrite upd_lookup_ne by done. eapply core_outer; [done..|]. unfold c1; cbn. by rewrite Hst.
    + unfold outer_cb; cbn. by rewrite Hst.
    + unfold outer_cb; cbn. by rewrite Hst.
    + destruct Hf. split; cbn; congruence.
    + unfold fib_ok. rewrite (ic_wcur _ _ _ _ _ I), lookup_insert. cbn. unfold ctxbase. rewrite Hac. done.
Qed.

(** ** Pushing a value *)

Definition set_tr (s : aslot) (n : nat) (tr : list event) : list event :=
  match s with SlFull _ => EvDel n :: tr | _ => tr end.
Definition set_failed (s : aslot) : aslot := match s with SlFull _ => SlBad | s => s end.
Definition put_slot (se : ep) (b : cblock) (u : gmap nat T) (tr : list event) (m : mem) : mem :=
  Mem (<[se := b]> (m_cbs m)) (m_h m) (m_stk m) u (m_nh m) (m_nk m) tr.

Lemma construct_ok lv g m v u : aconstruct lv g (m_user m) = Some (inr (v, u)) ->
  construct_T lv g m = MOk v (set_user u m).
Proof.
  destruct m as [cbs h stk us nh nk tr]. unfold aconstruct, construct_T, mb, user_load, user_store, mret; cbn.
  destruct g as [l|l|v'|l|]; try done; cbn.
  - destruct (us !! l); [|done]; cbn. destruct (copy_exn t); intros; simplify_eq; done.
  - destruct (us !! l); [|done]; cbn. destruct (move_exn t); intros; simplify_eq; done.
  - destruct (if lv then copy_exn v' else move_exn v'); intros; simplify_eq; done.
Qed.

Lemma construct_fail lv g m e : aconstruct lv g (m_user m) = Some (inl e) -> construct_T lv g m = MThrow e m.
Proof.
  destruct m as [cbs h stk us nh nk tr]. unfold aconstruct, construct_T, mb, user_load, user_store, mret; cbn.
  destruct g as [l|l|v'|l|]; try done; cbn.
  - destruct (us !! l); [|done]; cbn. destruct (copy_exn t); intros; simplify_eq; done.
  - destruct (us !! l); [|done]; cbn. destruct (move_exn t); intros; simplify_eq; done.
  - destruct (if lv then copy_exn v' else move_exn v'); intros; simplify_eq; done.
Qed.

Lemma set_clear se m cc oo st x s :
  m_cbs m !! se = Some (mk_cb cc oo st x s) -> s <> SlBad -> slot_ok KVal s ->
  exists b, (if cb_bvalid (mk_cb cc oo st x s) then destroy_T se else mret tt) m =
    MOk tt (put_slot se b (m_user m) (set_tr s (ep_co se) (m_tr m)) m) /\
  b = mk_cb cc oo st x (set_failed s).
Proof.
  intros Hm Hs Hk. eexists. split; [|done]. destruct s as [|p|]; [| |done].
  - cbn. unfold mret, put_slot. cbn. rewrite insert_id by done. by destruct m.
  - cbn in Hk. destruct p as [v|l]; [|done]. cbn. unfold destroy_T, mb, get_cb. rewrite Hm. done.
Qed.

Lemma set_val_ok se lv g m cc oo st x s v u :
  m_cbs m !! se = Some (mk_cb cc oo st x s) -> s <> SlBad -> slot_ok KVal s ->
  aconstruct lv g (m_user m) = Some (inr (v, u)) ->
  pull_cb_set KVal se lv g m =
    MOk tt (put_slot se (mk_cb cc oo st x (SlFull (PVal v))) u (EvSet (ep_co se) (PVal v) :: set_tr s (ep_co se) (m_tr m)) m).
Proof.
  intros Hm Hs Hk Hc. unfold pull_cb_set. eapply mb_ok; [by apply get_cb_ok|].
  destruct (set_clear se m cc oo st x s Hm Hs Hk) as (b&Hb&->).
  eapply mb_ok; [exact Hb|].
  eapply mb_ok; [by apply construct_ok|].
  eapply mb_ok; [apply get_cb_ok; [apply lookup_insert|done]|].
  unfold mb, put_cb, mlog; cbn. unfold put_slot, log; cbn. by rewrite insert_insert.
Qed.

Lemma set_val_fail se lv g m cc oo st x s e :
  m_cbs m !! se = Some (mk_cb cc oo st x s) -> s <> SlBad -> slot_ok KVal s ->
  aconstruct lv g (m_user m) = Some (inl e) ->
  pull_cb_set KVal se lv g m =
    MThrow e (put_slot se (mk_cb cc oo st x (set_failed s)) (m_user m) (set_tr s (ep_co se) (m_tr m)) m).
Proof.
  intros Hm Hs Hk Hc. unfold pull_cb_set. eapply mb_ok; [by apply get_cb_ok|].
  destruct (set_clear se m cc oo st x s Hm Hs Hk) as (b&Hb&->).
  eapply mb_ok; [exact Hb|].
  unfold mb. by rewrite (construct_fail lv g _ e).
Qed.

Lemma set_ref_ok se lv l m cc oo st x s :
  m_cbs m !! se = Some (mk_cb cc oo st x s) ->
  pull_cb_set KRef se lv (ARefTo l) m =
    MOk tt (put_slot se (mk_cb cc oo st x (SlFull (PRef l))) (m_user m) (EvSet (ep_co se) (PRef l) :: m_tr m) m).
Proof.
  intros Hm. unfold pull_cb_set. eapply mb_ok; [by apply get_cb_ok|]. done.
Qed.

Lemma resumable_other e a c : resumable e a = true -> a_co a !! ep_co e = Some c -> unw_st (ac_st c) = false.
Proof.
  unfold resumable. destruct e; cbn; intros H Hc; rewrite Hc in H.
  - by destruct (ac_st c).
  - apply andb_true_iff in H as [_ H]. by destruct (ac_st c).
Qed.

Lemma block_other a m fib unw e c : Rcore a m fib unw -> a_co a !! ep_co e = Some c -> unw_st (ac_st c) = false ->
  exists b, m_cbs m !! e = Some b /\ cb_alive b = true /\
    cb_other b = Some (match e with Outer n => Inner n | Inner n => Outer n end).
Proof.
  intros Rc Hc Hu. destruct e as [n|n]; cbn in Hc.
  - eexists. split; [by eapply core_outer|]. done.
  - eexists. split; [by eapply core_inner|]. done.
Qed.

Lemma resumable_slot e a c s : a_co a !! ep_co e = Some c -> forall a1,
  a_cur a1 = a_cur a -> a_co a1 = <[ep_co e := c_slot s c]> (a_co a) -> resumable e a1 = resumable e a.
Proof.
  intros Hc a1 E1 E2. unfold resumable. rewrite E1, E2. destruct e; cbn in *; by rewrite lookup_insert, Hc.
Qed.

Lemma cbs_same_put n se b u tr m : ep_co se = n -> cbs_same n m (put_slot se b u tr m).
Proof.
  intros He k Hk. cbn. rewrite !lookup_insert_ne; [done|destruct se; cbn in *; congruence|destruct se; cbn in *; congruence].
Qed.

Lemma slot_ep_co n c : ep_co (slot_ep n c) = n.
Proof. unfold slot_ep. by destruct (ac_side c). Qed.

Lemma sim_push e kd lv g o po k a a' h m fib unw :
  InvS a -> a_h a !! h = Some (HObj Push kd (Some e)) -> (forall h kd', po <> PoNew h kd') ->
  push_op e kd lv g o po k a = ANext a' -> Rcore a m fib unw ->
  reaches (CState m fib unw (a_cur a) (FCode (push_cb_resume kd e lv g (post_code po)))
              (KUser o k :: ctxbase (a_co a) (a_cur a))) a'.
Proof.
  intros I Hh Hpo Hp Rc. unfold push_op in Hp.
  destruct (resumable e a) eqn:Hr; [|done]. cbn in Hp.
  destruct (a_co a !! ep_co e) as [c|] eqn:Hc; [|done].
  pose proof (ic_h _ _ _ _ _ I _ _ _ _ _ Hh Hc) as Hho.
  pose proof (ic_co _ _ _ _ _ I _ _ Hc) as Hco.
  assert (ac_kind c = kd) as Hkd by apply Hho.
  pose proof (resumable_other _ _ _ Hr Hc) as Hu.
  destruct (block_other _ _ _ _ _ _ Rc Hc Hu) as (b&Hb1&Hb2&Hb3).
  pose proof (r_flat _ _ _ _ Rc) as Hf.
  assert (match e with Outer n => Inner n | Inner n => Outer n end = slot_ep (ep_co e) c) as Hse.
  { unfold slot_ep. destruct e; cbn in *; destruct Hho as [_ Hho]; [destruct Hho as [-> _]|rewrite Hho]; done. }
  rewrite Hse in Hb3.
  destruct (slot_block _ _ _ _ _ _ Rc Hc (fun _ => Hu)) as (cc&oo&st&x&Hsb&Hupd).
  pose proof (co_slot _ Hco) as Hsok. rewrite Hkd in Hsok.
  assert (Hctx : forall a1 s, a_co a1 = <[ep_co e := c_slot s c]> (a_co a) -> a_cur a1 = a_cur a ->
            ctxbase (a_co a) (a_cur a) = ctxbase (a_co a1) (a_cur a1)).
  { intros a1 s E1 E2. unfold ctxbase. rewrite E1, E2. destruct (decide (a_cur a = ep_co e)) as [->|].
    - by rewrite lookup_insert, Hc.
    - by rewrite lookup_insert_ne. }
  destruct kd.
  - assert (Hset : forall v u a1, aconstruct lv g (a_user a) = Some (inr (v, u)) -> ac_slot c <> SlBad ->
              transfer e o po k a1 = ANext a' ->
              a_co a1 = <[ep_co e := c_slot (SlFull (PVal v)) c]> (a_co a) -> a_cur a1 = a_cur a -> a_wait a1 = a_wait a ->
              a_h a1 = a_h a -> a_user a1 = u -> a_nh a1 = a_nh a -> a_nk a1 = a_nk a ->
              a_tr a1 = EvSet (ep_co e) (PVal v) :: set_tr (ac_slot c) (ep_co e) (a_tr a) ->
              reaches (CState m fib unw (a_cur a) (FCode (push_cb_resume KVal e lv g (post_code po)))
              (KUser o k :: ctxbase (a_co a) (a_cur a))) a').
    { intros v u a1 Hcon Hnb Ht E1 E2 E3 E4 E5 E6 E7 E8. unfold push_cb_resume. eapply y_do.
      { eapply mb_ok; [by apply get_cb_ok|]. rewrite Hb3. eapply mb_ok; [done|].
        eapply (set_val_ok _ _ _ _ _ _ _ _ _ v u); [exact Hsb|done|done|]. by rewrite (f_user _ _ Hf). }
      rewrite slot_ep_co.
      rewrite (Hctx a1 (SlFull (PVal v)) E1 E2), <- E2.
      eapply (sim_transfer e KVal Push o po k a1 (a_co a) c (SlFull (PVal v))); try done.
      - by rewrite E2, E3, E4, E7.
      - by rewrite (resumable_slot e a c (SlFull (PVal v))).
      - eapply (Rcore_slot a m fib unw _ c); [done|done|exact E1|done|done| | | |].
        + by apply cbs_same_put, slot_ep_co.
        + eapply Hupd; [by apply cbs_same_put, slot_ep_co|]. done.
        + done.
        + destruct Hf. split; cbn; congruence. }
    assert (Hbad : forall e' a1, aconstruct lv g (a_user a) = Some (inl e') -> ac_slot c <> SlBad ->
              exn_to o (XUser e') k a1 = ANext a' ->
              a_co a1 = <[ep_co e := c_slot (set_failed (ac_slot c)) c]> (a_co a) -> a_cur a1 = a_cur a -> a_wait a1 = a_wait a ->
              a_h a1 = a_h a -> a_user a1 = a_user a -> a_nh a1 = a_nh a -> a_nk a1 = a_nk a ->
              a_tr a1 = set_tr (ac_slot c) (ep_co e) (a_tr a) ->
              reaches (CState m fib unw (a_cur a) (FCode (push_cb_resume KVal e lv g (post_code po)))
              (KUser o k :: ctxbase (a_co a) (a_cur a))) a').
    { intros e' a1 Hcon Hnb Ht E1 E2 E3 E4 E5 E6 E7 E8. unfold push_cb_resume. eapply y_do_throw.
      { eapply mb_ok; [by apply get_cb_ok|]. rewrite Hb3. eapply mb_ok; [done|].
        eapply (set_val_fail _ _ _ _ _ _ _ _ _ e'); [exact Hsb|done|done|]. by rewrite (f_user _ _ Hf). }
      rewrite slot_ep_co.
      rewrite (Hctx a1 (set_failed (ac_slot c)) E1 E2), <- E2.
      eapply sim_exn; [|done].
      eapply (Rcore_slot a m fib unw _ c); [done|done|exact E1|done|done| | | |].
      - by apply cbs_same_put, slot_ep_co.
      - eapply Hupd; [by apply cbs_same_put, slot_ep_co|]. done.
      - done.
      - destruct Hf. split; cbn; congruence. }
    destruct (ac_slot c) as [|p|] eqn:Hsl; [| |done].
    + destruct (aconstruct lv g (a_user a)) as [[e'|[v u]]|] eqn:Hcon; [| |done].
      * eapply Hbad; eauto; done.
      * eapply Hset; eauto; done.
    + destruct (aconstruct lv g (a_user a)) as [[e'|[v u]]|] eqn:Hcon; [| |done].
      * eapply Hbad; eauto; done.
      * eapply Hset; eauto; done.
  - destruct g as [| | |l|]; try done. unfold push_cb_resume. eapply y_do.
    { eapply mb_ok; [by apply get_cb_ok|]. rewrite Hb3. eapply mb_ok; [done|].
      eapply set_ref_ok; exact Hsb. }
    rewrite slot_ep_co.
    match type of Hp with transfer _ _ _ _ ?A = _ => set (a1 := A) in * end.
    rewrite (Hctx a1 (SlFull (PRef l)) eq_refl eq_refl).
    eapply (sim_transfer e KRef Push o po k a1 (a_co a) c (SlFull (PRef l))); try done.
    + by rewrite (resumable_slot e a c (SlFull (PRef l))).
    + eapply (Rcore_slot a m fib unw _ c); [done|done|done|done|done| | | |].
      * by apply cbs_same_put, slot_ep_co.
      * eapply Hupd; [by apply cbs_same_put, slot_ep_co|]. done.
      * done.
      * destruct Hf. split; cbn; congruence.
  - eapply (sim_transfer e KVoid Push o po k a (a_co a) c (ac_slot c)); try done.
    + by rewrite c_slot_id, insert_id.
    + intros. auto.
    + apply Hco.
Qed.

Lemma sim_resume e kd o po k a a' h m fib unw :
  InvS a -> a_h a !! h = Some (HObj Pull kd (Some e)) -> (forall h kd', po <> PoNew h kd') ->
  resumable e a = true -> transfer e o po k a = ANext a' -> Rcore a m fib unw ->
  reaches (CState m fib unw (a_cur a) (FCode (pull_cb_resume e (post_code po)))
              (KUser o k :: ctxbase (a_co a) (a_cur a))) a'.
Proof.
  intros I Hh Hpo Hr Ht Rc.
  destruct (a_co a !! ep_co e) as [c|] eqn:Hc.
  - pose proof (ic_co _ _ _ _ _ I _ _ Hc) as Hco.
    eapply (sim_transfer e kd Pull o po k a (a_co a) c (ac_slot c)); try done.
    + by rewrite c_slot_id, insert_id.
    + intros. auto.
    + apply Hco.
    + eapply ic_h; eauto.
  - unfold resumable in Hr. destruct e; cbn in *; rewrite Hc in Hr; [done|]. by rewrite andb_false_r in Hr.
Qed.

(** ** All operations *)

Lemma deref_ok a m fib unw h sd kd e :
  Rcore a m fib unw -> a_h a !! h = Some (HObj sd kd (Some e)) -> deref_h sd h m = MOk (kd, e) m.
Proof.
  intros Rc Hh. unfold deref_h. eapply mb_ok; [apply get_h_ok; by rewrite (f_h _ _ (r_flat _ _ _ _ Rc))|].
  eapply mb_ok; [cbn; by rewrite bool_decide_eq_true_2|]. done.
Qed.

Lemma getm_h a m fib unw h o : Rcore a m fib unw -> a_h a !! h = Some o -> get_h h m = MOk o m.
Proof. intros Rc Hh. apply get_h_ok. by rewrite (f_h _ _ (r_flat _ _ _ _ Rc)). Qed.

Lemma readable_facts e a c : readable e a = Some c ->
  a_co a !! ep_co e = Some c /\ match e with Outer _ => unw_st (ac_st c) = false /\ avalid (Some e) a = Some true | Inner _ => True end.
Proof.
  unfold readable, avalid. destruct e as [n|n]; cbn; destruct (a_co a !! n) as [c'|]; cbn; try done.
  - destruct (ac_st c') eqn:E; intros; simplify_eq; rewrite E; done.
  - destruct (ac_st c') as [| | | |[]] eqn:E; intros; simplify_eq; done.
Qed.

(** Reading the slot through a pull object. *)
Lemma slot_read a m fib unw h kd e c :
  Rcore a m fib unw -> InvS a -> a_h a !! h = Some (HObj Pull kd (Some e)) -> readable e a = Some c ->
  exists cc oo st x, m_cbs m !! e = Some (mk_cb cc oo st x (ac_slot c)) /\
    forall s' m', cbs_same (ep_co e) m m' -> m_cbs m' = <[e := mk_cb cc oo st x s']> (m_cbs m) ->
      cb_ok (Some (c_slot s' c)) (ep_co e) (m_cbs m' !! Outer (ep_co e)) (m_cbs m' !! Inner (ep_co e)).
Proof.
  intros Rc I Hh Hrd. destruct (readable_facts _ _ _ Hrd) as [Hc Hu].
  pose proof (ic_h _ _ _ _ _ I _ _ _ _ _ Hh Hc) as [_ Hho].
  assert (e = slot_ep (ep_co e) c) as He.
  { unfold slot_ep. destruct e; cbn in *; [destruct Hho as [-> _]|rewrite Hho]; done. }
  destruct (slot_block _ _ _ _ _ _ Rc Hc) as (cc&oo&st&x&Hsb&Hupd).
  { intros Hs. destruct e; cbn in Hho; [|congruence]. by destruct Hu. }
  rewrite <- He in Hsb, Hupd. eauto 10.
Qed.

Lemma sim_op o k a a' m fib unw :
  InvS a -> do_op o k a = ANext a' -> Rcore a m fib unw ->
  reaches (CState m fib unw (a_cur a) (FCode (api o)) (KUser (NOp o) k :: ctxbase (a_co a) (a_cur a))) a'.
Proof.
  intros I Hd Rc. pose proof (r_flat _ _ _ _ Rc) as Hf.
  unfold do_op in Hd. destruct o; unfold api.
  - (* OMoveCtor *)
    destruct (a_h a !! h) as [[sd kd e]|] eqn:Hh; [|done].
    eapply y_do.
    { unfold coro_move. eapply mb_ok; [by eapply getm_h|]. done. }
    match type of Hd with ret_to _ _ _ ?A = _ => set (a1 := A) in * end.
    cbn. rewrite (f_nh _ _ Hf).
    eapply (sim_ret _ _ _ a1); [|done]. eapply Rcore_flat; eauto; try done. destruct Hf. split; cbn; congruence.
  - (* OMoveAssign *)
    destruct (a_h a !! h1) as [[sd1 kd1 e1]|] eqn:Hh1; [|done].
    destruct (a_h a !! h2) as [[sd2 kd2 e2]|] eqn:Hh2; [|done].
    destruct (bool_decide (sd1 = sd2) && bool_decide (kd1 = kd2)) eqn:Hb; [|done].
    match type of Hd with ret_to _ _ _ ?A = _ => set (a1 := A) in * end.
    assert (Ha1 : Rcore a1 (set_h (a_h a1) m) fib unw).
    { eapply Rcore_flat; eauto; try done. destruct Hf. split; cbn; congruence. }
    eapply (y_do _ _ _ (set_h (a_h a1) m) _ _ _ _ tt).
    { unfold coro_assign. eapply mb_ok; [by eapply getm_h|]. eapply mb_ok; [by eapply getm_h|].
      cbn [h_side h_kind h_ep]. rewrite Hb. eapply mb_ok; [done|].
      apply andb_true_iff in Hb as [->%bool_decide_eq_true ->%bool_decide_eq_true].
      destruct sd2.
      - unfold mb, put_h; cbn. unfold set_h; cbn. by rewrite (f_h _ _ Hf).
      - destruct (decide (h1 = h2)) as [->|].
        + rewrite bool_decide_eq_true_2 by done. unfold mret. subst a1; cbn. simplify_eq.
          rewrite insert_insert, insert_id by done. rewrite <- (f_h _ _ Hf). by destruct m.
        + rewrite bool_decide_eq_false_2 by done. unfold mb, put_h; cbn. unfold set_h; cbn. by rewrite (f_h _ _ Hf). }
    eapply (sim_ret _ _ _ a1); done.
  - (* ODestroy *)
    destruct (a_h a !! h) as [[sd kd e]|] eqn:Hh; [|done].
    unfold coro_dtor. eapply y_do.
    { eapply mb_ok; [by eapply getm_h|]. done. }
    cbn [h_ep h_side h_kind].
    set (a1 := w_h (delete h (a_h a)) a) in *.
    set (m1 := set_h (delete h (m_h m)) m).
    assert (Rc1 : Rcore a1 m1 fib unw).
    { eapply Rcore_flat; eauto; try done. destruct Hf. split; cbn; congruence. }
    assert (I1 : InvS a1) by by apply InvC_hdel.
    destruct e as [[n|n]|].
    + destruct (a_co a !! n) as [c|] eqn:Hc.
      * pose proof (ic_h _ _ _ _ _ I _ _ _ _ _ Hh Hc) as [Hk [Hs _]].
        by eapply (sim_deallocate n _ a1 a' c sd kd m1 fib unw).
      * destruct (kill_facts _ _ _ _ Hd) as (?&?&?). cbn in *. congruence.
    + destruct (a_co a1 !! n) as [c|] eqn:Hc; [|done].
      eapply (sim_deallocate_inner n a1 a' c sd kd m1 fib unw); [done|done|].
      by eapply (sim_ret _ _ _ a1).
    + by eapply (sim_ret _ _ _ a1).
  - (* OResume *)
    destruct (a_h a !! h) as [[[] kd [e|]]|] eqn:Hh; try done.
    destruct (resumable e a) eqn:Hr; [|done].
    eapply y_do; [by eapply deref_ok|]. by eapply (sim_resume e kd _ PoUnit).
  - (* OPush *)
    destruct (a_h a !! h) as [[[] kd [e|]]|] eqn:Hh; try done.
    destruct (aarg_ok kd a0) eqn:Hr; [|done].
    eapply y_do.
    { eapply mb_ok; [by eapply deref_ok|]. eapply mb_ok; [|done]. cbn [fst].
      assert (arg_ok kd a0 = true) as -> by (by destruct kd, a0). done. }
    by eapply (sim_push e kd false a0 _ PoUnit).
  - (* OBool *)
    destruct (a_h a !! h) as [[sd kd e]|] eqn:Hh; [|done].
    destruct (avalid e a) as [b|] eqn:Hv; [|done].
    eapply y_do; [eapply mb_ok; [by eapply getm_h|by eapply bool_ok]|]. by eapply sim_ret.
  - (* ONot *)
    destruct (a_h a !! h) as [[sd kd e]|] eqn:Hh; [|done].
    destruct (avalid e a) as [b|] eqn:Hv; [|done].
    eapply y_do; [eapply mb_ok; [by eapply getm_h|by eapply not_ok]|]. by eapply sim_ret.
  - (* OGet *)
    destruct (a_h a !! h) as [[[] kd [e|]]|] eqn:Hh; try done.
    destruct (readable e a) as [c|] eqn:Hrd; [|done].
    destruct (readable_facts _ _ _ Hrd) as [Hc _].
    destruct (slot_read _ _ _ _ _ _ _ _ Rc I Hh Hrd) as (cc&oo&st&x&Hsb&Hupd).
    destruct kd; [| |done].
    + destruct (ac_slot c) as [|[v|]|] eqn:Hs; try done. destruct (move_exn v) eqn:Hm; [done|].
      eapply y_do.
      { eapply mb_ok; [by eapply deref_ok|]. unfold pull_get. cbn [fst snd].
        eapply mb_ok; [by eapply get_cb_ok|]. cbn. rewrite Hm. done. }
      match type of Hd with ret_to _ _ _ ?A = _ => set (a1 := A) in * end.
      assert (ctxbase (a_co a) (a_cur a) = ctxbase (a_co a1) (a_cur a1)) as ->.
      { unfold ctxbase; cbn. destruct (decide (a_cur a = ep_co e)) as [->|].
        - by rewrite lookup_insert, Hc.
        - by rewrite lookup_insert_ne. }
      eapply (sim_ret _ _ _ a1); [|done].
      eapply (Rcore_slot a m fib unw _ c); [done|done|done|done|done| | | |].
      * by apply (cbs_same_upd _ _ _ m m).
      * eapply Hupd; [by apply (cbs_same_upd _ _ _ m m)|]. done.
      * done.
      * destruct Hf. split; cbn; congruence.
    + destruct (ac_slot c) as [|[|l]|] eqn:Hs; try done.
      eapply y_do.
      { eapply mb_ok; [by eapply deref_ok|]. unfold pull_get. cbn [fst snd].
        eapply mb_ok; [by eapply get_cb_ok|]. done. }
      by eapply sim_ret.
  - (* OBegin *)
    destruct (a_h a !! h) as [[[] kd e]|] eqn:Hh; try done.
    destruct (not_void kd) eqn:Hnv; [|done].
    destruct (avalid e a) as [b|] eqn:Hv; [|done].
    eapply y_do.
    { eapply mb_ok; [by eapply getm_h|]. eapply mb_ok; [by destruct kd|]. by eapply fetch_ok. }
    by eapply sim_ret.
  - by eapply sim_ret.
  - (* OItInc *)
    destruct i as [h|]; [|done].
    destruct (a_h a !! h) as [[[] kd [e|]]|] eqn:Hh; try done.
    destruct (not_void kd && resumable e a) eqn:Hr; [|done]. apply andb_true_iff in Hr as [Hnv Hr].
    assert (Hv : avalid (Some e) a = Some true).
    { unfold resumable in Hr. unfold avalid. destruct e as [n|n].
      - destruct (a_co a !! n) as [c|]; [|done]. by destruct (ac_st c).
      - apply andb_true_iff in Hr as [_ Hr]. destruct (a_co a !! n) as [c|]; [|done]. by destruct (ac_st c). }
    eapply y_do.
    { eapply mb_ok; [by eapply getm_h|]. eapply mb_ok; [by destruct kd|].
      eapply mb_ok; [eapply (bool_ok _ _ _ _ _ Pull); done|]. eapply mb_ok; [done|]. by eapply deref_ok. }
    by eapply (sim_resume e kd _ (PoInc h)).
  - (* OItDeref *)
    destruct i as [h|]; [|done].
    destruct (a_h a !! h) as [[[] kd [e|]]|] eqn:Hh; try done.
    destruct (readable e a) as [c|] eqn:Hrd; [|done].
    destruct (slot_read _ _ _ _ _ _ _ _ Rc I Hh Hrd) as (cc&oo&st&x&Hsb&_).
    destruct kd; [| |done].
    + destruct (ac_slot c) as [|[v|]|] eqn:Hs; try done.
      eapply y_do.
      { eapply mb_ok; [by eapply deref_ok|]. unfold pull_deref. cbn [fst snd].
        eapply mb_ok; [by eapply get_cb_ok|]. done. }
      by eapply sim_ret.
    + destruct (ac_slot c) as [|[|l]|] eqn:Hs; try done.
      eapply y_do.
      { eapply mb_ok; [by eapply deref_ok|]. unfold pull_deref. cbn [fst snd].
        eapply mb_ok; [by eapply get_cb_ok|]. done. }
      by eapply sim_ret.
  - by eapply sim_ret.
  - by eapply sim_ret.
  - (* OOutBegin *)
    destruct (a_h a !! h) as [[[] kd e]|] eqn:Hh; try done.
    destruct (not_void kd) eqn:Hnv; [|done].
    eapply y_do.
    { eapply mb_ok; [by eapply getm_h|]. by destruct kd. }
    by eapply sim_ret.
  - by eapply sim_ret.
  - (* OOutAssign *)
    destruct i as [h|]; [|done].
    destruct (a_h a !! h) as [[[] kd [e|]]|] eqn:Hh; try done.
    destruct (aout_ok kd a0) eqn:Hr; [|done].
    eapply y_do.
    { eapply mb_ok; [by eapply deref_ok|]. eapply mb_ok; [|done]. cbn [fst].
      assert (out_arg_ok kd a0 = true) as -> by (by destruct kd, a0). done. }
    by eapply (sim_push e kd true a0 _ (PoOut h)).
  - by eapply sim_ret.
  - by eapply sim_ret.
  - destruct (a_user a !! l) as [v|] eqn:Hl; [|done].
    eapply y_do; [unfold user_load; by rewrite (f_user _ _ Hf), Hl|]. by eapply sim_ret.
  - eapply y_do; [done|].
    match type of Hd with ret_to _ _ _ ?A = _ => set (a1 := A) in * end.
    eapply (sim_ret _ _ _ a1); [|done]. eapply Rcore_flat; eauto; try done. destruct Hf. split; cbn; congruence.
Qed.

(** ** Constructors *)

Lemma fresh_co co wt hs cur nk : InvC co wt hs cur nk -> co !! nk = None /\ nk <> cur /\ wt !! nk = None /\ nk <> 0.
Proof.
  intros I. pose proof (ic_nk _ _ _ _ _ I).
  assert (co !! nk = None) as Hn.
  { destruct (co !! nk) eqn:E; [|done]. apply (ic_dom _ _ _ _ _ I) in E. lia. }
  assert (Hctx : forall c, ctx_ok co c -> c <> nk).
  { intros c [->|(x&Hx&_)]; [lia|congruence]. }
  split; [done|]. split; [apply not_eq_sym, Hctx, I|]. split; [|lia].
  destruct (wt !! nk) eqn:E; [|done]. by destruct (Hctx nk (ic_ctx _ _ _ _ _ I _ _ E)).
Qed.

Lemma sim_new sd kd np fn k a a' m fib unw :
  InvS a -> do_new sd kd np fn k a = ANext a' -> Rcore a m fib unw ->
  reaches (CState m fib unw (a_cur a) (FCode (new_coro sd kd np fn)) (KUser (NNew sd kd) k :: ctxbase (a_co a) (a_cur a))) a'.
Proof.
  intros I Hd Rc. pose proof (r_flat _ _ _ _ Rc) as Hf. pose proof Hf as [Fh Fu Fnh Fnk Ftr].
  destruct (fresh_co _ _ _ _ _ I) as (Hn1&Hn2&Hn3&Hn4).
  pose proof (r_cb _ _ _ _ Rc (a_nk a)) as Hcb. rewrite Hn1 in Hcb. destruct Hcb as [Hcb1 Hcb2].
  unfold do_new in Hd.
  destruct (np_alloc np) as [e|] eqn:Hna.
  { match type of Hd with exn_to _ _ _ ?A = _ => set (a1 := A) in * end.
    assert (Rc1 : Rcore a1 (set_nh (S (m_nh m)) m) fib unw).
    { eapply Rcore_flat; eauto; try done. split; cbn; congruence. }
    destruct sd; (eapply y_do; [done|]; eapply y_do_throw; [unfold salloc_allocate; by rewrite Hna|]; by eapply (sim_exn _ _ _ a1)). }
  destruct (np_fn np) as [e|] eqn:Hnf.
  { match type of Hd with exn_to _ _ _ ?A = _ => set (a1 := A) in * end.
    assert (Rc1 : Rcore a1 (log (EvAlloc (m_nk m)) (set_stk ({[ m_nk m ]} ∪ m_stk m) (set_nk (S (m_nk m)) (set_nh (S (m_nh m)) m)))) fib unw).
    { eapply Rcore_flat; eauto; try done.
      - cbn. set_solver.
      - split; cbn; congruence. }
    destruct sd; (eapply y_do; [done|]; eapply y_do; [unfold salloc_allocate; rewrite Hna; done|];
      eapply y_do_throw; [unfold capture_fn; by rewrite Hnf|]; by eapply (sim_exn _ _ _ a1)). }
  destruct sd; cbn in Hd.
  - simplify_eq. unfold new_coro, new_pull.
    eapply y_do; [done|]. eapply y_do; [unfold salloc_allocate; rewrite Hna; done|].
    eapply y_do; [unfold capture_fn; by rewrite Hnf|].
    cbn [m_nk set_nh m_nh]. rewrite Fnk, Fnh.
    eapply reaches_step; [done|]. eapply y_do; [done|]. eapply reaches_step; [done|].
    eapply y_resume_assign; [apply lookup_insert|done|done|by rewrite lookup_insert|].
    unfold pull_entry.
    eapply y_do; [done|]. eapply reaches_step; [done|]. eapply y_do; [done|]. eapply reaches_step; [done|].
    eapply y_do.
    { unfold set_other. eapply mb_ok; [eapply get_cb_ok; [cbn; rewrite lookup_insert_ne by done; by rewrite lookup_insert|done]|done]. }
    eapply y_do.
    { eapply get_cb_ok; [cbn; by rewrite lookup_insert|done]. }
    cbn [cb_state with_other with_c new_cb].
    assert (bool_decide (st_none = st_and st_unwind st_destroy) = true) as -> by done.
    eapply reaches_step; [done|]. eapply y_do; [done|]. eapply reaches_step; [done|].
    eexists. split; [done|]. split; cbn; [|done|].
    + split; cbn.
      * split; cbn; congruence.
      * intros x. destruct (decide (x = a_nk a)) as [->|].
        -- rewrite !lookup_insert. rewrite lookup_insert_ne by done. rewrite lookup_insert. done.
        -- rewrite !lookup_insert_ne by congruence. apply Rc.
      * intros x. destruct (decide (x = a_nk a)) as [->|]; [set_solver|]. rewrite lookup_insert_ne by done.
        intros H. apply (r_stk _ _ _ _ Rc) in H. set_solver.
      * intros x Hx. destruct (decide (x = a_cur a)) as [->|].
        -- unfold fib_ok. rewrite !lookup_insert. cbn. unfold ctxbase. by rewrite lookup_insert_ne.
        -- rewrite lookup_insert_ne by done. rewrite lookup_delete_ne by done. rewrite lookup_insert_ne by done.
           eapply fib_ok_ext; [..|by apply (r_fib _ _ _ _ Rc)]; by rewrite lookup_insert_ne.
      * intros x c. destruct (decide (x = a_nk a)) as [->|].
        -- rewrite lookup_insert. intros [= <-]. done.
        -- rewrite lookup_insert_ne by done. by apply Rc.
    + split; [done|]. unfold ctxbase. rewrite lookup_insert. done.
  - unfold new_coro, new_push.
    eapply y_do; [done|]. eapply y_do; [unfold salloc_allocate; rewrite Hna; done|].
    eapply y_do; [unfold capture_fn; by rewrite Hnf|].
    cbn [m_nk set_nh m_nh]. rewrite Fnk, Fnh.
    eapply reaches_step; [done|]. eapply y_do; [done|]. eapply reaches_step; [done|].
    eapply y_resume_assign; [apply lookup_insert|done|done|by rewrite lookup_insert|].
    unfold push_entry.
    eapply y_do; [done|]. eapply reaches_step; [done|]. eapply y_do; [done|]. eapply reaches_step; [done|].
    eapply y_do.
    { unfold set_other. eapply mb_ok; [eapply get_cb_ok; [cbn; rewrite lookup_insert_ne by done; by rewrite lookup_insert|done]|done]. }
    eapply y_do.
    { unfold other_of. eapply mb_ok; [eapply mb_ok; [eapply get_cb_ok; [cbn; by rewrite lookup_insert|done]|done]|].
      eapply take_c_ok; [cbn; rewrite lookup_insert_ne by done; by rewrite lookup_insert|done]. }
    cbn [cb_c new_cb].
    eapply y_resume; [by rewrite lookup_insert|].
    eapply y_fiber_assign; [rewrite upd_lookup_ne by done; cbn; by rewrite lookup_insert|done|done|].
    eapply reaches_step; [done|]. eapply reaches_step; [done|]. eapply y_do; [done|].
    cbn [m_nh set_cbs set_nh upd log set_stk set_nk m_h set_h].
    match type of Hd with ret_to _ _ _ ?A = _ => set (a1 := A) in * end.
    assert (ctxbase (a_co a) (a_cur a) = ctxbase (a_co a1) (a_cur a1)) as ->.
    { unfold ctxbase; cbn. by rewrite lookup_insert_ne. }
    eapply (sim_ret _ _ _ a1); [|done].
    split; cbn.
    + split; cbn; congruence.
    + intros x. destruct (decide (x = a_nk a)) as [->|].
      * rewrite !lookup_insert. rewrite lookup_insert_ne by done. rewrite lookup_insert. done.
      * rewrite !lookup_insert_ne by congruence. apply Rc.
    + intros x. destruct (decide (x = a_nk a)) as [->|]; [set_solver|]. rewrite lookup_insert_ne by done.
      intros H. apply (r_stk _ _ _ _ Rc) in H. set_solver.
    + intros x Hx. destruct (decide (x = a_nk a)) as [->|].
      * unfold fib_ok. rewrite Hn3, !lookup_insert. cbn. rewrite ?Fnh. done.
      * rewrite lookup_insert_ne by done. rewrite lookup_delete_ne by done. rewrite lookup_insert_ne by done.
        rewrite lookup_delete_ne by done. rewrite lookup_insert_ne by done.
        eapply fib_ok_ext; [..|by apply (r_fib _ _ _ _ Rc)]; [by rewrite lookup_insert_ne|done].
    + intros x c. destruct (decide (x = a_nk a)) as [->|].
      * rewrite lookup_insert. intros [= <-]. done.
      * rewrite lookup_insert_ne by done. by apply Rc.
Qed.

(** ** The coroutine-function is left *)

Lemma sim_tail n x a a' c m m0 fib unw :
  Rcore a m fib unw -> InvS a -> a_cur a = n -> a_co a !! n = Some c -> ac_st c = ARun ->
  cbs_same n m m0 -> m_cbs m0 !! Inner n = Some (inner_cb n c) ->
  m_cbs m0 !! Outer n = Some (with_except x (outer_cb n c)) -> m_stk m0 = m_stk m -> flat a m0 ->
  give_back n (ADone x) x a = ANext a' ->
  reaches (CState m0 fib unw n (FCode (tail_of (ac_side c) (ac_kind c) n)) (scopes (ac_side c) (ac_kind c) (ac_syn c) n)) a'.
Proof.
  intros Rc I Hcur Hc Hst Hcbs Hi Ho Hstk Hf Hg.
  set (ob := with_state (st_or st_unwind st_complete) (with_except x (outer_cb n c))).
  set (m1 := upd (Inner n) (with_c None (inner_cb n c)) (upd (Outer n) ob m0)).
  assert (Hmain : reaches (CState m1 fib unw n (FCode (LResume (Some (ac_by c)) (tail_k (ac_side c) (ac_kind c) n)))
                     (scopes (ac_side c) (ac_kind c) (ac_syn c) n)) a').
  { pose proof (ic_co _ _ _ _ _ I _ _ Hc) as Hco. subst n.
    eapply (sim_give_back (a_cur a) (ADone x) x a a' c m); try done.
    - rewrite <- (c_slot_id c) at 1. eapply back_inv; try done.
      rewrite c_slot_id. destruct Hco. rewrite Hst in *. by split.
    - apply I.
    - intros j o' po' k' Hw'. split.
      * pose proof (cur_active _ _ _ _ _ _ I Hc) as Hact.
        destruct (ic_act _ _ _ _ _ I _ _ Hc Hact) as [_ (w&Hw&Hwt)]. by simplify_eq/=.
      * intros h kd' ->. pose proof (ic_wait _ _ _ _ _ I _ _ Hw') as (y&Hy&Hyb&Hyr&Hyn). cbn in *.
        pose proof (cur_active _ _ _ _ _ _ I Hc) as Hact.
        destruct (ic_act _ _ _ _ _ I _ _ Hc Hact) as [_ (w&Hw&Hwt)]. simplify_eq/=.
        destruct (Hyn h kd' eq_refl) as (?&?&?). done.
    - repeat apply cbs_same_upd; done.
    - apply upd_lookup.
    - unfold m1. rewrite upd_lookup_ne by done. apply upd_lookup.
    - unfold ob, outer_cb, with_except, with_c, with_state; cbn. done.
    - unfold outer_cb; cbn. by rewrite Hst.
    - destruct Hf. split; cbn; congruence.
    - unfold fib_ok. rewrite (ic_wcur _ _ _ _ _ I), lookup_insert. done. }
  assert (Hor : or_state (Outer n) st_complete m0 = MOk tt (upd (Outer n) ob m0)).
  { unfold or_state. eapply mb_ok; [by eapply get_cb_ok|]. unfold put_cb, ob. cbn. by rewrite Hst. }
  assert (Htk : mb (other_of (Outer n)) take_c (upd (Outer n) ob m0) = MOk (Some (ac_by c)) m1).
  { unfold other_of. eapply mb_ok; [eapply mb_ok; [eapply get_cb_ok; [apply upd_lookup|done]|done]|].
    erewrite take_c_ok; [|rewrite upd_lookup_ne by done; exact Hi|done]. unfold inner_cb; cbn. by rewrite Hst. }
  assert (Hr : tail_k (ac_side c) (ac_kind c) n = ret_k -> reaches (CState m0 fib unw n (FCode (tail_return n)) (scopes (ac_side c) (ac_kind c) (ac_syn c) n)) a').
  { intros E. rewrite E in Hmain. unfold tail_return. eapply y_do; [done|]. eapply y_do; [exact Htk|]. exact Hmain. }
  assert (Ha : tail_k (ac_side c) (ac_kind c) n = assign_k n -> reaches (CState m0 fib unw n (FCode (tail_assign n)) (scopes (ac_side c) (ac_kind c) (ac_syn c) n)) a').
  { intros E. rewrite E in Hmain. unfold tail_assign. eapply y_do; [done|]. eapply y_do; [exact Htk|]. exact Hmain. }
  unfold tail_of, tail_k, pull_tail, push_tail in *.
  destruct (ac_side c); [by apply Hr|]. destruct (ac_kind c); [|by apply Ha|by apply Ha].
  destruct cxx11_lambdas; [by apply Ha|by apply Hr].
Qed.

(** ** The end of a destroyed coroutine *)

Lemma sim_exit a a' c m fib unw :
  Rcore a m fib unw -> InvS a -> a_co a !! a_cur a = Some c -> unw_st (ac_st c) = true -> do_exit a = ANext a' ->
  reaches (CState m fib unw (a_cur a) (FCode (synth_dtor (a_cur a) (ac_syn c)))
     (KPend (inr XUnwind) :: exit_fr (ac_side c) (ac_kind c) (a_cur a))) a'.
Proof.
  intros Rc I Hc Hu Hd. pose proof (r_flat _ _ _ _ Rc) as Hf.
  unfold do_exit in Hd. rewrite Hc in Hd.
  destruct (a_h a !! ac_syn c) as [[sd kd e]|] eqn:Hh; [|done].
  unfold synth_dtor. eapply y_do; [done|]. unfold coro_dtor. eapply y_do.
  { eapply mb_ok; [apply get_h_ok; cbn; by rewrite (f_h _ _ Hf)|]. done. }
  cbn [h_ep h_side h_kind].
  set (a1 := alog (EvGone (a_cur a) (ac_syn c)) (w_h (delete (ac_syn c) (a_h a)) a)) in *.
  set (m1 := set_h (delete (ac_syn c) (m_h (log (EvGone (a_cur a) (ac_syn c)) m))) (log (EvGone (a_cur a) (ac_syn c)) m)).
  assert (Rc1 : Rcore a1 m1 fib unw).
  { eapply Rcore_flat; eauto; try done. destruct Hf. split; cbn; congruence. }
  assert (I1 : InvS a1) by by apply InvC_hdel.
  assert (Hend : reaches (CState m1 fib unw (a_cur a) (FCode (LRet RVUnit)) (KPend (inr XUnwind) :: exit_fr (ac_side c) (ac_kind c) (a_cur a)))
             (w_foc AExit2 a1)).
  { eexists. split; [done|]. split; cbn; [|done|].
    - eapply Rcore_flat; [exact Rc1|..]; try done. by destruct (r_flat _ _ _ _ Rc1).
    - by exists c. }
  destruct e as [[j|j]|].
  - destruct (a_co a !! j) as [d|] eqn:Hj.
    + pose proof (ic_h _ _ _ _ _ I _ _ _ _ _ Hh Hj) as [Hk [Hs _]].
      eapply (sim_deallocate j (WExit j) a1 a' d sd kd m1 fib unw); try done. by exists c.
    + destruct (kill_facts _ _ _ _ Hd) as (?&?&?). cbn in *. congruence.
  - destruct (a_co a1 !! j) as [d|] eqn:Hj; [|done]. simplify_eq.
    by eapply (sim_deallocate_inner j a1 _ d sd kd m1 fib unw).
  - by simplify_eq.
Qed.

Lemma sim_exit2 a a' c m fib unw :
  Rcore a m fib unw -> InvS a -> a_co a !! a_cur a = Some c -> unw_st (ac_st c) = true -> do_exit2 a = ANext a' ->
  reaches (CState m fib unw (a_cur a) (FCode (synth_cb_dtor (opp (ac_side c)) (ac_kind c) (Inner (a_cur a))))
     [KPend (inr XUnwind); KEntry (a_cur a)]) a'.
Proof.
  intros Rc I Hc Hu Hd. pose proof (r_flat _ _ _ _ Rc) as Hf.
  pose proof (core_inner _ _ _ _ _ _ Rc Hc) as Hi.
  set (n := a_cur a) in *.
  unfold do_exit2 in Hd. fold n in Hd. rewrite Hc in Hd.
  assert (Hbad : ac_side c = Push -> ac_kind c = KVal -> ac_slot c <> SlBad).
  { intros E1 E2 E3. by rewrite E1, E2, E3 in Hd. }
  set (drop := match ac_side c with Pull => _ | _ => _ end) in Hd.
  assert (Hdrop : forall a0, drop = Some a0 -> a0 = ASt (a_co a) (a_wait a) (a_h a) (a_user a) (a_nh a) (a_nk a) (a_cur a) (a_foc a) (drop_tr Push n c (a_tr a))).
  { intros a0. unfold drop, drop_tr. destruct a. destruct (ac_side c), (ac_kind c), (ac_slot c); intros; simplify_eq/=; done. }
  destruct drop as [a0|]; [|done]. specialize (Hdrop a0 eq_refl). subst a0. cbn in Hd.
  destruct (a_wait a !! ac_by c) as [w|] eqn:Hw; [|done].
  pose proof (ic_wcur _ _ _ _ _ I) as Hwn. fold n in Hwn.
  assert (Hne : ac_by c <> n) by (intros E; congruence).
  pose proof (r_fib _ _ _ _ Rc (ac_by c) Hne) as Hfb. unfold fib_ok in Hfb. rewrite Hw in Hfb.
  assert (Hic : cb_c (inner_cb n c) = None). { unfold inner_cb; cbn. by destruct (ac_st c). }
  (* destructor of the inner block *)
  unfold synth_cb_dtor, cb_dtor.
  set (b1 := with_alive false (if bool_decide (ac_side c = Push) && bool_decide (ac_kind c = KVal) && slot_valid (ac_slot c) then with_storage StRaw (inner_cb n c) else inner_cb n c)).
  eapply (y_do _ _ _ (Mem (<[Inner n := with_c None b1]> (m_cbs m)) (m_h m) (m_stk m) (m_user m) (m_nh m) (m_nk m) (drop_tr Push n c (m_tr m))) _ _ _ _ None).
  { eapply mb_ok; [by eapply get_cb_ok|].
    destruct (ac_side c) eqn:Hsd; [|destruct (ac_kind c) eqn:Hkd]; cbn [opp].
    - unfold mb, get_cb, mret, put_cb; cbn. rewrite Hi; cbn.
      assert (drop_tr Push n c (m_tr m) = m_tr m) as -> by (unfold drop_tr; rewrite Hsd; by destruct (ac_kind c), (ac_slot c)).
      f_equal; first [exact Hic | unfold b1, set_cbs; cbn; by rewrite ?andb_false_r].
    - destruct (ac_slot c) as [|p|] eqn:Hsl; [| |exfalso; by apply Hbad].
      + cbn. unfold inner_slot. rewrite Hsd, Hsl. cbn. unfold mb, get_cb, mret, put_cb; cbn. rewrite Hi; cbn.
        unfold drop_tr. rewrite Hsl, Hkd. f_equal; first [exact Hic | unfold b1, set_cbs; cbn; by rewrite ?andb_false_r].
      + cbn. unfold inner_slot. rewrite Hsd, Hsl. cbn. unfold destroy_T, mb, get_cb, mret, put_cb, mlog; cbn. rewrite Hi; cbn.
        unfold inner_slot. rewrite Hsd, Hsl. cbn.
        destruct p as [v|l].
        2:{ pose proof (co_slot _ (ic_co _ _ _ _ _ I _ _ Hc)) as Hso. rewrite Hsl in Hso. cbn in Hso. congruence. }
        cbn. rewrite lookup_insert; cbn.
        unfold drop_tr. rewrite Hsl, Hkd, Hsd. rewrite !insert_insert. f_equal; first [exact Hic | unfold b1, set_cbs; cbn; by rewrite ?andb_false_r].
    - unfold mb, get_cb, mret, put_cb; cbn. rewrite Hi; cbn.
      unfold drop_tr. rewrite Hkd. f_equal; first [exact Hic | unfold b1, set_cbs; cbn; by rewrite ?andb_false_r].
    - unfold mb, get_cb, mret, put_cb; cbn. rewrite Hi; cbn.
      unfold drop_tr. rewrite Hkd. f_equal; first [exact Hic | unfold b1, set_cbs; cbn; by rewrite ?andb_false_r]. }
  apply y_kill_none. eapply y_do; [done|]. cbn [set_cbs].
  eapply reaches_step; [done|]. eapply reaches_step; [done|].
  (* fiber_exit *)
  pose proof (r_unw _ _ _ _ Rc n c Hc Hu) as Hun.
  assert (Hstk : n ∈ m_stk m) by (apply Rc; by eexists).
  set (m2 := log (EvFree n) (Mem (delete (Outer n) (delete (Inner n) (delete (Inner n) (<[Inner n := with_c None b1]> (m_cbs m)))))
                (m_h m) (m_stk m ∖ {[n]}) (m_user m) (m_nh m) (m_nk m) (drop_tr Push n c (m_tr m)))).
  assert (Hstep : forall kk K, fib !! ac_by c = Some (KUnwind kk :: K) ->
            reaches (CState m2 (delete (ac_by c) fib) (delete n unw) (ac_by c) (FCode kk) K) a' ->
            reaches (CState (Mem (delete (Inner n) (<[Inner n := with_c None b1]> (m_cbs m))) (m_h m) (m_stk m) (m_user m) (m_nh m) (m_nk m) (drop_tr Push n c (m_tr m)))
               fib unw n (FExn XUnwind) [KEntry n]) a').
  { intros kk K Hfk Hre. eapply reaches_step; [split; [|done]|exact Hre]. cbn. rewrite Hun. unfold fiber_exit. cbn.
    rewrite decide_True by done. rewrite Hfk. done. }
  assert (Rc2 : forall a2, a_co a2 = delete n (a_co a) -> a_wait a2 = delete (ac_by c) (a_wait a) -> a_cur a2 = ac_by c ->
            flat a2 m2 -> Rcore a2 m2 (delete (ac_by c) fib) (delete n unw)).
  { intros. eapply (Rcore_exit a m fib unw n (ac_by c)); try done.
    - intros x Hx. cbn. rewrite !lookup_delete_ne by congruence. rewrite !lookup_insert_ne by congruence. done.
    - cbn. by rewrite lookup_delete.
    - cbn. rewrite lookup_delete_ne by done. by rewrite lookup_delete. }
  assert (Hcb : ctxbase (a_co a) (ac_by c) = ctxbase (delete n (a_co a)) (ac_by c)).
  { unfold ctxbase. by rewrite lookup_delete_ne. }
  destruct w as [j o po k|j o f k|j].
  - done.
  - destruct f as [|h kd|e].
    + cbn in Hfb. eapply Hstep; [exact Hfb|]. rewrite Hcb.
      match type of Hd with ret_to _ _ _ ?A = _ => set (a2 := A) in * end.
      eapply (sim_ret _ _ _ a2); [|done]. apply Rc2; try done. destruct Hf. split; cbn; congruence.
    + cbn in Hfb. eapply Hstep; [exact Hfb|]. rewrite Hcb.
      eapply y_do; [done|].
      match type of Hd with ret_to _ _ _ (w_h _ ?A) = _ => set (a2 := A) in * end.
      assert (Rcore a2 m2 (delete (ac_by c) fib) (delete n unw)) as Rc3.
      { apply Rc2; try done. destruct Hf. split; cbn; congruence. }
      eapply (sim_ret _ _ _ (w_h (<[h:=HObj Pull kd None]> (a_h a2)) a2)); [|done].
      eapply Rcore_flat; [exact Rc3|..]; try done. destruct Hf. split; cbn; congruence.
    + cbn in Hfb. destruct Hfb as (kt&Hfb). eapply Hstep; [exact Hfb|]. rewrite Hcb.
      eapply reaches_step; [done|]. eapply reaches_step; [done|].
      match type of Hd with exn_to _ _ _ ?A = _ => set (a2 := A) in * end.
      eapply (sim_exn _ _ _ a2); [|done]. apply Rc2; try done. destruct Hf. split; cbn; congruence.
  - cbn in Hfb. destruct Hfb as (y&Hy&Hfb). eapply Hstep; [exact Hfb|]. simplify_eq.
    eexists. split; [done|]. split; cbn; [|done|].
    + apply Rc2; try done. destruct Hf. split; cbn; congruence.
    + exists y. rewrite lookup_delete_ne by done. done.
Qed.

(** ** The simulation *)

Definition reaches1 (s : cstate) (a : astate) : Prop := exists s1, step s = CNext s1 /\ reaches s1 a.

Theorem sim_step a a' s : R a s -> Inv a -> astep a = ANext a' -> reaches1 s a'.
Proof.
  intros [Rc Hcur Hfoc] [I F] Hs. destruct s as [m fib unw cur fc K]. cbn in *. subst cur.
  unfold astep in Hs. unfold foc_ok in Hfoc. unfold foc_inv in F.
  destruct (a_foc a) as [st| |] eqn:Hf.
  - destruct Hfoc as [-> ->]. clear F.
    assert (Hleave : forall x, do_leave x a = ANext a' ->
       exists c, a_co a !! a_cur a = Some c /\ ctxbase (a_co a) (a_cur a) = fnframes (ac_side c) (ac_kind c) (ac_syn c) (a_cur a)).
    { intros x Hd. unfold do_leave in Hd. destruct (decide (a_cur a = 0)); [by destruct x as [[]|]|].
      destruct (a_co a !! a_cur a) as [c|] eqn:Hc; [|done]. exists c. split; [done|]. unfold ctxbase. by rewrite Hc. }
    destruct st as [|x|o k|sd kd np fn k|st].
    + destruct (Hleave _ Hs) as (c&Hc&Hctx). rewrite Hctx. unfold do_leave in Hs.
      destruct (decide (a_cur a = 0)); [done|]. rewrite Hc in Hs.
      destruct (ac_st c) eqn:Hst; try done.
      eexists. split; [done|]. eapply reaches_step; [done|].
      set (a1 := alog (EvLeave (a_cur a) None) a) in *.
      set (m1 := log (EvLeave (a_cur a) None) m).
      assert (flat a1 m1). { destruct (r_flat _ _ _ _ Rc). split; cbn; congruence. }
      assert (Rc1 : Rcore a1 m1 fib unw). { eapply Rcore_flat; eauto; done. }
      eapply (sim_tail (a_cur a) None a1 a' c m1); try done.
      * by eapply core_inner.
      * erewrite core_outer; [|exact Rc1|done|by rewrite Hst]. unfold outer_cb; cbn. by rewrite Hst.
    + destruct (Hleave _ Hs) as (c&Hc&Hctx). rewrite Hctx. unfold do_leave in Hs.
      destruct (decide (a_cur a = 0)); [by destruct x|]. rewrite Hc in Hs.
      eexists. split; [done|]. eapply reaches_step; [done|].
      set (a1 := alog (EvLeave (a_cur a) (Some x)) a) in *.
      set (m1 := log (EvLeave (a_cur a) (Some x)) m).
      assert (Hfl : flat a1 m1). { destruct (r_flat _ _ _ _ Rc). split; cbn; congruence. }
      assert (Rc1 : Rcore a1 m1 fib unw). { eapply Rcore_flat; eauto; done. }
      destruct x as [e|].
      * destruct (ac_st c) eqn:Hst; try done.
        unfold fn_handler. eapply y_do.
        { eapply mb_ok; [eapply get_cb_ok; [eapply core_outer; [exact Rc1|done|by rewrite Hst]|done]|]. done. }
        eapply reaches_step; [done|]. eapply reaches_step; [done|].
        eapply (sim_tail (a_cur a) (Some e) a1 a' c m1); try done.
        -- by apply (cbs_same_upd _ (Outer (a_cur a)) _ m1 m1).
        -- cbn. rewrite lookup_insert_ne by done. by eapply (core_inner a1 m1).
        -- cbn. by rewrite lookup_insert.
        -- destruct Hfl. split; cbn; try (cbn in *; congruence).
      * destruct (ac_st c) eqn:Hst; try done. simplify_eq.
        eapply reaches_step; [done|]. eapply reaches_step; [done|].
        eexists. split; [done|]. split; cbn; [|done|].
        -- eapply Rcore_flat; [exact Rc1|..]; try done. by destruct Hfl.
        -- exists c. done.
    + destruct (forallb (known a) (op_hs o)); [|done]. eexists. split; [done|].
      eapply (sim_op o k (alog (EvCall (a_cur a) (NOp o)) a)); [done|done|].
      eapply Rcore_flat; eauto; try done. destruct (r_flat _ _ _ _ Rc). split; cbn; congruence.
    + eexists. split; [done|].
      eapply (sim_new sd kd np fn k (alog (EvCall (a_cur a) (NNew sd kd)) a)); [done|done|].
      eapply Rcore_flat; eauto; try done. destruct (r_flat _ _ _ _ Rc). split; cbn; congruence.
    + simplify_eq. eexists. split; [done|]. eexists. split; [done|]. split; cbn; [|done|done].
      eapply Rcore_flat; eauto; try done. by destruct (r_flat _ _ _ _ Rc).
  - destruct Hfoc as (c&Hc&->&->). destruct F as (c'&Hc'&Hu). simplify_eq.
    eexists. split; [done|]. by eapply sim_exit.
  - destruct Hfoc as (c&Hc&->&->). destruct F as (c'&Hc'&Hu). simplify_eq.
    eexists. split; [done|]. eapply reaches_step; [done|]. eapply reaches_step; [done|]. by eapply sim_exit2.
Qed.

(** A run that ends in the reference semantics ends in the model, in the same way
    and with the same events. *)
Theorem sim_halt a a' o s : R a s -> Inv a -> astep a = AHalt o a' ->
  exists m, m_tr m = a_tr a' /\ (step s = CHalt o m \/ exists s1 s2, step s = CNext s1 /\ steps s1 s2 /\ step s2 = CHalt o m /\ not_user s2).
Proof.
  intros [Rc Hcur Hfoc] [I F] Hs. destruct s as [m fib unw cur fc K]. cbn in *. subst cur.
  pose proof (r_flat _ _ _ _ Rc) as Hfl.
  assert (Hk : forall j w b b' r, kill j w b <> AHalt r b').
  { intros. unfold kill, exn_to. repeat case_match; done. }
  assert (Hdl : forall j o po k x b b' r, deliver j o po k x b <> AHalt r b').
  { intros. unfold deliver, exn_to, ret_to. repeat case_match; try done; apply Hk. }
  assert (Hgb : forall n st x b b' r, give_back n st x b <> AHalt r b').
  { intros. unfold give_back. repeat case_match; try done. }
  assert (Htr : forall e o po k b b' r, transfer e o po k b <> AHalt r b').
  { intros. unfold transfer. repeat case_match; try done. }
  assert (Hpu : forall e kd lv g o po k b b' r, push_op e kd lv g o po k b <> AHalt r b').
  { intros. unfold push_op, exn_to. repeat case_match; try done. }
  unfold astep in Hs. unfold foc_ok in Hfoc.
  destruct (a_foc a) as [st| |] eqn:Hf.
  - destruct Hfoc as [-> ->].
    assert (Hleave : forall x, do_leave x a = AHalt o a' -> a' = a /\ ctxbase (a_co a) (a_cur a) = [KMain] /\
              match x with None => o = Finished | Some (XUser _) => o = Terminated | _ => False end).
    { intros x Hd. unfold do_leave in Hd. destruct (decide (a_cur a = 0)) as [H0|].
      - assert (a_co a !! a_cur a = None) as Hn.
        { destruct (a_co a !! a_cur a) eqn:Hc; [|done]. by destruct (cur_pos _ _ _ _ _ _ I Hc). }
        unfold ctxbase. rewrite Hn. destruct x as [[]|]; simplify_eq; done.
      - repeat case_match; try done; by destruct (Hgb _ _ _ _ _ _ Hd). }
    destruct st as [|x|op k|sd kd np fn k|st].
    + destruct (Hleave _ Hs) as (->&->&->). eexists. split; [apply Hfl|]. by left.
    + destruct (Hleave _ Hs) as (->&->&Ho). destruct x; [subst o|done]. eexists. split; [apply Hfl|]. by left.
    + destruct (forallb (known a) (op_hs op)); [|done]. unfold step.
      destruct op; cbn in Hs; unfold ret_to in Hs; repeat case_match; try done;
        try (by destruct (Hk _ _ _ _ _ Hs)); try (by destruct (Htr _ _ _ _ _ _ _ Hs)); try (by destruct (Hpu _ _ _ _ _ _ _ _ _ _ Hs)).
      simplify_eq. set (a1 := alog (EvCall (a_cur a) (NOp (OGet h))) a) in *.
      set (m1 := log (EvCall (a_cur a) (NOp (OGet h))) m).
      assert (Rc1 : Rcore a1 m1 fib unw).
      { eapply Rcore_flat; eauto; try done. destruct Hfl. split; cbn; congruence. }
      match goal with Hh : a_h a !! h = Some _, Hr : readable _ a1 = Some _, Hs : ac_slot _ = _, Hm : move_exn _ = _ |- _ =>
        rename Hh into Hoh; rename Hr into Hrd; rename Hs into Hsl; rename Hm into Hmx end.
      destruct (slot_read _ _ _ _ _ _ _ _ Rc1 I Hoh Hrd) as (cc&oo&st&x&Hsb&_).
      exists m1. split; [destruct Hfl; cbn; congruence|]. right. eexists _, _. split; [reflexivity|]. split; [done|]. split.
      * assert (mb (deref_h Pull h) (fun p => pull_get (fst p) (snd p)) m1 = MTerm m1) as Hgt.
        { eapply mb_ok; [by eapply (deref_ok a1)|]. unfold pull_get. eapply mb_ok; [by eapply get_cb_ok|].
          cbn. rewrite Hsl. cbn. by rewrite Hmx. }
        unfold step, api. fold m1. by rewrite Hgt.
      * done.
    + exfalso. unfold do_new, exn_to, ret_to in Hs. repeat case_match; done.
    + done.
  - exfalso. unfold do_exit in Hs. repeat case_match; try done. by destruct (Hk _ _ _ _ _ Hs).
  - exfalso. unfold do_exit2, ret_to, exn_to in Hs. repeat case_match; done.
Qed.

End sim.
