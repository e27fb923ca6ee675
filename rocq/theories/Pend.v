(** Pend.v -- link between the history and the calls in progress. *)
From stdpp Require Import prelude gmap relations.
From Coq Require Import Lia.
From Verif Require Import Base Model Spec InvSpec Main Micro Trace Life.

Section pend.
Context {env : Env}.

(** The operation that waits with [po] (resp. ends with [f]). *)
Definition pst (o : opn) (po : post) : Prop :=
  match po with
  | PoUnit => (exists h, o = NOp (OResume h)) \/ (exists h g, o = NOp (OPush h g))
  | PoInc h => o = NOp (OItInc (Some h))
  | PoOut h => exists g, o = NOp (OOutAssign (Some h) g)
  | PoNew h kd => o = NNew Pull kd
  end.
Definition kst (o : opn) (f : kfin) : Prop :=
  match f with
  | KfDestroy => exists h, o = NOp (ODestroy h)
  | KfEmpty h kd => o = NNew Pull kd
  | KfThrow e => exists kd, o = NNew Pull kd
  end.
Definition wst (w : wait) : Prop :=
  match w with WOp _ o po _ => pst o po | WKill _ o f _ => kst o f | WExit _ => True end.

Definition wop (w : wait) : option opn :=
  match w with WOp _ o _ _ | WKill _ o _ _ => Some o | WExit _ => None end.

(** The call in progress of the current context. *)
Definition fop (f : mfoc) : option opn :=
  match f with
  | MFoc | MLeft _ | MExit3 => None
  | MCall o _ => Some (NOp o)
  | MNew sd kd _ _ _ | MNew2 sd kd _ _ _ _ _ => Some (NNew sd kd)
  | MRet o _ _ | MExn o _ _ | MPush _ _ _ _ o _ _ | MPush2 _ _ _ o _ _ | MXfer _ o _ _ | MGot _ o _ _ _ | MEmpty o _ _ _ => Some o
  | MKill _ w | MKill2 _ w => wop w
  end.
Definition fst_ok (f : mfoc) : Prop :=
  match f with
  | MRet o r _ =>
      match r with
      | AUnit => (exists h, o = NOp (OResume h)) \/ (exists h g, o = NOp (OPush h g)) \/ (exists h, o = NOp (ODestroy h))
      | AIt i => (exists h, o = NOp (OItInc (Some h)) /\ (i = Some h \/ i = None)) \/
                 (exists h g, o = NOp (OOutAssign (Some h) g) /\ (i = Some h \/ i = None))
      | AH h => exists sd kd, o = NNew sd kd
      | _ => False
      end
  | MPush _ _ _ _ o po _ | MPush2 _ _ _ o po _ | MXfer _ o po _ | MGot _ o po _ _ => pst o po
  | MKill _ w | MKill2 _ w => wst w
  | MEmpty o _ kd _ => o = NNew Pull kd
  | _ => True
  end.

(** The operand a push operation was called with. *)
Definition xop (x : astate * mfoc) (c : nat) : option opn :=
  if decide (c = a_cur x.1) then fop x.2 else
  match a_wait x.1 !! c with
  | Some w => wop w
  | None => match ac_st <$> a_co x.1 !! c with Some (ASusp o _ _) => Some o | _ => None end
  end.

Record PendI (x : astate * mfoc) : Prop := {
  pi_pend : forall c, pend c (a_tr x.1) = xop x c;
  pi_wait : forall c w, a_wait x.1 !! c = Some w -> wst w;
  pi_susp : forall k c o po k', a_co x.1 !! k = Some c -> ac_st c = ASusp o po k' -> pst o po;
  pi_foc : fst_ok x.2 }.

Lemma pend_init p u : PendI (ainit p u, MFoc).
Proof. split; cbn; try done. intros c. unfold xop; cbn. by case_decide. Qed.

(** Steps inside one context. *)
Lemma pend_local x y : PendI x -> a_cur y.1 = a_cur x.1 -> a_wait y.1 = a_wait x.1 ->
  (forall k, ac_st <$> a_co y.1 !! k = ac_st <$> a_co x.1 !! k) -> fst_ok y.2 ->
  (forall c, pend c (a_tr y.1) = if decide (c = a_cur x.1) then fop y.2 else pend c (a_tr x.1)) -> PendI y.
Proof.
  intros [P1 P2 P3 P4] Hc Hw Hst Hf Hp. split.
  - intros c. rewrite Hp. unfold xop. rewrite Hc, Hw. case_decide; [done|]. rewrite P1. unfold xop. rewrite decide_False by done.
    by rewrite Hst.
  - by rewrite Hw.
  - intros k c o po k' Hk Hs. specialize (Hst k). rewrite Hk in Hst. destruct (a_co x.1 !! k) as [c'|] eqn:E; [|done].
    cbn in Hst. injection Hst as Hst. eapply P3; [exact E|]. by rewrite <- Hst.
  - done.
Qed.

Lemma pend_quiet x y : PendI x -> a_cur y.1 = a_cur x.1 -> a_wait y.1 = a_wait x.1 ->
  (forall k, ac_st <$> a_co y.1 !! k = ac_st <$> a_co x.1 !! k) -> fst_ok y.2 ->
  (forall c, pend c (a_tr y.1) = pend c (a_tr x.1)) -> fop y.2 = fop x.2 -> PendI y.
Proof.
  intros P ? ? ? ? Hp He. eapply pend_local; eauto. intros c. rewrite Hp, He.
  case_decide; [|done]. rewrite (pi_pend _ P). unfold xop. by rewrite decide_True.
Qed.

Ltac pquiet P := eapply (pend_quiet _ _ P); cbn; try done; try exact (pi_foc _ P).
Ltac plocal P := eapply (pend_local _ _ P); cbn; try done; try exact (pi_foc _ P).

Lemma if_decide_sym {A} (n m : nat) (x y : A) : (if decide (n = m) then x else y) = (if decide (m = n) then x else y).
Proof. by repeat case_decide; subst. Qed.

(** Control goes to coroutine [n], which was not active. *)
Lemma pend_switch a f n c c' w a' f' : PendI (a, f) -> basic a ->
  a_co a !! n = Some c -> active (ac_st c) = false -> active (ac_st c') = true ->
  wop w = fop f -> wst w -> fst_ok f' ->
  (forall k, k <> n -> pend k (a_tr a') = pend k (a_tr a)) -> pend n (a_tr a') = fop f' ->
  a_co a' = <[n := c']> (a_co a) -> a_wait a' = <[a_cur a := w]> (a_wait a) -> a_cur a' = n ->
  PendI (a', f').
Proof.
  intros [P1 P2 P3 P4] I Hc Hna Hc' Hwo Hws Hfs Hp Hpn Hco Hw Hcur. cbn in *.
  destruct (basic_inactive _ _ _ I Hc Hna) as [Hnc Hnw]. split; cbn.
  - intros k. unfold xop; cbn. rewrite Hcur, Hw, Hco. case_decide as E; [by subst|]. rewrite Hp by done. rewrite P1. unfold xop; cbn.
    case_decide as E2.
    + subst. by rewrite lookup_insert.
    + rewrite lookup_insert_ne, lookup_insert_ne by done. done.
  - intros k w'. rewrite Hw. intros Hk. destruct (decide (k = a_cur a)) as [->|].
    + rewrite lookup_insert in Hk. by simplify_eq.
    + rewrite lookup_insert_ne in Hk by done. eauto.
  - intros k x o po k'. rewrite Hco. intros Hk Hs. destruct (decide (k = n)) as [->|].
    + rewrite lookup_insert in Hk. simplify_eq. by rewrite Hs in Hc'.
    + rewrite lookup_insert_ne in Hk by done. eauto.
  - done.
Qed.

(** Control goes back from the current context to the one that resumed it. *)
Lemma pend_back a f n c c' w a' f' : PendI (a, f) -> basic a ->
  a_co a !! n = Some c -> n = a_cur a -> a_wait a !! ac_by c = Some w ->
  fst_ok f' -> fop f' = wop w ->
  a_tr a' = a_tr a -> a_co a' = <[n := c']> (a_co a) -> a_wait a' = delete (ac_by c) (a_wait a) -> a_cur a' = ac_by c ->
  fop f = match ac_st c' with ASusp o _ _ => Some o | _ => None end ->
  (forall o po k', ac_st c' = ASusp o po k' -> pst o po) ->
  PendI (a', f').
Proof.
  intros [P1 P2 P3 P4] I Hc Hn Hw Hfs Hfo Ht Hco Hwt Hcur Hf Hsp. cbn in *.
  assert (Hne : ac_by c <> n). { intros E. rewrite E, Hn, (ib_wcur _ I) in Hw. done. } split; cbn.
  - intros k. rewrite Ht, P1. unfold xop; cbn. rewrite Hcur, Hwt, Hco.
    destruct (decide (k = ac_by c)) as [->|].
    + rewrite decide_False by congruence. by rewrite Hw.
    + rewrite lookup_delete_ne by done. case_decide as E.
      * subst k n. rewrite lookup_insert, (ib_wcur _ I). cbn. rewrite Hf. by destruct (ac_st c').
      * rewrite lookup_insert_ne by congruence. done.
  - intros k w' Hk. rewrite Hwt in Hk. apply lookup_delete_Some in Hk as [_ Hk]. eauto.
  - intros k x o po k'. rewrite Hco. intros Hk Hs. destruct (decide (k = n)) as [E|].
    + subst k. rewrite lookup_insert in Hk. simplify_eq. eauto.
    + rewrite lookup_insert_ne in Hk by done. eauto.
  - done.
Qed.

Theorem pend_step p u x y : mreach p u x -> PendI x -> micro x y -> PendI y.
Proof.
  intros Hx P Hm. pose proof (mreach_minv _ _ _ Hx) as M. pose proof (mreach_basic _ _ _ Hx) as B.
  destruct Hm; cbn in M, B.
  - pquiet P.
  - plocal P. intros. by rewrite if_decide_sym.
  - plocal P. intros. by rewrite if_decide_sym.
  - plocal P. intros. by rewrite if_decide_sym.
  - plocal P. intros. by rewrite if_decide_sym.
  - apply local_op_frame in H as (E1&E2&E3&E4&E5&E6). plocal P.
    + destruct E6 as [->|(n&c&s&Hc&->)]; [done|]. by eapply st_insert.
    + intros. rewrite E1, E3. by rewrite if_decide_sym.
  - plocal P. intros. by rewrite if_decide_sym.
  - pquiet P; eauto.
  - pquiet P; eauto.
  - pquiet P; eauto.
  - pquiet P; eauto.
  - pquiet P; eauto.
  - pquiet P.
  - pquiet P. by eapply st_insert.
  - pquiet P. by eapply st_insert.
  - pquiet P.
  - pquiet P. by eapply st_insert.
  - pquiet P.
  - eapply (pend_switch a _ n c (c_by (a_cur a) (c_st ARun c)) (WOp n o po k)); [exact P|exact B|done|by rewrite H0|done|..]; cbn; try done.
    + exact (pi_foc _ P).
    + by eapply (pi_susp _ P).
    + rewrite (pi_pend _ P). unfold xop; cbn. destruct (basic_inactive _ _ _ B H) as [E1 E2]; [by rewrite H0|].
      rewrite decide_False by done. rewrite E2, H. cbn. by rewrite H0.
  - eapply (pend_switch a _ n c (c_by (a_cur a) (c_st ARun c)) (WOp n o po k)); [exact P|exact B|done|by rewrite H0|done|..]; cbn; try done.
    + exact (pi_foc _ P).
    + intros. by rewrite decide_False.
    + by rewrite decide_True.
  - destruct M as (Hp&Hr&_). unfold resumable in Hr. rewrite H in Hr.
    apply andb_true_iff in Hr as [Hn%bool_decide_eq_true Hst].
    eapply (pend_back a _ n c (c_st (ASusp o po k) c)); [exact P|exact B|exact H|done|exact H0|..]; cbn; try done.
    + by apply (pi_wait _ P _ _ H0).
    + intros. simplify_eq. by apply (pi_foc _ P).
  - pquiet P. exists kd. by apply (pi_foc _ P).
  - pquiet P.
  - pquiet P. pose proof (pi_foc _ P) as F. cbn in F. naive_solver.
  - pquiet P. pose proof (pi_foc _ P) as F. cbn in F. left. exists h. split; [done|]. destruct b; auto.
  - pquiet P. pose proof (pi_foc _ P) as F. cbn in F. destruct F as [g F]. right. exists h, g. split; [done|]. destruct b; auto.
  - pquiet P.
  - pquiet P. pose proof (pi_foc _ P) as F. cbn in F. eauto.
  - pquiet P.
  - pquiet P.
  - eapply (pend_switch a _ j c _ w); [exact P|exact B|done|by rewrite H0|..|reflexivity|reflexivity|reflexivity]; cbn; try done.
    + exact (pi_foc _ P).
    + rewrite (pi_pend _ P). unfold xop; cbn. destruct (basic_inactive _ _ _ B H) as [E1 E2]; [by rewrite H0|].
      rewrite decide_False by done. rewrite E2, H. cbn. by rewrite H0.
  - assert (Hna : active (ac_st c) = false) by by destruct (ac_st c).
    eapply (pend_switch a _ j c _ w); [exact P|exact B|done|done|..|reflexivity|reflexivity|reflexivity]; cbn; try done.
    + exact (pi_foc _ P).
    + rewrite (pi_pend _ P). unfold xop; cbn. destruct (basic_inactive _ _ _ B H) as [E1 E2]; [done|].
      rewrite decide_False by done. rewrite E2, H. cbn. by destruct (ac_st c).
  - pquiet P.
  - pquiet P.
  - pquiet P.
  - (* new pull *)
    destruct M as (I&Hn&_). assert (Hdom : forall k c, a_co a !! k = Some c -> 0 < k < n) by apply (ic_dom _ _ _ _ _ I).
    assert (Hnn : a_co a !! n = None). { destruct (a_co a !! n) eqn:E; [|done]. apply Hdom in E. lia. }
    assert (Hnc : n <> a_cur a). { intros ->. destruct (ib_cur _ B) as [E|(c&Hc&_)]; [|congruence]. pose proof (ic_nk _ _ _ _ _ I). lia. }
    destruct P as [P1 P2 P3 P4]. cbn in *. split; cbn.
    + intros k0. unfold xop; cbn. rewrite if_decide_sym. case_decide as E; [done|]. rewrite P1. unfold xop; cbn.
      case_decide as E2; [subst; by rewrite lookup_insert|]. by rewrite !lookup_insert_ne by done.
    + intros k0 w Hw. destruct (decide (k0 = a_cur a)) as [->|].
      * rewrite lookup_insert in Hw. by simplify_eq.
      * rewrite lookup_insert_ne in Hw by done. eauto.
    + intros k0 c o po k' Hc Hs. destruct (decide (k0 = n)) as [->|].
      * rewrite lookup_insert in Hc. by simplify_eq.
      * rewrite lookup_insert_ne in Hc by done. eauto.
    + done.
  - (* new push *)
    destruct M as (I&Hn&_). assert (Hdom : forall k c, a_co a !! k = Some c -> 0 < k < n) by apply (ic_dom _ _ _ _ _ I).
    assert (Hnn : a_co a !! n = None). { destruct (a_co a !! n) eqn:E; [|done]. apply Hdom in E. lia. }
    destruct P as [P1 P2 P3 P4]. cbn in *. split; cbn.
    + intros k0. rewrite P1. unfold xop; cbn. case_decide as E; [done|]. case_match; [done|].
      destruct (decide (k0 = n)) as [->|]; [by rewrite Hnn, lookup_insert|by rewrite lookup_insert_ne].
    + done.
    + intros k0 c o po k' Hc Hs. destruct (decide (k0 = n)) as [->|].
      * rewrite lookup_insert in Hc. by simplify_eq.
      * rewrite lookup_insert_ne in Hc by done. eauto.
    + eauto.
  - pquiet P.
  - destruct M as (I&c'&Hc&Hst). assert (c' = c) as -> by congruence.
    eapply (pend_back a _ _ c (c_st (ADone x) c)); [exact P|exact B|exact H|done|exact H0|..]; cbn; try done.
    by apply (pi_wait _ P _ _ H0).
  - pquiet P.
  - pquiet P.
  - pquiet P.
  - pquiet P.
  - pquiet P.
  - (* release *)
    destruct M as (I&c'&Hc&Hu). assert (c' = c) as -> by congruence.
    assert (ac_by c <> a_cur a) as Hne. { intros E. rewrite E in H0. by rewrite (ib_wcur _ B) in H0. }
    pose proof (pi_wait _ P _ _ H0) as Hws.
    assert (Hgen : forall b f, a_tr b = EvFree (a_cur a) :: a_tr a -> a_co b = delete (a_cur a) (a_co a) -> a_wait b = delete (ac_by c) (a_wait a) ->
              a_cur b = ac_by c -> fop f = wop w -> fst_ok f -> PendI (b, f)).
    { destruct P as [P1 P2 P3 P4]. cbn in *. intros b f E1 E2 E3 E4 E5 E6. split; cbn.
      + intros k. rewrite E1. cbn. rewrite P1. unfold xop; cbn. rewrite E2, E3, E4.
        destruct (decide (k = ac_by c)) as [->|].
        * rewrite decide_False by done. by rewrite H0.
        * rewrite lookup_delete_ne by done. case_decide as E; [|by rewrite lookup_delete_ne].
          subst k. by rewrite (ib_wcur _ B), lookup_delete.
      + intros k w'. rewrite E3. intros Hk. apply lookup_delete_Some in Hk as [_ Hk]. eauto.
      + intros k x o po k'. rewrite E2. intros Hk. apply lookup_delete_Some in Hk as [_ Hk]. eauto.
      + done. }
    destruct w as [ |j o [] k|j]; [done| | | |]; subst y; apply Hgen; cbn; try done.
    cbn in Hws. naive_solver.
Qed.

Theorem mreach_pend p u x : mreach p u x -> PendI x.
Proof. apply mreach_ind; [apply pend_init|]. apply pend_step. Qed.

End pend.
