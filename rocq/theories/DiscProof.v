(** DiscProof.v -- programs that follow the discipline (Discipline.v) respect the contract
    (Contract.v). *)
From stdpp Require Import prelude gmap relations.
From Coq Require Import Lia.
From Verif Require Import Base Model Spec InvSpec Main Micro Trace Mono Life Pend Den Own Tgt Stack Slot ContractInv Contract ContractProof
  Discipline DiscInv DiscStep.

Local Opaque gmap_lookup map_insert map_delete gmap_partial_alter.

Section dp.
Context {env : Env}.
Context (cells : nat -> Prop).

(** ** No push spoils a slot *)
Definition nodel (h : list event) : Prop := match h with EvDel _ :: _ => False | _ => True end.
Definition SpI (x : astate * mfoc) : Prop :=
  (forall k, spoiled k (a_tr x.1) = false) /\
  match x.2 with
  | MExn _ (XUser _) _ | MNew _ _ _ _ _ | MNew2 _ _ _ _ _ _ _ | MLeft _ | MGot _ _ _ _ (Some _) => nodel (a_tr x.1)
  | _ => True
  end.

Lemma spoiled_quiet k e h : (forall c o x, e = EvExn c o (XUser x) -> nodel h) -> spoiled k h = false -> spoiled k (e :: h) = false.
Proof.
  intros H Hs. cbn [spoiled]. rewrite Hs, orb_false_r. destruct e as [c o|c o g|c o [ex|]|m y|m r|m p0|m|m y|m y|m|m]; try done.
  specialize (H _ _ _ eq_refl). destruct h as [|[] h]; done.
Qed.

Lemma sp_step p u x y : mreach p u x -> DI cells x -> SpI x -> micro x y -> SpI y.
Proof.
  intros _ (G&_&FT) [S F] Hm.
  destruct Hm; cbn -[spoiled] in S, F, FT |- *; try done; try (by split; [intros k0; apply spoiled_quiet|]).
  - split; [|done]. intros k0. apply spoiled_quiet; [|done]. intros ??? E. simplify_eq. done.
  - assert (a_tr a' = a_tr a) as E.
    { destruct o as [h|h1 h2|h|h|h g|h|h|h|h| |[h|]|[h|]|i j|i j|h| |[h|] g|v|n|l|l v]; cbn in H; repeat (case_match; try done); by simplify_eq. }
    split; [|done]. intros k0. cbn [fst w_foc alog a_tr]. rewrite E. by apply spoiled_quiet.
  - exfalso. destruct FT as [_ Fs]. by eapply arg_fine.
  - split; [done|]. cbn. by destruct x.
  - destruct w as [|j o [| |e] k|j]; [done|..]; subst y; (split; [intros k0; by apply spoiled_quiet|done]).
Qed.

Lemma mreach_sp p u x : (forall l, cells l -> is_Some (u !! l)) -> disciplined cells p -> mreach p u x -> SpI x.
Proof. intros Hc Hd. apply mreach_ind; [done|]. intros y z Hy. apply (sp_step p u); [done|]. by eapply mreach_di. Qed.

(** ** No object belongs to main *)
Definition ZI (x : astate * mfoc) : Prop := forall h sd kd, a_h x.1 !! h <> Some (HObj sd kd (Some (Inner 0))).

Lemma z_step p u x y : mreach p u x -> ZI x -> micro x y -> ZI y.
Proof.
  intros Hx Z Hm. pose proof (mreach_minv _ _ _ Hx) as M. unfold ZI in *.
  destruct Hm; cbn in Z, M |- *; try done.
  - destruct o as [h|h1 h2|h|h|h g|h|h|h|h| |[h|]|[h|]|i j|i j|h| |[h|] g|v|n|l|l v]; cbn in H; repeat (case_match; try done); simplify_eq; try done; cbn.
    + intros h0 sd kd. rewrite !lookup_insert_Some. intros [[_ ?]|[_ [[_ ?]|[_ ?]]]]; simplify_eq; by eapply Z.
    + intros h0 sd kd. rewrite !lookup_insert_Some. intros [[_ ?]|[_ [[_ ?]|[_ ?]]]]; simplify_eq; by eapply Z.
    + intros h0 sd kd [_ ?]%lookup_delete_Some. by eapply Z.
    + intros h0 sd kd [_ ?]%lookup_delete_Some. by eapply Z.
  - intros h0 sd kd'. rewrite lookup_insert_Some. intros [[_ ?]|[_ ?]]; [done|by eapply Z].
  - intros h0 sd' kd' [_ ?]%lookup_delete_Some. by eapply Z.
  - intros h0 sd' kd'. rewrite lookup_insert_Some. intros [[_ ?]|[_ ?]]; [done|by eapply Z].
  - destruct M as ([]&_). intros h0 sd' kd'. rewrite lookup_insert_Some. intros [[_ ?]|[_ ?]]; [|by eapply Z]. simplify_eq. lia.
  - destruct M as ([]&_). intros h0 sd' kd'. rewrite !lookup_insert_Some. intros [[_ ?]|[_ [[_ ?]|[_ ?]]]]; [done| |by eapply Z]. simplify_eq. lia.
  - intros h0 sd' kd' [_ ?]%lookup_delete_Some. by eapply Z.
  - intros h0 sd' kd' [_ ?]%lookup_delete_Some. by eapply Z.
  - destruct w as [|j o [| |e] k|j]; [done|..]; subst y; done.
Qed.
Lemma mreach_z p u x : mreach p u x -> ZI x.
Proof. apply mreach_ind; [|apply z_step]. intros h sd kd. cbn. by rewrite lookup_empty. Qed.

(** ** What user code may do *)
Section user.
Context (p : strat) (u : gmap nat T) (a : astate) (st : strat).
Context (Hx : mreach p u (a, MFoc)) (Hf : a_foc a = AUser st) (Sp : forall k, spoiled k (a_tr a) = false).
Context (G : gmap nat view) (I : GI cells G a None None) (w : view) (Hw : G !! a_cur a = Some w).

Let HI : Inv a := mreach_minv _ _ _ Hx.
Let L := mreach_life _ _ _ Hx.
Let P := mreach_pend _ _ _ Hx.
Let D := mreach_den _ _ _ Hx.
Let B : basic a := mreach_basic _ _ _ Hx.
Let W0 : a_wait a !! a_cur a = None := ib_wcur _ B.
Let C0 := co_cur _ B.

Lemma dp_lives j y : a_co a !! j = Some y -> lives j (a_tr a) = true.
Proof.
  intros H. pose proof (uc_ph _ _ _ Hx _ _ H) as Hp. unfold lives. destruct (ac_st y) as [| | | |[]]; cbn in Hp; try (by rewrite Hp).
  by destruct Hp as [-> | [[? ->] | ->]].
Qed.

Lemma dp_nhid j y : a_co a !! j = Some y -> hst (ac_st y) = 2 -> ~ hid a (ac_syn y).
Proof. intros H Hs (k&c&Hc&Hh&E). assert (k = j) as -> by by eapply (d_inj _ D). by simplify_eq. Qed.

Lemma dp_den h sd kd e : a_h a !! h = Some (HObj sd kd e) -> ~ hid a h -> den (a_tr a) !! h = Some e /\ typ h (a_tr a) = Some (sd, kd).
Proof.
  intros H Hh. split.
  - assert (Q : den (a_tr a) !! h = h_ep <$> a_h a !! h) by (by apply (d_den2 _ D h Hh)). by rewrite Q, H.
  - by apply (ty_h _ (mreach_typ _ _ _ Hx) h (HObj sd kd e)).
Qed.

Lemma dp_in c v x n : G !! c = Some v -> v_in v !! x = Some n -> exists e, a_h a !! x = Some (HObj (n_side n) (n_kind n) e) /\
  den (a_tr a) !! x = Some e /\ typ x (a_tr a) = Some (n_side n, n_kind n) /\ usable x (a_tr a) = true.
Proof.
  intros Hc Hn. pose proof (gi_sees _ _ _ _ _ I _ _ Hc _ _ Hn) as S.
  assert (Hs : forall k y, a_co a !! k = Some y -> ac_syn y = x -> a_h a !! x = Some (HObj (other (ac_side y)) (ac_kind y) (Some (Inner k)))).
  { intros k y Hy <-. by destruct (gi_syn _ _ _ _ _ I _ _ Hy). }
  assert (exists e, a_h a !! x = Some (HObj (n_side n) (n_kind n) e) /\ ~ hid a x /\ match e with Some d => exists y, a_co a !! ep_co d = Some y | None => True end) as (e&He&Hh&Hl).
  { destruct (n_mine n).
    - exists (Some (Inner c)). split; [done|]. destruct (gi_dom _ _ _ _ _ I _ _ Hc) as [->|(y&Hy&Hi)]; [by eapply (mreach_z _ _ _ Hx) in S|]. split; [|by exists y].
      intros (k&z&Hz&Hh&E). rewrite (Hs _ _ Hz E) in S. injection S as _ _ ->. assert (z = y) as -> by congruence. by destruct (ac_st y) as [| | | |[]].
    - destruct S as (e&He&S). exists e. split; [done|]. split; [|by destruct e as [[j|j]|]; [destruct S as (_&y&Hy&_); by exists y|..]].
      intros (k&z&Hz&Hh&E). rewrite (Hs _ _ Hz E) in He. by injection He as _ _ <-. }
  exists e. destruct (dp_den _ _ _ _ He Hh) as [E1 E2]. split; [done|]. split; [done|]. split; [done|]. unfold usable. rewrite E1. destruct e as [d|]; [|done].
  destruct Hl as [y Hy]. by eapply dp_lives.
Qed.

(** The call in progress in another context can return. *)
Lemma dp_returns c v o po : pend c (a_tr a) = Some o -> pst o po -> G !! c = Some v ->
  (forall x, po = PoInc x \/ po = PoOut x -> exists n, v_in v !! x = Some n /\ n_side n = psd po) -> returns c (a_tr a) = true.
Proof.
  intros Hp Hps Hc H. unfold returns. rewrite Hp. destruct po as [|h|h|h kd]; cbn in Hps.
  - destruct Hps as [[h ->]|(h&g&->)]; done.
  - subst o. destruct (H h) as (n&Hn&Hs); [by left|]. destruct (dp_in _ _ _ _ Hc Hn) as (e&_&_&Ht&Hu). unfold is_class. by rewrite Ht, Hs, Hu, bool_decide_eq_true_2.
  - destruct Hps as [g ->]. destruct (H h) as (n&Hn&Hs); [by right|]. destruct (dp_in _ _ _ _ Hc Hn) as (e&_&_&Ht&Hu). unfold is_class. by rewrite Ht, Hs, Hu, bool_decide_eq_true_2.
  - by subst o.
Qed.

Lemma dp_idle j y : a_co a !! j = Some y -> active (ac_st y) = false -> j ∉ cstack (a_tr a).
Proof.
  intros Hy Ha Hj. destruct (chain_active _ _ _ _ (uc_stack _ _ _ _ Hx Hf) Hj) as [->|(z&Hz&Hz')]; [|congruence].
  destruct (ib_dom _ B _ _ Hy). lia.
Qed.

Lemma dp_outer j y : a_co a !! j = Some y -> startable (ac_st y) = true -> transferable (Outer j) (a_tr a) = true.
Proof.
  intros Hy Hs. assert (Ha : active (ac_st y) = false) by (by destruct (ac_st y)). pose proof (uc_ph _ _ _ Hx _ _ Hy) as Hp.
  destruct (basic_inactive _ _ _ B Hy Ha) as [Hnc Hnw]. cbn. destruct (ac_st y) as [fn|o po k| | |] eqn:E; try done; cbn in Hp; rewrite Hp.
  - cbn. unfold returns. assert (pend j (a_tr a) = None) as ->; [|done]. rewrite (pi_pend _ P). unfold xop. cbn. rewrite decide_False by done. rewrite Hnw, Hy. cbn. by rewrite E.
  - rewrite bool_decide_eq_true_2 by (eapply dp_idle; [done|by rewrite E]). destruct (uc_pend_susp _ _ _ Hx HI _ _ _ _ _ Hy E) as (Hpe&Hps&_).
    destruct (gi_susp _ _ _ _ _ I _ _ _ _ _ Hy E) as (v&Hv&Hyi&_). cbn [andb]. eapply dp_returns; [done|done|done|]. intros x [-> | ->]; cbn in Hyi; naive_solver.
Qed.

(** The current context is a coroutine. *)
Lemma dp_unw c : a_co a !! a_cur a = Some c -> (v_unw w = false /\ ac_st c = ARun /\ unwinding (a_cur a) (a_tr a) = false) \/
  (v_unw w = true /\ ac_st c = AUnw true /\ unwinding (a_cur a) (a_tr a) = true).
Proof.
  intros Hc. pose proof (mreach_unw _ _ _ Hx) as UN. assert (Hr : life (a_cur a) (a_tr a) = PRun).
  { apply (li_cur _ L); [by destruct (C0 _ Hc)|]. unfold userish. cbn. by rewrite Hf. }
  rewrite (gi_unw _ _ _ _ _ I _ _ _ Hw Hc). destruct (cur_st _ _ _ _ C0 I Hw _ Hc) as [E|E]; rewrite E; [left|right]; (split; [done|]); (split; [done|]).
  - destruct (unwinding (a_cur a) (a_tr a)) eqn:Eu; [|done]. apply unwinding_unw in Eu. destruct (un_st _ UN (a_cur a) Eu Hr) as (c'&Hc'&Hs'). cbn in Hc'. congruence.
  - destruct (un_on _ UN (a_cur a)) as [[_ (?&?&Hm')]|Hu]; [by exists c|done|done|]. by apply unwinding_unw in Hu.
Qed.

Lemma dp_resumer c : a_co a !! a_cur a = Some c -> ac_st c = ARun -> returns (resumer (a_tr a)) (a_tr a) = true.
Proof.
  intros Hc Hs. rewrite (uc_rsm _ _ _ _ Hx HI Hf _ Hc). destruct (uc_waits _ _ _ Hx HI _ Hc Hs) as (j&o&po&k&Hwt&->&Hp&Hps&_).
  destruct (gi_wait _ _ _ _ _ I _ _ Hwt) as (v&Hv&Hr). eapply dp_returns; [done|done|done|]. cbn in Hr. intros x [-> | ->]; cbn in Hr; naive_solver.
Qed.

Lemma dp_inner x n : v_in w !! x = Some n -> n_mine n = true -> v_unw w = false -> transferable (Inner (a_cur a)) (a_tr a) = true.
Proof.
  intros Hn Hm Hu. pose proof (cur_mine _ _ _ _ I Hw _ _ Hn Hm) as Hh. destruct (gi_dom _ _ _ _ _ I _ _ Hw) as [E|(c&Hc&_)].
  { rewrite E in Hh. by eapply (mreach_z _ _ _ Hx) in Hh. }
  destruct (dp_unw _ Hc) as [(_&Hs&Hun)|(?&_)]; [|congruence]. cbn. rewrite Hun. pose proof (uc_ph _ _ _ Hx _ _ Hc) as Hp. rewrite Hs in Hp. cbn in Hp. rewrite Hp. cbn.
  destruct (chain_head _ _ _ (uc_stack _ _ _ _ Hx Hf)) as [l El]. rewrite bool_decide_eq_true_2 by (by rewrite El). cbn. by eapply dp_resumer.
Qed.

Lemma dp_transfer x n : v_in w !! x = Some n -> ready w x n ->
  exists d, den (a_tr a) !! x = Some (Some d) /\ transferable d (a_tr a) = true /\ typ x (a_tr a) = Some (n_side n, n_kind n).
Proof.
  intros Hn Hr. destruct (dp_in _ _ _ _ Hw Hn) as (e&He&Hd&Ht&_). unfold ready in Hr. destruct (n_mine n) eqn:Hm.
  - rewrite (cur_mine _ _ _ _ I Hw _ _ Hn Hm) in He. injection He as <-. eexists. split; [done|]. split; [|done]. by eapply dp_inner.
  - destruct (cur_own _ _ _ _ W0 I Hw _ _ Hn Hm) as (e'&He'&S). rewrite He in He'. injection He' as <-. destruct e as [[j|j]|]; [|done|done].
    destruct S as (_&y&Hy&Hs&_). eexists. split; [done|]. split; [|done]. eapply dp_outer; [done|auto].
Qed.

Lemma dp_mem l : cells l -> is_Some (umem u (a_tr a) !! l).
Proof. intros Hl. pose proof (sl_user _ _ (mreach_slot _ _ _ Hx)) as Hu. cbn in Hu. rewrite <- Hu. by apply (gi_mem _ _ _ _ _ I). Qed.

Lemma dp_push x n g : v_in w !! x = Some n -> ready w x n -> arg_cells cells g -> can_push u x g (a_tr a) = true.
Proof.
  intros Hn Hr Hg. destruct (dp_transfer _ _ Hn Hr) as (d&Hd&Ht&_). unfold can_push. rewrite Hd. rewrite Ht. rewrite Sp. cbn.
  destruct g; try done; apply bool_decide_eq_true; by apply dp_mem.
Qed.

Lemma dp_read x n : v_in w !! x = Some n -> n_side n = Pull -> filled w x n -> has_data Pull x (a_tr a) && can_read x (a_tr a) = true.
Proof.
  intros Hn Hsd [Hk Hr]. destruct (dp_in _ _ _ _ Hw Hn) as (e&He&Hd&Ht&_). unfold has_data, can_read. rewrite Ht, Hd.
  assert (match n_kind n with KVal | KRef => bool_decide (n_side n = Pull) | KVoid => false end = true) as ->. { rewrite bool_decide_eq_true_2 by done. by destruct (n_kind n). } cbn [andb].
  assert (Q : forall d y, e = Some d -> a_co a !! ep_co d = Some y -> match d with Outer _ => startable (ac_st y) = true | Inner _ => entered (ac_st y) = true end ->
    is_Some (slotv (ep_co d) (a_tr a))).
  { intros d y -> Hy Hs. destruct HI as [II _]. pose proof (ic_h _ _ _ _ _ II _ _ _ _ _ He Hy) as [Hkd Hh].
    pose proof (sl_slot _ _ (mreach_slot _ _ _ Hx) _ _ Hy) as Sl. unfold slot_exp in Sl. cbn in Sl. rewrite !orb_false_r in Sl.
    assert (slotv (ep_co d) (a_tr a) = slp (ac_slot y) /\ ac_slot y <> SlEmpty) as [-> Hne].
    { destruct d as [j|j].
      - destruct Hh as [_ Hh]. assert (Hu : unw_st (ac_st y) = false) by (by destruct (ac_st y)). rewrite Hu, andb_false_r in Sl. split; [done|]. destruct Hh; [done|done|done|congruence].
      - rewrite Hsd in Hh. rewrite Hh in Sl. cbn in Sl. split; [done|]. apply (co_push _ (ic_co _ _ _ _ _ II _ _ Hy)); [done|congruence|done]. }
    destruct (gi_slot _ _ _ _ _ I _ _ Hy) as [[Hnb|?] _]; [|done]. destruct (ac_slot y) as [|[]|]; try done; by eexists. }
  destruct (n_mine n) eqn:Hm.
  - pose proof (cur_mine _ _ _ _ I Hw _ _ Hn Hm) as Hh. rewrite He in Hh. injection Hh as ->. destruct (gi_dom _ _ _ _ _ I _ _ Hw) as [E|(c&Hc&Hi)].
    { rewrite E in He. by eapply (mreach_z _ _ _ Hx) in He. }
    cbn. rewrite (dp_lives _ _ Hc). cbn. rewrite andb_true_r. apply bool_decide_eq_true. apply (Q (Inner (a_cur a)) c); [done|done|]. by destruct (ac_st c) as [| | | |[]].
  - destruct (cur_own _ _ _ _ W0 I Hw _ _ Hn Hm) as (e'&He'&S). rewrite He in He'. injection He' as <-. specialize (Hr eq_refl). destruct e as [[j|j]|]; [|done|done].
    destruct S as (_&y&Hy&Hs&_). specialize (Hs Hr). cbn. rewrite (dp_lives _ _ Hy). cbn.
    rewrite bool_decide_eq_true_2 by (by apply (Q (Outer j) y)). cbn. pose proof (uc_ph _ _ _ Hx _ _ Hy) as Hp. destruct (ac_st y); try done; cbn in Hp; by rewrite Hp.
Qed.

Lemma dp_goes d k y : a_co a !! k = Some y -> hst (ac_st y) = 2 -> counterpart_goes d k (a_tr a) = true.
Proof.
  intros Hy Hs. unfold counterpart_goes. assert (E : handed k (a_tr a) = Some (ac_syn y)) by (by apply (mreach_syn _ _ _ Hx _ _ Hy Hs)). rewrite E.
  destruct (gi_syn _ _ _ _ _ I _ _ Hy) as [?|Hh]; [done|]. destruct (dp_den _ _ _ _ Hh (dp_nhid _ _ Hy Hs)) as [-> _]. by eapply dp_lives.
Qed.

Lemma dp_destroy j y : a_co a !! j = Some y -> active (ac_st y) = false -> destroyable (length (a_tr a)) j (a_tr a) = true.
Proof.
  intros Hy Ha. pose proof (uc_ph _ _ _ Hx _ _ Hy) as Hp.
  assert (exists m, length (a_tr a) = S m) as [m ->]. { pose proof (dp_lives _ _ Hy) as Hl. destruct (a_tr a); [done|by eexists]. }
  cbn. rewrite Sp. cbn. destruct (ac_st y) eqn:E; try done; cbn in Hp; rewrite Hp; [done|..].
  - apply bool_decide_eq_true. eapply dp_idle; [done|by rewrite E].
  - eapply dp_goes; [done|by rewrite E].
Qed.

Theorem dp_pre o : may cells w o -> pre u (a_tr a) o = true.
Proof.
  intros Hm. assert (Hpr : forall x n, v_in w !! x = Some n -> present x (a_tr a) = true).
  { intros x n Hn. destruct (dp_in _ _ _ _ Hw Hn) as (e&_&Hd&_). apply bool_decide_eq_true. by exists e. }
  destruct o as [h|h1 h2|h|h|h g|h|h|h|h| |[h|]|[h|]|i j|i j|h| |[h|] g|v|n|l|l v]; cbn in Hm |- *; try done.
  - destruct Hm as (n&Hn&_). by eapply Hpr.
  - destruct Hm as (n&Hn&Hn'&_). rewrite (Hpr _ _ Hn), (Hpr _ _ Hn'). cbn. apply bool_decide_eq_true.
    destruct (dp_in _ _ _ _ Hw Hn) as (e&_&_&Ht&_), (dp_in _ _ _ _ Hw Hn') as (e'&_&_&Ht'&_). congruence.
  - destruct Hm as (n&Hn&Hmn). destruct (dp_in _ _ _ _ Hw Hn) as (e&He&Hd&_&_). rewrite Hd. destruct (cur_own _ _ _ _ W0 I Hw _ _ Hn Hmn) as (e'&He'&S). rewrite He in He'. injection He' as <-.
    destruct e as [[j|j]|]; [|done|done]. destruct S as (_&y&Hy&_&Ha). by eapply dp_destroy.
  - destruct Hm as (n&Hn&Hs&Hr). destruct (dp_transfer _ _ Hn Hr) as (d&Hd&Htr&Ht). unfold is_class, can_resume. by rewrite Ht, Hd, Htr, bool_decide_eq_true_2.
  - destruct Hm as (n&Hn&Hs&Hr&Hg&Hc&_). destruct (dp_transfer _ _ Hn Hr) as (d&Hd&Htr&Ht). by rewrite Ht, Hs, Hg, (dp_push _ _ _ Hn Hr Hc).
  - destruct Hm as [n Hn]. by destruct (dp_in _ _ _ _ Hw Hn) as (e&_&_&_&Hu).
  - destruct Hm as [n Hn]. by destruct (dp_in _ _ _ _ Hw Hn) as (e&_&_&_&Hu).
  - destruct Hm as (n&Hn&Hs&Hfl). by eapply dp_read.
  - destruct Hm as (n&Hn&Hs&Hk). destruct (dp_in _ _ _ _ Hw Hn) as (e&_&_&Ht&Hu). unfold has_data. rewrite Ht, Hu, andb_true_r. rewrite bool_decide_eq_true_2 by done. by destruct (n_kind n).
  - destruct Hm as (n&Hn&Hs&Hk&Hr). destruct (dp_transfer _ _ Hn Hr) as (d&Hd&Htr&Ht). unfold has_data, can_resume. rewrite Ht, Hd, Htr, bool_decide_eq_true_2 by done. by destruct (n_kind n).
  - destruct Hm as (n&Hn&Hs&Hfl). by eapply dp_read.
  - destruct Hm as (n&Hn&Hs&Hk). destruct (dp_in _ _ _ _ Hw Hn) as (e&_&_&Ht&_). unfold has_data. rewrite Ht, (Hpr _ _ Hn), andb_true_r. rewrite bool_decide_eq_true_2 by done. by destruct (n_kind n).
  - destruct Hm as (n&Hn&Hs&Hr&Hg&Hc&_). destruct (dp_transfer _ _ Hn Hr) as (d&Hd&Htr&Ht). by rewrite Ht, Hs, Hg, (dp_push _ _ _ Hn Hr Hc).
  - apply bool_decide_eq_true. by apply dp_mem.
Qed.

Theorem dp_leave r c : a_co a !! a_cur a = Some c ->
  (match r with Some XUnwind => v_unw w = true | _ => v_unw w = false end) -> may_leave (a_cur a) r (a_tr a) = true.
Proof.
  intros Hc Hr. assert (Hg : disposable (a_cur a) (a_tr a) = true).
  { eapply dp_goes; [done|]. destruct (cur_st _ _ _ _ C0 I Hw _ Hc) as [E|E]; by rewrite E. }
  unfold may_leave. destruct (dp_unw _ Hc) as [(E1&E2&->)|(E1&E2&->)]; rewrite E1 in Hr.
  - rewrite Hg, (dp_resumer _ Hc E2). destruct r as [[e|]|]; [|done|]; cbn; destruct (pend (resumer (a_tr a)) (a_tr a)) as [[]|]; done.
  - rewrite Hg. destruct r as [[e|]|]; done.
Qed.
End user.

(** ** Runs *)
Section run.
Context (p : strat) (u : gmap nat T).
Context (Hcells : forall l, cells l -> is_Some (u !! l)) (Hd : disciplined cells p).

Lemma run_view a st : mreach p u (a, MFoc) -> a_foc a = AUser st ->
  exists G w, GI cells G a None None /\ G !! a_cur a = Some w /\ scoped cells w st.
Proof.
  intros Hx Hf. destruct (mreach_di cells _ _ _ Hcells Hd Hx) as (G&I&F). cbn in I, F. rewrite Hf in I, F.
  destruct F as (w&Hw&Hs). by exists G, w.
Qed.

Lemma scoped_leave w s r : (s = SRet /\ r = None \/ exists x, s = SThrow x /\ r = Some x) -> scoped cells w s ->
  match r with Some XUnwind => v_unw w = true | _ => v_unw w = false end.
Proof. intros [[-> ->]|(x&->&->)] H; inversion H; by subst. Qed.

Lemma run_leave a s r c : mreach p u (a, MFoc) -> a_foc a = AUser s -> (s = SRet /\ r = None \/ exists x, s = SThrow x /\ r = Some x) ->
  a_co a !! a_cur a = Some c -> may_leave (a_cur a) r (a_tr a) = true.
Proof.
  intros Hx Hf Hs Hc. destruct (run_view _ _ Hx Hf) as (G&w&I&Hw&S). eapply dp_leave; [done..|]. by eapply scoped_leave.
Qed.

Lemma run_call a o k : mreach p u (a, MFoc) -> a_foc a = AUser (SDo o k) -> pre u (a_tr a) o = true.
Proof.
  intros Hx Hf. destruct (run_view _ _ Hx Hf) as (G&w&I&Hw&S). apply sc_do_inv in S as [S _]. pose proof (proj1 (mreach_sp _ _ _ Hcells Hd Hx)) as Sp. by eapply dp_pre.
Qed.

Lemma mreach_obeys x : mreach p u x -> obeys u (a_tr x.1) = true.
Proof.
  revert x. apply mreach_ind; [done|]. intros x y Hx IH Hm.
  destruct Hm; cbn -[allowed] in IH |- *; try done; try (by rewrite IH).
  - rewrite IH. cbn. by rewrite (run_call _ _ _ Hx H).
  - assert (a_tr a' = a_tr a) as ->; [|by rewrite IH].
    destruct o as [h|h1 h2|h|h|h g|h|h|h|h| |[h|]|[h|]|i j|i j|h| |[h|] g|v|n|l|l v]; cbn in H; repeat (case_match; try done); by simplify_eq.
  - rewrite IH. cbn [allowed]. rewrite (run_leave a s (XUser <$> x) c); [done|done|done| |done]. destruct s as [|[e|]| | |]; try done; injection H0 as <-; [by left|]. right. by eexists.
  - rewrite IH. cbn [allowed]. rewrite (run_leave a (SThrow XUnwind) (Some XUnwind) c); [done|done|done| |done]. right. by eexists.
  - destruct w as [|j o [| |e] k|j]; [done|..]; subst y; cbn -[allowed]; by rewrite IH.
Qed.

Lemma step_safe a : mreach p u (a, MFoc) -> XI a -> safe (astep a).
Proof.
  intros Hx XX. pose proof (mreach_minv _ _ _ Hx) as HI. cbn in HI. destruct (a_foc a) as [st| |] eqn:Hf; [|by eapply safe_exit|by eapply safe_end].
  assert (X : x2 (a_co a)) by apply XX.
  assert (Hl : forall r, (st = SRet /\ r = None \/ exists x, st = SThrow x /\ r = Some x) -> safe (do_leave r a)).
  { intros r Hst. destruct (decide (a_cur a = 0)) as [E0|E0].
    - unfold do_leave. rewrite decide_True by done. destruct (run_view _ _ Hx Hf) as (G&w&I&Hw&S). pose proof (scoped_leave _ _ _ Hst S) as Hr.
      rewrite E0 in Hw. pose proof (gi_unw0 _ _ _ _ _ I _ Hw) as Hu. destruct r as [[e|]|]; [by split|congruence|by split].
    - assert (exists c, a_co a !! a_cur a = Some c) as [c Hcc]. { destruct HI as [I _]. destruct (ic_cur _ _ _ _ _ I) as [?|(c&Hc'&_)]; [done|by exists c]. }
      eapply safe_leave; [done|done|done|done| |done]. by eapply run_leave. }
  destruct st as [|x|o kk|sd kd np fn kk|st].
  - unfold astep. rewrite Hf. apply Hl. by left.
  - unfold astep. rewrite Hf. apply Hl. right. by exists x.
  - eapply safe_op; [done|done|done|done|done|]. by eapply run_call.
  - unfold astep. rewrite Hf. by apply safe_new.
  - unfold astep. rewrite Hf. by apply safe_user.
Qed.

Theorem disc_spec : spec_used p u.
Proof.
  assert (Q : forall n, arun n (ainit p u) <> AViol /\ forall a, arun n (ainit p u) = ANext a -> XI a).
  { induction n as [|n [IH1 IH2]]; [split; [done|]; intros a [= <-]; apply XI_init|]. rewrite arun_S. destruct (arun n (ainit p u)) as [a0| |] eqn:E; try done.
    apply step_safe; [by eapply arun_mreach|by apply IH2]. }
  intros n. apply Q.
Qed.

Context {comp : Compiler}.

Theorem disc_used : well_used p u.
Proof.
  intros n. induction n as [n IH] using lt_wf_ind. split.
  - destruct (hist_prefix p u n) as [l Hl]; [by apply spec_used_arespects, disc_spec|]. eapply (obeys_app u l). rewrite <- Hl.
    pose proof (disc_spec n) as Hn. destruct (arun n (ainit p u)) as [a|o a|] eqn:E; [| |done]; cbn.
    + by apply (mreach_obeys (a, MFoc)), (arun_mreach _ _ n).
    + destruct (ahalt_mreach _ _ _ _ _ E) as [f Hfm]. by apply (mreach_obeys (a, f)).
  - intros (m&s&Hm&Hc&Hcur&Hf). destruct (user_state _ _ _ _ _ (IH m Hm) Hc Hf) as (k&a&_&Ha&_&HR&Hfa). apply arun_mreach in Ha.
    destruct (run_view _ _ Ha Hfa) as (G&w&I&Hw&S). rewrite <- (Refine.R_cur _ _ HR), Hcur in Hw. pose proof (gi_unw0 _ _ _ _ _ I _ Hw) as Hu. inversion S; congruence.
Qed.
End run.

End dp.
