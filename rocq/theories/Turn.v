(** Turn.v -- pushes and turns alternate. *)
From stdpp Require Import prelude gmap relations.
From Coq Require Import Lia.
From Verif Require Import Base Model Spec InvSpec Main Micro Trace Life Pend Den Tgt Stack Slot.

Section turn.
Context {env : Env}.

Definition isnew (o : opn) : bool := match o with NNew _ _ => true | _ => false end.

(** Operations and the class of the coroutine they transfer control to. *)
Definition cside (a : astate) (k : nat) (P : side -> Prop) : Prop := exists c, a_co a !! k = Some c /\ P (ac_side c).
Definition rfoc (a : astate) (f : mfoc) : Prop :=
  match f with
  | MPush e _ _ _ o _ _ | MPush2 e _ _ o _ _ => recv o = false /\ isnew o = false /\ cside a (ep_co e) (fun sd => e = sender sd (ep_co e))
  | MXfer e o _ _ => isnew o = false /\ cside a (ep_co e) (fun sd => recv o = bool_decide (e = receiver sd (ep_co e)))
  | MGot j o _ _ _ => cside a j (fun sd => if decide (j = a_cur a) then recv o = negb (ispull sd) /\ isnew o = false else (recv o || isnew o) = ispull sd)
  | _ => True
  end.

Record RcvI (x : astate * mfoc) : Prop := {
  r_wait : forall c j o po k, a_wait x.1 !! c = Some (WOp j o po k) -> cside x.1 j (fun sd => (recv o || isnew o) = ispull sd);
  r_susp : forall k c o po kk, a_co x.1 !! k = Some c -> ac_st c = ASusp o po kk -> recv o = negb (ispull (ac_side c)) /\ isnew o = false;
  r_foc : rfoc x.1 x.2 }.

Definition sdl (co co' : gmap nat acoro) : Prop := forall k, ac_side <$> co' !! k = ac_side <$> co !! k.
Lemma sdl_insert co n c c' : co !! n = Some c -> ac_side c' = ac_side c -> sdl co (<[n := c']> co).
Proof. intros H E k. destruct (decide (n = k)) as [<-|]; [|by rewrite lookup_insert_ne]. rewrite lookup_insert, H. cbn. by rewrite E. Qed.
Lemma sdl_cside a a' k P : sdl (a_co a) (a_co a') -> cside a k P -> cside a' k P.
Proof.
  intros H (c&Hc&HP). specialize (H k). rewrite Hc in H. destruct (a_co a' !! k) as [c'|] eqn:E; [|done].
  exists c'. split; [done|]. cbn in H. injection H as ->. done.
Qed.

(** Nothing about waits and suspended functions changes. *)
Lemma rcv_quiet x y : RcvI x -> a_wait y.1 = a_wait x.1 -> sdl (a_co x.1) (a_co y.1) ->
  (forall k, ac_st <$> a_co y.1 !! k = ac_st <$> a_co x.1 !! k) -> rfoc y.1 y.2 -> RcvI y.
Proof.
  intros [R1 R2 R3] Hw Hs Hst Hf. split; [| |done].
  - intros c j o po k. rewrite Hw. intros H%R1. by eapply sdl_cside.
  - intros k c o po kk Hk E. specialize (Hs k). specialize (Hst k). rewrite Hk in *. destruct (a_co x.1 !! k) as [c0|] eqn:Ec; [|done].
    cbn in *. injection Hs as ->. injection Hst as Hst. rewrite Hst in E. by eapply R2.
Qed.

Ltac rquiet R := eapply (rcv_quiet _ _ R); cbn; try done.

Lemma rcv_init p u : RcvI (ainit p u, MFoc).
Proof. split; cbn; done. Qed.

Lemma obj_sender a h kd e : basic a -> a_h a !! h = Some (HObj Push kd (Some e)) -> resumable e a = true -> cside a (ep_co e) (fun sd => e = sender sd (ep_co e)).
Proof.
  intros B Hh Hr. destruct (resumable_co _ _ Hr) as [c Hc]. exists c. split; [done|].
  destruct (ib_h _ B _ _ _ _ _ Hh Hc) as [_ E]. destruct e; cbn in *; by rewrite E.
Qed.
Lemma obj_receiver a h kd e : basic a -> a_h a !! h = Some (HObj Pull kd (Some e)) -> resumable e a = true -> cside a (ep_co e) (fun sd => e = receiver sd (ep_co e)).
Proof.
  intros B Hh Hr. destruct (resumable_co _ _ Hr) as [c Hc]. exists c. split; [done|].
  destruct (ib_h _ B _ _ _ _ _ Hh Hc) as [_ E]. destruct e; cbn in *; by rewrite E.
Qed.
Lemma sender_not_receiver e sd k : e = sender sd k -> bool_decide (e = receiver sd k) = false.
Proof. intros ->. apply bool_decide_eq_false_2. by destruct sd. Qed.

Theorem rcv_step p u x y : mreach p u x -> RcvI x -> micro x y -> RcvI y.
Proof.
  intros Hx R Hm. pose proof (mreach_minv _ _ _ Hx) as M. pose proof (mreach_basic _ _ _ Hx) as B.
  destruct Hm; cbn in M, B; try (by rquiet R); try (by rquiet R; apply (r_foc _ R)).
  - (* local *)
    apply local_op_frame in H as (E1&E2&E3&E4&E5&E6). rquiet R.
    + destruct E6 as [->|(n&c&s&Hn&->)]; [done|]. by eapply sdl_insert.
    + destruct E6 as [->|(n&c&s&Hn&->)]; [done|]. by eapply st_insert.
  - (* resume *)
    rquiet R. split; [done|]. destruct (obj_receiver _ _ _ _ B H H0) as (c&Hc&E). exists c. split; [done|]. by rewrite bool_decide_eq_true_2.
  - rquiet R. split; [done|]. destruct (obj_receiver _ _ _ _ B H H1) as (c&Hc&E). exists c. split; [done|]. by rewrite bool_decide_eq_true_2.
  - rquiet R. split; [done|]. split; [done|]. by eapply obj_sender.
  - rquiet R. split; [done|]. split; [done|]. by eapply obj_sender.
  - rquiet R. destruct (r_foc _ R) as (E1&E2&c&Hc&E3). split; [done|]. exists c. split; [done|]. rewrite E1. symmetry. by apply sender_not_receiver.
  - rquiet R; [by eapply sdl_insert|by eapply st_insert|]. destruct (r_foc _ R) as (E1&E2&c'&Hc&E3). cbn in *. assert (c' = c) as -> by congruence. split; [done|].
    eexists. cbn. rewrite lookup_insert. split; [done|]. cbn. rewrite E1. symmetry. by apply sender_not_receiver.
  - rquiet R; [by eapply sdl_insert|by eapply st_insert|]. destruct (r_foc _ R) as (E1&E2&c'&Hc&E3). cbn in *. assert (c' = c) as -> by congruence. split; [done|]. split; [done|].
    eexists. cbn. rewrite lookup_insert. split; [done|]. done.
  - rquiet R; [by eapply sdl_insert|by eapply st_insert|]. destruct (r_foc _ R) as (E1&E2&c'&Hc&E3). cbn in *. assert (c' = c) as -> by congruence. split; [done|].
    eexists. cbn. rewrite lookup_insert. split; [done|]. cbn. rewrite E1. symmetry. by apply sender_not_receiver.
  - (* to a suspended coroutine *)
    destruct (r_foc _ R) as (E2&c'&Hc&E3). cbn in *. assert (c' = c) as -> by congruence.
    assert (Hsd : sdl (a_co a) (<[n := c_by (a_cur a) (c_st ARun c)]> (a_co a))) by by eapply sdl_insert.
    destruct R as [R1 R2 R3]. split; cbn in *.
    + intros x j o1 po1 k1. intros [[<- E]|[_ Hw]]%lookup_insert_Some.
      * simplify_eq. eexists. cbn. rewrite lookup_insert. split; [done|]. cbn. rewrite E2, E3, orb_false_r. destruct (ac_side c); cbn; [by apply bool_decide_eq_true_2|by apply bool_decide_eq_false_2].
      * eapply sdl_cside; [|by eapply R1]. done.
    + intros k1 c1 o1 po1 kk. intros [[<- <-]|[_ Hw]]%lookup_insert_Some; [done|]. by eapply R2.
    + eexists. cbn. rewrite lookup_insert. split; [done|]. rewrite decide_True by done. by eapply (R2 _ _ _ _ _ H H0).
  - destruct (r_foc _ R) as (E2&c'&Hc&E3). cbn in *. assert (c' = c) as -> by congruence.
    assert (Hsd : sdl (a_co a) (<[n := c_by (a_cur a) (c_st ARun c)]> (a_co a))) by by eapply sdl_insert.
    destruct R as [R1 R2 R3]. split; cbn in *.
    + intros x j o1 po1 k1. intros [[<- E]|[_ Hw]]%lookup_insert_Some.
      * simplify_eq. eexists. cbn. rewrite lookup_insert. split; [done|]. cbn. rewrite E2, E3, orb_false_r. destruct (ac_side c); cbn; [by apply bool_decide_eq_true_2|by apply bool_decide_eq_false_2].
      * eapply sdl_cside; [|by eapply R1]. done.
    + intros k1 c1 o1 po1 kk. intros [[<- <-]|[_ Hw]]%lookup_insert_Some; [done|]. by eapply R2.
    + done.
  - (* yield *)
    destruct M as (Hp&Hr&_). unfold resumable in Hr. apply andb_true_iff in Hr as [->%bool_decide_eq_true Hr].
    rewrite H in Hr. destruct (ac_st c) eqn:Hst; try done.
    assert (j = a_cur a) as ->.
    { destruct (ib_act _ B _ _ H) as [_ (w&Hw&E)]; [by rewrite Hst|]. by simplify_eq. }
    assert (Hne : ac_by c <> a_cur a). { intros E. rewrite E, (ib_wcur _ B) in H0. done. }
    destruct (r_foc _ R) as (E2&c'&Hc&E3). cbn in *. assert (c' = c) as -> by congruence.
    assert (Hsd : sdl (a_co a) (<[a_cur a := c_st (ASusp o po k) c]> (a_co a))) by by eapply sdl_insert.
    destruct R as [R1 R2 R3]. split; cbn in *.
    + intros x j o1 po1 k1. intros [_ Hw]%lookup_delete_Some. eapply sdl_cside; [|by eapply R1]. done.
    + intros k1 c1 o1 po1 kk. intros [[<- <-]|[_ Hw]]%lookup_insert_Some; [|by eapply R2]. cbn. intros E. simplify_eq. rewrite E3. split; [|done]. destruct (ac_side c); cbn; [by apply bool_decide_eq_false_2|by apply bool_decide_eq_true_2].
    + eapply sdl_cside; [exact Hsd|]. exists c. split; [done|]. rewrite decide_False by done.
      destruct (R1 _ _ _ _ _ H0) as (c1&Hc1&E1). by simplify_eq.
  - (* killed *)
    assert (Hsd : forall st sl b, sdl (a_co a) (<[j := ACo (ac_side c) (ac_kind c) st sl (ac_syn c) b]> (a_co a))) by (intros; by eapply sdl_insert).
    destruct M as (_&_&Hnw&_). destruct R as [R1 R2 R3]. split; cbn in *; [| |done].
    + intros x j1 o1 po1 k1. intros [[<- E]|[_ Hw]]%lookup_insert_Some; [by destruct (Hnw j1 o1 po1 k1)|].
      eapply sdl_cside; [|by eapply R1]. apply Hsd.
    + intros k1 c1 o1 po1 kk. intros [[<- <-]|[_ Hw]]%lookup_insert_Some; [done|by eapply R2].
  - assert (Hsd : forall st sl b, sdl (a_co a) (<[j := ACo (ac_side c) (ac_kind c) st sl (ac_syn c) b]> (a_co a))) by (intros; by eapply sdl_insert).
    destruct M as (_&_&Hnw&_). destruct R as [R1 R2 R3]. split; cbn in *; [| |done].
    + intros x j1 o1 po1 k1. intros [[<- E]|[_ Hw]]%lookup_insert_Some; [by destruct (Hnw j1 o1 po1 k1)|].
      eapply sdl_cside; [|by eapply R1]. apply Hsd.
    + intros k1 c1 o1 po1 kk. intros [[<- <-]|[_ Hw]]%lookup_insert_Some; [done|by eapply R2].
  - (* a pull function is entered *)
    destruct M as (I&Hnk&Hnh).
    assert (Hnn : a_co a !! n = None). { destruct (a_co a !! n) eqn:E; [|done]. apply (ic_dom _ _ _ _ _ I) in E. lia. }
    destruct R as [R1 R2 R3]. split; cbn in *; [| |done].
    + intros x j1 o1 po1 k1. intros [[<- E]|[_ Hw]]%lookup_insert_Some.
      * simplify_eq. eexists. cbn. by rewrite lookup_insert.
      * destruct (R1 _ _ _ _ _ Hw) as (c1&Hc1&?). exists c1. cbn. by rewrite lookup_insert_ne by congruence.
    + intros k1 c1 o1 po1 kk. intros [[<- <-]|[_ Hw]]%lookup_insert_Some; [done|by eapply R2].
  - destruct M as (I&Hnk&Hnh).
    assert (Hnn : a_co a !! n = None). { destruct (a_co a !! n) eqn:E; [|done]. apply (ic_dom _ _ _ _ _ I) in E. lia. }
    destruct R as [R1 R2 R3]. split; cbn in *; [| |done].
    + intros x j1 o1 po1 k1 Hw. destruct (R1 _ _ _ _ _ Hw) as (c1&Hc1&?). exists c1. cbn. by rewrite lookup_insert_ne by congruence.
    + intros k1 c1 o1 po1 kk. intros [[<- <-]|[_ Hw]]%lookup_insert_Some; [done|by eapply R2].
  - (* left *)
    destruct M as (I&c'&Hc&Hst). assert (c' = c) as -> by congruence.
    assert (j = a_cur a) as ->.
    { destruct (ib_act _ B _ _ H) as [_ (w&Hw&E)]; [by rewrite Hst|]. by simplify_eq. }
    assert (Hne : ac_by c <> a_cur a). { intros E. rewrite E, (ib_wcur _ B) in H0. done. }
    assert (Hsd : sdl (a_co a) (<[a_cur a := c_st (ADone x) c]> (a_co a))) by by eapply sdl_insert.
    destruct R as [R1 R2 R3]. split; cbn in *.
    + intros z j o1 po1 k1. intros [_ Hw]%lookup_delete_Some. eapply sdl_cside; [|by eapply R1]. done.
    + intros k1 c1 o1 po1 kk. intros [[<- <-]|[_ Hw]]%lookup_insert_Some; [done|by eapply R2].
    + eapply sdl_cside; [exact Hsd|]. exists c. split; [done|]. rewrite decide_False by done.
      destruct (R1 _ _ _ _ _ H0) as (c1&Hc1&E1). by simplify_eq.
  - (* stack released *)
    destruct M as (I&c'&Hc&Hst). assert (c' = c) as -> by congruence.
    assert (Hy : RcvI (a1, MFoc)).
    { destruct R as [R1 R2 R3]. split; cbn in *; [| |done].
      - intros z j o1 po1 k1. intros [Hz Hw]%lookup_delete_Some. destruct (R1 _ _ _ _ _ Hw) as (c1&Hc1&?). exists c1. cbn.
        rewrite lookup_delete_ne; [done|]. intros <-. assert (c1 = c) as -> by congruence.
        destruct (ib_wait _ B _ _ Hw) as (c2&Hc2&_&Hs). cbn in Hc2. assert (c2 = c) as -> by congruence. by rewrite Hs in Hst.
      - intros k1 c1 o1 po1 kk. intros [_ Hw]%lookup_delete_Some. by eapply R2. }
    destruct w as [|? ? []|]; [done|..]; subst y; by rquiet Hy.
Qed.

Theorem mreach_rcv p u x : mreach p u x -> RcvI x.
Proof. apply (mreach_ind p u RcvI); [apply rcv_init|intros ???; by eapply rcv_step]. Qed.

(** A value is on its way to the receiving side of [k]. *)
Definition is_suspb (s : astatus) : bool := match s with ASusp _ _ _ => true | _ => false end.
Definition transit (a : astate) (f : mfoc) (k : nat) (c : acoro) : bool :=
  match f with
  | MXfer e _ _ _ => bool_decide (e = sender (ac_side c) k)
  | MGot j _ _ _ _ => Nat.eqb j k && (if decide (k = a_cur a) then negb (ispull (ac_side c)) else ispull (ac_side c) && is_suspb (ac_st c))
  | MRet o _ _ => recv o && bool_decide (tgt (a_cur a) (a_tr a) = Some (receiver (ac_side c) k)) && is_run (life k (a_tr a))
  | _ => false
  end.

Definition tok (a : astate) (f : mfoc) (k : nat) (c : acoro) : Prop :=
  length (pushes k (a_tr a)) = turns (ac_side c) k (a_tr a) + if transit a f k c then 1 else 0.

Record TurnI (x : astate * mfoc) : Prop := {
  tn_none : forall k, a_nk x.1 <= k \/ (exists sd kd np fn kk h, x.2 = MNew2 sd kd np fn kk h k) -> pushes k (a_tr x.1) = [] /\ forall sd, turns sd k (a_tr x.1) = 0;
  tn_ok : forall k c, a_co x.1 !! k = Some c -> ac_kind c <> KVoid -> tok x.1 x.2 k c }.

Definition tv (c : acoro) := (ac_side c, ac_kind c, is_suspb (ac_st c)).

Lemma turn_quiet x y : TurnI x -> a_nk x.1 <= a_nk y.1 ->
  (forall k, pushes k (a_tr y.1) = pushes k (a_tr x.1)) ->
  (forall k, a_nk y.1 <= k \/ (exists sd kd np fn kk h, y.2 = MNew2 sd kd np fn kk h k) ->
             (a_nk x.1 <= k \/ (exists sd kd np fn kk h, x.2 = MNew2 sd kd np fn kk h k)) /\ forall sd, turns sd k (a_tr y.1) = turns sd k (a_tr x.1)) ->
  (forall k c', a_co y.1 !! k = Some c' -> ac_kind c' <> KVoid -> exists c, a_co x.1 !! k = Some c /\ ac_side c' = ac_side c /\ ac_kind c' = ac_kind c /\
       turns (ac_side c) k (a_tr y.1) + (if transit y.1 y.2 k c' then 1 else 0) = turns (ac_side c) k (a_tr x.1) + (if transit x.1 x.2 k c then 1 else 0)) -> TurnI y.
Proof.
  intros [T1 T2] Hnk Hp Ht Hc. split.
  - intros k Hk. destruct (Ht _ Hk) as [Hk' E]. destruct (T1 _ Hk') as [E1 E2]. rewrite Hp. split; [done|]. intros sd. by rewrite E.
  - intros k c' Hk Hkd. destruct (Hc _ _ Hk Hkd) as (c&Hc'&Es&Ek&E). unfold tok. rewrite Hp, Es, E. apply T2; [done|]. by rewrite <- Ek.
Qed.

(** Nothing is on its way before or after, and no turn is recorded. *)
Lemma turn_still x y : TurnI x -> a_nk x.1 <= a_nk y.1 -> (forall k, pushes k (a_tr y.1) = pushes k (a_tr x.1)) ->
  (forall sd k, turns sd k (a_tr y.1) = turns sd k (a_tr x.1)) -> notnew2 y.2 ->
  (forall k c', a_co y.1 !! k = Some c' -> exists c, a_co x.1 !! k = Some c /\ ac_side c' = ac_side c /\ ac_kind c' = ac_kind c) ->
  (forall k c, a_co x.1 !! k = Some c -> transit x.1 x.2 k c = false) -> (forall k c, a_co y.1 !! k = Some c -> transit y.1 y.2 k c = false) -> TurnI y.
Proof.
  intros T Hnk Hp Ht Hn Hc Hx Hy. eapply turn_quiet; [exact T|done|done| |].
  - intros k [Hk|(sd&kd&np&fn&kk&h&E)]; [|by rewrite E in Hn]. split; [left; lia|]. done.
  - intros k c' Hk _. destruct (Hc _ _ Hk) as (c&Hc'&Es&Ek). exists c. rewrite Ht, (Hx _ _ Hc'), (Hy _ _ Hk). done.
Qed.

Lemma turn_same x y : TurnI x -> a_nk x.1 <= a_nk y.1 -> (forall k, pushes k (a_tr y.1) = pushes k (a_tr x.1)) ->
  (forall sd k, turns sd k (a_tr y.1) = turns sd k (a_tr x.1)) -> notnew2 y.2 ->
  (forall k c', a_co y.1 !! k = Some c' -> ac_kind c' <> KVoid -> exists c, a_co x.1 !! k = Some c /\ ac_side c' = ac_side c /\ ac_kind c' = ac_kind c /\
     transit y.1 y.2 k c' = transit x.1 x.2 k c) -> TurnI y.
Proof.
  intros T Hnk Hp Ht Hn Hc. eapply turn_quiet; [exact T|done|done| |].
  - intros k [Hk|(sd&kd&np&fn&kk&h&E)]; [|by rewrite E in Hn]. split; [left; lia|]. done.
  - intros k c' Hk Hkd. destruct (Hc _ _ Hk Hkd) as (c&Hc'&Es&Ek&E). exists c. rewrite Ht, E. done.
Qed.

Lemma sender_inj e sd k : e = sender sd k -> ep_co e = k.
Proof. intros ->. by destruct sd. Qed.
Lemma receiver_co e sd k : e = receiver sd k -> ep_co e = k.
Proof. intros ->. by destruct sd. Qed.
Lemma receiver_not_sender e sd k : e = receiver sd k -> bool_decide (e = sender sd k) = false.
Proof. intros ->. apply bool_decide_eq_false_2. by destruct sd. Qed.

Ltac tstill T := eapply (turn_still _ _ T); cbn; try done; eauto.

Lemma turn_init p u : TurnI (ainit p u, MFoc).
Proof. split; cbn; done. Qed.

Lemma like_insert (co : gmap nat acoro) n c c' : co !! n = Some c -> ac_side c' = ac_side c -> ac_kind c' = ac_kind c ->
  forall k x, <[n := c']> co !! k = Some x -> exists y, co !! k = Some y /\ ac_side x = ac_side y /\ ac_kind x = ac_kind y.
Proof. intros H E1 E2 k x [[<- <-]|[_ Hx]]%lookup_insert_Some; eauto. Qed.

(** Control came back in an operation other than a constructor. *)
Lemma got_ret a j o po k r : TurnI (a, MGot j o po k None) -> LifeI (a, MGot j o po k None) -> RcvI (a, MGot j o po k None) ->
  TgtI (a, MGot j o po k None) -> PendI (a, MGot j o po k None) -> basic a -> npo po -> TurnI (a, MRet o r k).
Proof.
  intros T L R G P B Hnp. eapply turn_same; [exact T|done|done|done|done|]. cbn. intros kx c Hk Hkd. exists c.
  split; [done|]. split; [done|]. split; [done|].
  assert (Hnn : isnew o = false). { pose proof (pi_foc _ P) as F. cbn in F. destruct po; cbn in F; try naive_solver. by destruct (Hnp h kd). }
  destruct (r_foc _ R) as (cj&Hcj&E). cbn in Hcj, E.
  destruct (tg_foc _ G) as [(Hjc&Ht&c1&Hc1&Hs)|(Hje&Ht&_)]; cbn in *; [|subst j].
  - rewrite (decide_False (P := j = a_cur a)) in E by done. rewrite Hnn, orb_false_r in E. assert (c1 = cj) as -> by congruence. rewrite Ht. destruct (decide (j = kx)) as [<-|Hne].
    + rewrite Nat.eqb_refl, decide_False by done. assert (cj = c) as -> by congruence. rewrite E. pose proof (li_st _ L _ _ Hk) as Hph. cbn in Hph.
      destruct (ac_side c); cbn; [|done]. rewrite bool_decide_eq_true_2 by done. cbn.
      destruct Hs as [(o'&po'&k'&Es)|[Es _]]; rewrite Es in Hph |- *; cbn in *; by rewrite Hph.
    + rewrite (bool_decide_eq_false_2 (Some (Outer j) = _)).
      * rewrite andb_false_r. by apply Nat.eqb_neq in Hne as ->.
      * intros E'. injection E' as E'. apply receiver_co in E'. by cbn in E'.
  - rewrite (decide_True (P := a_cur a = a_cur a)) in E by done. destruct E as [E _]. rewrite Ht. destruct (decide (a_cur a = kx)) as [<-|Hne].
    + rewrite Nat.eqb_refl, decide_True by done. assert (cj = c) as -> by congruence. rewrite E. destruct (ac_side c); cbn; [done|].
      rewrite bool_decide_eq_true_2 by done. cbn. destruct (decide (a_cur a = 0)) as [E0|E0].
      * apply (ib_dom _ B) in Hk. cbn in Hk. lia.
      * pose proof (li_cur _ L) as Hph. cbn in Hph. by rewrite Hph.
    + rewrite (bool_decide_eq_false_2 (Some (Inner _) = _)).
      * rewrite andb_false_r. by apply Nat.eqb_neq in Hne as ->.
      * intros E'. injection E' as E'. apply receiver_co in E'. by cbn in E'.
Qed.

Theorem turn_step p u x y : mreach p u x -> TurnI x -> micro x y -> TurnI y.
Proof.
  intros Hx T Hm. pose proof (mreach_minv _ _ _ Hx) as M. pose proof (mreach_basic _ _ _ Hx) as B. pose proof (mreach_life _ _ _ Hx) as L.
  pose proof (mreach_rcv _ _ _ Hx) as R. pose proof (mreach_tgt _ _ _ Hx) as G. pose proof (mreach_pend _ _ _ Hx) as P.
  destruct Hm; cbn in M, B; try (by tstill T).
  all: try (by tstill T; eapply like_insert; done).
  - (* return *)
    eapply turn_quiet; [exact T|done|done| |].
    + cbn. intros kx [Hk|(sd&kd&np&fn&kk&h&E)]; [|done]. split; [by left|]. intros sd.
      assert (life kx (a_tr a) = PNone) as -> by (apply (li_none _ L); by right). cbn. by rewrite andb_false_r.
    + cbn. intros kx c' Hk _. exists c'. split; [done|]. split; [done|]. split; [done|].
      destruct (recv o && bool_decide (tgt (a_cur a) (a_tr a) = Some (receiver (ac_side c') kx)) && is_run (life kx (a_tr a))); lia.
  - (* local *)
    assert (Hrv : recv (NOp o) = false). { destruct o; cbn in H; repeat case_match; done. }
    apply local_op_frame in H as (E1&E2&E3&E4&E5&E6). eapply (turn_still _ _ T); cbn [fst snd a_tr a_co a_nk w_foc alog]; try done.
    + by rewrite E4.
    + intros kx. cbn. by rewrite E1.
    + intros sd kx. cbn [turns]. rewrite E1, Hrv. done.
    + destruct E6 as [->|(n&c&s&Hn&->)]; [eauto|]. by eapply like_insert.
  - (* empty *)
    pose proof (pi_foc _ P) as F. cbn in F. subst o. tstill T.
  - (* resume *)
    tstill T. intros kx c Hk. destruct (obj_receiver _ _ _ _ B H H0) as (c'&Hc'&E). apply bool_decide_eq_false_2. intros E2.
    pose proof (sender_inj _ _ _ E2) as E3. rewrite E3 in *. assert (c' = c) as -> by congruence. rewrite E2 in E. by destruct (ac_side c).
  - tstill T. intros kx c Hk. destruct (obj_receiver _ _ _ _ B H H1) as (c'&Hc'&E). apply bool_decide_eq_false_2. intros E2.
    pose proof (sender_inj _ _ _ E2) as E3. rewrite E3 in *. assert (c' = c) as -> by congruence. rewrite E2 in E. by destruct (ac_side c).
  - (* void push *)
    destruct M as (_&_&_&c&Hc&Hk). eapply turn_same; [exact T|done|done|done|done|]. cbn. intros kx c' Hkx Hkd. exists c'.
    split; [done|]. split; [done|]. split; [done|]. apply bool_decide_eq_false_2. intros E.
    apply sender_inj in E. subst kx. destruct Hk as [Hk _]. congruence.
  - (* reference pushed *)
    destruct (r_foc _ R) as (_&_&c'&Hc'&E). cbn in Hc', E. assert (c' = c) as -> by congruence.
    destruct T as [T1 T2]. split; cbn in *.
    + intros kx [Hk|(sd&kd&np&fn&kk&h&E')]; [|done]. rewrite decide_False; [apply T1; by left|]. apply (ib_dom _ B) in H. lia.
    + intros kx cx [[<- <-]|[Hne Hkx]]%lookup_insert_Some Hkd; unfold tok; cbn.
      * rewrite decide_True by done. cbn. specialize (T2 _ _ H Hkd). unfold tok in T2. cbn in T2. rewrite T2. rewrite bool_decide_eq_true_2 by done. lia.
      * rewrite decide_False by done. specialize (T2 _ _ Hkx Hkd). unfold tok in T2. cbn in T2. rewrite T2. rewrite bool_decide_eq_false_2; [done|].
        intros E'%sender_inj. done.
  - (* value pushed *)
    destruct (r_foc _ R) as (_&_&c'&Hc'&E). cbn in Hc', E. assert (c' = c) as -> by congruence.
    destruct T as [T1 T2]. split; cbn in *.
    + intros kx [Hk|(sd&kd&np&fn&kk&h&E')]; [|done]. rewrite decide_False; [apply T1; by left|]. apply (ib_dom _ B) in H. lia.
    + intros kx cx [[<- <-]|[Hne Hkx]]%lookup_insert_Some Hkd; unfold tok; cbn.
      * rewrite decide_True by done. cbn. specialize (T2 _ _ H Hkd). unfold tok in T2. cbn in T2. rewrite T2. rewrite bool_decide_eq_true_2 by done. lia.
      * rewrite decide_False by done. specialize (T2 _ _ Hkx Hkd). unfold tok in T2. cbn in T2. rewrite T2. rewrite bool_decide_eq_false_2; [done|].
        intros E'%sender_inj. done.
  - (* to a suspended coroutine *)
    eapply turn_same; [exact T|done|done|done|done|]. cbn. intros kx c' [[<- <-]|[Hne Hkx]]%lookup_insert_Some Hkd.
    + exists c. split; [done|]. split; [done|]. split; [done|]. rewrite Nat.eqb_refl, decide_True by done. cbn. destruct (ac_side c); cbn.
      * symmetry. by apply bool_decide_eq_false_2.
      * symmetry. by apply bool_decide_eq_true_2.
    + exists c'. split; [done|]. split; [done|]. split; [done|]. pose proof Hne as Hne'. apply Nat.eqb_neq in Hne' as ->. cbn. symmetry. apply bool_decide_eq_false_2.
      intros E%sender_inj. done.
  - (* enter *)
    assert (Hp : ac_side c = Push) by by eapply (ib_new _ B).
    eapply turn_quiet; [exact T|done|done| |]; cbn.
    + intros kx [Hk|(sd&kd&np&fn'&kk&h&E')]; [|done]. split; [by left|]. intros []; [done|]. rewrite decide_False; [done|]. apply (ib_dom _ B) in H. lia.
    + intros kx c' [[<- <-]|[Hne Hkx]]%lookup_insert_Some _.
      * exists c. split; [done|]. split; [done|]. split; [done|]. rewrite Hp. rewrite decide_True by done. cbn. rewrite bool_decide_eq_true_2 by done. lia.
      * exists c'. split; [done|]. split; [done|]. split; [done|]. rewrite (bool_decide_eq_false_2 (Outer n = _)) by (intros E%sender_inj; done).
        destruct (ac_side c'); [done|]. by rewrite decide_False.
  - (* yield *)
    destruct M as (Hp&Hr&_). unfold resumable in Hr. apply andb_true_iff in Hr as [->%bool_decide_eq_true Hr].
    assert (Hne : ac_by c <> a_cur a). { intros E. rewrite E, (ib_wcur _ B) in H0. done. }
    eapply turn_same; [exact T|done|done|done|done|]. cbn. intros kx c' [[<- <-]|[Hne' Hkx]]%lookup_insert_Some Hkd.
    + exists c. split; [done|]. split; [done|]. split; [done|]. rewrite Nat.eqb_refl, decide_False by done. cbn. destruct (ac_side c); cbn.
      * symmetry. by apply bool_decide_eq_true_2.
      * symmetry. by apply bool_decide_eq_false_2.
    + exists c'. split; [done|]. split; [done|]. split; [done|]. pose proof Hne' as Hne2. apply Nat.eqb_neq in Hne2 as ->. cbn. symmetry. apply bool_decide_eq_false_2.
      intros E%sender_inj. done.
  - (* exception in a constructor *)
    destruct (tg_foc _ G) as (Hjc&_&_&cj&Hcj&Hst). cbn in Hcj. tstill T. intros kx c Hk. destruct (decide (j = kx)) as [->|Hne].
    + rewrite Nat.eqb_refl, decide_False by done. cbn. assert (cj = c) as -> by congruence. rewrite Hst. by rewrite andb_false_r.
    + by apply Nat.eqb_neq in Hne as ->.
  - destruct (tg_foc _ G) as (Hjc&_&_&cj&Hcj&Hst). cbn in Hcj. tstill T. intros kx c Hk. destruct (decide (j = kx)) as [->|Hne].
    + rewrite Nat.eqb_refl, decide_False by done. cbn. assert (cj = c) as -> by congruence. rewrite Hst. by rewrite andb_false_r.
    + by apply Nat.eqb_neq in Hne as ->.
  - (* control comes back *)
    eapply (got_ret _ _ _ _ _ _ T L R G P B); done.
  - eapply (got_ret _ _ _ _ _ _ T L R G P B); done.
  - eapply (got_ret _ _ _ _ _ _ T L R G P B); done.
  - (* function finished in the constructor *)
    tstill T. intros kx c' Hk. destruct (decide (j = kx)) as [->|Hne].
    + rewrite Nat.eqb_refl. cbn. assert (c' = c) as -> by congruence. rewrite H0. destruct (tg_foc _ G) as [(Hjc&_)|(_&_&Hnp)]; [|by destruct (Hnp h kd)].
      rewrite decide_False by done. by rewrite andb_false_r.
    + by apply Nat.eqb_neq in Hne as ->.
  - (* constructor done *)
    pose proof (pi_foc _ P) as F. cbn in F. subst o. destruct M as [_ M]. destruct (M _ _ eq_refl) as (c0&Hc0&Hsd&_). assert (c0 = c) as -> by congruence.
    destruct (tg_foc _ G) as [(Hjc&_)|(_&_&Hnp)]; [|by destruct (Hnp h kd)].
    eapply turn_quiet; [exact T|done|done| |]; cbn.
    + intros kx [Hk|(sd&kd'&np&fn'&kk&h'&E')]; [|done]. split; [by left|]. intros []; [|done]. rewrite decide_False; [done|]. apply (ib_dom _ B) in H. lia.
    + intros kx c' Hkx _. exists c'. split; [done|]. split; [done|]. split; [done|]. destruct (decide (j = kx)) as [->|Hne].
      * rewrite Nat.eqb_refl, decide_False by done. assert (c' = c) as -> by congruence. rewrite H0, Hsd. cbn. lia.
      * pose proof Hne as Hne2. apply Nat.eqb_neq in Hne2 as ->. cbn. by destruct (ac_side c').
  - (* allocation *)
    eapply turn_quiet; [exact T|cbn; lia|done| |]; cbn.
    + intros kx [Hk|(sd'&kd'&np'&fn'&kk&h'&E')]; [split; [left; lia|done]|]. injection E'; intros; subst. split; [by left|done].
    + intros kx c' Hkx _. exists c'. done.
  - (* a pull function is entered *)
    destruct M as (I&Hnk&Hnh). destruct T as [T1 T2]. cbn in *. destruct (T1 n) as [Ta Tb]; [right; by eauto 10|].
    split; cbn.
    + intros kx [Hk|(sd'&kd'&np'&fn'&kk&h'&E')]; [|done]. destruct (T1 kx) as [E1 E2]; [by left|]. split; [done|]. intros []; [apply E2|]. rewrite decide_False by lia. apply E2.
    + intros kx c' [[<- <-]|[Hne Hkx]]%lookup_insert_Some Hkd; unfold tok; cbn.
      * by rewrite Ta, Tb.
      * specialize (T2 _ _ Hkx Hkd). unfold tok in T2. cbn in T2. rewrite T2. destruct (ac_side c'); [done|]. by rewrite decide_False.
  - destruct M as (I&Hnk&Hnh). destruct T as [T1 T2]. cbn in *. destruct (T1 n) as [Ta Tb]; [right; by eauto 10|].
    split; cbn.
    + intros kx [Hk|(sd'&kd'&np'&fn'&kk&h'&E')]; [|done]. destruct (T1 kx) as [E1 E2]; [by left|]. split; [done|]. intros []; [|apply E2]. rewrite decide_False by lia. apply E2.
    + intros kx c' [[<- <-]|[Hne Hkx]]%lookup_insert_Some Hkd; unfold tok; cbn.
      * by rewrite Ta, Tb.
      * specialize (T2 _ _ Hkx Hkd). unfold tok in T2. cbn in T2. rewrite T2. destruct (ac_side c'); [|done]. by rewrite decide_False.
  - (* left *)
    assert (Hne : ac_by c <> a_cur a). { intros E. rewrite E, (ib_wcur _ B) in H0. done. }
    tstill T.
    + by eapply like_insert.
    + intros kx c' [[<- <-]|[Hne' Hkx]]%lookup_insert_Some.
      * rewrite Nat.eqb_refl, decide_False by done. cbn. by rewrite andb_false_r.
      * by apply Nat.eqb_neq in Hne' as ->.
  - (* stack released *)
    assert (Hy : TurnI (a1, MFoc)). { tstill T. intros kx c' [_ Hkx]%lookup_delete_Some. eauto. }
    destruct w as [|? o []|]; [done|..]; subst y; try (by tstill Hy).
    pose proof (pi_wait _ P _ _ H0) as [h ->]. tstill Hy.
Qed.

Theorem mreach_turn p u x : mreach p u x -> TurnI x.
Proof. apply (mreach_ind p u TurnI); [apply turn_init|intros ???; by eapply turn_step]. Qed.

End turn.
