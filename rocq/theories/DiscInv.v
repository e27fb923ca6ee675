(** DiscInv.v -- the invariant kept by programs that follow the discipline (Discipline.v). *)
From stdpp Require Import prelude gmap relations.
From Coq Require Import Lia.
From Verif Require Import Base Model Spec InvSpec Main Micro Trace Contract Discipline Life Pend Den Own.

Local Opaque gmap_lookup map_insert map_delete gmap_partial_alter.

Section di.
Context {env : Env}.
Context (cells : nat -> Prop).
Notation scoped := (scoped cells).

Definition startable (s : astatus) : bool := match s with ANew _ | ASusp _ _ _ => true | _ => false end.
Definition holds (hs : gmap nat hobj) (x : nat) (e : ep) : Prop := exists sd kd, hs !! x = Some (HObj sd kd (Some e)).

(** The view [w] of context [c] agrees with the state. *)
Definition sees (a : astate) (c : nat) (w : view) : Prop := forall x n, v_in w !! x = Some n ->
  if n_mine n then a_h a !! x = Some (HObj (n_side n) (n_kind n) (Some (Inner c)))
  else exists e, a_h a !! x = Some (HObj (n_side n) (n_kind n) e) /\
    match e with
    | None => x ∉ v_ok w
    | Some (Inner _) => False
    | Some (Outer j) => c < j /\ exists y, a_co a !! j = Some y /\ (x ∈ v_ok w -> startable (ac_st y) = true) /\
        (active (ac_st y) = true -> exists o po k, a_wait a !! c = Some (WOp j o po k))
    end.

(** Class of the object an iterator looks at again. *)
Definition psd (po : post) : side := match po with PoInc _ => Pull | _ => Push end.

(** Code that waits for a coroutine it resumed through an object it made. *)
Definition resumes (w : view) (c j : nat) (hs : gmap nat hobj) (po : post) (k : resp -> strat) : Prop :=
  match po with
  | PoUnit => exists x n, v_in w !! x = Some n /\ n_mine n = false /\ holds hs x (Outer j) /\ x ∉ v_ok w /\
      scoped w (k (ROk AUnit)) /\ forall e, scoped w (k (RExn (XUser e)))
  | PoInc x | PoOut x => exists n, v_in w !! x = Some n /\ n_mine n = false /\ holds hs x (Outer j) /\ x ∉ v_ok w /\
      (forall b : bool, scoped (v_learn b x w) (k (ROk (AIt (if b then Some x else None))))) /\ (forall e, scoped w (k (RExn (XUser e)))) /\ n_side n = psd po
  | PoNew h kd => v_in w !! h = None /\ c < j /\ scoped (made Pull kd h w) (k (ROk (AH h))) /\ forall e, scoped w (k (RExn (XUser e)))
  end.

(** Code that gave control to its resumer through its counterpart. *)
Definition yields (w : view) (po : post) (k : resp -> strat) : Prop :=
  match po with
  | PoUnit => scoped w (k (ROk AUnit))
  | PoInc x | PoOut x => (exists n, v_in w !! x = Some n /\ n_mine n = true /\ n_side n = psd po) /\ scoped w (k (ROk (AIt (Some x))))
  | PoNew _ _ => False
  end /\ scoped (v_dying w) (k (RExn XUnwind)) /\ v_unw w = false.

(** Code that waits until a coroutine is destroyed. *)
Definition ends (w : view) (f : kfin) (k : resp -> strat) : Prop :=
  match f with
  | KfDestroy => scoped w (k (ROk AUnit))
  | KfEmpty h kd => v_in w !! h = None /\ scoped (made Pull kd h w) (k (ROk (AH h)))
  | KfThrow e => scoped w (k (RExn (XUser e)))
  end.

Definition waits (w : view) (c : nat) (hs : gmap nat hobj) (wt : wait) : Prop :=
  match wt with WOp j o po k => resumes w c j hs po k | WKill j o f k => ends w f k | WExit _ => False end.

Definition inside (s : astatus) : bool := match s with ASusp _ _ _ | ARun | AUnw true => true | _ => false end.

(** [G]: the views of the functions that have been entered; [gone]: the coroutine whose
    counterpart object has been destroyed; [bad]: the coroutine whose slot is being
    replaced. *)
Record GI (G : gmap nat view) (a : astate) (gone bad : option nat) : Prop := {
  gi_sees : forall c w, G !! c = Some w -> sees a c w;
  gi_dis : forall c c' w w' x n n', G !! c = Some w -> G !! c' = Some w' -> v_in w !! x = Some n -> v_in w' !! x = Some n' -> n_mine n = false -> c = c';
  gi_all : forall x j, holds (a_h a) x (Outer j) -> exists c w n, G !! c = Some w /\ v_in w !! x = Some n /\ n_mine n = false;
  gi_dom : forall c w, G !! c = Some w -> c = 0 \/ exists y, a_co a !! c = Some y /\ inside (ac_st y) = true;
  gi_unw0 : forall w, G !! 0 = Some w -> v_unw w = false;
  gi_unw : forall c w y, G !! c = Some w -> a_co a !! c = Some y -> v_unw w = unw_st (ac_st y);
  gi_wait : forall c wt, a_wait a !! c = Some wt -> exists w, G !! c = Some w /\ waits w c (a_h a) wt;
  gi_susp : forall c y o po k, a_co a !! c = Some y -> ac_st y = ASusp o po k -> exists w, G !! c = Some w /\ yields w po k;
  gi_new : forall c y fn, a_co a !! c = Some y -> ac_st y = ANew fn -> forall x, scoped (v_start (ac_side y) (ac_kind y) x) (fn x);
  gi_syn : forall k y, a_co a !! k = Some y -> gone = Some k \/ a_h a !! ac_syn y = Some (HObj (other (ac_side y)) (ac_kind y) (Some (Inner k)));
  gi_slot : forall k y, a_co a !! k = Some y -> (ac_slot y <> SlBad \/ bad = Some k) /\ forall l, ac_slot y = SlFull (PRef l) -> cells l;
  gi_mem : forall l, cells l -> is_Some (a_user a !! l) }.

Definition xfocus (G : gmap nat view) (a : astate) (e : ep) (po : post) (k : resp -> strat) : Prop :=
  exists w, G !! a_cur a = Some w /\
    match e with Outer j => resumes w (a_cur a) j (a_h a) po k | Inner j => j = a_cur a /\ yields w po k end.

Definition newok (w : view) (sd : side) (kd : kind) (fn : nat -> strat) (k : resp -> strat) : Prop :=
  (forall x, scoped (v_start sd kd x) (fn x)) /\
  (forall h, v_in w !! h = None -> scoped (made sd kd h w) (k (ROk (AH h)))) /\
  (forall e, scoped w (k (RExn (XUser e)))).

Definition ft (G : gmap nat view) (a : astate) (f : mfoc) : Prop :=
  let cw := G !! a_cur a in
  match f with
  | MFoc => match a_foc a with AUser s => exists w, cw = Some w /\ scoped w s | _ => cw = None end
  | MCall o k => exists w, cw = Some w /\ may cells w o /\ forall r w', next cells w o r w' -> scoped w' (k r)
  | MNew sd kd _ fn k | MNew2 sd kd _ fn k _ _ => exists w, cw = Some w /\ newok w sd kd fn k
  | MRet o r k => exists w, cw = Some w /\ scoped w (k (ROk r))
  | MExn o x k => exists w, cw = Some w /\ scoped w (k (RExn x))
  | MPush e kd lv g o po k => xfocus G a e po k /\ arg_cells cells g /\ arg_safe lv g
  | MPush2 e lv g _ po k => xfocus G a e po k /\ arg_safe lv g
  | MXfer e _ po k => xfocus G a e po k
  | MGot j o po k x => exists w, cw = Some w /\ (x = None /\ yields w po k \/ resumes w (a_cur a) j (a_h a) po k)
  | MKill j wt | MKill2 j wt => exists o f k w, wt = WKill j o f k /\ cw = Some w /\ ends w f k
  | MLeft _ | MExit3 => cw = None
  | MEmpty o h kd k => exists w, cw = Some w /\ v_in w !! h = None /\ scoped (made Pull kd h w) (k (ROk (AH h)))
  end.

Definition gone_of (a : astate) (f : mfoc) : option nat :=
  match f with MFoc => match a_foc a with AExit2 => Some (a_cur a) | _ => None end | MExit3 => Some (a_cur a) | _ => None end.
Definition bad_of (f : mfoc) : option nat := match f with MPush2 e _ _ _ _ _ => Some (ep_co e) | _ => None end.

Definition DI (x : astate * mfoc) : Prop := exists G, GI G x.1 (gone_of x.1 x.2) (bad_of x.2) /\ ft G x.1 x.2.

(** ** Changes of the state that keep the invariant *)

Lemma GI_eq G a a' gone bad : GI G a gone bad -> a_co a' = a_co a -> a_wait a' = a_wait a -> a_h a' = a_h a -> a_user a' = a_user a \/ (forall l, is_Some (a_user a !! l) -> is_Some (a_user a' !! l)) -> GI G a' gone bad.
Proof.
  intros [] E1 E2 E3 E4. split; rewrite ?E1, ?E2, ?E3; try done.
  - intros c w Hc x n Hx. pose proof (gi_sees0 _ _ Hc _ _ Hx) as H. by rewrite E1, E2, E3.
  - intros l Hl. destruct E4 as [-> | E4]; auto.
Qed.

Lemma GI_bad G a gone bad : GI G a gone None -> GI G a gone bad.
Proof. intros []. split; try done. intros k y Hy. destruct (gi_slot0 _ _ Hy) as [[?|?] ?]; [|done]. split; [by left|done]. Qed.

Definition core (y : acoro) := (ac_side y, ac_kind y, ac_st y, ac_syn y).
Definition coeq (co co' : gmap nat acoro) : Prop := forall k, core <$> co' !! k = core <$> co !! k.
Lemma coeq_refl co : coeq co co. Proof. done. Qed.
Lemma coeq_l co co' k y' : coeq co co' -> co' !! k = Some y' -> exists y, co !! k = Some y /\ ac_side y' = ac_side y /\ ac_kind y' = ac_kind y /\ ac_st y' = ac_st y /\ ac_syn y' = ac_syn y.
Proof. intros H E. specialize (H k). rewrite E in H. destruct (co !! k) as [y|]; [|done]. exists y. cbn in H. unfold core in H. by simplify_eq. Qed.
Lemma coeq_sym co co' : coeq co co' -> coeq co' co.
Proof. intros H k. by rewrite H. Qed.
Lemma coeq_slot co n c s : co !! n = Some c -> coeq co (<[n := c_slot s c]> co).
Proof. intros H k. destruct (decide (n = k)) as [<-|]; [by rewrite lookup_insert, H|by rewrite lookup_insert_ne]. Qed.

Lemma sees_frame a a' c w : sees a c w ->
  (forall x n, v_in w !! x = Some n -> a_h a' !! x = a_h a !! x) ->
  (forall x n j y, v_in w !! x = Some n -> n_mine n = false -> holds (a_h a) x (Outer j) -> a_co a !! j = Some y ->
    exists y', a_co a' !! j = Some y' /\ (x ∈ v_ok w -> startable (ac_st y) = true -> startable (ac_st y') = true) /\
      (active (ac_st y') = true -> (exists o po k, a_wait a' !! c = Some (WOp j o po k)) \/ active (ac_st y) = true /\ a_wait a' !! c = a_wait a !! c)) ->
  sees a' c w.
Proof.
  intros H Hh Hc x n Hx. specialize (H _ _ Hx). rewrite (Hh _ _ Hx). destruct (n_mine n) eqn:Hm; [done|].
  destruct H as (e&He&H). exists e. split; [done|]. destruct e as [[j|j]|]; try done. destruct H as (Hl&y&Hy&H1&H2). split; [done|].
  destruct (Hc _ _ _ _ Hx Hm (ltac:(by eexists _, _)) Hy) as (y'&Hy'&H3&H4). exists y'. split; [done|]. split; [auto|].
  intros Ha. destruct (H4 Ha) as [?|[Ha' ->]]; auto.
Qed.

Lemma sees_coeq a a' c w : sees a c w -> (forall x n, v_in w !! x = Some n -> a_h a' !! x = a_h a !! x) -> coeq (a_co a) (a_co a') -> a_wait a' !! c = a_wait a !! c -> sees a' c w.
Proof.
  intros H Hh Hc Hw. eapply sees_frame; [done|done|]. intros x n j y Hx Hm _ Hy. destruct (coeq_l _ _ _ _ (coeq_sym _ _ Hc) Hy) as (y'&Hy'&_&_&E&_).
  exists y'. split; [done|]. rewrite E. auto.
Qed.

Lemma resumes_h w c j hs hs' po k : resumes w c j hs po k -> (forall x n, v_in w !! x = Some n -> hs' !! x = hs !! x) -> resumes w c j hs' po k.
Proof.
  intros H Hh. destruct po; cbn in *; [destruct H as (x&H); exists x| | |done]; destruct H as (n&Hx&Hm&(sd&kd&Ho)&H); exists n; (split; [done|]); (split; [done|]); (split; [|done]);
    exists sd, kd; by rewrite (Hh _ _ Hx).
Qed.
Lemma waits_h w c hs hs' wt : waits w c hs wt -> (forall x n, v_in w !! x = Some n -> hs' !! x = hs !! x) -> waits w c hs' wt.
Proof. intros H Hh. destruct wt; cbn in *; [by eapply resumes_h|done|done]. Qed.

Lemma sees_in a c w x n : sees a c w -> v_in w !! x = Some n -> is_Some (a_h a !! x).
Proof. intros H Hx. specialize (H _ _ Hx). destruct (n_mine n); [by eexists|]. destruct H as (e&H&_). by eexists. Qed.
Lemma sees_inner a c w x n sd kd k : sees a c w -> v_in w !! x = Some n -> a_h a !! x = Some (HObj sd kd (Some (Inner k))) -> n_mine n = true /\ k = c.
Proof. intros H Hx Ho. specialize (H _ _ Hx). destruct (n_mine n); [by simplify_eq|]. destruct H as (e&H&He). by simplify_eq. Qed.

(** A change made by user code of context [c] on its own objects. *)
Lemma GI_cur G a a' gone bad bad' c w w' : GI G a gone bad -> G !! c = Some w -> a_wait a !! c = None ->
  (forall y o po k, a_co a !! c = Some y -> ac_st y <> ASusp o po k) ->
  a_wait a' = a_wait a -> coeq (a_co a) (a_co a') ->
  (forall z, (forall n, v_in w !! z = Some n -> n_mine n = true) -> is_Some (a_h a !! z) -> a_h a' !! z = a_h a !! z) ->
  (forall z n, v_in w' !! z = Some n -> n_mine n = false -> (exists n0, v_in w !! z = Some n0 /\ n_mine n0 = false) \/ a_h a !! z = None) ->
  sees a' c w' -> v_unw w' = v_unw w ->
  (forall z j, holds (a_h a') z (Outer j) -> (exists n, v_in w' !! z = Some n /\ n_mine n = false) \/
     (forall n, v_in w !! z = Some n -> n_mine n = true) /\ holds (a_h a) z (Outer j)) ->
  (forall k y, a_co a' !! k = Some y -> (ac_slot y <> SlBad \/ bad' = Some k) /\ forall l, ac_slot y = SlFull (PRef l) -> cells l) ->
  (forall l, cells l -> is_Some (a_user a' !! l)) ->
  GI (<[c := w']> G) a' gone bad'.
Proof.
  intros I Hc Hwc Hns Ew Ec Hh Hd Hs Hu Ha Hsl Hm. pose proof I as [I1 I2 I3 I4 I5 I6 I7 I8 I9 I10 I11 I12].
  assert (Hoth : forall c' w0 z n, c' <> c -> G !! c' = Some w0 -> v_in w0 !! z = Some n -> a_h a' !! z = a_h a !! z).
  { intros c' w0 z n Hne Hc' Hz. apply Hh; [|by eapply sees_in; [by eapply I1|]]. intros n1 Hn1. destruct (n_mine n1) eqn:E; [done|].
    destruct Hne. symmetry. by eapply (I2 c c' w w0 z n1 n). }
  split.
  - intros c' w0 H. apply lookup_insert_Some in H as [[<- <-]|[Hne H]]; [done|].
    eapply sees_coeq; [by eapply I1| |done|by rewrite Ew]. intros z n Hz. by eapply (Hoth c').
  - assert (forall c' w0 x n n', G !! c' = Some w0 -> v_in w' !! x = Some n -> v_in w0 !! x = Some n' -> n_mine n = false -> c = c') as H1.
    { intros c' w0 x n n' Hc' Hx Hx' Hmn. destruct (Hd _ _ Hx Hmn) as [(n0&Hn0&Hm0)|Hn].
      - by eapply (I2 c c' w w0 x n0 n').
      - destruct (sees_in _ _ _ _ _ (I1 _ _ Hc') Hx') as [? E]. congruence. }
    assert (forall c' w0 x n n', c <> c' -> G !! c' = Some w0 -> v_in w0 !! x = Some n' -> v_in w' !! x = Some n -> n_mine n' = false -> False) as H2.
    { intros c' w0 x n n' Hne Hc' Hx' Hx Hmn. destruct (n_mine n) eqn:Hmn'; [|by apply Hne; eapply H1].
      specialize (Hs _ _ Hx). rewrite Hmn' in Hs. rewrite (Hoth c' w0 _ _ (not_eq_sym Hne) Hc' Hx') in Hs.
      destruct (sees_inner _ _ _ _ _ _ _ _ (I1 _ _ Hc') Hx' Hs) as [? ?]. congruence. }
    intros c1 c2 w1 w2 x n n' E1 E2 Hx Hx' Hmn. apply lookup_insert_Some in E1 as [[<- <-]|[Hne1 E1]]; apply lookup_insert_Some in E2 as [[<- <-]|[Hne2 E2]]; [done|..].
    + by eapply H1.
    + exfalso. by eapply H2.
    + by eapply I2.
  - intros z j Hz. destruct (Ha _ _ Hz) as [(n&Hn&Hmn)|[Hn Hz']].
    + exists c, w', n. by rewrite lookup_insert.
    + destruct (I3 _ _ Hz') as (c'&w0&n&Hc'&Hzn&Hmn). exists c', w0, n. rewrite lookup_insert_ne; [done|]. intros <-. simplify_eq. by rewrite (Hn _ Hzn) in Hmn.
  - intros c' w0 H. assert (exists w1, G !! c' = Some w1) as [w1 Hw1]. { apply lookup_insert_Some in H as [[<- <-]|[_ H]]; by eexists. }
    destruct (I4 _ _ Hw1) as [?|(y&Hy&Hi)]; [by left|right]. destruct (coeq_l _ _ _ _ (coeq_sym _ _ Ec) Hy) as (y'&Hy'&_&_&E&_). exists y'. by rewrite <- E.
  - intros w0 H. apply lookup_insert_Some in H as [[-> <-]|[_ H]]; [rewrite Hu|]; by apply I5.
  - intros c' w0 y' H Hy'. destruct (coeq_l _ _ _ _ Ec Hy') as (y&Hy&_&_&E&_). rewrite E. apply lookup_insert_Some in H as [[<- <-]|[_ H]]; [rewrite Hu|]; by eapply I6.
  - intros c' wt H. rewrite Ew in H. destruct (I7 _ _ H) as (w0&Hw0&Hwt). assert (c' <> c) by congruence. exists w0. rewrite lookup_insert_ne by done. split; [done|].
    eapply waits_h; [done|]. intros z n Hz. by eapply (Hoth c').
  - intros c' y' o po k Hy' Hst. destruct (coeq_l _ _ _ _ Ec Hy') as (y&Hy&_&_&E&_). rewrite E in Hst. assert (c' <> c) by (intros ->; by eapply Hns).
    rewrite lookup_insert_ne by done. by eapply I8.
  - intros c' y' fn Hy' Hst. destruct (coeq_l _ _ _ _ Ec Hy') as (y&Hy&E1&E2&E&_). rewrite E1, E2. rewrite E in Hst. by eapply I9.
  - intros k y' Hy'. destruct (coeq_l _ _ _ _ Ec Hy') as (y&Hy&E1&E2&_&E). rewrite E, E1, E2. destruct (I10 _ _ Hy) as [?|Hk]; [by left|right].
    rewrite Hh; [done| |by eexists]. intros n Hn. by eapply (sees_inner _ _ _ _ _ _ _ _ (I1 _ _ Hc)).
  - done.
  - done.
Qed.

(** Context [c] learns something about an object. *)
Lemma GI_view G a gone bad c w w' : GI G a gone bad -> G !! c = Some w -> a_wait a !! c = None ->
  (forall y o po k, a_co a !! c = Some y -> ac_st y <> ASusp o po k) ->
  v_in w' = v_in w -> v_unw w' = v_unw w ->
  (forall x n, x ∈ v_ok w' -> v_in w !! x = Some n -> n_mine n = false -> x ∈ v_ok w \/ exists j y, holds (a_h a) x (Outer j) /\ a_co a !! j = Some y /\ startable (ac_st y) = true) ->
  GI (<[c := w']> G) a gone bad.
Proof.
  intros I Hc Hw Hns Ein Eu Hok. eapply (GI_cur G a a _ bad _ c w w'); try done.
  - intros z n Hz Hmn. rewrite Ein in Hz. eauto.
  - pose proof (gi_sees _ _ _ _ I _ _ Hc) as Hs. intros x n Hx. rewrite Ein in Hx. specialize (Hs _ _ Hx). destruct (n_mine n) eqn:Hmn; [done|].
    destruct Hs as (e&He&Hs). exists e. split; [done|]. destruct e as [[j|j]|]; [|done|].
    + destruct Hs as (Hl&y&Hy&H1&H2). split; [done|]. exists y. split; [done|]. split; [|done]. intros Hx'. destruct (Hok _ _ Hx' Hx Hmn) as [?|(j'&y'&(sd&kd&Hj')&Hy'&?)]; [auto|].
      simplify_eq. done.
    + intros Hx'. destruct (Hok _ _ Hx' Hx Hmn) as [?|(j'&y'&(sd&kd&Hj')&_)]; [auto|]. simplify_eq.
  - intros z j (sd&kd&Hz). destruct (gi_all _ _ _ _ I z j) as (c'&w0&n&Hc'&Hn&Hmn); [by eexists _, _|]. destruct (decide (c' = c)) as [->|].
    + left. simplify_eq. exists n. by rewrite Ein.
    + right. split; [|by eexists _, _]. intros n' Hn'. destruct (n_mine n') eqn:E; [done|]. exfalso. apply n0. symmetry. by eapply (gi_dis _ _ _ _ I c c').
  - apply (gi_slot _ _ _ _ I).
  - apply (gi_mem _ _ _ _ I).
Qed.

Lemma GI_setwait G a a' gone bad c wt w : GI G a gone bad -> a_wait a !! c = None -> a_wait a' = <[c := wt]> (a_wait a) ->
  a_co a' = a_co a -> a_h a' = a_h a -> a_user a' = a_user a -> G !! c = Some w -> waits w c (a_h a) wt -> GI G a' gone bad.
Proof.
  intros I Hn E1 E2 E3 E4 Hc Hw. pose proof I as [I1 I2 I3 I4 I5 I6 I7 I8 I9 I10 I11 I12]. split; rewrite ?E1, ?E2, ?E3, ?E4; try done.
  - intros c' w0 Hc'. eapply sees_frame; [by apply I1|by rewrite E3|]. intros x n j y Hx Hm (sd&kd&Hj) Hy. exists y. rewrite E1, E2. split; [done|]. split; [auto|]. intros Ha.
    right. split; [done|]. rewrite lookup_insert_ne; [done|]. intros <-. specialize (I1 _ _ Hc' _ _ Hx). rewrite Hm in I1. destruct I1 as (e&He&I1). simplify_eq.
    destruct I1 as (_&y'&Hy'&_&I1). simplify_eq. destruct (I1 Ha) as (?&?&?&E). congruence.
  - intros c' wt' H. apply lookup_insert_Some in H as [[<- <-]|[_ H]]; [by exists w|]. by apply I7.
Qed.

Lemma GI_delwait G a a' gone bad c : GI G a gone bad -> a_wait a' = delete c (a_wait a) ->
  a_co a' = a_co a -> a_h a' = a_h a -> a_user a' = a_user a ->
  (forall j o po k, a_wait a !! c = Some (WOp j o po k) -> exists y, a_co a !! j = Some y /\ active (ac_st y) = false) -> GI G a' gone bad.
Proof.
  intros I E1 E2 E3 E4 Hw. pose proof I as [I1 I2 I3 I4 I5 I6 I7 I8 I9 I10 I11 I12]. split; rewrite ?E1, ?E2, ?E3, ?E4; try done.
  - intros c' w0 Hc'. eapply sees_frame; [by apply I1|by rewrite E3|]. intros x n j y Hx Hm (sd&kd&Hj) Hy. exists y. rewrite E1, E2. split; [done|]. split; [auto|]. intros Ha.
    right. split; [done|]. rewrite lookup_delete_ne; [done|]. intros <-. specialize (I1 _ _ Hc' _ _ Hx). rewrite Hm in I1. destruct I1 as (e&He&I1). simplify_eq.
    destruct I1 as (_&y'&Hy'&_&I1). simplify_eq. destruct (I1 Ha) as (?&?&?&E). destruct (Hw _ _ _ _ E) as (?&?&?). congruence.
  - intros c' wt' H. apply lookup_delete_Some in H as [_ H]. by apply I7.
Qed.

Definition set_unw (b : bool) (w : view) : view := View b (v_in w) (v_ok w).

(** The status of coroutine [n] changes. *)
Lemma GI_status G a a' gone bad n y y' : GI G a gone bad -> a_co a !! n = Some y -> n <> 0 -> a_co a' = <[n := y']> (a_co a) ->
  a_wait a' = a_wait a -> a_h a' = a_h a -> a_user a' = a_user a ->
  ac_side y' = ac_side y -> ac_kind y' = ac_kind y -> ac_syn y' = ac_syn y ->
  (forall c w x m, G !! c = Some w -> v_in w !! x = Some m -> n_mine m = false -> holds (a_h a) x (Outer n) ->
     (x ∈ v_ok w -> startable (ac_st y') = true) /\ (active (ac_st y') = true -> exists o po k, a_wait a !! c = Some (WOp n o po k))) ->
  (is_Some (G !! n) -> inside (ac_st y') = true /\ a_wait a !! n = None) ->
  (forall o po k, ac_st y' = ASusp o po k -> exists w, G !! n = Some w /\ yields w po k) ->
  (forall fn, ac_st y' <> ANew fn) ->
  (ac_slot y' = ac_slot y \/ ac_slot y' = SlEmpty) ->
  GI (alter (set_unw (unw_st (ac_st y'))) n G) a' gone bad.
Proof.
  intros I Hn Hn0 Ec Ew Eh Eu Es Ek Ey Hown Hdom Hsusp Hnew Hslot. pose proof I as [I1 I2 I3 I4 I5 I6 I7 I8 I9 I10 I11 I12].
  assert (HG : forall c w', alter (set_unw (unw_st (ac_st y'))) n G !! c = Some w' -> exists w, G !! c = Some w /\ v_in w' = v_in w /\ v_ok w' = v_ok w /\ (c <> n -> w' = w) /\ (c = n -> v_unw w' = unw_st (ac_st y'))).
  { intros c w' H. destruct (decide (n = c)) as [<-|Hne].
    - rewrite lookup_alter in H. destruct (G !! n) as [w|]; [|done]. cbn in H. simplify_eq. by exists w.
    - rewrite lookup_alter_ne in H by done. exists w'. done. }
  assert (HG' : forall c w, G !! c = Some w -> exists w', alter (set_unw (unw_st (ac_st y'))) n G !! c = Some w' /\ v_in w' = v_in w /\ (c <> n -> w' = w)).
  { intros c w H. destruct (decide (n = c)) as [<-|Hne].
    - rewrite lookup_alter, H. cbn. by eexists.
    - rewrite lookup_alter_ne by done. by exists w. }
  split; rewrite ?Eu; try done.
  - intros c w' Hw'. destruct (HG _ _ Hw') as (w&Hw&E1&E2&_). assert (Hs : sees a' c w).
    { eapply sees_frame; [by apply I1|by rewrite Eh|]. intros x m j z Hx Hm Hj Hz. rewrite Ec. destruct (decide (n = j)) as [<-|Hne].
      - destruct (Hown _ _ _ _ Hw Hx Hm Hj) as [H1 H2]. exists y'. rewrite lookup_insert, Ew. auto.
      - exists z. rewrite lookup_insert_ne, Ew by done. auto. }
    intros x m Hx. rewrite E1 in Hx. specialize (Hs _ _ Hx). by rewrite E2.
  - intros c c' w w' x m m' H1 H2 Hx Hx'. destruct (HG _ _ H1) as (w1&Hw1&E1&_). destruct (HG _ _ H2) as (w2&Hw2&E2&_). rewrite E1 in Hx. rewrite E2 in Hx'. by eapply I2.
  - intros x j Hx. rewrite Eh in Hx. destruct (I3 _ _ Hx) as (c&w&m&Hw&Hxm&Hm). destruct (HG' _ _ Hw) as (w'&Hw'&E&_). exists c, w', m. by rewrite E.
  - intros c w' H. destruct (HG _ _ H) as (w&Hw&_). destruct (decide (n = c)) as [<-|Hne].
    + right. exists y'. rewrite Ec, lookup_insert. split; [done|]. by apply Hdom.
    + rewrite Ec, lookup_insert_ne by done. by eapply I4.
  - intros w' H. destruct (HG _ _ H) as (w&Hw&_&_&E&_). rewrite E by done. by apply I5.
  - intros c w' z H Hz. destruct (HG _ _ H) as (w&Hw&_&_&E1&E2). rewrite Ec in Hz. apply lookup_insert_Some in Hz as [[<- <-]|[Hne Hz]]; [by apply E2|].
    rewrite E1 by done. by eapply I6.
  - intros c wt H. rewrite Ew in H. rewrite Eh. destruct (I7 _ _ H) as (w&Hw&Hwt). assert (c <> n). { intros ->. destruct Hdom as [_ E]; [by eexists|]. congruence. }
    destruct (HG' _ _ Hw) as (w'&Hw'&_&E). exists w. rewrite <- E at 1 by done. done.
  - intros c z o po k Hz Hst. rewrite Ec in Hz. apply lookup_insert_Some in Hz as [[<- <-]|[Hne Hz]].
    + destruct (Hsusp _ _ _ Hst) as (w&Hw&Hy). rewrite lookup_alter, Hw. cbn. exists w. split; [|done]. f_equal. destruct Hy as (_&_&Hu). rewrite Hst. destruct w. cbn in *. by subst.
    + rewrite lookup_alter_ne by done. by eapply I8.
  - intros c z fn Hz Hst. rewrite Ec in Hz. apply lookup_insert_Some in Hz as [[<- <-]|[Hne Hz]]; [by destruct (Hnew fn)|]. by eapply I9.
  - intros k z Hz. rewrite Ec in Hz. rewrite Eh. apply lookup_insert_Some in Hz as [[<- <-]|[Hne Hz]]; [rewrite Es, Ek, Ey|]; by apply I10.
  - intros k z Hz. rewrite Ec in Hz. apply lookup_insert_Some in Hz as [[<- <-]|[Hne Hz]]; [|by apply I11]. destruct (I11 _ _ Hn). destruct Hslot as [-> | ->]; [done|]. split; [by left|done].
Qed.

Lemma GI_status' G a a' gone bad n y y' : GI G a gone bad -> a_co a !! n = Some y -> n <> 0 -> a_co a' = <[n := y']> (a_co a) ->
  a_wait a' = a_wait a -> a_h a' = a_h a -> a_user a' = a_user a ->
  ac_side y' = ac_side y -> ac_kind y' = ac_kind y -> ac_syn y' = ac_syn y ->
  (forall c w x m, G !! c = Some w -> v_in w !! x = Some m -> n_mine m = false -> holds (a_h a) x (Outer n) ->
     (x ∈ v_ok w -> startable (ac_st y') = true) /\ (active (ac_st y') = true -> exists o po k, a_wait a !! c = Some (WOp n o po k))) ->
  (is_Some (G !! n) -> inside (ac_st y') = true /\ a_wait a !! n = None /\ unw_st (ac_st y') = unw_st (ac_st y)) ->
  (forall o po k, ac_st y' = ASusp o po k -> exists w, G !! n = Some w /\ yields w po k) ->
  (forall fn, ac_st y' <> ANew fn) ->
  (ac_slot y' = ac_slot y \/ ac_slot y' = SlEmpty) ->
  GI G a' gone bad.
Proof.
  intros I Hn Hn0 Ec Ew Eh Eu Es Ek Ey Hown Hdom Hsusp Hnew Hslot.
  assert (E : alter (set_unw (unw_st (ac_st y'))) n G = G).
  { apply map_eq. intros c. destruct (decide (n = c)) as [<-|Hne]; [|by rewrite lookup_alter_ne]. rewrite lookup_alter. destruct (G !! n) as [w|] eqn:Hw; [|done]. cbn. f_equal.
    destruct Hdom as (_&_&E); [by eexists|]. rewrite E, <- (gi_unw _ _ _ _ I _ _ _ Hw Hn). by destruct w. }
  rewrite <- E. eapply GI_status; try done. intros H. destruct (Hdom H) as (?&?&?). done.
Qed.

(** A function is entered. *)
Lemma GI_add G a gone bad n y : GI G a gone bad -> G !! n = None -> a_co a !! n = Some y -> ac_st y = ARun -> n <> 0 -> gone <> Some n ->
  GI (<[n := v_start (ac_side y) (ac_kind y) (ac_syn y)]> G) a gone bad.
Proof.
  intros I Hn Hy Hst Hn0 Hg. pose proof I as [I1 I2 I3 I4 I5 I6 I7 I8 I9 I10 I11 I12]. destruct (I10 _ _ Hy) as [|Hsyn]; [done|]. split; try done.
  - intros c w H. apply lookup_insert_Some in H as [[<- <-]|[Hne H]]; [|by apply I1]. intros x m Hx. cbn in Hx. apply lookup_singleton_Some in Hx as [<- <-]. done.
  - intros c c' w w' x m m' H1 H2 Hx Hx' Hm. apply lookup_insert_Some in H1 as [[<- <-]|[Hne1 H1]].
    { cbn in Hx. apply lookup_singleton_Some in Hx as [<- <-]. done. }
    apply lookup_insert_Some in H2 as [[<- <-]|[Hne2 H2]]; [|by eapply I2].
    cbn in Hx'. apply lookup_singleton_Some in Hx' as [<- <-]. destruct (sees_inner _ _ _ _ _ _ _ _ (I1 _ _ H1) Hx Hsyn). done.
  - intros x j Hx. destruct (I3 _ _ Hx) as (c&w&m&Hw&?). exists c, w, m. rewrite lookup_insert_ne by congruence. done.
  - intros c w H. apply lookup_insert_Some in H as [[<- <-]|[Hne H]]; [|by eapply I4]. right. exists y. by rewrite Hst.
  - intros w H. rewrite lookup_insert_ne in H by done. by apply I5.
  - intros c w z H Hz. apply lookup_insert_Some in H as [[<- <-]|[Hne H]]; [|by eapply I6]. simplify_eq. by rewrite Hst.
  - intros c wt H. destruct (I7 _ _ H) as (w&Hw&?). exists w. rewrite lookup_insert_ne by congruence. done.
  - intros c z o po k Hz Hs. destruct (I8 _ _ _ _ _ Hz Hs) as (w&Hw&?). exists w. rewrite lookup_insert_ne by congruence. done.
Qed.

(** A function is left. *)
Lemma GI_leave G a gone bad n w : GI G a gone bad -> G !! n = Some w -> empty_handed w -> a_wait a !! n = None ->
  (forall y o po k, a_co a !! n = Some y -> ac_st y <> ASusp o po k) -> GI (delete n G) a gone bad.
Proof.
  intros I Hn He Hw Hs. pose proof I as [I1 I2 I3 I4 I5 I6 I7 I8 I9 I10 I11 I12]. split; try done.
  - intros c w' H. apply lookup_delete_Some in H as [_ H]. by apply I1.
  - intros c c' w1 w2 x m m' H1 H2. apply lookup_delete_Some in H1 as [_ H1]. apply lookup_delete_Some in H2 as [_ H2]. by eapply I2.
  - intros x j Hx. destruct (I3 _ _ Hx) as (c&w'&m&Hw'&Hm&Hmm). exists c, w', m. rewrite lookup_delete_ne; [done|]. intros <-. simplify_eq. by rewrite (He _ _ Hm) in Hmm.
  - intros c w' H. apply lookup_delete_Some in H as [_ H]. by eapply I4.
  - intros w' H. apply lookup_delete_Some in H as [_ H]. by apply I5.
  - intros c w' y H. apply lookup_delete_Some in H as [_ H]. by eapply I6.
  - intros c wt H. destruct (I7 _ _ H) as (w'&Hw'&?). exists w'. rewrite lookup_delete_ne by congruence. done.
  - intros c y o po k Hy Hst. destruct (I8 _ _ _ _ _ Hy Hst) as (w'&Hw'&?). exists w'. rewrite lookup_delete_ne; [done|]. intros <-. by eapply Hs.
Qed.

(** A coroutine and its counterpart come into being. *)
Lemma GI_born G a a' gone bad n y : GI G a gone bad -> a_co a !! n = None -> a_co a' = <[n := y]> (a_co a) -> a_wait a' = a_wait a ->
  a_h a !! ac_syn y = None -> a_h a' = <[ac_syn y := HObj (other (ac_side y)) (ac_kind y) (Some (Inner n))]> (a_h a) -> a_user a' = a_user a ->
  n <> 0 -> ac_slot y = SlEmpty -> match ac_st y with ANew fn => forall x, scoped (v_start (ac_side y) (ac_kind y) x) (fn x) | ARun => True | _ => False end ->
  GI G a' gone bad.
Proof.
  intros I Hn Ec Ew Hsyn Eh Eu Hn0 Hsl Hst. pose proof I as [I1 I2 I3 I4 I5 I6 I7 I8 I9 I10 I11 I12].
  assert (HG : G !! n = None). { destruct (G !! n) as [w|] eqn:E; [|done]. destruct (I4 _ _ E) as [?|(?&?&_)]; congruence. }
  assert (Hh : forall c w x m, G !! c = Some w -> v_in w !! x = Some m -> a_h a' !! x = a_h a !! x).
  { intros c w x m Hw Hx. destruct (sees_in _ _ _ _ _ (I1 _ _ Hw) Hx) as [? E]. rewrite Eh, lookup_insert_ne; [done|]. congruence. }
  split; rewrite ?Ew, ?Eu; try done.
  - intros c w Hw. eapply sees_frame; [by apply I1|intros; by eapply Hh|]. intros x m j z Hx Hm Hj Hz. exists z. rewrite Ec, lookup_insert_ne by congruence. split; [done|]. rewrite Ew. auto.
  - intros x j (sd&kd&Hx). rewrite Eh in Hx. apply lookup_insert_Some in Hx as [[_ ?]|[_ Hx]]; [done|]. apply (I3 x j). by eexists _, _.
  - intros c w Hw. destruct (I4 _ _ Hw) as [?|(z&Hz&?)]; [by left|right]. exists z. rewrite Ec, lookup_insert_ne by congruence. done.
  - intros c w z Hw Hz. rewrite Ec, lookup_insert_ne in Hz by congruence. by eapply I6.
  - intros c wt H. destruct (I7 _ _ H) as (w&Hw&Hwt). exists w. split; [done|]. eapply waits_h; [done|intros; by eapply Hh].
  - intros c z o po k Hz Hs. rewrite Ec in Hz. apply lookup_insert_Some in Hz as [[<- <-]|[Hne Hz]]; [by rewrite Hs in Hst|]. by eapply I8.
  - intros c z fn Hz Hs. rewrite Ec in Hz. apply lookup_insert_Some in Hz as [[<- <-]|[Hne Hz]]; [by rewrite Hs in Hst|]. by eapply I9.
  - intros k z Hz. rewrite Ec in Hz. apply lookup_insert_Some in Hz as [[<- <-]|[Hne Hz]]; [right; by rewrite Eh, lookup_insert|].
    destruct (I10 _ _ Hz) as [?|E]; [by left|right]. rewrite Eh, lookup_insert_ne; [done|]. congruence.
  - intros k z Hz. rewrite Ec in Hz. apply lookup_insert_Some in Hz as [[<- <-]|[Hne Hz]]; [rewrite Hsl; split; [by left|done]|]. by apply I11.
Qed.

(** The counterpart object is destroyed. *)
Lemma GI_gone G a a' n y : GI G a None None -> a_co a !! n = Some y -> G !! n = None -> a_co a' = a_co a -> a_wait a' = a_wait a ->
  a_h a' = delete (ac_syn y) (a_h a) -> a_user a' = a_user a -> GI G a' (Some n) None.
Proof.
  intros I Hn HG Ec Ew Eh Eu. pose proof I as [I1 I2 I3 I4 I5 I6 I7 I8 I9 I10 I11 I12]. destruct (I10 _ _ Hn) as [|Hsyn]; [done|].
  assert (Hh : forall c w x m, G !! c = Some w -> v_in w !! x = Some m -> a_h a' !! x = a_h a !! x).
  { intros c w x m Hw Hx. rewrite Eh, lookup_delete_ne; [done|]. intros <-. destruct (sees_inner _ _ _ _ _ _ _ _ (I1 _ _ Hw) Hx Hsyn) as [_ ?]. congruence. }
  split; rewrite ?Ec, ?Ew, ?Eu; try done.
  - intros c w Hw. eapply sees_coeq; [by apply I1|intros; by eapply Hh|by rewrite Ec|by rewrite Ew].
  - intros x j (sd&kd&Hx). rewrite Eh in Hx. apply lookup_delete_Some in Hx as [_ Hx]. apply (I3 x j). by eexists _, _.
  - intros c wt H. destruct (I7 _ _ H) as (w&Hw&Hwt). exists w. split; [done|]. eapply waits_h; [done|intros; by eapply Hh].
  - intros k z Hz. destruct (decide (k = n)) as [->|Hne]; [by left|right]. destruct (I10 _ _ Hz) as [|E]; [done|]. rewrite Eh, lookup_delete_ne; [done|]. congruence.
Qed.

(** The stack is released. *)
Lemma GI_free G a a' n : GI G a (Some n) None -> G !! n = None -> (forall x, ~ holds (a_h a) x (Outer n)) -> a_co a' = delete n (a_co a) -> a_wait a' = a_wait a ->
  a_h a' = a_h a -> a_user a' = a_user a -> GI G a' None None.
Proof.
  intros I HG Hno Ec Ew Eh Eu. pose proof I as [I1 I2 I3 I4 I5 I6 I7 I8 I9 I10 I11 I12].
  split; rewrite ?Eh, ?Ew, ?Eu; try done.
  - intros c w Hw. eapply sees_frame; [by apply I1|by rewrite Eh|]. intros x m j z Hx Hm Hj Hz. exists z. rewrite Ec, lookup_delete_ne; [|intros <-; by eapply Hno]. rewrite Ew. auto.
  - intros c w Hw. destruct (I4 _ _ Hw) as [?|(z&Hz&?)]; [by left|right]. exists z. rewrite Ec, lookup_delete_ne by congruence. done.
  - intros c w z Hw Hz. rewrite Ec in Hz. apply lookup_delete_Some in Hz as [_ Hz]. by eapply I6.
  - intros c z o po k Hz Hs. rewrite Ec in Hz. apply lookup_delete_Some in Hz as [_ Hz]. by eapply I8.
  - intros c z fn Hz Hs. rewrite Ec in Hz. apply lookup_delete_Some in Hz as [_ Hz]. by eapply I9.
  - intros k z Hz. rewrite Ec in Hz. apply lookup_delete_Some in Hz as [Hne Hz]. destruct (I10 _ _ Hz) as [?|?]; [congruence|by right].
  - intros k z Hz. rewrite Ec in Hz. apply lookup_delete_Some in Hz as [Hne Hz]. by apply I11.
Qed.

(** The slot of a coroutine changes. *)
Lemma GI_slot G a a' gone bad bad' n y s : GI G a gone bad -> a_co a !! n = Some y -> a_co a' = <[n := c_slot s y]> (a_co a) -> a_wait a' = a_wait a -> a_h a' = a_h a ->
  (forall l, is_Some (a_user a !! l) -> is_Some (a_user a' !! l)) -> (bad = None \/ bad = Some n) -> (s <> SlBad \/ bad' = Some n) -> (forall l, s = SlFull (PRef l) -> cells l) ->
  GI G a' gone bad'.
Proof.
  intros I Hn Ec Ew Eh Eu Hb Hb' Hl. pose proof I as [I1 I2 I3 I4 I5 I6 I7 I8 I9 I10 I11 I12].
  assert (Hco : coeq (a_co a) (a_co a')) by (rewrite Ec; by apply coeq_slot).
  split; rewrite ?Eh, ?Ew; try done.
  - intros c w Hw. eapply sees_coeq; [by apply I1|by rewrite Eh|done|by rewrite Ew].
  - intros c w Hw. destruct (I4 _ _ Hw) as [?|(z&Hz&?)]; [by left|right]. destruct (coeq_l _ _ _ _ (coeq_sym _ _ Hco) Hz) as (z'&Hz'&_&_&E&_). exists z'. by rewrite <- E.
  - intros c w z Hw Hz. destruct (coeq_l _ _ _ _ Hco Hz) as (z'&Hz'&_&_&E&_). rewrite E. by eapply I6.
  - intros c z o po k Hz Hs. destruct (coeq_l _ _ _ _ Hco Hz) as (z'&Hz'&_&_&E&_). rewrite E in Hs. by eapply I8.
  - intros c z fn Hz Hs. destruct (coeq_l _ _ _ _ Hco Hz) as (z'&Hz'&E1&E2&E&_). rewrite E in Hs. rewrite E1, E2. by eapply I9.
  - intros k z Hz. destruct (coeq_l _ _ _ _ Hco Hz) as (z'&Hz'&E1&E2&_&E). rewrite E1, E2, E. by apply I10.
  - intros k z Hz. rewrite Ec in Hz. apply lookup_insert_Some in Hz as [[<- <-]|[Hne Hz]]; [by cbn|]. destruct (I11 _ _ Hz) as [[?|?] ?]; [by split; [left|]|]. destruct Hb; congruence.
  - intros l Hc. apply Eu. by apply I12.
Qed.
End di.
