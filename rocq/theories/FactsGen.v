(** FactsGen.v -- the programs of Gens.v do what [means] says: proofs.

    A generator may own other generators, so what a coroutine does is described together with
    its footprint: the coroutines [J] and the objects [X] that belong to it and nobody else
    touches. *)
From stdpp Require Import prelude gmap relations.
From Coq Require Import Lia.
From Verif Require Import Base Model Spec InvSpec Main Hist Trace Cpp FactsReplay Progs Steps FactsProg Gens.

Local Opaque gmap_lookup map_insert map_delete gmap_partial_alter.

Section gen.
Context {env : Env}.
Context (nothrow : forall v, move_exn v = None).

(** Between two calls, in whichever context. *)
Definition calm (a : astate) : Prop :=
  nonew a /\ a_wait a !! a_cur a = None /\ 0 < a_nk a /\ a_cur a < a_nk a /\ forall j, a_nk a <= j -> a_wait a !! j = None.

Definition fp : Type := nat -> Prop.
Definition none : fp := fun _ => False.
Definition plus (J J' : fp) : fp := fun j => J j \/ J' j.
Definition sub (J J' : fp) : Prop := forall j, J j -> J' j.
Definition apart (J J' : fp) : Prop := forall j, J j -> ~ J' j.

(** From [a] to [b] only [J], [X] and what is new changed. *)
Record framed (J X : fp) (a b : astate) : Prop := {
  fr_h : forall y, y < a_nh a -> ~ X y -> a_h b !! y = a_h a !! y;
  fr_co : forall j, j < a_nk a -> ~ J j -> a_co b !! j = a_co a !! j;
  fr_user : a_user b = a_user a;
  fr_cur : a_cur b = a_cur a;
  fr_wait : a_wait b = a_wait a;
  fr_nh : a_nh a <= a_nh b;
  fr_nk : a_nk a <= a_nk b }.
(** From [a] to [b] nobody touched [J] and [X]. *)
Record agree (J X : fp) (a b : astate) : Prop := {
  ag_h : forall y, X y -> a_h b !! y = a_h a !! y;
  ag_co : forall j, J j -> a_co b !! j = a_co a !! j;
  ag_user : a_user b = a_user a;
  ag_nh : a_nh a <= a_nh b;
  ag_nk : a_nk a <= a_nk b }.
Definition has (J X : fp) (a : astate) : Prop :=
  (forall j, J j -> j < a_nk a /\ a_wait a !! j = None /\ j <> a_cur a) /\ (forall y, X y -> y < a_nh a).
Definition grows (a : astate) (J X J' X' : fp) : Prop :=
  (forall j, J' j -> J j \/ a_nk a <= j) /\ (forall y, X' y -> X y \/ a_nh a <= y).
Definition steps (a : astate) (J X : fp) (l : list T) (b : astate) (J' X' : fp) : Prop :=
  goes a b /\ calm b /\ framed J X a b /\ grows a J X J' X' /\ has J' X' b /\ output (a_tr b) = output (a_tr a) ++ l.

Lemma framed_trans J X J1 X1 a b c : framed J X a b -> grows a J X J1 X1 -> framed J1 X1 b c -> framed J X a c.
Proof.
  intros [A1 A2 A3 A4 A5 A6 A7] [G1 G2] [B1 B2 B3 B4 B5 B6 B7]. split; try congruence; try lia.
  - intros y Hy Hn. rewrite B1; [by apply A1|lia|]. intros [?|?]%G2; [done|lia].
  - intros y Hy Hn. rewrite B2; [by apply A2|lia|]. intros [?|?]%G1; [done|lia].
Qed.
Lemma framed_weaken J X J' X' a b : framed J X a b -> sub J J' -> sub X X' -> framed J' X' a b.
Proof. intros [A1 A2 A3 A4 A5 A6 A7] HJ HX. split; try done; intros y Hy Hn; [apply A1|apply A2]; auto. Qed.
Lemma grows_trans a b J X J1 X1 J2 X2 : framed J X a b -> grows a J X J1 X1 -> grows b J1 X1 J2 X2 -> grows a J X J2 X2.
Proof.
  intros F [G1 G2] [H1 H2]. destruct F as [_ _ _ _ _ L1 L2]. split.
  - intros j [Hj|Hj]%H1; [auto|right; lia].
  - intros j [Hj|Hj]%H2; [auto|right; lia].
Qed.
Lemma grows_refl a J X : grows a J X J X.
Proof. split; auto. Qed.
Lemma grows_weaken a J X J0 X0 J1 X1 : grows a J X J1 X1 -> sub J J0 -> sub X X0 -> grows a J0 X0 J1 X1.
Proof. intros [G1 G2] H1 H2. split; [intros j [?|?]%G1|intros j [?|?]%G2]; auto. Qed.
Lemma agree_refl J X a : agree J X a a.
Proof. by split. Qed.
Lemma agree_trans J X a b c : agree J X a b -> agree J X b c -> agree J X a c.
Proof.
  intros [A1 A2 A3 A4 A5] [B1 B2 B3 B4 B5]. split; try congruence; try lia; intros y Hy; [by rewrite B1, A1|by rewrite B2, A2].
Qed.
Lemma agree_sub J X J' X' a b : agree J X a b -> sub J' J -> sub X' X -> agree J' X' a b.
Proof. intros [A1 A2 A3 A4 A5] HJ HX. split; auto. Qed.
Lemma has_sub J X J' X' a : has J X a -> sub J' J -> sub X' X -> has J' X' a.
Proof. intros [A1 A2] HJ HX. split; auto. Qed.
Lemma has_none a : has none none a.
Proof. by split. Qed.
Lemma has_plus J X J' X' a : has J X a -> has J' X' a -> has (plus J J') (plus X X') a.
Proof. intros [A1 A2] [B1 B2]. split; intros ? [?|?]; auto. Qed.
Lemma sub_refl J : sub J J.
Proof. by intros ?. Qed.
Lemma sub_none J : sub none J.
Proof. by intros ?. Qed.
Lemma sub_l J J' : sub J (plus J J').
Proof. intros j. by left. Qed.
Lemma sub_r J J' : sub J' (plus J J').
Proof. intros j. by right. Qed.
Lemma sub_plus J J' J0 : sub J J0 -> sub J' J0 -> sub (plus J J') J0.
Proof. intros H1 H2 j [?|?]; auto. Qed.
Lemma apart_none J : apart none J.
Proof. by intros ?. Qed.

Lemma steps_refl a J X : calm a -> has J X a -> steps a J X [] a J X.
Proof. intros Hc Hh. split; [apply goes_refl|]. split; [done|]. split; [by split|]. split; [apply grows_refl|]. split; [done|]. by rewrite app_nil_r. Qed.
Lemma steps_trans a J X l b J1 X1 l' c J2 X2 : steps a J X l b J1 X1 -> steps b J1 X1 l' c J2 X2 -> steps a J X (l ++ l') c J2 X2.
Proof.
  intros (A1&A2&A3&A4&A5&A6) (B1&B2&B3&B4&B5&B6). split; [by eapply goes_trans|]. split; [done|]. split; [by eapply framed_trans|].
  split; [by eapply grows_trans|]. split; [done|]. by rewrite B6, A6, app_assoc.
Qed.
Lemma steps_weaken a J X l b J1 X1 J0 X0 : steps a J X l b J1 X1 -> sub J J0 -> sub X X0 -> steps a J0 X0 l b J1 X1.
Proof. intros (A1&A2&A3&A4&A5&A6) H1 H2. split; [done|]. split; [done|]. split; [by eapply framed_weaken|]. split; [by eapply grows_weaken|]. done. Qed.
Lemma steps_calm a J X l b J1 X1 : steps a J X l b J1 X1 -> calm b.
Proof. by intros (_&H&_). Qed.
Lemma steps_has a J X l b J1 X1 : steps a J X l b J1 X1 -> has J1 X1 b.
Proof. by intros (_&_&_&_&H&_). Qed.
Lemma steps_cur a J X l b J1 X1 : steps a J X l b J1 X1 -> a_cur b = a_cur a.
Proof. by intros (_&_&[]&_). Qed.

(** What belongs to somebody else stays as it is. *)
Lemma steps_agree a J X l b J1 X1 Jf Xf : steps a J X l b J1 X1 -> has Jf Xf a -> apart J Jf -> apart X Xf ->
  agree Jf Xf a b /\ has Jf Xf b /\ apart J1 Jf /\ apart X1 Xf.
Proof.
  intros (_&_&[A1 A2 A3 A4 A5 A6 A7]&[G1 G2]&_) [H1 H2] D1 D2. split; [split; try done|split; [split|split]].
  - intros y Hy. apply A1; [by apply H2|]. intros Hx. by eapply D2.
  - intros y Hy. apply A2; [by apply H1|]. intros Hx. by eapply D1.
  - intros j Hj. rewrite A4, A5. destruct (H1 j Hj) as (?&?&?). split; [lia|done].
  - intros y Hy. specialize (H2 y Hy). lia.
  - intros j [Hj|Hj]%G1 Hf; [by eapply D1|]. destruct (H1 j Hf). lia.
  - intros y [Hj|Hj]%G2 Hf; [by eapply D2|]. specialize (H2 y Hf). lia.
Qed.
Lemma steps_frame a J X l b J1 X1 Jf Xf : steps a J X l b J1 X1 -> has Jf Xf a -> apart J Jf -> apart X Xf ->
  steps a (plus J Jf) (plus X Xf) l b (plus J1 Jf) (plus X1 Xf).
Proof.
  intros H Hh D1 D2. destruct (steps_agree _ _ _ _ _ _ _ _ _ H Hh D1 D2) as (_&Hh'&_). destruct H as (A1&A2&A3&[G1 G2]&A5&A6).
  split; [done|]. split; [done|]. split; [eapply framed_weaken; [done|apply sub_l..]|]. split; [|split; [by apply has_plus|done]].
  split; [intros j [[?|?]%G1|?]|intros j [[?|?]%G2|?]]; unfold plus; auto.
Qed.

(** ** Simple steps *)
Lemma steps_tau a s s' J X : calm a -> has J X a -> a_foc a = AUser s -> rtc tau s s' -> exists b, steps a J X [] b J X /\ a_foc b = AUser s' /\ agree J X a b.
Proof.
  intros Hc Hh Hf Ht. destruct (goes_tau _ _ _ Hf Ht) as (b&G&->). exists (w_foc (AUser s') a). split; [|split; [done|by split]].
  split; [done|]. split; [done|]. split; [by split|]. split; [apply grows_refl|]. split; [done|]. by rewrite app_nil_r.
Qed.
Lemma steps_look a o ok k fs r l J X : calm a -> has J X a -> a_foc a = AUser (exec (Go (Do o ok k)) fs) ->
  (forall kk, do_op o kk (alog (EvCall (a_cur a) (NOp o)) a) = ret_to (NOp o) r kk (alog (EvCall (a_cur a) (NOp o)) a)) ->
  output [EvCall (a_cur a) (NOp o)] = l -> exists b, steps a J X l b J X /\ a_foc b = AUser (exec (Go (k r)) fs) /\ agree J X a b.
Proof.
  intros Hc Hh Hf E Hl. rewrite exec_do in Hf. destruct Hc as (Hn&Hw&Hk&Hk1&Hfr).
  eexists. split; [|split].
  - split; [apply goes_step; rewrite (astep_do _ _ _ Hf Hn), E; unfold ret_to; cbn; reflexivity|]. split; [done|]. split; [by split|].
    split; [apply grows_refl|]. split; [done|]. cbn. rewrite <- Hl. destruct o; cbn; by rewrite ?app_nil_r.
  - done.
  - by split.
Qed.

(** ** What running code does *)
Definition ctl_of (st : stop) : option ctl :=
  match st with Ends => Some (Go Skip) | Returns => Some Ret | Raises e => Some (Exn (XUser e)) | Cut => None end.
(** The context goes on in [b]; meanwhile the others did not touch what belongs to it. *)
Definition resumed (a : astate) (J X : fp) (b : astate) : Prop := calm b /\ a_cur b = a_cur a /\ agree J X a b /\ has J X b.

(** At least [c] steps from [a] to [b]; at least [c] steps from [a], with output [l]. *)
Definition lasts (c : nat) (a b : astate) : Prop := exists n, c <= n /\ arun n a = ANext b.
Definition long (c : nat) (a : astate) (l : list T) : Prop := exists b, lasts c a b /\ output (a_tr b) = output (a_tr a) ++ l.
Lemma lasts_goes a b : goes a b -> lasts 0 a b.
Proof. intros [n H]. exists n. split; [lia|done]. Qed.
Lemma lasts_trans c1 c2 a b b' : lasts c1 a b -> lasts c2 b b' -> lasts (c1 + c2) a b'.
Proof. intros (n1&L1&H1) (n2&L2&H2). exists (n1 + n2). split; [lia|]. by rewrite (arun_add _ _ _ _ H1). Qed.
Lemma lasts_less c c' a b : lasts c a b -> c' <= c -> lasts c' a b.
Proof. intros (n&L&H) ?. exists n. split; [lia|done]. Qed.
Lemma lasts_mid a b b1 c n : goes a b -> lasts n b b1 -> goes b1 c -> lasts n a c.
Proof. intros H1%lasts_goes H2 H3%lasts_goes. pose proof (lasts_trans _ _ _ _ _ H1 (lasts_trans _ _ _ _ _ H2 H3)) as H. eapply lasts_less; [exact H|lia]. Qed.
Lemma long_less c c' a l : long c a l -> c' <= c -> long c' a l.
Proof. intros (b&H&O) ?. exists b. split; [by eapply lasts_less|done]. Qed.
Lemma long_trans c1 c2 a b l1 l2 : lasts c1 a b -> output (a_tr b) = output (a_tr a) ++ l1 -> long c2 b l2 -> long (c1 + c2) a (l1 ++ l2).
Proof. intros H1 O1 (b'&H2&O2). exists b'. split; [by eapply lasts_trans|]. by rewrite O2, O1, app_assoc. Qed.
Lemma long_0 a : long 0 a [].
Proof. exists a. split; [by exists 0|]. by rewrite app_nil_r. Qed.

(** The current context of [a] does what [l] and [st] say, then leaves to the frames [fs];
    it yields through [o].  If [l] is cut, this is at least [d] steps. *)
Inductive acts (o : option nat) (fs : list frame) : nat -> astate -> fp -> fp -> list (T + T) -> stop -> Prop :=
| ac_count d c d' a J X l b J' X' tr st : lasts c a b -> d <= c + d' -> steps a J X l b J' X' -> acts o fs d' b J' X' tr st -> acts o fs d a J X ((inl <$> l) ++ tr) st
| ac_yield d a J X s v kp tr st : o = Some s -> a_foc a = AUser (SDo (OPush s (AImm v)) kp) ->
    (forall b, resumed a J X b -> a_foc b = AUser (kp (ROk AUnit)) -> acts o fs d b J X tr st) ->
    (forall b, resumed a J X b -> a_foc b = AUser (kp (RExn XUnwind)) ->
       exists c J' X', steps b J X [] c J' X' /\ a_foc c = AUser (exec (Exn XUnwind) fs)) ->
    acts o fs d a J X (inr v :: tr) st
| ac_end d a J X st c : ctl_of st = Some c -> a_foc a = AUser (exec c fs) -> acts o fs d a J X [] st
| ac_cut d a J X l : long d a l -> acts o fs d a J X (inl <$> l) Cut.

Lemma ac_steps o fs d a J X l b J' X' tr st : steps a J X l b J' X' -> acts o fs d b J' X' tr st -> acts o fs d a J X ((inl <$> l) ++ tr) st.
Proof. intros H. apply (ac_count _ _ _ 0); [|lia|done]. apply lasts_goes. by destruct H. Qed.
Lemma ac_nil o fs d a J X b J' X' tr st : steps a J X [] b J' X' -> acts o fs d b J' X' tr st -> acts o fs d a J X tr st.
Proof. intros H1 H2. by apply (ac_steps _ _ _ _ _ _ [] _ _ _ _ _ H1). Qed.
Lemma acts_less o fs d a J X tr st : acts o fs d a J X tr st -> forall d', d' <= d -> acts o fs d' a J X tr st.
Proof.
  induction 1 as [d c d1 a J X l b J' X' tr st Hl Hd H1 H2 IH|d a J X s v kp tr st Ho Hf H1 IH H2|d a J X st c Hc Hf|d a J X l Hl]; intros d' Hd'.
  - eapply ac_count; [done| |done|done]. lia.
  - eapply ac_yield; [done|done| |done]. intros b Hb Hfb. by apply IH.
  - by eapply ac_end.
  - apply ac_cut. by eapply long_less.
Qed.
Lemma resumed_sub a J X J' X' b : resumed a J X b -> sub J' J -> sub X' X -> resumed a J' X' b.
Proof. intros (A1&A2&A3&A4) H1 H2. split; [done|]. split; [done|]. split; [by eapply agree_sub|by eapply has_sub]. Qed.

Lemma acts_weaken o fs d a J X tr st J0 X0 : acts o fs d a J X tr st -> sub J J0 -> sub X X0 -> acts o fs d a J0 X0 tr st.
Proof.
  intros H. revert J0 X0. induction H as [d c0 d1 a J X l b J' X' tr st Hl Hd H1 H2 IH|d a J X s v kp tr st Ho Hf H1 IH H2|d a J X st c Hc Hf|d a J X l Hl]; intros J0 X0 HJ HX.
  - eapply ac_count; [done|done|by eapply steps_weaken|done].
  - eapply ac_yield; [done|done| |].
    + intros b Hb Hfb. apply IH; [by eapply resumed_sub|done..].
    + intros b Hb Hfb. destruct (H2 b) as (c&J'&X'&Hs&Hfc); [by eapply resumed_sub|done|]. exists c, J', X'. split; [by eapply steps_weaken|done].
  - by eapply ac_end.
  - by apply ac_cut.
Qed.
Lemma acts_tau o fs d a s s' J X tr st : calm a -> has J X a -> a_foc a = AUser s -> rtc tau s s' ->
  (forall b, calm b -> has J X b -> agree J X a b -> a_foc b = AUser s' -> a_cur b = a_cur a -> acts o fs d b J X tr st) -> acts o fs d a J X tr st.
Proof.
  intros Hc Hh Hf Ht H. destruct (steps_tau a s s' J X Hc Hh Hf Ht) as (b&Hs&Hfb&Ha). apply (ac_steps _ _ _ _ _ _ [] _ _ _ _ _ Hs). pose proof Hs as (_&?&?&_&?&_). apply H; try done. by eapply steps_cur.
Qed.

Lemma acts_tick o fs d a s' J X tr st : calm a -> has J X a -> a_foc a = AUser (STau s') ->
  (forall b, calm b -> has J X b -> agree J X a b -> a_foc b = AUser s' -> a_cur b = a_cur a -> acts o fs (pred d) b J X tr st) -> acts o fs d a J X tr st.
Proof.
  intros Hc Hh Hf H. pose proof Hc as (Hn&Hw&Hn0&Hn1&Hfr). assert (E : astep a = ANext (w_foc (AUser s') a)) by (unfold astep; by rewrite Hf).
  apply (ac_count _ _ d 1 (pred d) a J X [] (w_foc (AUser s') a) J X).
  - exists 1. split; [done|]. cbn. by rewrite E.
  - lia.
  - split; [by apply goes_step|]. split; [done|]. split; [by split|]. split; [apply grows_refl|]. split; [done|]. by rewrite app_nil_r.
  - by apply H.
Qed.

Lemma notes_split (l ns : list T) (tr : list (T + T)) v tr' : (inl <$> l) ++ tr = (inl <$> ns) ++ inr v :: tr' ->
  exists ns', ns = l ++ ns' /\ tr = (inl <$> ns') ++ inr v :: tr'.
Proof.
  revert ns. induction l as [|w l IH]; intros ns E; cbn in E; [by exists ns|]. destruct ns as [|n ns]; cbn in E; [done|].
  injection E as <- E. destruct (IH _ E) as (ns'&->&->). by exists ns'.
Qed.
Lemma notes_split_nil (l ns : list T) (tr : list (T + T)) : (inl <$> l) ++ tr = (inl <$> ns) ->
  exists ns', ns = l ++ ns' /\ tr = (inl <$> ns').
Proof.
  revert ns. induction l as [|w l IH]; intros ns E; cbn in E; [by exists ns|]. destruct ns as [|n ns]; cbn in E; [done|].
  injection E as <- E. destruct (IH _ E) as (ns'&->&->). by exists ns'.
Qed.

Lemma notes_only (l ns : list T) v (tr' : list (T + T)) : (inl <$> l) <> (inl <$> ns) ++ inr v :: tr'.
Proof. revert ns. induction l as [|w l IH]; intros [|n ns]; cbn; try done. intros [= _ E]. by eapply IH. Qed.
Lemma notes_inj (l ns : list T) : (inl <$> l) = (inl <$> ns : list (T + T)) -> l = ns.
Proof. revert ns. induction l as [|w l IH]; intros [|n ns]; cbn; try done. intros [= <- E]. by rewrite (IH _ E). Qed.

(** Running to the next value ... *)
Lemma acts_value s fs d a J X tr st : acts (Some s) fs d a J X tr st -> forall ns v tr', tr = (inl <$> ns) ++ inr v :: tr' -> calm a -> has J X a ->
  exists b J' X' kp c d', lasts c a b /\ d <= c + d' /\ steps a J X ns b J' X' /\ a_foc b = AUser (SDo (OPush s (AImm v)) kp) /\
    (forall c, resumed b J' X' c -> a_foc c = AUser (kp (ROk AUnit)) -> acts (Some s) fs d' c J' X' tr' st) /\
    (forall c, resumed b J' X' c -> a_foc c = AUser (kp (RExn XUnwind)) -> exists d J2 X2, steps c J' X' [] d J2 X2 /\ a_foc d = AUser (exec (Exn XUnwind) fs)).
Proof.
  induction 1 as [d c0 d1 a J X l b J' X' tr st Hl Hd H1 H2 IH|d a J X s' v0 kp tr st Ho Hf H1 IH H2|d a J X st c Hc Hf|d a J X l Hl]; intros ns v tr' E Hc' Hh.
  - apply notes_split in E as (ns'&->&E). destruct (IH ns' v tr' E) as (c&J2&X2&kp&c2&d2&Hl2&Hd2&Hs&Hr); [by eapply steps_calm|by eapply steps_has|].
    exists c, J2, X2, kp, (c0 + c2), d2. split; [by eapply lasts_trans|]. split; [lia|]. split; [by eapply steps_trans|done].
  - injection Ho as <-. destruct ns; [|done]. cbn in E. injection E as <- <-. exists a, J, X, kp, 0, d. split; [apply lasts_goes, goes_refl|]. split; [lia|]. split; [by apply steps_refl|]. done.
  - by destruct ns.
  - by apply notes_only in E.
Qed.
(** ... or to the end. *)
Lemma acts_end o fs d a J X tr st : acts o fs d a J X tr st -> forall ns c, tr = (inl <$> ns) -> ctl_of st = Some c -> calm a -> has J X a ->
  exists b J' X', steps a J X ns b J' X' /\ a_foc b = AUser (exec c fs).
Proof.
  induction 1 as [d c0 d1 a J X l b J' X' tr st Hl Hd H1 H2 IH|d a J X s' v0 kp tr st Ho Hf H1 IH H2|d a J X st c Hc Hf|d a J X l Hl]; intros ns c' E Hct Hc' Hh.
  - apply notes_split_nil in E as (ns'&->&E). destruct (IH ns' c' E) as (c&J2&X2&Hs&Hr); [done|by eapply steps_calm|by eapply steps_has|].
    exists c, J2, X2. split; [by eapply steps_trans|done].
  - by destruct ns.
  - destruct ns; [|done]. exists a, J, X. split; [by apply steps_refl|]. congruence.
  - done.
Qed.

(** ... or for long. *)
Lemma acts_long o fs d a J X tr st : acts o fs d a J X tr st -> forall ns, tr = (inl <$> ns) -> st = Cut -> long d a ns.
Proof.
  induction 1 as [d c0 d1 a J X l b J' X' tr st Hl Hd H1 H2 IH|d a J X s' v0 kp tr st Ho Hf H1 IH H2|d a J X st c Hc Hf|d a J X l Hl]; intros ns E Es.
  - apply notes_split_nil in E as (ns'&->&E). eapply long_less; [eapply long_trans; [done| |by eapply IH]|]; [|done]. by destruct H1 as (_&_&_&_&_&?).
  - by destruct ns.
  - by subst st.
  - by apply notes_inj in E as ->.
Qed.

(** Code in inner frames, which goes on with something else, while [Jf] and [Xf] are kept. *)
Lemma acts_bind o fs1 fs d1 a J X tr1 st1 : acts o fs1 d1 a J X tr1 st1 -> forall d2 Jf Xf tr2 st2, d2 <= d1 ->
  calm a -> has J X a -> has Jf Xf a -> apart J Jf -> apart X Xf ->
  (forall b J' X', calm b -> a_cur b = a_cur a -> agree Jf Xf a b -> has Jf Xf b -> has J' X' b -> a_foc b = AUser (exec (Exn XUnwind) fs1) ->
     exists c J2 X2, steps b (plus J' Jf) (plus X' Xf) [] c J2 X2 /\ a_foc c = AUser (exec (Exn XUnwind) fs)) ->
  (forall b J' X' c, calm b -> a_cur b = a_cur a -> agree Jf Xf a b -> has Jf Xf b -> has J' X' b -> ctl_of st1 = Some c -> a_foc b = AUser (exec c fs1) ->
     acts o fs d2 b (plus J' Jf) (plus X' Xf) tr2 st2) ->
  (st1 = Cut -> tr2 = [] /\ st2 = Cut) ->
  acts o fs d2 a (plus J Jf) (plus X Xf) (tr1 ++ tr2) st2.
Proof.
  induction 1 as [d c0 d1 a J X l b J' X' tr st Hl Hd H1 H2 IH|d a J X s v kp tr st Ho Hf H1 IH H2|d a J X st c Hct Hf|d a J X l Hl];
    intros d2 Jf Xf tr2 st2 Hd2 Hc Hh Hhf D1 D2 Hunw Hend Hcut.
  - destruct (steps_agree _ _ _ _ _ _ _ _ _ H1 Hhf D1 D2) as (Ha&Hhf'&D1'&D2'). rewrite <- app_assoc. eapply (ac_count _ _ _ c0 (d2 - c0)); [done|lia|by eapply steps_frame|].
    pose proof (steps_cur _ _ _ _ _ _ _ H1) as Ec. apply IH; try done; [lia|by eapply steps_calm|by eapply steps_has| |].
    + intros c J2 X2 ? E ?. apply Hunw; [done|congruence|by eapply agree_trans].
    + intros c J2 X2 ct ? E ? ? ? ? ?. eapply acts_less; [eapply Hend; try done; [congruence|by eapply agree_trans]|lia].
  - cbn. eapply ac_yield; [done|done| |].
    + intros b (Hcb&Ecb&Hab&Hhb) Hfb. assert (Hr : resumed a J X b). { apply (resumed_sub a (plus J Jf) (plus X Xf)); [done|apply sub_l..]. }
      assert (Haf : agree Jf Xf a b) by (eapply agree_sub; [done|apply sub_r..]).
      apply IH; try done; [by destruct Hr as (_&_&_&?)|eapply has_sub; [done|apply sub_r..]| |].
      * intros c J2 X2 ? E ?. apply Hunw; [done|congruence|by eapply agree_trans].
      * intros c J2 X2 ct ? E ?. apply Hend; [done|congruence|by eapply agree_trans].
    + intros b (Hcb&Ecb&Hab&Hhb) Hfb. assert (Hr : resumed a J X b). { apply (resumed_sub a (plus J Jf) (plus X Xf)); [done|apply sub_l..]. }
      assert (Haf : agree Jf Xf a b) by (eapply agree_sub; [done|apply sub_r..]). assert (Hhf' : has Jf Xf b) by (eapply has_sub; [done|apply sub_r..]).
      destruct (H2 b Hr Hfb) as (c&J'&X'&Hs&Hfc). destruct (steps_agree _ _ _ _ _ _ _ _ _ Hs Hhf' D1 D2) as (Ha&Hhf''&D1'&D2').
      pose proof (steps_cur _ _ _ _ _ _ _ Hs) as Ec.
      destruct (Hunw c J' X') as (e&J2&X2&Hs2&Hfd); [by eapply steps_calm|congruence|by eapply agree_trans|done|by eapply steps_has|done|].
      exists e, J2, X2. split; [|done]. change (@nil T) with (@nil T ++ []). eapply steps_trans; [by eapply steps_frame|done].
  - cbn. by eapply Hend.
  - destruct (Hcut eq_refl) as [-> ->]. rewrite app_nil_r. apply ac_cut. by eapply long_less.
Qed.

(** ** Suspended coroutines *)
Definition one (k : nat) (J : fp) : fp := fun j => j = k \/ J j.
Definition two (x s : nat) (X : fp) : fp := fun y => y = x \/ y = s \/ X y.

(** Coroutine [k], owned by [x], with counterpart [s], is suspended with value [v]; it owns
    [J] and [X] and will do what [tr] and [st] say. *)
Record susp (a : astate) (x k s : nat) (v : T) (kp : resp -> strat) (J X : fp) (d : nat) (tr : list (T + T)) (st : stop) : Prop := {
  su_x : a_h a !! x = Some (HObj Pull KVal (Some (Outer k)));
  su_s : a_h a !! s = Some (HObj Push KVal (Some (Inner k)));
  su_xs : x <> s;
  su_co : exists o b, a_co a !! k = Some (ACo Pull KVal (ASusp o PoUnit kp) (SlFull (PVal v)) s b);
  su_has : has (one k J) (two x s X) a;
  su_k : ~ J k; su_nx : ~ X x; su_ns : ~ X s; su_k0 : 0 < k;
  su_go : forall b, calm b -> a_cur b = k -> agree J X a b -> has J X b -> a_foc b = AUser (kp (ROk AUnit)) -> acts (Some s) [] d b J X tr st;
  su_kill : forall b, calm b -> a_cur b = k -> agree J X a b -> has J X b -> a_foc b = AUser (kp (RExn XUnwind)) ->
    exists c J2 X2, steps b J X [] c J2 X2 /\ a_foc c = AUser (exec (Exn XUnwind) []) }.

Lemma sub_one k J : sub J (one k J).
Proof. intros j. by right. Qed.
Lemma sub_two x s X : sub X (two x s X).
Proof. intros j. by right; right. Qed.

Lemma susp_agree a b x k s v kp J X d tr st : susp a x k s v kp J X d tr st -> agree (one k J) (two x s X) a b -> has (one k J) (two x s X) b -> susp b x k s v kp J X d tr st.
Proof.
  intros [H1 H2 H3 (o&b0&H4) H5 H6 H7 H8 H9 H10 H11] Ha Hh. pose proof Ha as [A1 A2 A3 A4 A5].
  assert (Ha' : agree J X a b) by (eapply agree_sub; [done|apply sub_one|apply sub_two]). split; try done.
  - rewrite A1; [done|by left].
  - rewrite A1; [done|by right; left].
  - exists o, b0. rewrite A2; [done|by left].
  - intros c Hc Ec Hac. apply H10; try done. by eapply agree_trans.
  - intros c Hc Ec Hac. apply H11; try done. by eapply agree_trans.
Qed.
Lemma susp_cur a x k s v kp J X d tr st : susp a x k s v kp J X d tr st -> a_cur a <> k.
Proof. intros H. destruct (su_has _ _ _ _ _ _ _ _ _ _ _ H) as [H1 _]. destruct (H1 k) as (_&_&?); [by left|done]. Qed.

(** It is resumed, by [x()] or [++i]. *)
Definition advance (x : nat) (op : Base.op) (po : post) : Prop := op = OItInc (Some x) /\ po = PoInc x \/ op = OResume x /\ po = PoUnit.
Definition more (po : post) : ans := match po with PoInc x => AIt (Some x) | _ => AUnit end.
Definition nomore (po : post) : ans := match po with PoInc x => AIt None | _ => AUnit end.
Lemma susp_enter a x k s v kp J X d tr st op po kk : susp a x k s v kp J X d tr st -> calm a -> advance x op po -> a_foc a = AUser (SDo op kk) ->
  exists b o by_, goes a b /\ calm b /\ has J X b /\ agree J X a b /\ a_cur b = k /\ a_foc b = AUser (kp (ROk AUnit)) /\
    output (a_tr b) = output (a_tr a) /\ acts (Some s) [] d b J X tr st /\
    a_co a !! k = Some (ACo Pull KVal (ASusp o PoUnit kp) (SlFull (PVal v)) s by_) /\
    a_co b = <[ k := ACo Pull KVal ARun (SlFull (PVal v)) s (a_cur a) ]> (a_co a) /\
    a_wait b = <[ a_cur a := WOp k (NOp op) po kk ]> (a_wait a) /\ a_h b = a_h a /\ a_user b = a_user a /\ a_nh b = a_nh a /\ a_nk b = a_nk a.
Proof.
  intros H Hcm Hadv Hf. pose proof (susp_cur _ _ _ _ _ _ _ _ _ _ _ H) as Hcur. destruct H as [Hx Hs Hxs (o&b0&Hc) Hh Hk Hnx Hns Hk0 Hgo _]. pose proof Hcm as (Hn&Hw&Hn0&Hn1&Hfr).
  destruct Hh as [Hh1 Hh2]. destruct (Hh1 k) as (Hkn&Hwk&_); [by left|].
  pose proof (astep_do _ _ _ Hf Hn) as E. assert (Et : do_op op kk (alog (EvCall (a_cur a) (NOp op)) a) = transfer (Outer k) (NOp op) po kk (alog (EvCall (a_cur a) (NOp op)) a)).
  { destruct Hadv as [[-> ->]|[-> ->]]; cbn; rewrite Hx; cbn; unfold resumable; cbn; rewrite Hc; cbn; reflexivity. } rewrite Et in E. clear Et.
  unfold transfer in E. cbn in E. rewrite Hc in E. cbn in E. unfold deliver, ret_to in E. cbn in E.
  match type of E with _ = ANext ?b => set (b' := b) in E end. rename b' into b. exists b, o, b0. assert (Hcb : calm b).
  { split; [|split; [|split; [done|split; [done|]]]]; cbn.
    - intros k' c' fn. cbn. intros [[_ <-]|[_ Hl]]%lookup_insert_Some; [done|by eapply Hn].
    - by rewrite lookup_insert_ne.
    - intros j Hj. rewrite lookup_insert_ne by lia. by apply Hfr. }
  assert (Hab : agree J X a b).
  { split; cbn; try done. intros j Hj. by rewrite lookup_insert_ne by (intros ->; done). }
  assert (Hhb : has J X b).
  { split; [|intros y Hy; apply Hh2; by right; right]. intros j Hj. destruct (Hh1 j) as (H1&H2&H3); [by right|]. cbn. split; [done|]. rewrite lookup_insert_ne by done. split; [done|]. intros ->. done. }
  split; [by apply goes_step|]. split; [done|]. split; [done|]. split; [done|]. split; [done|]. split; [done|]. split; [by destruct Hadv as [[-> _]|[-> _]]|]. split; [by apply Hgo|]. done.
Qed.

(** Control comes back to the context that resumed. *)
Lemma back_steps a b b1 c k x s J X J1 X1 ns w :
  calm a -> k < a_nk a -> x < a_nh a -> s < a_nh a -> a_wait a !! k = None -> a_cur a <> k -> ~ J k ->
  goes a b -> output (a_tr b) = output (a_tr a) -> (forall y, y <> x -> y <> s -> a_h b !! y = a_h a !! y) -> a_user b = a_user a -> a_nh b = a_nh a -> a_nk b = a_nk a ->
  (forall j, j <> k -> a_co b !! j = a_co a !! j) -> a_wait b = <[ a_cur a := w ]> (a_wait a) -> a_cur b = k ->
  steps b J X ns b1 J1 X1 ->
  goes b1 c -> nonew c -> a_cur c = a_cur a -> a_wait c = delete (a_cur a) (a_wait b1) -> (forall y, y <> x -> y <> s -> a_h c !! y = a_h b1 !! y) -> a_user c = a_user b1 -> a_nh c = a_nh b1 -> a_nk c = a_nk b1 ->
  (forall j, j <> k -> a_co c !! j = a_co b1 !! j) -> output (a_tr c) = output (a_tr b1) ->
  steps a (one k J) (two x s X) ns c (one k J1) (two x s X1).
Proof.
  intros Hcm Hkn Hxn Hsn Hwk Hcur HJk G1 O1 E1 E2 E3 E4 E5 E6 E7 (G2&C2&[F1 F2 F3 F4 F5 F6 F7]&[W1 W2]&[H1 H2]&O2) G3 Hnc C3 C4 C5 C6 C7 C8 C9 O3.
  pose proof Hcm as (Hn&Hw&Hn0&Hn1&Hfr). assert (Ew : a_wait c = a_wait a). { rewrite C4, F5, E6. by apply delete_insert. }
  split; [eapply goes_trans; [exact G1|by eapply goes_trans]|].
  split. { split; [done|]. rewrite C3, Ew. split; [done|]. split; [lia|]. split; [lia|]. intros j Hj. apply Hfr. lia. }
  split. { split; try congruence; try lia.
    - intros y Hy Hny. rewrite C5 by (intros ->; apply Hny; unfold two; auto). rewrite F1, E1; [done|..|lia|]; try intros ->; try intros ?; apply Hny; unfold two; auto.
    - intros j Hj Hnj. rewrite C9, F2, E5; try done; try lia; [intros ->|intros ?|intros ->]; apply Hnj; unfold one; auto. }
  split. { split; intros j.
    - intros [->|[?|?]%W1]; [by left; left|by left; right|right; lia].
    - intros [->|[->|[?|?]%W2]]; [by left; left|by left; right; left|by left; right; right|right; lia]. }
  split. { split.
    - intros j [->|Hj].
      + rewrite Ew, C3. split; [lia|]. split; [done|]. by intros ->.
      + destruct (H1 j Hj) as (?&Hwj&?). rewrite F5, E6 in Hwj. apply lookup_insert_None in Hwj as [? ?]. rewrite Ew, C3. split; [lia|]. split; [done|]. by intros ->.
    - intros j [->|[->|Hj%H2]]; lia. }
  rewrite O3, O2, O1. done.
Qed.

Lemma nonew_of a (k : nat) c b : calm a -> a_co b = <[ k := c ]> (a_co a) -> (forall fn, ac_st c <> ANew fn) -> nonew b.
Proof. intros (Hn&_) E Hc k' c' fn. rewrite E. intros [[_ <-]|[_ Hl]]%lookup_insert_Some; [apply Hc|by eapply Hn]. Qed.

(** The consumer advances: another value ... *)
Lemma susp_inc a x k s v kp J X d ns v' tr st op po kk : susp a x k s v kp J X d ((inl <$> ns) ++ inr v' :: tr) st -> calm a -> advance x op po ->
  a_foc a = AUser (SDo op kk) ->
  exists b kp' J' X' c d', lasts c a b /\ d <= c + d' /\ steps a (one k J) (two x s X) ns b (one k J') (two x s X') /\ a_foc b = AUser (kk (ROk (more po))) /\ susp b x k s v' kp' J' X' d' tr st.
Proof.
  intros Hsu Hcm Hadv Hf. pose proof (susp_cur _ _ _ _ _ _ _ _ _ _ _ Hsu) as Hcur.
  destruct (susp_enter _ _ _ _ _ _ _ _ _ _ _ _ _ _ Hsu Hcm Hadv Hf) as (b&o&by_&G1&C1&Hh1&A1&E1&Hf1&O1&Hac&Hco&E2&E3&E4&E5&E6&E7).
  destruct (acts_value _ _ _ _ _ _ _ _ Hac ns v' tr eq_refl C1 Hh1) as (b1&J1&X1&kp'&n&d'&Hla&Hd&Hst&Hf2&Hgo&Hkill).
  destruct Hsu as [Hx Hs Hxs _ [Hha1 Hha2] Hk Hnx Hns Hk0 _ _]. destruct (Hha1 k) as (Hkn&Hwk&_); [by left|].
  assert (Hxn : x < a_nh a) by (apply Hha2; by left). assert (Hsn : s < a_nh a) by (apply Hha2; by right; left).
  pose proof Hst as (_&C2&F&[Gr1 Gr2]&Hh2&_). assert (Hcob1 : a_co b1 !! k = Some (ACo Pull KVal ARun (SlFull (PVal v)) s (a_cur a))).
  { rewrite (fr_co _ _ _ _ F), E2; [by rewrite lookup_insert|lia|done]. }
  assert (Hsb1 : a_h b1 !! s = Some (HObj Push KVal (Some (Inner k)))) by (rewrite (fr_h _ _ _ _ F), E4; [done|lia|done]).
  assert (Hxb1 : a_h b1 !! x = Some (HObj Pull KVal (Some (Outer k)))) by (rewrite (fr_h _ _ _ _ F), E4; [done|lia|done]).
  assert (Hwb1 : a_wait b1 = <[ a_cur a := WOp k (NOp op) po kk ]> (a_wait a)) by (by rewrite (fr_wait _ _ _ _ F), E3).
  assert (Hcb1 : a_cur b1 = k) by (by rewrite (fr_cur _ _ _ _ F)).
  assert (HJ1 : ~ J1 k). { intros [?|?]%Gr1; [done|lia]. } assert (HX1 : ~ X1 x). { intros [?|?]%Gr2; [done|lia]. } assert (HX2 : ~ X1 s). { intros [?|?]%Gr2; [done|lia]. }
  pose proof C2 as (Hn2&_). pose proof (astep_do _ _ _ Hf2 Hn2) as E. cbn in E. rewrite Hsb1 in E. unfold push_op, resumable in E. cbn in E.
  rewrite Hcb1 in E. rewrite bool_decide_eq_true_2 in E by done. cbn in E. rewrite Hcob1 in E. cbn in E. rewrite nothrow in E.
  unfold transfer, give_back in E. cbn in E. rewrite ?lookup_insert, ?Hcb1, ?Hwb1 in E. cbn in E. rewrite ?lookup_insert in E. cbn in E. unfold deliver in E. cbn in E.
  match type of E with _ = match po with PoUnit => ret_to _ _ _ ?b | _ => _ end => set (z := b) in E end.
  assert (Ez : astep b1 = ret_to (NOp op) (more po) kk z). { destruct Hadv as [[-> ->]|[-> ->]]; [|exact E]. rewrite E. cbn. rewrite Hxb1. cbn. by rewrite ?lookup_insert. }
  clear E. rename Ez into E. unfold ret_to in E. subst z. cbn in E.
  match type of E with _ = ANext ?b => set (c := b) in E end.
  assert (Hstc : steps a (one k J) (two x s X) ns c (one k J1) (two x s X1)).
  { eapply (back_steps a b b1 c); try done.
    - intros y _ _. by rewrite E4.
    - intros j Hj. rewrite E2. by rewrite lookup_insert_ne.
    - by apply goes_step.
    - intros k' c' fn. cbn. rewrite !insert_insert. intros [[_ <-]|[_ Hl]]%lookup_insert_Some; [done|by eapply Hn2].
    - cbn. by rewrite Hwb1.
    - intros j Hj. cbn. by rewrite !lookup_insert_ne by done. }
  exists c, kp', J1, X1, n, d'. split; [eapply lasts_mid; [exact G1|exact Hla|by apply goes_step]|]. split; [done|]. split; [done|]. split; [done|]. pose proof Hstc as (_&_&_&_&Hhc&_). split; try done.
  - cbn. rewrite !lookup_insert. by eexists _, _.
  - intros dd Hcd Ecd Had Hhd Hfd. apply Hgo; [|done]. split; [done|]. split; [by rewrite Hcb1|]. split; [|done]. destruct Had as [B1 B2 B3 B4 B5]. split; try done.
    intros j Hj. rewrite B2 by done. cbn. rewrite !lookup_insert_ne by (intros ->; done). done.
  - intros dd Hcd Ecd Had Hhd Hfd. apply Hkill; [|done]. split; [done|]. split; [by rewrite Hcb1|]. split; [|done]. destruct Had as [B1 B2 B3 B4 B5]. split; try done.
    intros j Hj. rewrite B2 by done. cbn. rewrite !lookup_insert_ne by (intros ->; done). done.
Qed.
(** ... or the end: the function returned or threw. *)
Definition answer_end (st : stop) (r : ans) : resp := match st with Raises e => RExn (XUser e) | _ => ROk r end.
Lemma susp_inc_end a x k s v kp J X d ns st op po kk : susp a x k s v kp J X d (inl <$> ns) st -> st <> Cut -> calm a -> advance x op po ->
  a_foc a = AUser (SDo op kk) ->
  exists b J' X', steps a (one k J) (two x s X) ns b (one k J') (two x s X') /\ a_foc b = AUser (kk (answer_end st (nomore po))) /\ finished b x k s.
Proof.
  intros Hsu Hst0 Hcm Hadv Hf. pose proof (susp_cur _ _ _ _ _ _ _ _ _ _ _ Hsu) as Hcur.
  destruct (susp_enter _ _ _ _ _ _ _ _ _ _ _ _ _ _ Hsu Hcm Hadv Hf) as (b&o&by_&G1&C1&Hh1&A1&E1&Hf1&O1&Hac&Hco&E2&E3&E4&E5&E6&E7).
  destruct (ctl_of st) as [ct|] eqn:Hct; [|by destruct st].
  destruct (acts_end _ _ _ _ _ _ _ _ Hac ns ct eq_refl Hct C1 Hh1) as (b1&J1&X1&Hst&Hf2).
  destruct Hsu as [Hx Hs Hxs _ [Hha1 Hha2] Hk Hnx Hns Hk0 _ _]. destruct (Hha1 k) as (Hkn&Hwk&_); [by left|].
  assert (Hxn : x < a_nh a) by (apply Hha2; by left). assert (Hsn : s < a_nh a) by (apply Hha2; by right; left).
  pose proof Hst as (_&C2&F&[Gr1 Gr2]&Hh2&_). assert (Hcob1 : a_co b1 !! k = Some (ACo Pull KVal ARun (SlFull (PVal v)) s (a_cur a))).
  { rewrite (fr_co _ _ _ _ F), E2; [by rewrite lookup_insert|lia|done]. }
  assert (Hsb1 : a_h b1 !! s = Some (HObj Push KVal (Some (Inner k)))) by (rewrite (fr_h _ _ _ _ F), E4; [done|lia|done]).
  assert (Hxb1 : a_h b1 !! x = Some (HObj Pull KVal (Some (Outer k)))) by (rewrite (fr_h _ _ _ _ F), E4; [done|lia|done]).
  assert (Hwb1 : a_wait b1 = <[ a_cur a := WOp k (NOp op) po kk ]> (a_wait a)) by (by rewrite (fr_wait _ _ _ _ F), E3).
  assert (Hcb1 : a_cur b1 = k) by (by rewrite (fr_cur _ _ _ _ F)).
  pose proof C2 as (Hn2&_).
  assert (exists c, astep b1 = ANext c /\ a_foc c = AUser (kk (answer_end st (nomore po))) /\ a_cur c = a_cur a /\ a_wait c = delete (a_cur a) (a_wait b1) /\
    a_h c = a_h b1 /\ a_user c = a_user b1 /\ a_nh c = a_nh b1 /\ a_nk c = a_nk b1 /\ (exists ex, a_co c = <[ k := ACo Pull KVal (ADone ex) (SlFull (PVal v)) s (a_cur a) ]> (a_co b1)) /\
    output (a_tr c) = output (a_tr b1)) as (c&E&Hfc&R1&R2&R3&R4&R5&R6&[ex R7]&R8).
  { unfold astep. rewrite Hf2. destruct st as [| |e|]; [| | |done]; injection Hct as <-; rewrite ?exec_skip0, ?exec_ret0, ?exec_exn0; unfold do_leave; rewrite Hcb1;
      rewrite decide_False by lia; rewrite Hcob1; cbn; unfold give_back; cbn; rewrite Hwb1; rewrite ?lookup_insert; cbn; rewrite ?lookup_insert; cbn; rewrite ?Hcob1; cbn; rewrite ?lookup_insert; cbn;
      unfold deliver; cbn; (destruct Hadv as [[-> ->]|[-> ->]]); cbn; rewrite ?Hxb1; cbn; rewrite ?lookup_insert; cbn; unfold ret_to, exn_to; cbn; eexists; (split; [reflexivity|]); cbn; rewrite ?insert_insert; split_and!; try done; by eexists. }
  assert (Hstc : steps a (one k J) (two x s X) ns c (one k J1) (two x s X1)).
  { eapply (back_steps a b b1 c); try done.
    - intros y _ _. by rewrite E4.
    - intros j Hj. rewrite E2. by rewrite lookup_insert_ne.
    - by apply goes_step.
    - by eapply (nonew_of b1).
    - intros y _ _. by rewrite R3.
    - intros j Hj. rewrite R7. by rewrite !lookup_insert_ne by done. }
  exists c, J1, X1. split; [done|]. split; [done|]. unfold finished. rewrite R3, R7. split; [done|]. split; [done|]. split; [done|]. rewrite lookup_insert. by eexists _, _, _.
Qed.

(** ... or neither, for long. *)
Lemma susp_inc_long a x k s v kp J X d ns op po kk : susp a x k s v kp J X d (inl <$> ns) Cut -> calm a -> advance x op po -> a_foc a = AUser (SDo op kk) -> long d a ns.
Proof.
  intros Hsu Hcm Hadv Hf. destruct (susp_enter _ _ _ _ _ _ _ _ _ _ _ _ _ _ Hsu Hcm Hadv Hf) as (b&o&by_&G1&_&_&_&_&_&O1&Hac&_).
  apply (long_trans 0 _ a b []); [by apply lasts_goes|by rewrite app_nil_r|]. by eapply acts_long.
Qed.

(** The consumer leaves its loop: the object is destroyed, whatever its coroutine does. *)
Lemma susp_destroy a x k s v kp J X d tr st kk : susp a x k s v kp J X d tr st -> calm a -> a_foc a = AUser (SDo (ODestroy x) kk) ->
  exists b J' X', steps a (one k J) (two x s X) [] b J' X' /\ a_foc b = AUser (kk (ROk AUnit)).
Proof.
  intros Hsu Hcm Hf. pose proof (susp_cur _ _ _ _ _ _ _ _ _ _ _ Hsu) as Hcur.
  destruct Hsu as [Hx Hs Hxs (o&b0&Hc) [Hha1 Hha2] Hk Hnx Hns Hk0 _ Hkill]. pose proof Hcm as (Hn&Hw&Hn0&Hn1&Hfr).
  destruct (Hha1 k) as (Hkn&Hwk&_); [by left|]. assert (Hxn : x < a_nh a) by (apply Hha2; by left). assert (Hsn : s < a_nh a) by (apply Hha2; by right; left).
  pose proof (astep_do _ _ _ Hf Hn) as E. cbn in E. rewrite Hx in E. cbn in E. unfold kill in E. cbn in E. rewrite Hc in E. cbn in E. unfold exn_to in E. cbn in E.
  match type of E with _ = ANext ?c => set (b := c) in E end.
  assert (Hcb : calm b).
  { split; [|split; [|split; [done|split; [done|]]]]; cbn.
    - intros k' c' fn. cbn. intros [[_ <-]|[_ Hl]]%lookup_insert_Some; [done|by eapply Hn].
    - by rewrite lookup_insert_ne.
    - intros j Hj. rewrite lookup_insert_ne by lia. by apply Hfr. }
  destruct (Hkill b) as (b1&J1&X1&Hst&Hf2); try done.
  { split; cbn; try done; intros j Hj; [rewrite lookup_delete_ne by (intros ->; done)|rewrite lookup_insert_ne by (intros ->; done)]; done. }
  { split; [|intros y Hy; apply Hha2; by right; right]. intros j Hj. destruct (Hha1 j) as (H1&H2&H3); [by right|]. cbn. split; [done|]. rewrite lookup_insert_ne by done. split; [done|]. intros ->. done. }
  pose proof Hst as (_&C2&F&[Gr1 Gr2]&Hh2&_).
  assert (Hcob1 : a_co b1 !! k = Some (ACo Pull KVal (AUnw true) SlEmpty s (a_cur a))).
  { rewrite (fr_co _ _ _ _ F); [cbn; by rewrite lookup_insert|cbn; lia|done]. }
  assert (Hsb1 : a_h b1 !! s = Some (HObj Push KVal (Some (Inner k)))). { rewrite (fr_h _ _ _ _ F); [cbn; by rewrite lookup_delete_ne|cbn; lia|done]. }
  assert (Hwb1 : a_wait b1 = <[ a_cur a := WKill k (NOp (ODestroy x)) KfDestroy kk ]> (a_wait a)) by (by rewrite (fr_wait _ _ _ _ F)).
  assert (Hcb1 : a_cur b1 = k) by (by rewrite (fr_cur _ _ _ _ F)). pose proof C2 as (Hn2&_).
  assert (G3 : goes b1 (w_foc AExit (alog (EvLeave k (Some XUnwind)) b1))).
  { apply goes_step. unfold astep. rewrite Hf2, exec_exn0. unfold do_leave. rewrite Hcb1. rewrite decide_False by lia. by rewrite Hcob1. }
  destruct (exit_pull (w_foc AExit (alog (EvLeave k (Some XUnwind)) b1)) k (ACo Pull KVal (AUnw true) SlEmpty s (a_cur a)) k (NOp (ODestroy x)) KfDestroy kk Push KVal) as (c&G4&R1&R2&R3&R4&R5&R6&R7&R8&R9);
    [..|cbn in *]; try done. { cbn. rewrite Hwb1. by rewrite lookup_insert. }
  exists c, (one k J1), (two x s X1). split; [|done]. change (@nil T) with (@nil T) in Hst.
  eapply (back_steps a b b1 c); try done.
  - by apply goes_step.
  - intros y Hy _. cbn. by rewrite lookup_delete_ne.
  - intros j Hj. cbn. by rewrite lookup_insert_ne.
  - by eapply goes_trans.
  - intros k' c' fn. rewrite R3. intros [_ Hl]%lookup_delete_Some. by eapply Hn2.
  - intros y _ Hy. rewrite R2. by rewrite lookup_delete_ne.
  - intros j Hj. rewrite R3. by rewrite lookup_delete_ne.
Qed.

Lemma same_steps k x s J X a b : calm a -> has (one k J) (two x s X) a -> goes a b -> nonew b -> same [k] [x; s] a b -> a_nh b = a_nh a -> a_nk b = a_nk a -> output (a_tr b) = output (a_tr a) ->
  steps a (one k J) (two x s X) [] b (one k J) (two x s X).
Proof.
  intros (Hn&Hw&Hn0&Hn1&Hfr) [H1 H2] G Hnb [A1 A2 A3 A4 A5] E1 E2 E3. split; [done|]. split. { split; [done|]. by rewrite A3, A4, E2. }
  split. { split; try done; try lia.
    - intros y Hy Hny. apply A1. intros Hi. apply Hny. unfold two. rewrite !elem_of_cons, elem_of_nil in Hi. naive_solver.
    - intros y Hy Hny. apply A5. intros ->%elem_of_list_singleton. apply Hny. by left. }
  split; [apply grows_refl|]. split; [|by rewrite app_nil_r]. split; rewrite ?A3, ?A4, ?E1, ?E2; done.
Qed.
Lemma done_destroy a x k s J X kk : finished a x k s -> 0 < k -> has (one k J) (two x s X) a -> calm a -> a_foc a = AUser (SDo (ODestroy x) kk) ->
  exists b J' X', steps a (one k J) (two x s X) [] b J' X' /\ a_foc b = AUser (kk (ROk AUnit)).
Proof.
  intros Hfi Hk0 Hh Hcm Hf. pose proof Hcm as (Hn&Hw&Hn0&Hn1&Hfr). destruct Hh as [Hh1 Hh2]. destruct (Hh1 k) as (?&?&?); [by left|].
  destruct (destroy_done a x k s kk Hfi Hn Hf Hw) as (b&G&Hfb&Hnb&Hsm&E1&E2&E3); [done|lia|].
  exists b, (one k J), (two x s X). split; [|done]. by apply same_steps.
Qed.
Lemma empty_destroy a x (J X : fp) kk : a_h a !! x = Some (HObj Pull KVal None) -> X x -> has J X a -> calm a -> a_foc a = AUser (SDo (ODestroy x) kk) ->
  exists b, steps a J X [] b J X /\ a_foc b = AUser (kk (ROk AUnit)).
Proof.
  intros Hx HX Hh Hcm Hf. pose proof Hcm as (Hn&Hw&Hn0&Hn1&Hfr).
  destruct (destroy_empty a x Pull KVal kk (a_nk a) x Hx Hn Hf) as (b&G&Hfb&Hnb&[A1 A2 A3 A4 A5]&E1&E2&E3). exists b. split; [|done].
  split; [done|]. split. { split; [done|]. by rewrite A3, A4, E2. }
  split. { split; try done; try lia.
    - intros y Hy Hny. apply A1. intros Hi. apply Hny. rewrite !elem_of_cons, elem_of_nil in Hi. naive_solver.
    - intros j Hj _. apply A5. intros ->%elem_of_list_singleton. lia. }
  split; [apply grows_refl|]. split; [|by rewrite app_nil_r]. destruct Hh as [H1 H2]. split; rewrite ?A3, ?A4, ?E1, ?E2; done.
Qed.

(** ** A coroutine is made *)
Lemma back_new a b b1 c k x s J1 X1 ns w : k = a_nk a -> x = a_nh a -> s = S (a_nh a) ->
  calm a -> goes a b -> output (a_tr b) = output (a_tr a) -> (forall y, y < a_nh a -> a_h b !! y = a_h a !! y) -> a_user b = a_user a -> a_nh b = S (S (a_nh a)) -> a_nk b = S (a_nk a) ->
  (forall j, j < a_nk a -> a_co b !! j = a_co a !! j) -> a_wait b = <[ a_cur a := w ]> (a_wait a) -> a_cur b = k ->
  steps b none none ns b1 J1 X1 ->
  goes b1 c -> nonew c -> a_cur c = a_cur a -> a_wait c = delete (a_cur a) (a_wait b1) -> (forall y, y < a_nh a -> a_h c !! y = a_h b1 !! y) -> a_user c = a_user b1 -> a_nh c = a_nh b1 -> a_nk c = a_nk b1 ->
  (forall j, j < a_nk a -> a_co c !! j = a_co b1 !! j) -> output (a_tr c) = output (a_tr b1) ->
  steps a none none ns c (one k J1) (two x s X1).
Proof.
  intros -> -> -> Hcm G1 O1 E1 E2 E3 E4 E5 E6 E7 (G2&C2&[F1 F2 F3 F4 F5 F6 F7]&[W1 W2]&[H1 H2]&O2) G3 Hnc C3 C4 C5 C6 C7 C8 C9 O3.
  pose proof Hcm as (Hn&Hw&Hn0&Hn1&Hfr). assert (Ew : a_wait c = a_wait a). { rewrite C4, F5, E6. by apply delete_insert. }
  split; [eapply goes_trans; [exact G1|by eapply goes_trans]|].
  split. { split; [done|]. rewrite C3, Ew. split; [done|]. split; [lia|]. split; [lia|]. intros j Hj. apply Hfr. lia. }
  split. { split; try congruence; try lia.
    - intros y Hy _. rewrite C5, F1, E1; try done; try lia; by intros [].
    - intros j Hj _. rewrite C9, F2, E5; try done; try lia; by intros []. }
  split. { split; intros j.
    - intros [->|[[]|?]%W1]; right; lia.
    - intros [->|[->|[[]|?]%W2]]; right; lia. }
  split. { split.
    - intros j [->|Hj].
      + rewrite Ew, C3. split; [lia|]. split; [apply Hfr; lia|]. lia.
      + destruct (H1 j Hj) as (?&Hwj&?). rewrite F5, E6 in Hwj. apply lookup_insert_None in Hwj as [? ?]. rewrite Ew, C3. split; [lia|]. split; [done|]. by intros ->.
    - intros j [->|[->|Hj%H2]]; lia. }
  rewrite O3, O2, O1. done.
Qed.

Section made.
Context (a : astate) (fn : nat -> strat) (kk : resp -> strat) (d : nat) (tr : list (T + T)) (st : stop).
Context (Hcm : calm a) (Hf : a_foc a = AUser (SNew Pull KVal (NewP None None) fn kk)).
Context (Hfn : forall b, calm b -> a_foc b = AUser (fn (S (a_nh a))) -> acts (Some (S (a_nh a))) [] d b none none tr st).
Let k := a_nk a.
Let x := a_nh a.
Let s := S (a_nh a).

Lemma made_enter : exists b, goes a b /\ calm b /\ acts (Some s) [] d b none none tr st /\ output (a_tr b) = output (a_tr a) /\
  a_h b = <[ s := HObj Push KVal (Some (Inner k)) ]> (a_h a) /\ a_user b = a_user a /\ a_nh b = S (S (a_nh a)) /\ a_nk b = S (a_nk a) /\
  a_co b = <[ k := ACo Pull KVal ARun SlEmpty s (a_cur a) ]> (a_co a) /\ a_wait b = <[ a_cur a := WOp k (NNew Pull KVal) (PoNew x KVal) kk ]> (a_wait a) /\ a_cur b = k.
Proof.
  destruct (new_enter a fn kk Hf) as (b&G&E). exists b. pose proof Hcm as (Hn&Hw&Hn0&Hn1&Hfr). assert (Hcb : calm b).
  { rewrite E. split; [|split; [|split; [|split]]]; cbn.
    - intros k' c' fn'. cbn. intros [[_ <-]|[_ Hl]]%lookup_insert_Some; [done|by eapply Hn].
    - rewrite lookup_insert_ne by lia. apply Hfr. done.
    - lia.
    - lia.
    - intros j Hj. rewrite lookup_insert_ne by lia. apply Hfr. lia. }
  split; [done|]. split; [done|]. split; [apply Hfn; [done|by rewrite E]|]. rewrite E. done.
Qed.

Lemma made_value ns v tr' : tr = (inl <$> ns) ++ inr v :: tr' ->
  exists b kp J X c d', lasts c a b /\ d <= c + d' /\ steps a none none ns b (one k J) (two x s X) /\ a_foc b = AUser (kk (ROk (AH x))) /\ susp b x k s v kp J X d' tr' st.
Proof.
  intros Etr. destruct made_enter as (b&G1&C1&Hac&O1&E1&E2&E3&E4&E5&E6&E7). pose proof Hcm as (Hn&Hw&Hn0&Hn1&Hfr).
  destruct (acts_value _ _ _ _ _ _ _ _ Hac ns v tr' Etr C1 (has_none _)) as (b1&J1&X1&kp'&n&d'&Hla&Hd&Hst&Hf2&Hgo&Hkill).
  pose proof Hst as (_&C2&F&[Gr1 Gr2]&Hh2&_). assert (Hcob1 : a_co b1 !! k = Some (ACo Pull KVal ARun SlEmpty s (a_cur a))).
  { rewrite (fr_co _ _ _ _ F), E5; [by rewrite lookup_insert|lia|by intros []]. }
  assert (Hsb1 : a_h b1 !! s = Some (HObj Push KVal (Some (Inner k)))) by (rewrite (fr_h _ _ _ _ F), E1; [by rewrite lookup_insert|lia|by intros []]).
  assert (Hwb1 : a_wait b1 = <[ a_cur a := WOp k (NNew Pull KVal) (PoNew x KVal) kk ]> (a_wait a)) by (by rewrite (fr_wait _ _ _ _ F), E6).
  assert (Hcb1 : a_cur b1 = k) by (by rewrite (fr_cur _ _ _ _ F)).
  assert (HJ1 : ~ J1 k). { intros [[]|?]%Gr1; lia. } assert (HX1 : ~ X1 x). { intros [[]|?]%Gr2; lia. } assert (HX2 : ~ X1 s). { intros [[]|?]%Gr2; lia. }
  pose proof C2 as (Hn2&_). pose proof (astep_do _ _ _ Hf2 Hn2) as E. cbn in E. fold s in E. rewrite Hsb1 in E. unfold push_op, resumable in E. cbn in E.
  rewrite Hcb1 in E. rewrite bool_decide_eq_true_2 in E by done. cbn in E. rewrite Hcob1 in E. cbn in E. rewrite nothrow in E.
  unfold transfer, give_back in E. cbn in E. rewrite ?lookup_insert, ?Hcb1, ?Hwb1 in E. cbn in E. rewrite ?lookup_insert in E. cbn in E. unfold deliver in E. cbn in E. rewrite ?lookup_insert in E. cbn in E.
  unfold ret_to in E. cbn in E.
  match type of E with _ = ANext ?b => set (c := b) in E end.
  assert (Hstc : steps a none none ns c (one k J1) (two x s X1)).
  { eapply (back_new a b b1 c); try done.
    - intros y Hy. rewrite E1. by rewrite lookup_insert_ne by lia.
    - intros j Hj. rewrite E5. by rewrite lookup_insert_ne by lia.
    - by apply goes_step.
    - intros k' c' fn'. cbn. rewrite !insert_insert. intros [[_ <-]|[_ Hl]]%lookup_insert_Some; [done|by eapply Hn2].
    - cbn. by rewrite Hwb1.
    - intros y Hy. cbn. by rewrite lookup_insert_ne by (subst x; lia).
    - intros j Hj. cbn. by rewrite !lookup_insert_ne by (subst k; lia). }
  exists c, kp', J1, X1, n, d'. split; [eapply lasts_mid; [exact G1|exact Hla|by apply goes_step]|]. split; [done|]. split; [done|]. split; [done|]. pose proof Hstc as (_&_&_&_&Hhc&_). split; try done.
  - cbn. by rewrite lookup_insert.
  - cbn. rewrite lookup_insert_ne by (subst x s; lia). done.
  - subst x s; lia.
  - cbn. rewrite !lookup_insert. by eexists _, _.
  - intros dd Hcd Ecd Had Hhd Hfd. apply Hgo; [|done]. split; [done|]. split; [by rewrite Hcb1|]. split; [|done]. destruct Had as [B1 B2 B3 B4 B5]. split; try done.
    + intros y Hy. rewrite B1 by done. cbn. by rewrite lookup_insert_ne by (intros <-; done).
    + intros j Hj. rewrite B2 by done. cbn. rewrite !lookup_insert_ne by (intros ->; done). done.
  - intros dd Hcd Ecd Had Hhd Hfd. apply Hkill; [|done]. split; [done|]. split; [by rewrite Hcb1|]. split; [|done]. destruct Had as [B1 B2 B3 B4 B5]. split; try done.
    + intros y Hy. rewrite B1 by done. cbn. by rewrite lookup_insert_ne by (intros <-; done).
    + intros j Hj. rewrite B2 by done. cbn. rewrite !lookup_insert_ne by (intros ->; done). done.
Qed.
Lemma made_long ns : tr = (inl <$> ns) -> st = Cut -> long d a ns.
Proof.
  intros Etr Es. destruct made_enter as (b&G1&C1&Hac&O1&_). apply (long_trans 0 _ a b []); [by apply lasts_goes|by rewrite app_nil_r|]. by eapply acts_long.
Qed.
Lemma made_end ns : tr = (inl <$> ns) -> st <> Cut ->
  exists b J X, steps a none none ns b (one k J) (two x s X) /\ a_foc b = AUser (kk (answer_end st (AH x))) /\ (match st with Raises _ => True | _ => a_h b !! x = Some (HObj Pull KVal None) end).
Proof.
  intros Etr Hst0. destruct made_enter as (b&G1&C1&Hac&O1&E1&E2&E3&E4&E5&E6&E7). pose proof Hcm as (Hn&Hw&Hn0&Hn1&Hfr).
  destruct (ctl_of st) as [ct|] eqn:Hct; [|by destruct st].
  destruct (acts_end _ _ _ _ _ _ _ _ Hac ns ct Etr Hct C1 (has_none _)) as (b1&J1&X1&Hst&Hf2).
  pose proof Hst as (_&C2&F&[Gr1 Gr2]&Hh2&_). assert (Hcob1 : a_co b1 !! k = Some (ACo Pull KVal ARun SlEmpty s (a_cur a))).
  { rewrite (fr_co _ _ _ _ F), E5; [by rewrite lookup_insert|lia|by intros []]. }
  assert (Hsb1 : a_h b1 !! s = Some (HObj Push KVal (Some (Inner k)))) by (rewrite (fr_h _ _ _ _ F), E1; [by rewrite lookup_insert|lia|by intros []]).
  assert (Hwb1 : a_wait b1 = <[ a_cur a := WOp k (NNew Pull KVal) (PoNew x KVal) kk ]> (a_wait a)) by (by rewrite (fr_wait _ _ _ _ F), E6).
  assert (Hcb1 : a_cur b1 = k) by (by rewrite (fr_cur _ _ _ _ F)).
  pose proof C2 as (Hn2&_). set (kf := match st with Raises e => KfThrow e | _ => KfEmpty x KVal end).
  assert (exists c, astep b1 = ANext c /\ a_foc c = AExit /\ a_cur c = k /\ a_h c = a_h b1 /\ a_user c = a_user b1 /\ a_nh c = a_nh b1 /\ a_nk c = a_nk b1 /\
    a_co c = <[ k := ACo Pull KVal (AUnw true) SlEmpty s (a_cur a) ]> (a_co b1) /\ a_wait c = <[ a_cur a := WKill k (NNew Pull KVal) kf kk ]> (a_wait a) /\
    output (a_tr c) = output (a_tr b1)) as (c&E&Hfc&R0&R3&R4&R5&R6&R7&R2&R8).
  { unfold astep. rewrite Hf2. subst kf. destruct st as [| |e|]; [| | |done]; injection Hct as <-; rewrite ?exec_skip0, ?exec_ret0, ?exec_exn0; unfold do_leave; rewrite Hcb1;
      rewrite decide_False by (subst k; lia); rewrite Hcob1; cbn; unfold give_back; cbn; rewrite Hwb1; rewrite ?lookup_insert; cbn; rewrite ?lookup_insert; cbn; rewrite ?Hcob1; cbn; rewrite ?lookup_insert; cbn;
      unfold deliver; cbn; rewrite ?lookup_insert; cbn; unfold kill; cbn; rewrite ?lookup_insert; cbn; eexists; (split; [reflexivity|]); cbn; rewrite ?insert_insert, ?delete_insert by done; split_and!; try done. }
  destruct (exit_pull c k (ACo Pull KVal (AUnw true) SlEmpty s (a_cur a)) k (NNew Pull KVal) kf kk Push KVal) as (z&G4&T1&T2&T3&T4&T5&T6&T7&T8&T9);
    [done|done|by rewrite R7, lookup_insert|done|by rewrite R3|cbn; by rewrite R2, lookup_insert|]. cbn in *.
  exists z, J1, X1. split; [|split; [rewrite T1; subst kf; by destruct st|rewrite T2; subst kf; by destruct st; rewrite ?lookup_insert]].
  eapply (back_new a b b1 z); try done; try congruence.
  - intros y Hy. rewrite E1. by rewrite lookup_insert_ne by lia.
  - intros j Hj. rewrite E5. by rewrite lookup_insert_ne by lia.
  - eapply goes_trans; [by apply goes_step|done].
  - intros k' c' fn'. rewrite T3, R7. rewrite delete_insert_delete. intros [_ Hl]%lookup_delete_Some. by eapply Hn2.
  - rewrite T4, R2, Hwb1. by rewrite !delete_insert_delete.
  - intros y Hy. rewrite T2, R3. subst kf. destruct st; rewrite ?(lookup_insert_ne _ x) by (subst x; lia); by rewrite lookup_delete_ne by (subst s; lia).
  - intros j Hj. rewrite T3, R7. rewrite lookup_delete_ne by (subst k; lia). by rewrite !lookup_insert_ne by (subst k; lia).
Qed.
End made.

(** ** Owning a generator *)
(** The object [x] can be destroyed, by the current context, at any time. *)
Definition held (a : astate) (x : nat) (J X : fp) : Prop :=
  has J X a /\ forall b kk, calm b -> a_cur b = a_cur a -> agree J X a b -> has J X b -> a_foc b = AUser (SDo (ODestroy x) kk) ->
    exists c J' X', steps b J X [] c J' X' /\ a_foc c = AUser (kk (ROk AUnit)).
Lemma held_susp a x k s v kp J X d tr st : susp a x k s v kp J X d tr st -> held a x (one k J) (two x s X).
Proof.
  intros H. split; [by destruct H|]. intros b kk Hc _ Ha Hh Hf. eapply susp_destroy; [by eapply susp_agree|done..].
Qed.
Lemma held_done a x k s J X : finished a x k s -> 0 < k -> has (one k J) (two x s X) a -> held a x (one k J) (two x s X).
Proof.
  intros (H1&H2&H3&H4) Hk Hh. split; [done|]. intros b kk Hc _ [A1 A2 _ _ _] Hhb Hf. apply done_destroy; try done.
  split; [rewrite A1; [done|by left]|]. split; [rewrite A1; [done|by right; left]|]. split; [done|]. rewrite A2; [done|by left].
Qed.
Lemma held_empty a x (J X : fp) : a_h a !! x = Some (HObj Pull KVal None) -> X x -> has J X a -> held a x J X.
Proof.
  intros H1 HX Hh. split; [done|]. intros b kk Hc _ [A1 A2 _ _ _] Hhb Hf.
  destruct (empty_destroy b x J X kk) as (c&?&?); try done; [by rewrite A1|by exists c, J, X].
Qed.
Lemma held_agree a b x J X : held a x J X -> a_cur b = a_cur a -> agree J X a b -> has J X b -> held b x J X.
Proof. intros [_ H] E Ha Hh. split; [done|]. intros c kk Hc Ec Hac Hhc Hf. apply H; try done; [congruence|by eapply agree_trans]. Qed.

Lemma leave a x c fs J X : held a x J X -> calm a -> match c with Go s => s = Skip | _ => True end -> a_foc a = AUser (exec c (FLocal (ODestroy x) Skip :: fs)) ->
  exists b J' X', steps a J X [] b J' X' /\ a_foc b = AUser (exec c fs).
Proof.
  intros [Hh H] Hc Hct Hf. rewrite (strat_eta (exec _ _)) in Hf. destruct c as [sk| |e]; cbn in Hf; [subst sk| |];
    destruct (H a _ Hc eq_refl (agree_refl _ _ _) Hh Hf) as (b&J'&X'&Hs&Hfb); by exists b, J', X'.
Qed.
Lemma leave_acts d a x st c fs o J X : held a x J X -> calm a -> ctl_of st = Some c -> a_foc a = AUser (exec c (FLocal (ODestroy x) Skip :: fs)) -> acts o fs d a J X [] st.
Proof.
  intros Hh Hc Hct Hf. destruct (leave a x c fs J X Hh Hc) as (b&J'&X'&Hs&Hfb); [by destruct st; simplify_eq/=|done|].
  change (@nil (T + T)) with ((inl <$> @nil T) ++ @nil (T + T)). eapply ac_steps; [done|]. by eapply ac_end.
Qed.

Global Instance stop_dec_ends (st : stop) : Decision (st = Ends).
Proof. destruct st; first [by left|by right]. Defined.
Global Instance stop_dec_cut (st : stop) : Decision (st = Cut).
Proof. destruct st; first [by left|by right]. Defined.
Lemma tau_block c k fs : match c with Go s => False | _ => True end -> rtc tau (exec c (FBlock k :: fs)) (exec c fs).
Proof. intros H. rewrite (strat_eta (exec c (FBlock k :: fs))). destruct c; [done|..]; cbn; eapply rtc_l; try constructor. Qed.
Lemma tau_after k fs : rtc tau (exec (Go Skip) (FBlock k :: fs)) (exec (Go k) fs).
Proof. rewrite (strat_eta (exec _ (FBlock k :: fs))). cbn. eapply rtc_l; constructor. Qed.
Lemma tau_in k1 k fs : rtc tau (exec (Go (Block k1 k)) fs) (exec (Go k1) (FBlock k :: fs)).
Proof. rewrite (strat_eta (exec _ fs)). cbn. eapply rtc_l; constructor. Qed.

(** How yields are done: [None], in main, by writing. *)
Definition yielder (o : option nat) (v : T) : stm := match o with Some s => push s (AImm v) Skip | None => emit v Skip end.
Definition conv (o : option nat) (l : list (T + T)) : list (T + T) :=
  match o with Some _ => l | None => (fun y => match y with inl w => inl w | inr v => inl v end) <$> l end.
Lemma conv_app o l l' : conv o (l ++ l') = conv o l ++ conv o l'.
Proof. destruct o; cbn; [done|]. by rewrite fmap_app. Qed.
Lemma conv_notes o (ns : list T) : conv o (inl <$> ns) = inl <$> ns.
Proof. destruct o; cbn; [done|]. by rewrite <- list_fmap_compose. Qed.
Lemma conv_nil o : conv o [] = [].
Proof. by destruct o. Qed.

Lemma over_notes B n ns l st : over B n ((inl <$> ns) ++ l) st = ((inl <$> ns) ++ (over B n l st).1, (over B n l st).2).
Proof. induction ns as [|w ns IH]; cbn; [by destruct (over B n l st)|]. by rewrite IH. Qed.
Lemma over_only B n ns st : over B n (inl <$> ns) st = (inl <$> ns, match st with Returns => Ends | _ => st end).
Proof. rewrite <- (app_nil_r (inl <$> ns)), over_notes. cbn. by rewrite app_nil_r. Qed.
Lemma split_notes (l : list (T + T)) : exists ns, l = inl <$> ns \/ exists v l', l = (inl <$> ns) ++ inr v :: l' /\ length l' < length l.
Proof.
  induction l as [|[w|v] l IH].
  - exists []. by left.
  - destruct IH as (ns&[->|(v&l'&->&Hl)]); exists (w :: ns); [by left|right]. exists v, l'. split; [done|]. cbn in *. lia.
  - exists []. right. exists v, l. split; [done|]. cbn. lia.
Qed.

Lemma for_loop_eq n b i e : for_loop n b i e = match n with
  | Some 0 => Skip
  | _ =>
    Do (OItNe i e) eq_refl (fun c =>
    match c with
    | AB true =>
        Do (OItDeref i) eq_refl (fun v =>
        match v with
        | AV v => Block (b v)
            (match n with
             | Some 1 => Skip
             | _ => Do (OItInc i) eq_refl (fun j => match j with AIt j => for_loop (pred <$> n) b j e | _ => Skip end)
             end)
        | _ => Skip
        end)
    | _ => Skip
    end)
  end.
Proof. rewrite (stm_eta (for_loop n b i e)). cbn. by destruct n as [[|n]|]. Qed.

(** At the end of the source the loop ends. *)
Lemma loop_end d o fs n b a x J X : held a x J X -> calm a -> a_foc a = AUser (exec (Go (for_loop n b None None)) (FLocal (ODestroy x) Skip :: fs)) -> acts o fs d a J X [] Ends.
Proof.
  intros Hh Hc Hf. rewrite for_loop_eq in Hf.
  assert (Hgo : a_foc a = AUser (exec (Go (Do (OItNe None None) eq_refl (fun c =>
    match c with
    | AB true =>
        Do (OItDeref None) eq_refl (fun v =>
        match v with
        | AV v => Block (b v)
            (match n with
             | Some 1 => Skip
             | _ => Do (OItInc None) eq_refl (fun j => match j with AIt j => for_loop (pred <$> n) b j None | _ => Skip end)
             end)
        | _ => Skip
        end)
    | _ => Skip
    end))) (FLocal (ODestroy x) Skip :: fs)) -> acts o fs d a J X [] Ends).
  { intros Hg. destruct (steps_look a _ _ _ _ (AB false) [] J X Hc (proj1 Hh) Hg) as (a1&S1&F1&A1); [done|done|].
    change (@nil (T + T)) with ((inl <$> @nil T) ++ @nil (T + T)). eapply ac_steps; [done|].
    eapply leave_acts; [|by eapply steps_calm|reflexivity|exact F1]. eapply held_agree; [done|by eapply steps_cur|done|by eapply steps_has]. }
  destruct n as [[|n]|]; [|by apply Hgo..]. by eapply leave_acts.
Qed.

Section loop.
Context (o : option nat) (fs : list frame) (b : T -> stm) (B : T -> trace) (D : nat).
Context (HB : forall v fs a, calm a -> a_foc a = AUser (exec (Go (b v)) fs) -> acts o fs D a none none (conv o (B v).1) (B v).2).

Lemma loop_acts N tr : length tr < N -> forall n a x k s v kp J X d d' st, susp a x k s v kp J X d' tr st -> d <= d' -> d <= D -> calm a ->
  a_foc a = AUser (exec (Go (for_loop n b (Some x) None)) (FLocal (ODestroy x) Skip :: fs)) ->
  acts o fs d a (one k J) (two x s X) (conv o (over B n (inr v :: tr) st).1) (over B n (inr v :: tr) st).2.
Proof.
  revert tr. induction N as [|N IH]; intros tr HN; [lia|]. intros n a x k s v kp J X d d' st Hsu Hd HD Hc Hf.
  pose proof (held_susp _ _ _ _ _ _ _ _ _ _ _ Hsu) as Hhe. pose proof (su_has _ _ _ _ _ _ _ _ _ _ _ Hsu) as Hh.
  destruct (decide (n = Some 0)) as [->|Hn0].
  { rewrite for_loop_eq in Hf. cbn. rewrite conv_nil. by eapply leave_acts. }
  rewrite for_loop_eq in Hf.
  set (K := match n with Some 1 => Skip | _ => Do (OItInc (Some x)) eq_refl (fun j => match j with AIt j => for_loop (pred <$> n) b j None | _ => Skip end) end) in *.
  assert (Hf' : a_foc a = AUser (exec (Go (Do (OItNe (Some x) None) eq_refl (fun c =>
    match c with AB true => Do (OItDeref (Some x)) eq_refl (fun v => match v with AV v => Block (b v) K | _ => Skip end) | _ => Skip end))) (FLocal (ODestroy x) Skip :: fs))).
  { by destruct n as [[|n]|]. } clear Hf.
  destruct (steps_look a _ _ _ _ (AB true) [] _ _ Hc Hh Hf') as (a1&S1&F1&A1); [done|done|]. cbn in F1.
  pose proof (steps_calm _ _ _ _ _ _ _ S1) as C1. pose proof (steps_has _ _ _ _ _ _ _ S1) as Hh1. pose proof (susp_agree _ _ _ _ _ _ _ _ _ _ _ _ Hsu A1 Hh1) as Su1.
  destruct (steps_look a1 _ _ _ _ (AV v) [] _ _ C1 Hh1 F1) as (a2&S2&F2&A2).
  { intros kk. cbn. rewrite (su_x _ _ _ _ _ _ _ _ _ _ _ Su1). unfold readable. cbn. destruct (su_co _ _ _ _ _ _ _ _ _ _ _ Su1) as (o1&b1&->). done. }
  { done. }
  pose proof (steps_calm _ _ _ _ _ _ _ S2) as C2. pose proof (steps_has _ _ _ _ _ _ _ S2) as Hh2. pose proof (susp_agree _ _ _ _ _ _ _ _ _ _ _ _ Su1 A2 Hh2) as Su2.
  destruct (steps_tau a2 _ _ _ _ C2 Hh2 F2 (tau_in _ _ _)) as (a3&S3&F3&A3).
  pose proof (steps_calm _ _ _ _ _ _ _ S3) as C3. pose proof (steps_has _ _ _ _ _ _ _ S3) as Hh3. pose proof (susp_agree _ _ _ _ _ _ _ _ _ _ _ _ Su2 A3 Hh3) as Su3.
  eapply ac_nil; [eapply (steps_trans _ _ _ []); [exact S1|eapply (steps_trans _ _ _ []); [exact S2|exact S3]]|]. clear S1 S2 S3 A1 A2 A3 Su1 Su2 F1 F2 Hf' Hhe Hsu.
  assert (exists tr2 st2, (over B n (inr v :: tr) st).1 = (B v).1 ++ tr2 /\ (over B n (inr v :: tr) st).2 = st2 /\
    (((B v).2 <> Ends \/ n = Some 1) /\ tr2 = [] /\ st2 = (B v).2 \/ ((B v).2 = Ends /\ n <> Some 1) /\ (tr2, st2) = over B (pred <$> n) tr st)) as (tr2&st2&E1&E2&Hcases).
  { clear -Hn0. destruct (B v) as [l st1] eqn:EB. destruct n as [[|[|n]]|]; [done|..]; cbn; rewrite EB; cbn.
    - exists [], st1. rewrite app_nil_r. split; [done|]. split; [done|]. left. auto.
    - destruct (decide (st1 = Ends)) as [->|Hs]; cbn.
      + exists (over B (Some (S n)) tr st).1. eexists. split; [done|]. split; [done|]. right. split; [done|]. by destruct (over B _ tr st).
      + exists [], st1. rewrite app_nil_r. split; [by destruct st1|]. split; [by destruct st1|]. left. auto.
    - destruct (decide (st1 = Ends)) as [->|Hs]; cbn.
      + exists (over B None tr st).1. eexists. split; [done|]. split; [done|]. right. split; [done|]. by destruct (over B _ tr st).
      + exists [], st1. rewrite app_nil_r. split; [by destruct st1|]. split; [by destruct st1|]. left. auto. }
  rewrite E1, E2, conv_app. clear E1 E2.
  apply (acts_weaken _ _ _ _ (plus none (one k J)) (plus none (two x s X))); [|apply sub_plus; [apply sub_none|apply sub_refl]..].
  eapply acts_bind; [by apply HB|done|done|apply has_none|done|apply apart_none..| | |].
  - (* the body is unwound *)
    intros a4 J4 X4 C4 Ec4 A4 Hh4 _ F4. pose proof (susp_agree _ _ _ _ _ _ _ _ _ _ _ _ Su3 A4 Hh4) as Su4.
    destruct (steps_tau a4 _ _ _ _ C4 Hh4 F4 (tau_block (Exn XUnwind) _ _ I)) as (a5&S5&F5&A5).
    pose proof (steps_has _ _ _ _ _ _ _ S5) as Hh5. pose proof (susp_agree _ _ _ _ _ _ _ _ _ _ _ _ Su4 A5 Hh5) as Su5.
    destruct (leave a5 x (Exn XUnwind) fs _ _ (held_susp _ _ _ _ _ _ _ _ _ _ _ Su5)) as (a6&J6&X6&S6&F6); [by eapply steps_calm|done|done|].
    exists a6, J6, X6. split; [|done]. eapply steps_weaken; [|apply sub_r|apply sub_r]. eapply (steps_trans _ _ _ []); [exact S5|exact S6].
  - intros a4 J4 X4 c C4 Ec4 A4 Hh4 _ Hct F4. pose proof (susp_agree _ _ _ _ _ _ _ _ _ _ _ _ Su3 A4 Hh4) as Su4.
    eapply acts_weaken; [|apply sub_r|apply sub_r]. clear Su3 C3 Hh3 F3 A4 Ec4. clear a a1 a2 a3 Hc C1 C2 Hh Hh1 Hh2.
    destruct (decide ((B v).2 = Ends)) as [He|He].
    + (* the round is over *)
      rewrite He in Hct. injection Hct as <-.
      eapply acts_tau; [done|done|done|apply tau_after|]. intros a5 C5 Hh5 A5 F5 _. pose proof (susp_agree _ _ _ _ _ _ _ _ _ _ _ _ Su4 A5 Hh5) as Su5.
      destruct Hcases as [[Hdd [-> ->]]|[[_ Hn1] E]].
      { (* the last *) rewrite He. rewrite conv_nil. destruct Hdd as [?|Hn1]; [done|]. subst n.
        eapply leave_acts; [by eapply held_susp|done|reflexivity|exact F5]. }
      assert (F5' : a_foc a5 = AUser (exec (Go (Do (OItInc (Some x)) eq_refl (fun j => match j with AIt j => for_loop (pred <$> n) b j None | _ => Skip end))) (FLocal (ODestroy x) Skip :: fs))).
      { rewrite F5. subst K. by destruct n as [[|[|n]]|]. } rewrite exec_do in F5'.
      destruct (split_notes tr) as (ns&[Etr|(v'&tr'&Etr&Hl)]).
      * (* no further value *)
        subst tr. destruct (decide (st = Cut)) as [->|Hst].
        { rewrite over_only in E. injection E as -> ->. rewrite conv_notes. apply ac_cut. eapply long_less; [eapply susp_inc_long; [exact Su5|exact C5|by left|exact F5']|done]. }
        destruct (susp_inc_end _ _ _ _ _ _ _ _ _ _ _ _ (PoInc x) _ Su5 Hst C5 ltac:(by left) F5') as (a6&J6&X6&S6&F6&Hfi).
        pose proof (steps_calm _ _ _ _ _ _ _ S6) as C6. pose proof (steps_has _ _ _ _ _ _ _ S6) as Hh6.
        pose proof (held_done _ _ _ _ _ _ Hfi (su_k0 _ _ _ _ _ _ _ _ _ _ _ Su5) Hh6) as He6.
        assert (E' : tr2 = inl <$> ns /\ st2 = match st with Raises e => Raises e | _ => Ends end).
        { rewrite over_only in E. by destruct st; injection E as -> ->. }
        destruct E' as [-> ->]. rewrite conv_notes. rewrite <- (app_nil_r (inl <$> ns)). eapply ac_steps; [exact S6|].
        destruct st as [| |e|]; [| | |done]; cbn in F6; [by eapply loop_end..|]. eapply leave_acts; [done|done|reflexivity|done].
      * (* another value *)
        subst tr. destruct (susp_inc _ _ _ _ _ _ _ _ _ _ _ _ _ _ (PoInc x) _ Su5 C5 ltac:(by left) F5') as (a6&kp6&J6&X6&c6&d6&L6&Hd6&S6&F6&Su6).
        pose proof (steps_calm _ _ _ _ _ _ _ S6) as C6. cbn in F6.
        rewrite over_notes in E. injection E as -> ->. cbn. rewrite conv_app, conv_notes. eapply (ac_count _ _ _ c6 (d - c6)); [done|lia|exact S6|]. eapply IH; try done; lia.
    + assert (tr2 = [] /\ st2 = (B v).2) as [-> ->]. { destruct Hcases as [[_ ?]|[[? _] _]]; done. }
      rewrite conv_nil. assert (Hgo : match c with Go s => False | _ => True end) by (by destruct (B v).2; simplify_eq/=).
      eapply acts_tau; [done|done|done|by apply tau_block|]. intros a5 C5 Hh5 A5 F5 _. pose proof (susp_agree _ _ _ _ _ _ _ _ _ _ _ _ Su4 A5 Hh5) as Su5.
      eapply leave_acts; [by eapply held_susp|done|done|done].
  - intros Hcut. destruct Hcases as [[_ [-> ->]]|[[? _] _]]; [|congruence]. by rewrite conv_nil.
Qed.
End loop.

(** ** All programs *)
Lemma acts_pop o fs d a J X tr st : acts o (FBlock Skip :: fs) d a J X tr st -> calm a -> has J X a -> acts o fs d a J X tr st.
Proof.
  intros H Hc Hh. rewrite <- (app_nil_r tr). apply (acts_weaken _ _ _ _ (plus J none) (plus X none)); [|apply sub_plus; [apply sub_refl|apply sub_none]..].
  eapply acts_bind; [exact H|done|done|done|apply has_none|by intros ? ? []..| | |].
  - intros b J1 X1 C1 _ _ _ Hh1 F1. destruct (steps_tau b _ _ _ _ C1 Hh1 F1 (tau_block (Exn XUnwind) _ _ I)) as (c&S&F&_).
    exists c, J1, X1. split; [|done]. eapply steps_weaken; [done|apply sub_l..].
  - intros b J1 X1 c C1 _ _ _ Hh1 Hct F1. eapply acts_weaken; [|apply sub_l..].
    destruct st; simplify_eq/=.
    + eapply acts_tau; [done|done|done|apply tau_after|]. intros z _ _ _ Fd _. by eapply ac_end.
    + eapply acts_tau; [done|done|done|by apply tau_block|]. intros z _ _ _ Fd _. by eapply ac_end.
    + eapply acts_tau; [done|done|done|by apply tau_block|]. intros z _ _ _ Fd _. by eapply ac_end.
  - done.
Qed.

(** [{ s1 } s2] *)
Lemma acts_seq o fs d d1 d2 a s1 s2 (t1 t2 : trace) : d <= S d1 -> d <= S d2 -> calm a -> a_foc a = AUser (exec (Go (Block s1 s2)) fs) ->
  (forall b fs, calm b -> a_foc b = AUser (exec (Go s1) fs) -> acts o fs d1 b none none (conv o t1.1) t1.2) ->
  (forall b, calm b -> a_foc b = AUser (exec (Go s2) fs) -> acts o fs d2 b none none (conv o t2.1) t2.2) ->
  acts o fs d a none none (conv o (then_ t1 t2).1) (then_ t1 t2).2.
Proof.
  intros Hd1 Hd2 Hc Hf H1 H2. rewrite (strat_eta (exec _ _)) in Hf. cbn in Hf. eapply acts_tick; [done|apply has_none|exact Hf|]. intros b C1 _ _ F1 _.
  assert (exists tr2, (then_ t1 t2).1 = t1.1 ++ tr2 /\ (t1.2 = Ends /\ tr2 = t2.1 /\ (then_ t1 t2).2 = t2.2 \/ t1.2 <> Ends /\ tr2 = [] /\ (then_ t1 t2).2 = t1.2)) as (tr2&->&Hcs).
  { destruct t1 as [l1 st1]. destruct (decide (st1 = Ends)) as [->|Hs]; cbn; [exists t2.1; auto|]. exists []. rewrite app_nil_r. split; [by destruct st1|]. right. split; [done|]. split; [done|]. by destruct st1. }
  rewrite conv_app. apply (acts_weaken _ _ _ _ (plus none none) (plus none none)); [|apply sub_plus; apply sub_none..].
  eapply acts_bind; [by apply H1|lia|done|apply has_none|apply has_none|by intros ? ? []..| | |].
  - intros c J1 X1 C2 _ _ _ Hh1 F2. destruct (steps_tau c _ _ _ _ C2 Hh1 F2 (tau_block (Exn XUnwind) _ _ I)) as (z&S&F&_).
    exists z, J1, X1. split; [|done]. eapply steps_weaken; [done|apply sub_l..].
  - intros c J1 X1 ct C2 _ _ _ Hh1 Hct F2. eapply acts_weaken; [|apply sub_l..].
    destruct Hcs as [(He&->&->)|(He&->&->)].
    + rewrite He in Hct. injection Hct as <-. eapply acts_tau; [done|done|done|apply tau_after|]. intros z Cd _ _ Fd _.
      eapply acts_weaken; [eapply acts_less; [by apply H2|lia]|apply sub_none..].
    + rewrite conv_nil. assert (Hgo : match ct with Go s => False | _ => True end) by (by destruct t1.2; simplify_eq/=).
      eapply acts_tau; [done|done|done|by apply tau_block|]. intros z _ _ _ Fd _. by eapply ac_end.
  - intros Hcut. destruct Hcs as [(He&_)|(_&->&->)]; [congruence|]. by rewrite conv_nil.
Qed.

Lemma forever_eq b i : forever_do b i = Block (b i) (forever_do b (S i)).
Proof. by rewrite (stm_eta (forever_do b i)). Qed.
Lemma rounds_acts D o b (f : nat -> trace) :
  (forall i a fs, calm a -> a_foc a = AUser (exec (Go (b i)) fs) -> acts o fs D a none none (conv o (f i).1) (f i).2) ->
  forall m i a fs, m <= D -> calm a -> a_foc a = AUser (exec (Go (forever_do b i)) fs) -> acts o fs m a none none (conv o (rounds f i m).1) (rounds f i m).2.
Proof.
  intros H m. induction m as [|m IH]; intros i a fs Hm Hc Hf; cbn; [rewrite conv_nil; apply (ac_cut _ _ _ _ _ _ []), long_0|].
  rewrite forever_eq in Hf. eapply (acts_seq _ _ _ D m); [lia|lia|done|exact Hf| |].
  - intros b0 fs0 Hb Hfb. by apply H.
  - intros b0 Hb Hfb. apply IH; [lia|done|done].
Qed.

Theorem code_acts n g : forall o fs a, calm a -> a_foc a = AUser (exec (Go (code g (yielder o))) fs) ->
  acts o fs n a none none (conv o (means n g).1) (means n g).2.
Proof.
  induction g as [|v|w|e| |g1 IH1 g2 IH2|g IHg h IHh|m src IHs body IHb|f IHf]; intros o fs a Hc Hf; cbn [code means fst snd] in *.
  - rewrite conv_nil. by eapply ac_end.
  - destruct o as [s|]; cbn in Hf |- *.
    + unfold push in Hf. rewrite exec_do in Hf. eapply ac_yield; [done|exact Hf| |].
      * intros b Hb Hfb. by eapply ac_end.
      * intros b (Hcb&_&_&Hhb) Hfb. exists b, none, none. split; [by apply steps_refl|done].
    + destruct (steps_look a _ _ _ _ AUnit [v] none none Hc (has_none _) Hf) as (b&S&F&_); [done|done|].
      apply (ac_steps _ _ _ _ _ _ [v] _ _ _ [] _ S). by eapply ac_end.
  - destruct (steps_look a _ _ _ _ AUnit [w] none none Hc (has_none _) Hf) as (b&S&F&_); [done|done|].
    replace (conv o [inl w]) with ((inl <$> [w]) ++ @nil (T + T)) by (by destruct o).
    eapply ac_steps; [exact S|]. by eapply ac_end.
  - rewrite conv_nil. eapply acts_tau; [done|apply has_none|exact Hf| |]. { rewrite exec_throw. eapply rtc_l; constructor. }
    intros b _ _ _ Fb _. by eapply ac_end.
  - rewrite conv_nil. eapply acts_tau; [done|apply has_none|exact Hf|apply tau_return|]. intros b _ _ _ Fb _. by eapply ac_end.
  - eapply (acts_seq _ _ _ n n); [lia|lia|done|exact Hf| |]; intros; [by apply IH1|by apply IH2].
  - (* try *)
    eapply acts_tau; [done|apply has_none|exact Hf| |]. { rewrite exec_try. eapply rtc_l; constructor. }
    intros b C1 _ _ F1 _.
    assert (exists tr2, (or_catch (means n g) (fun e => means n (h e))).1 = (means n g).1 ++ tr2 /\
      ((exists e, (means n g).2 = Raises e /\ tr2 = (means n (h e)).1 /\ (or_catch (means n g) (fun e => means n (h e))).2 = (means n (h e)).2) \/
       (forall e, (means n g).2 <> Raises e) /\ tr2 = [] /\ (or_catch (means n g) (fun e => means n (h e))).2 = (means n g).2)) as (tr2&->&Hcs).
    { destruct (means n g) as [l1 [| |e|]]; cbn; [exists []; rewrite app_nil_r; auto..|exists (means n (h e)).1; split; [done|left; by exists e]|exists []; rewrite app_nil_r; auto]. }
    rewrite conv_app. apply (acts_weaken _ _ _ _ (plus none none) (plus none none)); [|apply sub_plus; apply sub_none..].
    eapply acts_bind; [by apply IHg|done|done|apply has_none|apply has_none|by intros ? ? []..| | |].
    + intros c J1 X1 C2 _ _ _ Hh1 F2. destruct (steps_tau c _ (exec (Exn XUnwind) fs) _ _ C2 Hh1 F2) as (d&S&F&_). { rewrite (strat_eta (exec _ (_ :: _))). cbn. eapply rtc_l; constructor. }
      exists d, J1, X1. split; [|done]. eapply steps_weaken; [done|apply sub_l..].
    + intros c J1 X1 ct C2 _ _ _ Hh1 Hct F2. eapply acts_weaken; [|apply sub_l..].
      destruct Hcs as [(e&He&->&->)|(He&->&->)].
      * rewrite He in Hct. injection Hct as <-. eapply acts_tau; [done|done|done|apply tau_catch|]. intros d Cd Hd _ Fd _.
        eapply acts_pop; [|done|done]. eapply acts_weaken; [by apply IHh|apply sub_none..].
      * rewrite conv_nil. eapply (acts_tau _ _ _ _ _ (exec ct fs)); [done|done|done| |].
        { rewrite (strat_eta (exec _ (_ :: _))). destruct (means n g).2 as [| |e|]; simplify_eq/=; [eapply rtc_l; constructor..|]. by destruct (He e). }
        intros d _ _ _ Fd _. by eapply ac_end.
    + intros Hcut. destruct Hcs as [(e&He&_)|(_&->&->)]; [congruence|]. by rewrite conv_nil.
  - (* for *)
    unfold for_in in Hf. rewrite exec_new in Hf.
    assert (Hfn : forall b, calm b -> a_foc b = AUser (exec (Go (code src (fun v => push (S (a_nh a)) (AImm v) Skip))) []) ->
      acts (Some (S (a_nh a))) [] n b none none (means n src).1 (means n src).2).
    { intros b Hb Hfb. apply (IHs (Some (S (a_nh a))) [] b Hb Hfb). }
    set (B := fun v => means n (body v)). set (bd := fun v => code (body v) (yielder o)).
    destruct (split_notes (means n src).1) as (ns&[Etr|(v&tr'&Etr&_)]).
    + destruct (decide ((means n src).2 = Cut)) as [E|Hst].
      { rewrite E, Etr, over_only. cbn [fst snd]. rewrite conv_notes. apply ac_cut. by eapply made_long. }
      destruct (made_end a _ _ _ _ _ Hc Hf Hfn ns Etr Hst) as (b&J&X&S1&F1&Hx).
      pose proof (steps_calm _ _ _ _ _ _ _ S1) as C1. pose proof (steps_has _ _ _ _ _ _ _ S1) as Hh1.
      rewrite Etr, over_only. cbn [fst snd].
      destruct (means n src).2 as [| |e|]; [| | |done]; cbn [fst snd]; rewrite conv_notes, <- (app_nil_r (inl <$> ns)); (eapply ac_steps; [exact S1|]).
      3: { by eapply ac_end. }
      all: cbn in F1;
        (destruct (steps_look b _ _ _ _ (AIt None) [] _ _ C1 Hh1 F1) as (c&S2&F2&A2); [intros kk; cbn; by rewrite Hx|done|]);
        pose proof (steps_calm _ _ _ _ _ _ _ S2) as C2; pose proof (steps_has _ _ _ _ _ _ _ S2) as Hh2;
        (destruct (steps_look c _ _ _ _ (AIt None) [] _ _ C2 Hh2 F2) as (d&S3&F3&A3); [done|done|]);
        pose proof (steps_calm _ _ _ _ _ _ _ S3) as C3; pose proof (steps_has _ _ _ _ _ _ _ S3) as Hh3;
        (eapply ac_nil; [exact S2|]); (eapply ac_nil; [exact S3|]);
        (eapply loop_end; [|done|exact F3]); (apply held_empty; [|by left|done]);
        (rewrite (ag_h _ _ _ _ A3) by (by left)); (rewrite (ag_h _ _ _ _ A2) by (by left)); done.
    + destruct (made_value a _ _ _ _ _ Hc Hf Hfn ns v tr' Etr) as (b&kp&J&X&c1&d1&L1&Hd1&S1&F1&Su1).
      pose proof (steps_calm _ _ _ _ _ _ _ S1) as C1. pose proof (steps_has _ _ _ _ _ _ _ S1) as Hh1. cbn in F1.
      destruct (steps_look b _ _ _ _ (AIt (Some (a_nh a))) [] _ _ C1 Hh1 F1) as (c&S2&F2&A2).
      { intros kk. cbn. rewrite (su_x _ _ _ _ _ _ _ _ _ _ _ Su1). cbn. destruct (su_co _ _ _ _ _ _ _ _ _ _ _ Su1) as (o1&b1&E). unfold avalid. cbn. by rewrite E. }
      { done. }
      pose proof (steps_calm _ _ _ _ _ _ _ S2) as C2. pose proof (steps_has _ _ _ _ _ _ _ S2) as Hh2. pose proof (susp_agree _ _ _ _ _ _ _ _ _ _ _ _ Su1 A2 Hh2) as Su2.
      destruct (steps_look c _ _ _ _ (AIt None) [] _ _ C2 Hh2 F2) as (d&S3&F3&A3); [done|done|].
      pose proof (steps_calm _ _ _ _ _ _ _ S3) as C3. pose proof (steps_has _ _ _ _ _ _ _ S3) as Hh3. pose proof (susp_agree _ _ _ _ _ _ _ _ _ _ _ _ Su2 A3 Hh3) as Su3.
      rewrite Etr, over_notes. cbn [fst snd]. rewrite conv_app, conv_notes. eapply (ac_count _ _ _ c1 (n - c1)); [done|lia|exact S1|].
      eapply ac_nil; [exact S2|]. eapply ac_nil; [exact S3|].
      eapply (loop_acts o fs bd B n); [|apply Nat.lt_succ_diag_r|exact Su3|lia|lia|done|exact F3].
      intros v0 fs0 a0 Hc0 Hf0. by apply IHb.
  - eapply rounds_acts; [|done|done|exact Hf]. intros i b fs0 Hb Hfb. by apply IHf.
Qed.

(** ** Whole programs *)
Lemma conv_written (l : list (T + T)) : conv None l = inl <$> written l.
Proof. unfold conv, written. rewrite <- list_fmap_compose. apply list_fmap_ext. by intros _ [w|v] _. Qed.
Lemma acts_prefix o fs d a J X tr st : acts o fs d a J X tr st -> o = None -> forall ns, tr = (inl <$> ns) -> calm a -> has J X a ->
  st = Cut \/ exists b J' X', steps a J X ns b J' X'.
Proof.
  induction 1 as [d c0 d1 a J X l b J' X' tr st Hl Hd H1 H2 IH|d a J X s' v0 kp tr st Ho Hf H1 IH H2|d a J X st c Hc Hf|d a J X l Hl]; intros Eo ns E Hc' Hh.
  - apply notes_split_nil in E as (ns'&->&E). destruct (IH Eo ns' E) as [?|(c&J2&X2&Hs)]; [by eapply steps_calm|by eapply steps_has|by left|].
    right. exists c, J2, X2. by eapply steps_trans.
  - congruence.
  - destruct ns; [|done]. right. exists a, J, X. by apply steps_refl.
  - by left.
Qed.
Lemma init_calm p u : calm (ainit p u).
Proof. split; [intros k c fn; cbn; by rewrite lookup_empty|]. cbn. rewrite lookup_empty. split; [done|]. split; [lia|]. split; [lia|]. intros j _. apply lookup_empty. Qed.
Lemma main_acts n g u : acts None [] n (ainit (gmain g) u) none none (inl <$> written (means n g).1) (means n g).2.
Proof. rewrite <- conv_written. apply code_acts; [apply init_calm|done]. Qed.
Lemma main_long n g u : (means n g).2 = Cut -> exists k a, n <= k /\ arun k (ainit (gmain g) u) = ANext a /\ output (a_tr a) = written (means n g).1.
Proof. intros Hs. pose proof (main_acts n g u) as H. rewrite Hs in H. destruct (acts_long _ _ _ _ _ _ _ _ H _ eq_refl eq_refl) as (b&(k&Hk&Hr)&O). by exists k, b. Qed.
Lemma main_reaches n g u : exists k a, arun k (ainit (gmain g) u) = ANext a /\ output (a_tr a) = written (means n g).1.
Proof.
  destruct (acts_prefix _ _ _ _ _ _ _ _ (main_acts n g u) eq_refl _ eq_refl (init_calm _ _) (has_none _)) as [Hs|(b&J&X&[k G]&_&_&_&_&O)]; [|exists k, b; by rewrite O].
  destruct (main_long n g u Hs) as (k&a&_&H1&H2). by exists k, a.
Qed.
Lemma main_ends n g u : match (means n g).2 with Ends | Returns => True | _ => False end -> exists k a, arun k (ainit (gmain g) u) = AHalt Finished a /\ output (a_tr a) = written (means n g).1.
Proof.
  intros Hs. pose proof (main_acts n g u) as H. destruct (ctl_of (means n g).2) as [c|] eqn:Hc; [|by destruct (means n g).2].
  destruct (acts_end _ _ _ _ _ _ _ _ H _ c eq_refl Hc (init_calm _ _) (has_none _)) as (b&J&X&(G&_&[_ _ _ Hcur _ _ _]&_&_&O)&F).
  destruct (goes_halt _ _ Finished b G) as [k Hk]; [|exists k, b; by rewrite O]. unfold astep. rewrite F. cbn in Hcur.
  destruct (means n g).2; try done; injection Hc as <-; rewrite ?exec_skip0, ?exec_ret0; unfold do_leave; by rewrite Hcur.
Qed.
Lemma main_raises n g u e : (means n g).2 = Raises e -> exists k a, arun k (ainit (gmain g) u) = AHalt Terminated a /\ output (a_tr a) = written (means n g).1.
Proof.
  intros Hs. pose proof (main_acts n g u) as H. rewrite Hs in H.
  destruct (acts_end _ _ _ _ _ _ _ _ H _ _ eq_refl eq_refl (init_calm _ _) (has_none _)) as (b&J&X&(G&_&[_ _ _ Hcur _ _ _]&_&_&O)&F).
  destruct (goes_halt _ _ Terminated b G) as [k Hk]; [|exists k, b; by rewrite O]. unfold astep. rewrite F. cbn in Hcur.
  rewrite exec_exn0. unfold do_leave. by rewrite Hcur.
Qed.
End gen.

(** ** The meaning of some generators *)
Section meaning.
Context {env : Env}.

Lemma over_none B (f : T -> list T) l st : (forall v, v ∈ l -> B v = (inr <$> f v, Ends)) ->
  over B None (inr <$> l) st = (inr <$> (l ≫= f), match st with Returns => Ends | _ => st end).
Proof.
  induction l as [|v l IH]; intros HB; cbn; [by destruct st|]. rewrite HB by left. cbn. rewrite IH; [|intros; apply HB; by right]. cbn. by rewrite fmap_app.
Qed.
Lemma over_some B n l st : (forall v, B v = ([inr v], Ends)) -> (st = Ends \/ st = Returns \/ l <> [] /\ n <= length l) ->
  over B (Some n) (inr <$> l) st = (inr <$> take n l, Ends).
Proof.
  intros HB. revert n. induction l as [|v l IH]; intros n Hn; cbn.
  - rewrite take_nil. destruct Hn as [-> |[-> |[? _]]]; done.
  - destruct n as [|[|n]]; cbn; [done|by rewrite HB|]. rewrite HB. cbn. rewrite (IH (S n)); [done|].
    destruct Hn as [?|[?|[_ Hn]]]; [by left|by right; left|right; right]. cbn in Hn. split; [by destruct l; cbn in *; [lia|]|lia].
Qed.
Lemma lists_nil : lists Nil [].
Proof. done. Qed.
Lemma lists_yield v : lists (Yield v) [v].
Proof. done. Qed.
Lemma lists_seq g1 g2 l1 l2 : lists g1 l1 -> lists g2 l2 -> lists (Seq g1 g2) (l1 ++ l2).
Proof. intros H1 H2 n. cbn. rewrite H1, H2. cbn. by rewrite fmap_app. Qed.
Lemma lists_from l : lists (from_list l) l.
Proof. induction l as [|v l IH]; [done|]. apply (lists_seq _ _ [v] l (lists_yield v) IH). Qed.
Lemma lists_for g l b f : lists g l -> (forall v, v ∈ l -> lists (b v) (f v)) -> lists (For None g b) (l ≫= f).
Proof. intros H1 H2 n. cbn. rewrite H1. cbn. by rewrite (over_none _ f) by (intros v Hv; apply H2, Hv). Qed.
Lemma lists_map f g l : lists g l -> lists (gmap_ f g) (f <$> l).
Proof.
  intros H. replace (f <$> l) with (l ≫= fun v => [f v]); [apply lists_for; [done|intros; apply lists_yield]|].
  clear H. induction l as [|v l IH]; [done|]. cbn. by f_equal.
Qed.
Lemma lists_filter p g l : lists g l -> lists (gfilter p g) (filter (fun v => p v = true) l).
Proof.
  intros H. replace (filter (fun v => p v = true) l) with (l ≫= fun v => if p v then [v] else []).
  - apply lists_for; [done|]. intros v _. by destruct (p v).
  - clear H. induction l as [|v l IH]; [done|]. rewrite bind_cons, filter_cons, IH. destruct (p v) eqn:Ep; by case_decide.
Qed.
Lemma lists_id g l : lists g l -> lists (For None g Yield) l.
Proof. intros H. replace l with (l ≫= fun v => [v]) at 1; [apply lists_for; [done|intros; apply lists_yield]|]. clear H. induction l as [|v l IH]; [done|]. cbn. by f_equal. Qed.
Lemma lists_append g1 g2 l1 l2 : lists g1 l1 -> lists g2 l2 -> lists (gappend g1 g2) (l1 ++ l2).
Proof. intros H1 H2. apply lists_seq; by apply lists_id. Qed.
Lemma lists_bind g l h f : lists g l -> (forall v, lists (h v) (f v)) -> lists (gbind g h) (l ≫= f).
Proof. intros H1 H2. apply lists_for; [done|]. intros v _. by apply lists_id. Qed.
Lemma lists_take m g l : lists g l -> lists (gtake m g) (take m l).
Proof. intros H n. cbn. rewrite H. cbn. apply over_some; auto. Qed.
Lemma lists_walk t : lists (walk t) (inorder t).
Proof.
  induction t as [|l IHl a v r IHr]; [done|]. cbn. apply lists_seq; [by apply lists_id|]. apply (lists_seq _ _ [v]); [done|by apply lists_id].
Qed.

(** Values without end, as far as they are looked at. *)
Lemma rounds_yield f i n : rounds (fun i => ([inr (f i)], Ends)) i n = ((inr <$> (f <$> seq i n)) : list (T + T), Cut).
Proof. revert i. induction n as [|n IH]; intros i; [done|]. cbn. by rewrite IH. Qed.
Lemma take_seq m i n : m <= n -> take m (seq i n) = seq i m.
Proof. revert i n. induction m as [|m IH]; intros i [|n] Hm; try done; [lia|]. cbn. rewrite IH; [done|lia]. Qed.
Lemma take_count m f g n : (forall k, means k g = (inr <$> (f <$> seq 0 k), Cut)) -> 0 < n -> m <= n -> means n (gtake m g) = (inr <$> (f <$> seq 0 m), Ends).
Proof.
  intros Hg Hn Hm. cbn. rewrite Hg. cbn. rewrite over_some; [|done|].
  - f_equal. f_equal. rewrite <- fmap_take. f_equal. by apply take_seq.
  - right; right. rewrite fmap_length, seq_length. split; [|done]. by destruct n; [lia|].
Qed.
End meaning.
