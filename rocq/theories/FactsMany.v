(** FactsMany.v -- the programs of Many.v do what [pmeans] says: proofs. *)
From stdpp Require Import prelude gmap relations.
From Coq Require Import Lia.
From Verif Require Import Base Model Spec InvSpec Main Hist Trace Cpp FactsReplay Progs Steps FactsProg Gens FactsGen Many.

Local Opaque gmap_lookup map_insert map_delete gmap_partial_alter.

Section many.
Context {env : Env}.
Context (nothrow : forall v, move_exn v = None).

Lemma apart_sym J J' : apart J J' -> apart J' J.
Proof. intros H j H1 H2. by eapply H. Qed.

(** ** What running code does and leaves *)
(** As [acts]; at the end [Q] holds, and [U] when it was unwound. *)
Inductive does (o : option nat) (fs : list frame) (Q : nat -> astate -> fp -> fp -> Prop) (U : astate -> fp -> fp -> Prop) :
  nat -> astate -> fp -> fp -> list (T + T) -> stop -> Prop :=
| ds_count d c d' a J X l b J' X' tr st : lasts c a b -> d <= c + d' -> steps a J X l b J' X' -> does o fs Q U d' b J' X' tr st -> does o fs Q U d a J X ((inl <$> l) ++ tr) st
| ds_yield d a J X s v kp tr st : o = Some s -> a_foc a = AUser (SDo (OPush s (AImm v)) kp) ->
    (forall b, resumed a J X b -> a_foc b = AUser (kp (ROk AUnit)) -> does o fs Q U d b J X tr st) ->
    (forall b, resumed a J X b -> a_foc b = AUser (kp (RExn XUnwind)) ->
       exists c J' X', steps b J X [] c J' X' /\ a_foc c = AUser (exec (Exn XUnwind) fs) /\ U c J' X') ->
    does o fs Q U d a J X (inr v :: tr) st
| ds_end d a J X st c : ctl_of st = Some c -> a_foc a = AUser (exec c fs) -> Q d a J X -> does o fs Q U d a J X [] st
| ds_cut d a J X l : long d a l -> does o fs Q U d a J X (inl <$> l) Cut.

Lemma does_acts o fs Q U d a J X tr st : does o fs Q U d a J X tr st -> acts o fs d a J X tr st.
Proof.
  induction 1 as [d c d1 a J X l b J' X' tr st Hl Hd H1 H2 IH|d a J X s v kp tr st Ho Hf H1 IH H2|d a J X st c Hc Hf HQ|d a J X l Hl].
  - by eapply ac_count.
  - eapply ac_yield; [done|done|done|]. intros b Hb Hfb. destruct (H2 b Hb Hfb) as (c&J'&X'&?&?&_). by exists c, J', X'.
  - by eapply ac_end.
  - by apply ac_cut.
Qed.
Definition mono (Q : nat -> astate -> fp -> fp -> Prop) : Prop := forall d d' a J X, Q d a J X -> d' <= d -> Q d' a J X.
Lemma does_less o fs Q U d a J X tr st : mono Q -> does o fs Q U d a J X tr st -> forall d', d' <= d -> does o fs Q U d' a J X tr st.
Proof.
  intros HQ. induction 1 as [d c d1 a J X l b J' X' tr st Hl Hd H1 H2 IH|d a J X s v kp tr st Ho Hf H1 IH H2|d a J X st c Hc Hf Hq|d a J X l Hl]; intros d' Hd'.
  - eapply ds_count; [done| |done|done]. lia.
  - eapply ds_yield; [done|done| |done]. intros b Hb Hfb. by apply IH.
  - eapply ds_end; [done|done|]. by eapply HQ.
  - apply ds_cut. by eapply long_less.
Qed.
Lemma ds_steps o fs Q U d a J X l b J' X' tr st : steps a J X l b J' X' -> does o fs Q U d b J' X' tr st -> does o fs Q U d a J X ((inl <$> l) ++ tr) st.
Proof. intros H. apply (ds_count _ _ _ _ _ 0); [|lia|done]. apply lasts_goes. by destruct H. Qed.
Lemma ds_nil o fs Q U d a J X b J' X' tr st : steps a J X [] b J' X' -> does o fs Q U d b J' X' tr st -> does o fs Q U d a J X tr st.
Proof. intros H1 H2. by apply (ds_steps _ _ _ _ _ _ _ _ [] _ _ _ _ _ H1). Qed.
Lemma does_tau o fs Q U d a s s' J X tr st : calm a -> has J X a -> a_foc a = AUser s -> rtc tau s s' ->
  (forall b, calm b -> has J X b -> agree J X a b -> a_foc b = AUser s' -> a_cur b = a_cur a -> does o fs Q U d b J X tr st) -> does o fs Q U d a J X tr st.
Proof.
  intros Hc Hh Hf Ht H. destruct (steps_tau a s s' J X Hc Hh Hf Ht) as (b&Hs&Hfb&Ha). apply (ds_nil _ _ _ _ _ _ _ _ _ _ _ _ _ Hs).
  apply H; try done; [by eapply steps_calm|by eapply steps_has|by eapply steps_cur].
Qed.
Lemma does_tick o fs Q U d a s' J X tr st : calm a -> has J X a -> a_foc a = AUser (STau s') ->
  (forall b, calm b -> has J X b -> agree J X a b -> a_foc b = AUser s' -> a_cur b = a_cur a -> does o fs Q U (pred d) b J X tr st) -> does o fs Q U d a J X tr st.
Proof.
  intros Hc Hh Hf H. pose proof Hc as (Hn&Hw&Hn0&Hn1&Hfr). assert (E : astep a = ANext (w_foc (AUser s') a)) by (unfold astep; by rewrite Hf).
  apply (ds_count _ _ _ _ d 1 (pred d) a J X [] (w_foc (AUser s') a) J X).
  - exists 1. split; [done|]. cbn. by rewrite E.
  - lia.
  - split; [by apply goes_step|]. split; [done|]. split; [by split|]. split; [apply grows_refl|]. split; [done|]. by rewrite app_nil_r.
  - by apply H.
Qed.

Lemma does_bind o fs1 fs Q1 U1 Q U d1 a J X tr1 st1 : mono Q1 -> does o fs1 Q1 U1 d1 a J X tr1 st1 -> forall d tr2 st2, d <= d1 -> calm a -> has J X a ->
  (forall b J' X', calm b -> a_cur b = a_cur a -> has J' X' b -> U1 b J' X' -> a_foc b = AUser (exec (Exn XUnwind) fs1) ->
     exists c J2 X2, steps b J' X' [] c J2 X2 /\ a_foc c = AUser (exec (Exn XUnwind) fs) /\ U c J2 X2) ->
  (forall d' b J' X' c, d' <= d -> calm b -> a_cur b = a_cur a -> has J' X' b -> Q1 d' b J' X' -> ctl_of st1 = Some c -> a_foc b = AUser (exec c fs1) ->
     does o fs Q U d' b J' X' tr2 st2) ->
  (st1 = Cut -> tr2 = [] /\ st2 = Cut) ->
  does o fs Q U d a J X (tr1 ++ tr2) st2.
Proof.
  intros HQ1. induction 1 as [d0 c0 d1 a J X l b J' X' tr st Hl Hd H1 H2 IH|d0 a J X s v kp tr st Ho Hf H1 IH H2|d0 a J X st c Hct Hf Hq|d0 a J X l Hl];
    intros d tr2 st2 Hd2 Hc Hh Hunw Hend Hcut.
  - rewrite <- app_assoc. pose proof (steps_cur _ _ _ _ _ _ _ H1) as Ec. eapply (ds_count _ _ _ _ _ c0 (Nat.min d d1)); [done|lia|done|].
    apply IH; try done; [lia|by eapply steps_calm|by eapply steps_has| |].
    + intros c J2 X2 ? E. apply Hunw; [done|congruence].
    + intros d' c J2 X2 ct ? ? E. apply Hend; [lia|done|congruence].
  - cbn. eapply ds_yield; [done|done| |].
    + intros b Hb Hfb. pose proof Hb as (Hcb&Ecb&_&Hhb). apply IH; try done.
      * intros c J2 X2 ? E. apply Hunw; [done|congruence].
      * intros d' c J2 X2 ct ? ? E. apply Hend; [done|done|congruence].
    + intros b Hb Hfb. pose proof Hb as (Hcb&Ecb&_&Hhb). destruct (H2 b Hb Hfb) as (c&J'&X'&Hs&Hfc&Hu). pose proof (steps_cur _ _ _ _ _ _ _ Hs) as Ec.
      destruct (Hunw c J' X') as (e&J2&X2&Hs2&Hfd&Hu2); [by eapply steps_calm|congruence|by eapply steps_has|done|done|].
      exists e, J2, X2. split; [|done]. by eapply (steps_trans _ _ _ []).
  - cbn. eapply Hend; try done. by eapply HQ1.
  - destruct (Hcut eq_refl) as [-> ->]. rewrite app_nil_r. apply ds_cut. by eapply long_less.
Qed.

(** ** Sources *)
Inductive src (a : astate) (x : nat) (d : nat) : fp -> fp -> rest -> Prop :=
| src_some k s v kp J X d' l st : susp a x k s v kp J X d' l st -> d <= d' -> src a x d (one k J) (two x s X) (Some (v, (l, st)))
| src_done k s J X : finished a x k s -> 0 < k -> has (one k J) (two x s X) a -> src a x d (one k J) (two x s X) None
| src_empty (J X : fp) : a_h a !! x = Some (HObj Pull KVal None) -> X x -> has J X a -> src a x d J X None.
Lemma src_has a x d J X r : src a x d J X r -> has J X a.
Proof. intros [k s v kp J0 X0 d' l st H _|k s J0 X0 _ _ H|J0 X0 _ _ H]; [by destruct H|done..]. Qed.
Lemma src_less a x d d' J X r : src a x d J X r -> d' <= d -> src a x d' J X r.
Proof. intros [k s v kp J0 X0 d0 l st H Hd|k s J0 X0 H1 H2 H3|J0 X0 H1 H2 H3] ?; [eapply src_some; [done|lia]|by apply src_done|by apply src_empty]. Qed.
Lemma src_agree a b x d J X r : src a x d J X r -> agree J X a b -> has J X b -> src b x d J X r.
Proof.
  intros [k s v kp J0 X0 d0 l st H Hd|k s J0 X0 (H1&H2&H3&H4) Hk Hh|J0 X0 H1 H2 H3] Ha Hb.
  - eapply src_some; [by eapply susp_agree|done].
  - destruct Ha as [A1 A2 _ _ _]. apply src_done; [|done|done].
    split; [rewrite A1; [done|by left]|]. split; [rewrite A1; [done|by right; left]|]. split; [done|]. rewrite A2; [done|by left].
  - destruct Ha as [A1 A2 _ _ _]. apply src_empty; [|done|done]. by rewrite A1.
Qed.
Lemma src_held a x d J X r : src a x d J X r -> held a x J X.
Proof.
  intros [k s v kp J0 X0 d0 l st H Hd|k s J0 X0 H1 H2 H3|J0 X0 H1 H2 H3]; [by eapply held_susp|by eapply held_done|by apply held_empty].
Qed.

Inductive srcs (a : astate) (d : nat) : list nat -> list rest -> fp -> fp -> Prop :=
| srcs_nil J X : has J X a -> srcs a d [] [] J X
| srcs_cons x r xs R Jx Xx J X J0 X0 : src a x d Jx Xx r -> srcs a d xs R J X -> apart Jx J -> apart Xx X ->
    sub Jx J0 -> sub J J0 -> sub Xx X0 -> sub X X0 -> has J0 X0 a -> srcs a d (x :: xs) (r :: R) J0 X0.
Lemma srcs_has a d xs R J X : srcs a d xs R J X -> has J X a.
Proof. by intros []. Qed.
Lemma srcs_less a d xs R J X : srcs a d xs R J X -> forall d', d' <= d -> srcs a d' xs R J X.
Proof. induction 1; intros d' Hd; [by apply srcs_nil|]. eapply srcs_cons; [by eapply src_less|by apply IHsrcs|done..]. Qed.
Lemma srcs_weaken a d xs R J X J0 X0 : srcs a d xs R J X -> sub J J0 -> sub X X0 -> has J0 X0 a -> srcs a d xs R J0 X0.
Proof. intros H HJ HX Hh. destruct H; [by apply srcs_nil|]. eapply srcs_cons; [done|done|done|done| | | | |done]; intros ? ?; auto. Qed.
Lemma srcs_agree a d xs R J X : srcs a d xs R J X -> forall b, agree J X a b -> has J X b -> srcs b d xs R J X.
Proof.
  induction 1 as [J X H|x r xs R Jx Xx J X J0 X0 Hs Hr IH D1 D2 S1 S2 S3 S4 Hh]; intros b Ha Hb; [by apply srcs_nil|].
  apply (srcs_cons _ _ _ _ _ _ Jx Xx J X); [| |done..].
  - eapply src_agree; [done|by eapply agree_sub|by eapply has_sub].
  - apply IH; [by eapply agree_sub|by eapply has_sub].
Qed.
Lemma srcs_lookup a d xs R J X : srcs a d xs R J X -> forall i x, xs !! i = Some x -> exists r, R !! i = Some r.
Proof. induction 1; intros [|i] x0 E; try done; cbn in *; [by eexists|by eapply IHsrcs]. Qed.
Lemma srcs_none a d xs R J X : srcs a d xs R J X -> forall i, xs !! i = None -> R !! i = None.
Proof. induction 1; intros [|i] E; try done; cbn in *. by apply IHsrcs. Qed.
Lemma srcs_mono xs R : mono (fun d a => srcs a d xs R).
Proof. intros d d' a J X H Hd. by eapply srcs_less. Qed.

Lemma rest_of_eq R i r : R !! i = Some r -> rest_of R i = r.
Proof. unfold rest_of. intros E. change (@lookup nat (option (T * trace)) (list rest) list_lookup i R) with (R !! i). by rewrite E. Qed.
Lemma rest_of_none R i : R !! i = None -> rest_of R i = None.
Proof. unfold rest_of. intros E. change (@lookup nat (option (T * trace)) (list rest) list_lookup i R) with (R !! i). by rewrite E. Qed.

(** One of them moves, the others stay. *)
Lemma srcs_at a d xs R J0 X0 : srcs a d xs R J0 X0 -> forall i x r, xs !! i = Some x -> R !! i = Some r ->
  exists Jx Xx, src a x d Jx Xx r /\ sub Jx J0 /\ sub Xx X0 /\
    (forall l c J' X' d' r', steps a Jx Xx l c J' X' -> d' <= d -> src c x d' J' X' r' ->
       exists J1 X1, steps a J0 X0 l c J1 X1 /\ srcs c d' xs (<[ i := r' ]> R) J1 X1).
Proof.
  induction 1 as [J X H|x r xs R Jx Xx J X J0 X0 Hs Hr IH D1 D2 S1 S2 S3 S4 Hh]; intros i y r0 Ex Er; [done|]. destruct i as [|i]; cbn in *.
  - injection Ex as <-. injection Er as <-. exists Jx, Xx. split; [done|]. split; [done|]. split; [done|].
    intros l c J' X' d' r' Hst Hd Hsc. pose proof (srcs_has _ _ _ _ _ _ Hr) as Hhr.
    destruct (steps_agree _ _ _ _ _ _ _ _ _ Hst Hhr D1 D2) as (Ha&Hhc&D1'&D2').
    exists (plus J' J), (plus X' X). assert (Hst' : steps a J0 X0 l c (plus J' J) (plus X' X)).
    { eapply steps_weaken; [by eapply steps_frame|by apply sub_plus..]. }
    split; [done|]. eapply srcs_cons; [done|eapply srcs_less; [by eapply srcs_agree|done]|done|done|apply sub_l|apply sub_r|apply sub_l|apply sub_r|by eapply steps_has].
  - destruct (IH i y r0 Ex Er) as (Jy&Xy&Hy&B1&B2&Hm). exists Jy, Xy. split; [done|]. split; [intros j Hj; auto|]. split; [intros j Hj; auto|].
    intros l c J' X' d' r' Hst Hd Hsc. destruct (Hm l c J' X' d' r' Hst Hd Hsc) as (J1&X1&Hst1&Hs1).
    pose proof (src_has _ _ _ _ _ _ Hs) as Hhx. destruct (steps_agree _ _ _ _ _ _ _ _ _ Hst1 Hhx (apart_sym _ _ D1) (apart_sym _ _ D2)) as (Ha&Hhc&D1'&D2').
    exists (plus J1 Jx), (plus X1 Xx). assert (Hst' : steps a J0 X0 l c (plus J1 Jx) (plus X1 Xx)).
    { eapply steps_weaken; [eapply steps_frame; [done|done|by apply apart_sym..]|by apply sub_plus..]. }
    split; [done|]. eapply srcs_cons; [eapply src_less; [by eapply src_agree|done]|done|by apply apart_sym|by apply apart_sym|apply sub_r|apply sub_l|apply sub_r|apply sub_l|by eapply steps_has].
Qed.
(** The last one goes. *)
Lemma srcs_leave a d x xs R J X c fs : srcs a d (x :: xs) R J X -> calm a -> match c with Go s => s = Skip | _ => True end ->
  a_foc a = AUser (exec c (FLocal (ODestroy x) Skip :: fs)) ->
  exists b J' X', steps a J X [] b J' X' /\ a_foc b = AUser (exec c fs) /\ srcs b d xs (tail R) J' X'.
Proof.
  intros H Hc Hct Hf. inversion H as [|x0 r xs0 R0 Jx Xx J1 X1 J2 X2 Hs Hr D1 D2 S1 S2 S3 S4 Hh]; subst.
  destruct (leave a x c fs Jx Xx (src_held _ _ _ _ _ _ Hs) Hc Hct Hf) as (b&J'&X'&Hst&Hfb).
  pose proof (srcs_has _ _ _ _ _ _ Hr) as Hhr. destruct (steps_agree _ _ _ _ _ _ _ _ _ Hst Hhr D1 D2) as (Ha&Hhc&D1'&D2').
  exists b, (plus J' J1), (plus X' X1). split; [|split; [done|]].
  - eapply steps_weaken; [by eapply steps_frame|by apply sub_plus..].
  - cbn. eapply srcs_weaken; [by eapply srcs_agree|apply sub_r|apply sub_r|]. apply has_plus; [by eapply steps_has|done].
Qed.
(** A new one comes. *)
Lemma srcs_new a b d d' x xs R r J X Jx Xx ns : srcs a d xs R J X -> d' <= d -> steps a none none ns b Jx Xx -> src b x d' Jx Xx r ->
  exists J1 X1, steps a J X ns b J1 X1 /\ srcs b d' (x :: xs) (r :: R) J1 X1.
Proof.
  intros H Hd Hst Hs. pose proof (srcs_has _ _ _ _ _ _ H) as Hh. destruct (steps_agree _ _ _ _ _ _ _ _ _ Hst Hh (apart_none _) (apart_none _)) as (Ha&Hhc&D1'&D2').
  exists (plus Jx J), (plus Xx X). assert (Hst' : steps a J X ns b (plus Jx J) (plus Xx X)).
  { eapply steps_weaken; [eapply steps_frame; [done|done|apply apart_none..]|apply sub_plus; [apply sub_none|apply sub_refl]..]. }
  split; [done|]. eapply srcs_cons; [done|eapply srcs_less; [by eapply srcs_agree|done]|done|done|apply sub_l|apply sub_r|apply sub_l|apply sub_r|by eapply steps_has].
Qed.

(** Testing and reading. *)
Definition live (r : rest) : bool := match r with Some _ => true | None => false end.
Lemma look_bool a d xs R J X i x r ok k fs : srcs a d xs R J X -> calm a -> xs !! i = Some x -> R !! i = Some r ->
  a_foc a = AUser (exec (Go (Do (OBool x) ok k)) fs) ->
  exists b, steps a J X [] b J X /\ a_foc b = AUser (exec (Go (k (AB (live r)))) fs) /\ srcs b d xs R J X.
Proof.
  intros H Hc Ex Er Hf. pose proof (srcs_has _ _ _ _ _ _ H) as Hh. destruct (srcs_at _ _ _ _ _ _ H _ _ _ Ex Er) as (Jx&Xx&Hs&_&_&_).
  destruct (steps_look a _ _ _ _ (AB (live r)) [] J X Hc Hh Hf) as (b&S&F&A).
  { intros kk. destruct Hs as [k0 s v kp J0 X0 d' l st Hs _|k0 s J0 X0 (H1&H2&_&H3) _ _|J0 X0 H1 _ _]; cbn.
    - rewrite (su_x _ _ _ _ _ _ _ _ _ _ _ Hs). cbn. destruct (su_co _ _ _ _ _ _ _ _ _ _ _ Hs) as (o1&b1&E). unfold avalid. cbn. by rewrite E.
    - rewrite H1. cbn. destruct H3 as (?&?&?&E). unfold avalid. cbn. by rewrite E.
    - by rewrite H1. }
  { done. }
  exists b. split; [done|]. split; [done|]. eapply srcs_agree; [done|done|by eapply steps_has].
Qed.
Lemma look_peek a d xs R J X i x v t ok k fs : srcs a d xs R J X -> calm a -> xs !! i = Some x -> R !! i = Some (Some (v, t)) ->
  a_foc a = AUser (exec (Go (Do (OItDeref (Some x)) ok k)) fs) ->
  exists b, steps a J X [] b J X /\ a_foc b = AUser (exec (Go (k (AV v))) fs) /\ srcs b d xs R J X.
Proof.
  intros H Hc Ex Er Hf. pose proof (srcs_has _ _ _ _ _ _ H) as Hh. destruct (srcs_at _ _ _ _ _ _ H _ _ _ Ex Er) as (Jx&Xx&Hs&_&_&_).
  destruct (steps_look a _ _ _ _ (AV v) [] J X Hc Hh Hf) as (b&S&F&A).
  { intros kk. inversion Hs as [k0 s v0 kp J0 X0 d' l st Hsu _| |]; subst; cbn.
    rewrite (su_x _ _ _ _ _ _ _ _ _ _ _ Hsu). unfold readable. cbn. destruct (su_co _ _ _ _ _ _ _ _ _ _ _ Hsu) as (o1&b1&E). by rewrite E. }
  { done. }
  exists b. split; [done|]. split; [done|]. eapply srcs_agree; [done|done|by eapply steps_has].
Qed.
Lemma look_begin a d xs R J X i x r ok k fs : srcs a d xs R J X -> calm a -> xs !! i = Some x -> R !! i = Some r ->
  a_foc a = AUser (exec (Go (Do (OBegin x) ok k)) fs) ->
  exists b, steps a J X [] b J X /\ a_foc b = AUser (exec (Go (k (AIt (if live r then Some x else None)))) fs) /\ srcs b d xs R J X.
Proof.
  intros H Hc Ex Er Hf. pose proof (srcs_has _ _ _ _ _ _ H) as Hh. destruct (srcs_at _ _ _ _ _ _ H _ _ _ Ex Er) as (Jx&Xx&Hs&_&_&_).
  destruct (steps_look a _ _ _ _ (AIt (if live r then Some x else None)) [] J X Hc Hh Hf) as (b&S&F&A).
  { intros kk. destruct Hs as [k0 s v kp J0 X0 d' l st Hs _|k0 s J0 X0 (H1&H2&_&H3) _ _|J0 X0 H1 _ _]; cbn.
    - rewrite (su_x _ _ _ _ _ _ _ _ _ _ _ Hs). cbn. destruct (su_co _ _ _ _ _ _ _ _ _ _ _ Hs) as (o1&b1&E). unfold avalid. cbn. by rewrite E.
    - rewrite H1. cbn. destruct H3 as (?&?&?&E). unfold avalid. cbn. by rewrite E.
    - by rewrite H1. }
  { done. }
  exists b. split; [done|]. split; [done|]. eapply srcs_agree; [done|done|by eapply steps_has].
Qed.
(** Something that touches no object. *)
Lemma look_pure a d xs R J X o ok k fs r : srcs a d xs R J X -> calm a -> a_foc a = AUser (exec (Go (Do o ok k)) fs) ->
  (forall kk, do_op o kk (alog (EvCall (a_cur a) (NOp o)) a) = ret_to (NOp o) r kk (alog (EvCall (a_cur a) (NOp o)) a)) -> output [EvCall (a_cur a) (NOp o)] = [] ->
  exists b, steps a J X [] b J X /\ a_foc b = AUser (exec (Go (k r)) fs) /\ srcs b d xs R J X.
Proof.
  intros H Hc Hf Hr Ho. pose proof (srcs_has _ _ _ _ _ _ H) as Hh. destruct (steps_look a _ _ _ _ r [] J X Hc Hh Hf Hr Ho) as (b&S&F&A).
  exists b. split; [done|]. split; [done|]. eapply srcs_agree; [done|done|by eapply steps_has].
Qed.
(** get() *)
Lemma susp_get a x k s v kp J X d tr st kk : susp a x k s v kp J X d tr st -> calm a -> a_foc a = AUser (SDo (OGet x) kk) ->
  exists b, steps a (one k J) (two x s X) [] b (one k J) (two x s X) /\ a_foc b = AUser (kk (ROk (AV v))) /\ susp b x k s (moved_from v) kp J X d tr st.
Proof.
  intros Hsu Hc Hf. pose proof (susp_cur _ _ _ _ _ _ _ _ _ _ _ Hsu) as Hcur. pose proof Hsu as [Hx Hs Hxs (o&b0&Hco) Hh Hk Hnx Hns Hk0 Hgo Hkill]. pose proof Hc as (Hn&Hw&Hn0&Hn1&Hfr).
  pose proof (astep_do _ _ _ Hf Hn) as E. cbn in E. rewrite Hx in E. unfold readable in E. cbn in E. rewrite Hco in E. cbn in E. rewrite nothrow in E. unfold ret_to in E. cbn in E.
  match type of E with _ = ANext ?z => set (b := z) in E end. exists b.
  assert (Hhb : has (one k J) (two x s X) b) by exact Hh.
  assert (Hst : steps a (one k J) (two x s X) [] b (one k J) (two x s X)).
  { split; [by apply goes_step|]. split.
    { split; [|done]. intros k' c' fn. cbn. intros [[_ <-]|[_ Hl]]%lookup_insert_Some; [done|by eapply Hn]. }
    split. { split; try done. intros j Hj Hnj. cbn. rewrite lookup_insert_ne; [done|]. intros ->. apply Hnj. by left. }
    split; [apply grows_refl|]. split; [done|]. cbn. by rewrite app_nil_r. }
  split; [done|]. split; [done|]. split; try done.
  - cbn. rewrite lookup_insert. by eexists _, _.
  - intros z Cz Ez Az Hz Fz. apply Hgo; try done. destruct Az as [B1 B2 B3 B4 B5]. split; try done. intros j Hj. rewrite B2 by done. cbn. rewrite lookup_insert_ne by (intros ->; done). done.
  - intros z Cz Ez Az Hz Fz. apply Hkill; try done. destruct Az as [B1 B2 B3 B4 B5]. split; try done. intros j Hj. rewrite B2 by done. cbn. rewrite lookup_insert_ne by (intros ->; done). done.
Qed.
Lemma look_get a d xs R J X i x v t ok k fs : srcs a d xs R J X -> calm a -> xs !! i = Some x -> R !! i = Some (Some (v, t)) ->
  a_foc a = AUser (exec (Go (Do (OGet x) ok k)) fs) ->
  exists b J' X', steps a J X [] b J' X' /\ a_foc b = AUser (exec (Go (k (AV v))) fs) /\ srcs b d xs (<[ i := Some (moved_from v, t) ]> R) J' X'.
Proof.
  intros H Hc Ex Er Hf. destruct (srcs_at _ _ _ _ _ _ H _ _ _ Ex Er) as (Jx&Xx&Hs&_&_&Hm). rewrite exec_do in Hf.
  inversion Hs as [k0 s v0 kp J0 X0 d' l st Hsu Hd| |]; subst. destruct (susp_get _ _ _ _ _ _ _ _ _ _ _ _ Hsu Hc Hf) as (b&S&F&Hsu').
  destruct (Hm [] b _ _ d (Some (moved_from v, (l, st))) S (Nat.le_refl _)) as (J1&X1&S1&H1); [by eapply src_some|]. by exists b, J1, X1.
Qed.

(** Running to the next value. *)
Lemma turn_value (ns : list T) v l st : turn ((inl <$> ns) ++ inr v :: l) st = (ns, Ends, Some (v, (l, st))).
Proof. induction ns as [|w ns IH]; cbn; [done|]. by rewrite IH. Qed.
Lemma turn_end (ns : list T) st : turn (inl <$> ns) st = (ns, match st with Returns => Ends | _ => st end, None).
Proof. induction ns as [|w ns IH]; cbn; [done|]. by rewrite IH. Qed.

(** [x();] *)
Lemma next_does o fs U d a xs R J X i x v l st ok k : srcs a d xs R J X -> calm a -> xs !! i = Some x -> R !! i = Some (Some (v, (l, st))) ->
  (forall r, k r = Skip) -> a_foc a = AUser (exec (Go (Do (OResume x) ok k)) fs) ->
  does o fs (fun d b => srcs b d xs (<[ i := (turn l st).2 ]> R)) U d a J X (inl <$> (turn l st).1.1) (turn l st).1.2.
Proof.
  intros H Hc Ex Er Hk Hf. destruct (srcs_at _ _ _ _ _ _ H _ _ _ Ex Er) as (Jx&Xx&Hs&_&_&Hm). rewrite exec_do in Hf.
  inversion Hs as [k0 s v0 kp J0 X0 d' l0 st0 Hsu Hd| |]; subst. destruct (split_notes l) as (ns&[->|(v'&l'&->&_)]).
  - rewrite turn_end in *. cbn [fst snd]. destruct (decide (st = Cut)) as [->|Hst].
    { apply ds_cut. eapply long_less; [eapply susp_inc_long; [exact Hsu|exact Hc|by right|exact Hf]|done]. }
    destruct (susp_inc_end _ _ _ _ _ _ _ _ _ _ _ _ PoUnit _ Hsu Hst Hc ltac:(by right) Hf) as (b&J1&X1&S&F&Hfi). pose proof (steps_has _ _ _ _ _ _ _ S) as Hh.
    destruct (Hm ns b _ _ d None S (Nat.le_refl _)) as (J2&X2&S2&Hs2). { apply src_done; [done|exact (su_k0 _ _ _ _ _ _ _ _ _ _ _ Hsu)|done]. }
    rewrite <- (app_nil_r (inl <$> ns)). eapply ds_steps; [exact S2|]. destruct st as [| |e|]; [| | |done]; cbn in F; rewrite ?Hk in F; by eapply ds_end.
  - rewrite turn_value in *. cbn [fst snd].
    destruct (susp_inc nothrow _ _ _ _ _ _ _ _ _ _ _ _ _ _ PoUnit _ Hsu Hc ltac:(by right) Hf) as (b&kp'&J1&X1&c&d1&L&Hd1&S&F&Hsu').
    destruct (Hm ns b _ _ (d - c) (Some (v', (l', st))) S) as (J2&X2&S2&Hs2); [lia|eapply src_some; [done|lia]|].
    rewrite <- (app_nil_r (inl <$> ns)). eapply (ds_count _ _ _ _ _ c (d - c)); [done|lia|exact S2|]. cbn in F. rewrite Hk in F. by eapply ds_end.
Qed.

(** ** All programs *)
Definition left (xs : list nat) (b : astate) (J X : fp) : Prop := exists d R, srcs b d xs R J X.
Definition leaves (xs : list nat) (R : list rest) (d : nat) (b : astate) (J X : fp) : Prop := srcs b d xs R J X.
Lemma leaves_mono xs R : mono (leaves xs R).
Proof. apply srcs_mono. Qed.
Lemma left_steps xs b J X s s' : left xs b J X -> calm b -> a_foc b = AUser s -> rtc tau s s' ->
  exists c J2 X2, steps b J X [] c J2 X2 /\ a_foc c = AUser s' /\ left xs c J2 X2.
Proof.
  intros (d&R&H) Hc Hf Ht. destruct (steps_tau b _ _ _ _ Hc (srcs_has _ _ _ _ _ _ H) Hf Ht) as (c&S&F&A). exists c, J, X. split; [done|]. split; [done|].
  exists d, R. eapply srcs_agree; [done|done|by eapply steps_has].
Qed.
Lemma does_leave o fs xs R d a J X st c s : leaves xs R d a J X -> calm a -> a_foc a = AUser s -> rtc tau s (exec c fs) -> ctl_of st = Some c ->
  does o fs (leaves xs R) (left xs) d a J X [] st.
Proof.
  intros H Hc Hf Ht Hct. eapply does_tau; [done|by eapply srcs_has|done|done|]. intros b _ Hb Ha Fb _. eapply ds_end; [done|done|]. by eapply srcs_agree.
Qed.

Lemma does_pop o fs xs R d a J X tr st : does o (FBlock Skip :: fs) (leaves xs R) (left xs) d a J X tr st -> calm a -> has J X a -> does o fs (leaves xs R) (left xs) d a J X tr st.
Proof.
  intros H Hc Hh. rewrite <- (app_nil_r tr). eapply does_bind; [apply leaves_mono|exact H|done|done|done| | |].
  - intros b J1 X1 C1 _ Hh1 HU F1. eapply left_steps; [done|done|exact F1|by apply tau_block].
  - intros d' b J1 X1 c Hd C1 _ Hh1 HQ Hct F1. eapply does_leave; [done|done|exact F1| |done]. destruct st; simplify_eq/=; [apply tau_after|by apply tau_block..].
  - done.
Qed.
Lemma does_seq o fs xs d a J X s1 s2 (t : outcome_) (k : list rest -> outcome_) : calm a -> has J X a -> a_foc a = AUser (exec (Go (Block s1 s2)) fs) ->
  (forall b fs, calm b -> agree J X a b -> has J X b -> a_foc b = AUser (exec (Go s1) fs) -> does o fs (leaves xs t.2) (left xs) (pred d) b J X (conv o t.1.1) t.1.2) ->
  (forall d' b J X, d' <= pred d -> calm b -> leaves xs t.2 d' b J X -> a_foc b = AUser (exec (Go s2) fs) ->
     does o fs (leaves xs (k t.2).2) (left xs) d' b J X (conv o (k t.2).1.1) (k t.2).1.2) ->
  does o fs (leaves xs (and_then t k).2) (left xs) d a J X (conv o (and_then t k).1.1) (and_then t k).1.2.
Proof.
  intros Hc Hh Hf H1 H2. rewrite (strat_eta (exec _ _)) in Hf. cbn in Hf. eapply does_tick; [done|done|exact Hf|]. intros b C1 Hh1 A1 F1 _.
  specialize (H1 b (FBlock s2 :: fs) C1 A1 Hh1 F1).
  assert (exists tr2, (and_then t k).1.1 = t.1.1 ++ tr2 /\ (t.1.2 = Ends /\ tr2 = (k t.2).1.1 /\ (and_then t k).1.2 = (k t.2).1.2 /\ (and_then t k).2 = (k t.2).2 \/
    t.1.2 <> Ends /\ tr2 = [] /\ (and_then t k).1.2 = t.1.2 /\ (and_then t k).2 = t.2)) as (tr2&->&Hcs).
  { destruct t as [[l1 st1] R1]. destruct (decide (st1 = Ends)) as [->|Hs]; cbn; [exists (k R1).1.1; auto 10|]. exists []. rewrite app_nil_r. split; [by destruct st1|]. right. split; [done|]. split; [done|]. by destruct st1. }
  rewrite conv_app. eapply does_bind; [apply leaves_mono|exact H1|done|done|done| | |].
  - intros c J1 X1 C2 _ Hh2 HU F2. eapply left_steps; [done|done|exact F2|by apply tau_block].
  - intros d' c J1 X1 ct Hd C2 _ Hh2 HQ Hct F2. destruct Hcs as [(He&->&->&->)|(He&->&->&->)].
    + rewrite He in Hct. injection Hct as <-. eapply does_tau; [done|done|exact F2|apply tau_after|]. intros z Cz Hz Az Fz _. apply H2; [done|done| |done].
      by eapply srcs_agree.
    + rewrite conv_nil. eapply does_leave; [done|done|exact F2| |done]. apply tau_block. by destruct t.1.2; simplify_eq/=.
  - intros Hcut. destruct Hcs as [(He&_)|(_&->&->&_)]; [congruence|]. by rewrite conv_nil.
Qed.

Section loops.
Context (o : option nat) (xs : list nat) (D : nat) (b : nat -> stm) (f : nat -> list rest -> outcome_).
Context (Hb : forall j fs R d a J X, d <= D -> calm a -> leaves xs R d a J X -> a_foc a = AUser (exec (Go (b j)) fs) ->
  does o fs (leaves xs (f j R).2) (left xs) d a J X (conv o (f j R).1.1) (f j R).1.2).
Lemma ploops_does m : forall j fs R d a J X, d <= m -> d <= D -> calm a -> leaves xs R d a J X -> a_foc a = AUser (exec (Go (forever_do b j)) fs) ->
  does o fs (leaves xs (ploops f j m R).2) (left xs) d a J X (conv o (ploops f j m R).1.1) (ploops f j m R).1.2.
Proof.
  induction m as [|m IH]; intros j fs R d a J X Hd HD Hc Hs Hf; cbn [ploops].
  { cbn. rewrite conv_nil. apply (ds_cut _ _ _ _ _ _ _ _ []). eapply long_less; [apply long_0|lia]. }
  rewrite forever_eq in Hf. eapply does_seq; [done|by eapply srcs_has|exact Hf| |].
  - intros b0 fs0 Cb Ab Hhb Fb. apply Hb; [lia|done| |done]. eapply srcs_less; [by eapply srcs_agree|lia].
  - intros d' b0 J0 X0 Hd' Cb Hl Fb. apply IH; [lia|lia|done|done|done].
Qed.
Lemma while_eq x j : while_do x b j = Do (OBool x) eq_refl (fun c => match c with AB true => Block (b j) (while_do x b (S j)) | _ => Skip end).
Proof. by rewrite (stm_eta (while_do x b j)). Qed.
Lemma whiles_eq i j m R : whiles f i j m R = match rest_of R i with
  | Some _ => match m with O => (([], Cut), R) | S m => and_then (f j R) (whiles f i (S j) m) end
  | _ => (([], Ends), R)
  end.
Proof. by destruct m. Qed.
Lemma whiles_does i x : xs !! i = Some x -> forall m j fs R d a J X, d <= m -> d <= D -> calm a -> leaves xs R d a J X -> a_foc a = AUser (exec (Go (while_do x b j)) fs) ->
  does o fs (leaves xs (whiles f i j m R).2) (left xs) d a J X (conv o (whiles f i j m R).1.1) (whiles f i j m R).1.2.
Proof.
  intros Ex m. induction m as [|m IH]; intros j fs R d a J X Hd HD Hc Hs Hf; rewrite while_eq in Hf.
  all: destruct (srcs_lookup _ _ _ _ _ _ Hs i x Ex) as [r Er]; rewrite whiles_eq, (rest_of_eq _ _ _ Er);
    destruct (look_bool _ _ _ _ _ _ _ _ _ _ _ _ Hs Hc Ex Er Hf) as (a1&S1&F1&Hs1); (eapply ds_nil; [exact S1|]);
    pose proof (steps_calm _ _ _ _ _ _ _ S1) as C1; destruct r as [r|]; cbn in F1.
  2,4: cbn; rewrite conv_nil; by eapply ds_end.
  - cbn. rewrite conv_nil. apply (ds_cut _ _ _ _ _ _ _ _ []). eapply long_less; [apply long_0|lia].
  - eapply does_seq; [done|by eapply srcs_has|exact F1| |].
    + intros b0 fs0 Cb Ab Hhb Fb. apply Hb; [lia|done| |done]. eapply srcs_less; [by eapply srcs_agree|lia].
    + intros d' b0 J0 X0 Hd' Cb Hl Fb. apply IH; [lia|lia|done|done|done].
Qed.
End loops.

Theorem pcode_does n p : forall o xs fs R d a J X, d <= n -> calm a -> leaves xs R d a J X -> a_foc a = AUser (exec (Go (pcode p xs (yielder o))) fs) ->
  does o fs (leaves xs (pmeans n p R).2) (left xs) d a J X (conv o (pmeans n p R).1.1) (pmeans n p R).1.2.
Proof.
  induction p as [|v|w|e| |p1 IH1 p2 IH2|p IHp h IHh|src IHs body IHb|i f IHf q IHq|i f IHf q IHq|i|i f IHf|f IHf]; intros o xs fs R d a J X Hd Hc Hs Hf; cbn [pcode pmeans] in *.
  - cbn. rewrite conv_nil. by eapply ds_end.
  - pose proof (srcs_has _ _ _ _ _ _ Hs) as Hh. destruct o as [s|]; cbn in Hf |- *.
    + unfold push in Hf. rewrite exec_do in Hf. eapply ds_yield; [done|exact Hf| |].
      * intros b (Cb&_&Ab&Hb) Hfb. eapply ds_end; [done|done|]. by eapply srcs_agree.
      * intros b (Cb&_&Ab&Hb) Hfb. exists b, J, X. split; [by apply steps_refl|]. split; [done|]. exists d, R. by eapply srcs_agree.
    + destruct (steps_look a _ _ _ _ AUnit [v] J X Hc Hh Hf) as (b&S&F&A); [done|done|].
      apply (ds_steps _ _ _ _ _ _ _ _ [v] _ _ _ [] _ S). eapply ds_end; [done|done|]. eapply srcs_agree; [done|done|by eapply steps_has].
  - pose proof (srcs_has _ _ _ _ _ _ Hs) as Hh. destruct (steps_look a _ _ _ _ AUnit [w] J X Hc Hh Hf) as (b&S&F&A); [done|done|].
    cbn [fst snd]. replace (conv o [inl w]) with ((inl <$> [w]) ++ @nil (T + T)) by (by destruct o).
    eapply ds_steps; [exact S|]. eapply ds_end; [done|done|]. eapply srcs_agree; [done|done|by eapply steps_has].
  - cbn. rewrite conv_nil. eapply does_leave; [done|done|exact Hf| |reflexivity]. rewrite exec_throw. eapply rtc_l; constructor.
  - cbn. rewrite conv_nil. eapply does_leave; [done|done|exact Hf|apply tau_return|reflexivity].
  - eapply does_seq; [done|by eapply srcs_has|exact Hf| |].
    + intros b fs0 Cb Ab Hb Fb. apply IH1; [lia|done| |done]. eapply srcs_less; [by eapply srcs_agree|lia].
    + intros d' b J0 X0 Hd' Cb Hl Fb. apply IH2; [lia|done..].
  - (* try *)
    eapply does_tau; [done|by eapply srcs_has|exact Hf| |]. { rewrite exec_try. eapply rtc_l; constructor. }
    intros b C1 Hh1 A1 F1 _. set (t := pmeans n p R). set (k := fun e => pmeans n (h e)).
    assert (exists tr2, (or_else t k).1.1 = t.1.1 ++ tr2 /\
      ((exists e, t.1.2 = Raises e /\ tr2 = (k e t.2).1.1 /\ (or_else t k).1.2 = (k e t.2).1.2 /\ (or_else t k).2 = (k e t.2).2) \/
       (forall e, t.1.2 <> Raises e) /\ tr2 = [] /\ (or_else t k).1.2 = t.1.2 /\ (or_else t k).2 = t.2)) as (tr2&E&Hcs).
    { destruct t as [[l1 [| |e|]] R1]; cbn; [exists []; rewrite app_nil_r; auto 10..|exists (k e R1).1.1; split; [done|left; by exists e]|exists []; rewrite app_nil_r; auto 10]. }
    rewrite E, conv_app. eapply does_bind; [apply leaves_mono|apply IHp; [exact Hd|exact C1| |exact F1]|done|done|done| | |].
    + by eapply srcs_agree.
    + intros c J1 X1 C2 _ Hh2 HU F2. eapply left_steps; [done|done|exact F2|]. rewrite (strat_eta (exec _ (_ :: _))). cbn. eapply rtc_l; constructor.
    + intros d' c J1 X1 ct Hd' C2 _ Hh2 HQ Hct F2. fold t in HQ, Hct. destruct Hcs as [(e&He&->&->&->)|(He&->&->&->)].
      * rewrite He in Hct. injection Hct as <-. eapply does_tau; [done|done|exact F2|apply tau_catch|]. intros z Cz Hz Az Fz _.
        eapply does_pop; [|done|done]. apply IHh; [lia|done| |done]. by eapply srcs_agree.
      * rewrite conv_nil. eapply does_leave; [done|done|exact F2| |done].
        rewrite (strat_eta (exec _ (_ :: _))). destruct t.1.2 as [| |e|]; simplify_eq/=; [eapply rtc_l; constructor..|]. by destruct (He e).
    + intros Hcut. fold t in Hcut. destruct Hcs as [(e&He&_)|(_&->&->&_)]; [congruence|]. by rewrite conv_nil.
  - (* a new object *)
    rewrite exec_new in Hf.
    assert (Hfn : forall b, calm b -> a_foc b = AUser (exec (Go (pcode src [] (fun v => push (S (a_nh a)) (AImm v) Skip))) []) ->
      acts (Some (S (a_nh a))) [] n b none none (pmeans n src []).1.1 (pmeans n src []).1.2).
    { intros b Hb Hfb. eapply does_acts. apply (IHs (Some (S (a_nh a))) [] [] [] n b none none (Nat.le_refl _) Hb); [|exact Hfb]. apply srcs_nil, has_none. }
    destruct (pmeans n src []).1 as [l st] eqn:Esrc. cbn [fst snd] in Hfn |- *.
    (* the body, with the new object *)
    assert (Hbody : forall r d' b J1 X1, d' <= n -> calm b -> leaves (a_nh a :: xs) (r :: R) d' b J1 X1 ->
       a_foc b = AUser (exec (Go (pcode body (a_nh a :: xs) (yielder o))) (FLocal (ODestroy (a_nh a)) Skip :: fs)) ->
       does o fs (leaves xs (tail (pmeans n body (r :: R)).2)) (left xs) d' b J1 X1 (conv o (pmeans n body (r :: R)).1.1) (pmeans n body (r :: R)).1.2).
    { intros r d' b J1 X1 Hd' Cb Hl Fb. rewrite <- (app_nil_r (conv _ _)). eapply does_bind; [apply leaves_mono|by apply (IHb _ _ _ _ _ _ _ _ Hd' Cb Hl Fb)|done|done|by eapply srcs_has| | |].
      - intros c J2 X2 C2 _ Hh2 (d2&R2&HU) F2. destruct (srcs_leave _ _ _ _ _ _ _ (Exn XUnwind) _ HU C2 I F2) as (z&J3&X3&S3&F3&H3). exists z, J3, X3. split; [done|]. split; [done|]. by eexists _, _.
      - intros d2 c J2 X2 ct Hd2 C2 _ Hh2 HQ Hct F2. destruct (srcs_leave _ _ _ _ _ _ _ ct _ HQ C2 ltac:(destruct (pmeans n body (r :: R)).1.2; by simplify_eq/=) F2) as (z&J3&X3&S3&F3&H3).
        eapply ds_nil; [exact S3|]. by eapply ds_end.
      - done. }
    destruct (split_notes l) as (ns&[El|(v&l'&El&_)]).
    + rewrite El, turn_end in *. destruct (decide (st = Cut)) as [->|Hst].
      { cbn [fst snd]. rewrite conv_notes. apply ds_cut. eapply long_less; [|exact Hd]. by eapply made_long. }
      destruct (made_end a _ _ _ _ _ Hc Hf Hfn ns eq_refl Hst) as (b&J1&X1&S1&F1&Hx).
      pose proof (steps_calm _ _ _ _ _ _ _ S1) as C1. pose proof (steps_has _ _ _ _ _ _ _ S1) as Hh1.
      assert (Hcase : (exists e, st = Raises e) \/ ~ (exists e, st = Raises e)) by (destruct st; [right; by intros [? ?]|right; by intros [? ?]|left; by eexists|done]).
      destruct Hcase as [[e ->]|Hne].
      * pose proof (srcs_has _ _ _ _ _ _ Hs) as Hh. destruct (steps_agree _ _ _ _ _ _ _ _ _ S1 Hh (apart_none _) (apart_none _)) as (Ha&Hhc&D1'&D2').
        cbn [fst snd]. rewrite conv_notes, <- (app_nil_r (inl <$> ns)). eapply ds_steps.
        { eapply steps_weaken; [eapply steps_frame; [exact S1|exact Hh|apply apart_none..]|apply sub_plus; [apply sub_none|apply sub_refl]..]. }
        eapply ds_end; [reflexivity|exact F1|]. eapply srcs_weaken; [by eapply srcs_agree|apply sub_r|apply sub_r|by apply has_plus].
      * assert (Hx' : a_h b !! a_nh a = Some (HObj Pull KVal None)) by (destruct st; [done|done| |done]; destruct Hne; by eexists).
        assert (F1' : a_foc b = AUser (exec (Go (pcode body (a_nh a :: xs) (yielder o))) (FLocal (ODestroy (a_nh a)) Skip :: fs))).
        { rewrite F1. destruct st; [done|done| |done]. destruct Hne. by eexists. }
        destruct (srcs_new a b d d (a_nh a) xs R None J X _ _ ns Hs (Nat.le_refl _) S1) as (J2&X2&S2&H2). { apply src_empty; [done|by left|done]. }
        assert (E : match st with Returns => Ends | _ => st end = Ends) by (destruct st; [done|done| |done]; destruct Hne; by eexists). rewrite E. cbn [fst snd].
        rewrite conv_app, conv_notes. eapply ds_steps; [exact S2|]. by apply Hbody.
    + rewrite El, turn_value in *. cbn [fst snd].
      destruct (made_value nothrow a _ _ _ _ _ Hc Hf Hfn ns v l' eq_refl) as (b&kp&J1&X1&c1&d1&L1&Hd1&S1&F1&Su1). pose proof (steps_calm _ _ _ _ _ _ _ S1) as C1.
      assert (Hc1 : d - c1 <= d) by lia. destruct (srcs_new a b d (d - c1) (a_nh a) xs R (Some (v, (l', st))) J X _ _ ns Hs Hc1 S1) as (J2&X2&S2&H2); [eapply src_some; [exact Su1|lia]|].
      rewrite conv_app, conv_notes. eapply (ds_count _ _ _ _ _ c1 (d - c1)); [done|lia|exact S2|]. apply Hbody; [lia|done|done|exact F1].
  - (* get *)
    destruct (xs !! i) as [x|] eqn:Ex; [|rewrite (rest_of_none _ _ (srcs_none _ _ _ _ _ _ Hs _ Ex)); by apply IHq].
    destruct (srcs_lookup _ _ _ _ _ _ Hs i x Ex) as [r Er]. rewrite (rest_of_eq _ _ _ Er).
    destruct (look_bool _ _ _ _ _ _ _ _ _ _ _ _ Hs Hc Ex Er Hf) as (a1&S1&F1&Hs1). eapply ds_nil; [exact S1|]. pose proof (steps_calm _ _ _ _ _ _ _ S1) as C1.
    destruct r as [[v t]|]; cbn in F1; [|by apply IHq].
    destruct (look_get _ _ _ _ _ _ _ _ _ _ _ _ _ Hs1 C1 Ex Er F1) as (a2&J2&X2&S2&F2&Hs2). eapply ds_nil; [exact S2|]. pose proof (steps_calm _ _ _ _ _ _ _ S2) as C2.
    by apply IHf.
  - (* peek *)
    destruct (xs !! i) as [x|] eqn:Ex; [|rewrite (rest_of_none _ _ (srcs_none _ _ _ _ _ _ Hs _ Ex)); by apply IHq].
    destruct (srcs_lookup _ _ _ _ _ _ Hs i x Ex) as [r Er]. rewrite (rest_of_eq _ _ _ Er).
    destruct (look_begin _ _ _ _ _ _ _ _ _ _ _ _ Hs Hc Ex Er Hf) as (a1&S1&F1&Hs1). eapply ds_nil; [exact S1|]. pose proof (steps_calm _ _ _ _ _ _ _ S1) as C1.
    destruct (look_pure _ _ _ _ _ _ _ _ _ _ (AIt None) Hs1 C1 F1) as (a2&S2&F2&Hs2); [done|done|]. eapply ds_nil; [exact S2|]. pose proof (steps_calm _ _ _ _ _ _ _ S2) as C2.
    destruct r as [[v t]|]; cbn in F2.
    + destruct (look_pure _ _ _ _ _ _ _ _ _ _ (AB true) Hs2 C2 F2) as (a3&S3&F3&Hs3); [done|done|]. eapply ds_nil; [exact S3|]. pose proof (steps_calm _ _ _ _ _ _ _ S3) as C3. cbn in F3.
      destruct (look_peek _ _ _ _ _ _ _ _ _ _ _ _ _ Hs3 C3 Ex Er F3) as (a4&S4&F4&Hs4). eapply ds_nil; [exact S4|]. pose proof (steps_calm _ _ _ _ _ _ _ S4) as C4.
      by apply IHf.
    + destruct (look_pure _ _ _ _ _ _ _ _ _ _ (AB false) Hs2 C2 F2) as (a3&S3&F3&Hs3); [done|done|]. eapply ds_nil; [exact S3|]. pose proof (steps_calm _ _ _ _ _ _ _ S3) as C3. cbn in F3.
      by apply IHq.
  - (* next *)
    destruct (xs !! i) as [x|] eqn:Ex; [|rewrite (rest_of_none _ _ (srcs_none _ _ _ _ _ _ Hs _ Ex)); cbn; rewrite conv_nil; by eapply ds_end].
    destruct (srcs_lookup _ _ _ _ _ _ Hs i x Ex) as [r Er]. rewrite (rest_of_eq _ _ _ Er).
    destruct (look_bool _ _ _ _ _ _ _ _ _ _ _ _ Hs Hc Ex Er Hf) as (a1&S1&F1&Hs1). eapply ds_nil; [exact S1|]. pose proof (steps_calm _ _ _ _ _ _ _ S1) as C1.
    destruct r as [[v [l st]]|]; cbn in F1; [|cbn; rewrite conv_nil; by eapply ds_end]. cbn [fst snd]. rewrite conv_notes.
    eapply next_does; [exact Hs1|exact C1|exact Ex|exact Er|done|exact F1].
  - (* while *)
    destruct (xs !! i) as [x|] eqn:Ex.
    + eapply (whiles_does o xs n); [|done|lia|lia|done|done|exact Hf]. intros j fs0 R0 d0 a0 J0 X0 H1 H2 H3 H4. by apply IHf.
    + cbn. assert (E : whiles (fun j => pmeans n (f j)) i 0 n R = (([], Ends), R)). { pose proof (rest_of_none _ _ (srcs_none _ _ _ _ _ _ Hs _ Ex)) as En. destruct n; cbn; by rewrite En. }
      rewrite E. cbn. rewrite conv_nil. by eapply ds_end.
  - eapply (ploops_does o xs n); [|lia|lia|done|done|exact Hf]. intros j fs0 R0 d0 a0 J0 X0 H1 H2 H3 H4. by apply IHf.
Qed.

(** ** Whole programs *)
Lemma pmain_acts n p u : acts None [] n (ainit (pmain p) u) none none (inl <$> written (pdoes n p).1) (pdoes n p).2.
Proof.
  rewrite <- conv_written. eapply does_acts. apply (pcode_does n p None [] [] []); [done|apply init_calm| |done].
  apply srcs_nil, has_none.
Qed.
Lemma pmain_long n p u : (pdoes n p).2 = Cut -> exists k a, n <= k /\ arun k (ainit (pmain p) u) = ANext a /\ output (a_tr a) = written (pdoes n p).1.
Proof. intros Hs. pose proof (pmain_acts n p u) as H. rewrite Hs in H. destruct (acts_long _ _ _ _ _ _ _ _ H _ eq_refl eq_refl) as (b&(k&Hk&Hr)&O). by exists k, b. Qed.
Lemma pmain_reaches n p u : exists k a, arun k (ainit (pmain p) u) = ANext a /\ output (a_tr a) = written (pdoes n p).1.
Proof.
  destruct (acts_prefix _ _ _ _ _ _ _ _ (pmain_acts n p u) eq_refl _ eq_refl (init_calm _ _) (has_none _)) as [Hs|(b&J&X&[k G]&_&_&_&_&O)]; [|exists k, b; by rewrite O].
  destruct (pmain_long n p u Hs) as (k&a&_&H1&H2). by exists k, a.
Qed.
Lemma pmain_ends n p u : match (pdoes n p).2 with Ends | Returns => True | _ => False end -> exists k a, arun k (ainit (pmain p) u) = AHalt Finished a /\ output (a_tr a) = written (pdoes n p).1.
Proof.
  intros Hs. pose proof (pmain_acts n p u) as H. destruct (ctl_of (pdoes n p).2) as [c|] eqn:Hc; [|by destruct (pdoes n p).2].
  destruct (acts_end _ _ _ _ _ _ _ _ H _ c eq_refl Hc (init_calm _ _) (has_none _)) as (b&J&X&(G&_&[_ _ _ Hcur _ _ _]&_&_&O)&F).
  destruct (goes_halt _ _ Finished b G) as [k Hk]; [|exists k, b; by rewrite O]. unfold astep. rewrite F. cbn in Hcur.
  destruct (pdoes n p).2; try done; injection Hc as <-; rewrite ?exec_skip0, ?exec_ret0; unfold do_leave; by rewrite Hcur.
Qed.
Lemma pmain_raises n p u e : (pdoes n p).2 = Raises e -> exists k a, arun k (ainit (pmain p) u) = AHalt Terminated a /\ output (a_tr a) = written (pdoes n p).1.
Proof.
  intros Hs. pose proof (pmain_acts n p u) as H. rewrite Hs in H.
  destruct (acts_end _ _ _ _ _ _ _ _ H _ _ eq_refl eq_refl (init_calm _ _) (has_none _)) as (b&J&X&(G&_&[_ _ _ Hcur _ _ _]&_&_&O)&F).
  destruct (goes_halt _ _ Terminated b G) as [k Hk]; [|exists k, b; by rewrite O]. unfold astep. rewrite F. cbn in Hcur.
  rewrite exec_exn0. unfold do_leave. by rewrite Hcur.
Qed.
End many.
