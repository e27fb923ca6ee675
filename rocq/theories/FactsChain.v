(** FactsChain.v -- the programs of Chain.v do what [pmeans] says: proofs.

    As FactsMany.v; but a generator may use objects that belong to the scope around it.
    While it exists they are part of its footprint; once it is gone they can be destroyed. *)
From stdpp Require Import prelude gmap relations.
From Coq Require Import Lia.
From Verif Require Import Base Model Spec InvSpec Main Hist Trace Cpp FactsReplay Progs Steps FactsProg Gens FactsGen Many FactsMany Chain.

Local Opaque gmap_lookup map_insert map_delete gmap_partial_alter.

Section chain.
Context {env : Env}.
Context (nothrow : forall v, move_exn v = None).

(** The objects [Z] can be destroyed, one after the other, by whichever context. *)
Fixpoint undoable (Z : list nat) (a : astate) (J X : fp) : Prop :=
  match Z with
  | [] => True
  | x :: Z => forall b kk, calm b -> agree J X a b -> has J X b -> a_foc b = AUser (SDo (ODestroy x) kk) ->
      exists c J' X', steps b J X [] c J' X' /\ a_foc c = AUser (kk (ROk AUnit)) /\ undoable Z c J' X'
  end.
Lemma undoable_agree Z a b J X : undoable Z a J X -> agree J X a b -> undoable Z b J X.
Proof. destruct Z as [|x Z]; [done|]. intros H Ha c kk Hc Hac. apply H; [done|by eapply agree_trans]. Qed.
Lemma undoable_weaken Z a J X J0 X0 : undoable Z a J X -> sub J J0 -> sub X X0 -> undoable Z a J0 X0.
Proof.
  destruct Z as [|x Z]; [done|]. intros H HJ HX b kk Hc Ha Hh Hf. destruct (H b kk Hc) as (c&J'&X'&Hs&?); [by eapply agree_sub|by eapply has_sub|done|].
  exists c, J', X'. split; [by eapply steps_weaken|done].
Qed.
Definition frames (Z : list nat) : list frame := (fun x => FLocal (ODestroy x) Skip) <$> Z.
Lemma undo Z : forall a J X c fs, undoable Z a J X -> calm a -> has J X a -> match c with Go s => s = Skip | _ => True end -> a_foc a = AUser (exec c (frames Z ++ fs)) ->
  exists b J' X', steps a J X [] b J' X' /\ a_foc b = AUser (exec c fs).
Proof.
  induction Z as [|x Z IH]; intros a J X c fs H Hc Hh Hct Hf; cbn in Hf.
  { exists a, J, X. split; [by apply steps_refl|done]. }
  rewrite (strat_eta (exec _ _)) in Hf. cbn in H. assert (exists kk, a_foc a = AUser (SDo (ODestroy x) kk) /\ kk (ROk AUnit) = exec c (frames Z ++ fs)) as (kk&Hk&Ek).
  { destruct c as [sk| |e]; cbn in Hct; [subst sk| |]; cbn in Hf; (eexists; split; [exact Hf|reflexivity]). }
  destruct (H a kk Hc (agree_refl _ _ _) Hh Hk) as (b&J'&X'&Hs&Hfb&Hu). rewrite Ek in Hfb.
  destruct (IH b J' X' _ fs Hu (steps_calm _ _ _ _ _ _ _ Hs) (steps_has _ _ _ _ _ _ _ Hs) Hct Hfb) as (z&J2&X2&Hs2&Hfz).
  exists z, J2, X2. split; [by eapply (steps_trans _ _ _ [])|done].
Qed.

(** ** Running to the next value, to the end *)
Lemma does_value s fs Q U d a J X tr st : does (Some s) fs Q U d a J X tr st -> forall ns v tr', tr = (inl <$> ns) ++ inr v :: tr' -> calm a -> has J X a ->
  exists b J' X' kp c d', lasts c a b /\ d <= c + d' /\ steps a J X ns b J' X' /\ a_foc b = AUser (SDo (OPush s (AImm v)) kp) /\
    (forall c, resumed b J' X' c -> a_foc c = AUser (kp (ROk AUnit)) -> does (Some s) fs Q U d' c J' X' tr' st) /\
    (forall c, resumed b J' X' c -> a_foc c = AUser (kp (RExn XUnwind)) -> exists d J2 X2, steps c J' X' [] d J2 X2 /\ a_foc d = AUser (exec (Exn XUnwind) fs) /\ U d J2 X2).
Proof.
  induction 1 as [d c0 d1 a J X l b J' X' tr st Hl Hd H1 H2 IH|d a J X s' v0 kp tr st Ho Hf H1 IH H2|d a J X st c Hc Hf Hq|d a J X l Hl]; intros ns v tr' E Hc' Hh.
  - apply notes_split in E as (ns'&->&E). destruct (IH ns' v tr' E) as (c&J2&X2&kp&c2&d2&Hl2&Hd2&Hs&Hr); [by eapply steps_calm|by eapply steps_has|].
    exists c, J2, X2, kp, (c0 + c2), d2. split; [by eapply lasts_trans|]. split; [lia|]. split; [by eapply steps_trans|done].
  - injection Ho as <-. destruct ns; [|done]. cbn in E. injection E as <- <-. exists a, J, X, kp, 0, d. split; [apply lasts_goes, goes_refl|]. split; [lia|]. split; [by apply steps_refl|]. done.
  - by destruct ns.
  - by apply notes_only in E.
Qed.
Lemma does_end o fs Q U d a J X tr st : does o fs Q U d a J X tr st -> forall ns c, tr = (inl <$> ns) -> ctl_of st = Some c -> calm a -> has J X a ->
  exists d' b J' X', steps a J X ns b J' X' /\ a_foc b = AUser (exec c fs) /\ Q d' b J' X'.
Proof.
  induction 1 as [d c0 d1 a J X l b J' X' tr st Hl Hd H1 H2 IH|d a J X s' v0 kp tr st Ho Hf H1 IH H2|d a J X st c Hc Hf Hq|d a J X l Hl]; intros ns c' E Hct Hc' Hh.
  - apply notes_split_nil in E as (ns'&->&E). destruct (IH ns' c' E) as (d'&c&J2&X2&Hs&Hr); [done|by eapply steps_calm|by eapply steps_has|].
    exists d', c, J2, X2. split; [by eapply steps_trans|done].
  - by destruct ns.
  - destruct ns; [|done]. exists d, a, J, X. split; [by apply steps_refl|]. split; [congruence|done].
  - done.
Qed.
Lemma does_long o fs Q U d a J X ns : does o fs Q U d a J X (inl <$> ns) Cut -> long d a ns.
Proof. intros H%does_acts. by eapply acts_long. Qed.
Lemma does_weaken (Q' : nat -> astate -> fp -> fp -> Prop) (U' : astate -> fp -> fp -> Prop) o fs Q U d a J X tr st : does o fs Q U d a J X tr st ->
  (forall d b J X, Q d b J X -> Q' d b J X) -> (forall b J X, U b J X -> U' b J X) -> does o fs Q' U' d a J X tr st.
Proof.
  intros H HQ HU. induction H as [d c0 d1 a J X l b J' X' tr st Hl Hd H1 H2 IH|d a J X s' v0 kp tr st Ho Hf H1 IH H2|d a J X st c Hc Hf Hq|d a J X l Hl].
  - by eapply ds_count.
  - eapply ds_yield; [done|done|done|]. intros b Hb Hfb. destruct (H2 b Hb Hfb) as (c&J'&X'&?&?&?). exists c, J', X'. auto.
  - eapply ds_end; [done|done|]. by apply HQ.
  - by apply ds_cut.
Qed.

(** ** Suspended coroutines *)
(** As [susp]; when the function has ended, what is left of the objects it used, [Z], can be destroyed. *)
Record csusp (a : astate) (x k s : nat) (v : T) (kp : resp -> strat) (Z : list nat) (J X : fp) (d : nat) (tr : list (T + T)) (st : stop) : Prop := {
  cu_x : a_h a !! x = Some (HObj Pull KVal (Some (Outer k)));
  cu_s : a_h a !! s = Some (HObj Push KVal (Some (Inner k)));
  cu_xs : x <> s;
  cu_co : exists o b, a_co a !! k = Some (ACo Pull KVal (ASusp o PoUnit kp) (SlFull (PVal v)) s b);
  cu_has : has (one k J) (two x s X) a;
  cu_k : ~ J k; cu_nx : ~ X x; cu_ns : ~ X s; cu_k0 : 0 < k;
  cu_go : forall b, calm b -> a_cur b = k -> agree J X a b -> has J X b -> a_foc b = AUser (kp (ROk AUnit)) ->
    does (Some s) [] (fun _ => undoable Z) (undoable Z) d b J X tr st;
  cu_kill : forall b, calm b -> a_cur b = k -> agree J X a b -> has J X b -> a_foc b = AUser (kp (RExn XUnwind)) ->
    exists c J2 X2, steps b J X [] c J2 X2 /\ a_foc c = AUser (exec (Exn XUnwind) []) /\ undoable Z c J2 X2 }.

Lemma csusp_agree a b x k s v kp Z J X d tr st : csusp a x k s v kp Z J X d tr st -> agree (one k J) (two x s X) a b -> has (one k J) (two x s X) b -> csusp b x k s v kp Z J X d tr st.
Proof.
  intros [H1 H2 H3 (o&b0&H4) H5 H6 H7 H8 H9 H10 H11] Ha Hh. pose proof Ha as [A1 A2 A3 A4 A5].
  assert (Ha' : agree J X a b) by (eapply agree_sub; [done|apply sub_one|apply sub_two]). split; try done.
  - rewrite A1; [done|by left].
  - rewrite A1; [done|by right; left].
  - exists o, b0. rewrite A2; [done|by left].
  - intros c Hc Ec Hac. apply H10; try done. by eapply agree_trans.
  - intros c Hc Ec Hac. apply H11; try done. by eapply agree_trans.
Qed.
Lemma csusp_cur a x k s v kp Z J X d tr st : csusp a x k s v kp Z J X d tr st -> a_cur a <> k.
Proof. intros H. destruct (cu_has _ _ _ _ _ _ _ _ _ _ _ _ H) as [H1 _]. destruct (H1 k) as (_&_&?); [by left|done]. Qed.

Lemma csusp_enter a x k s v kp Z J X d tr st op po kk : csusp a x k s v kp Z J X d tr st -> calm a -> advance x op po -> a_foc a = AUser (SDo op kk) ->
  exists b o by_, goes a b /\ calm b /\ has J X b /\ agree J X a b /\ a_cur b = k /\ a_foc b = AUser (kp (ROk AUnit)) /\
    output (a_tr b) = output (a_tr a) /\ does (Some s) [] (fun _ => undoable Z) (undoable Z) d b J X tr st /\
    a_co a !! k = Some (ACo Pull KVal (ASusp o PoUnit kp) (SlFull (PVal v)) s by_) /\
    a_co b = <[ k := ACo Pull KVal ARun (SlFull (PVal v)) s (a_cur a) ]> (a_co a) /\
    a_wait b = <[ a_cur a := WOp k (NOp op) po kk ]> (a_wait a) /\ a_h b = a_h a /\ a_user b = a_user a /\ a_nh b = a_nh a /\ a_nk b = a_nk a.
Proof.
  intros H Hcm Hadv Hf. pose proof (csusp_cur _ _ _ _ _ _ _ _ _ _ _ _ H) as Hcur. destruct H as [Hx Hs Hxs (o&b0&Hc) Hh Hk Hnx Hns Hk0 Hgo _]. pose proof Hcm as (Hn&Hw&Hn0&Hn1&Hfr).
  destruct Hh as [Hh1 Hh2]. destruct (Hh1 k) as (Hkn&Hwk&_); [by left|].
  pose proof (astep_do _ _ _ Hf Hn) as E. assert (Et : do_op op kk (alog (EvCall (a_cur a) (NOp op)) a) = transfer (Outer k) (NOp op) po kk (alog (EvCall (a_cur a) (NOp op)) a)).
  { destruct Hadv as [[-> ->]|[-> ->]]; cbn; rewrite Hx; cbn; unfold resumable; cbn; rewrite Hc; cbn; reflexivity. } rewrite Et in E. clear Et.
  unfold transfer in E. cbn in E. rewrite Hc in E. cbn in E. unfold deliver, ret_to in E. cbn in E.
  match type of E with _ = ANext ?b => set (b' := b) in E end. rename b' into b. exists b, o, b0. assert (Hcb : calm b).
  { split; [|split; [|split; [done|split; [done|]]]]; cbn.
    - intros k' c' fn. cbn. intros [[_ <-]|[_ Hl]]%lookup_insert_Some; [done|by eapply Hn].
    - by rewrite lookup_insert_ne.
    - intros j Hj. rewrite lookup_insert_ne by lia. by apply Hfr. }
  assert (Hab : agree J X a b).
  { split; cbn; try done. intros j Hj. by rewrite lookup_insert_ne by (intros ->; done). }
  assert (Hhb : has J X b).
  { split; [|intros y Hy; apply Hh2; by right; right]. intros j Hj. destruct (Hh1 j) as (H1&H2&H3); [by right|]. cbn. split; [done|]. rewrite lookup_insert_ne by done. split; [done|]. intros ->. done. }
  split; [by apply goes_step|]. split; [done|]. split; [done|]. split; [done|]. split; [done|]. split; [done|]. split; [by destruct Hadv as [[-> _]|[-> _]]|]. split; [by apply Hgo|]. done.
Qed.
(** [x();]: another value ... *)
Lemma csusp_inc a x k s v kp Z J X d ns v' tr st op po kk : csusp a x k s v kp Z J X d ((inl <$> ns) ++ inr v' :: tr) st -> calm a -> advance x op po ->
  a_foc a = AUser (SDo op kk) ->
  exists b kp' J' X' c d', lasts c a b /\ d <= c + d' /\ steps a (one k J) (two x s X) ns b (one k J') (two x s X') /\ a_foc b = AUser (kk (ROk (more po))) /\ csusp b x k s v' kp' Z J' X' d' tr st.
Proof.
  intros Hsu Hcm Hadv Hf. pose proof (csusp_cur _ _ _ _ _ _ _ _ _ _ _ _ Hsu) as Hcur.
  destruct (csusp_enter _ _ _ _ _ _ _ _ _ _ _ _ _ _ _ Hsu Hcm Hadv Hf) as (b&o&by_&G1&C1&Hh1&A1&E1&Hf1&O1&Hac&Hco&E2&E3&E4&E5&E6&E7).
  destruct (does_value _ _ _ _ _ _ _ _ _ _ Hac ns v' tr eq_refl C1 Hh1) as (b1&J1&X1&kp'&n&d'&Hla&Hd&Hst&Hf2&Hgo&Hkill).
  destruct Hsu as [Hx Hs Hxs _ [Hha1 Hha2] Hk Hnx Hns Hk0 _ _]. destruct (Hha1 k) as (Hkn&Hwk&_); [by left|].
  assert (Hxn : x < a_nh a) by (apply Hha2; by left). assert (Hsn : s < a_nh a) by (apply Hha2; by right; left).
  pose proof Hst as (_&C2&F&[Gr1 Gr2]&Hh2&_). assert (Hcob1 : a_co b1 !! k = Some (ACo Pull KVal ARun (SlFull (PVal v)) s (a_cur a))).
  { rewrite (fr_co _ _ _ _ F), E2; [by rewrite lookup_insert|lia|done]. }
  assert (Hsb1 : a_h b1 !! s = Some (HObj Push KVal (Some (Inner k)))) by (rewrite (fr_h _ _ _ _ F), E4; [done|lia|done]).
  assert (Hxb1 : a_h b1 !! x = Some (HObj Pull KVal (Some (Outer k)))) by (rewrite (fr_h _ _ _ _ F), E4; [done|lia|done]).
  assert (Hwb1 : a_wait b1 = <[ a_cur a := WOp k (NOp op) po kk ]> (a_wait a)) by (by rewrite (fr_wait _ _ _ _ F), E3).
  assert (Hcb1 : a_cur b1 = k) by (by rewrite (fr_cur _ _ _ _ F)).
  assert (HJ1 : ~ J1 k). { intros [?|?]%Gr1; [done|lia]. } assert (HX1 : ~ X1 x). { intros [?|?]%Gr2; [done|lia]. } assert (HX2 : ~ X1 s). { intros [?|?]%Gr2; [done|lia]. }
  pose proof C2 as (Hn2&_). pose proof (astep_do _ _ _ Hf2 Hn2) as E. cbn in E. rewrite Hsb1 in E. unfold push_op, resumable in E. cbn in E.
  rewrite Hcb1 in E. rewrite bool_decide_eq_true_2 in E by done. cbn in E. rewrite Hcob1 in E. cbn in E. rewrite nothrow in E.
  unfold transfer, give_back in E. cbn in E. rewrite ?lookup_insert, ?Hcb1, ?Hwb1 in E. cbn in E. rewrite ?lookup_insert in E. cbn in E. unfold deliver in E. cbn in E.
  match type of E with _ = match po with PoUnit => ret_to _ _ _ ?b | _ => _ end => set (z := b) in E end.
  assert (Ez : astep b1 = ret_to (NOp op) (more po) kk z). { destruct Hadv as [[-> ->]|[-> ->]]; [|exact E]. rewrite E. cbn. rewrite Hxb1. cbn. by rewrite ?lookup_insert. }
  clear E. rename Ez into E. unfold ret_to in E. subst z. cbn in E.
  match type of E with _ = ANext ?b => set (c := b) in E end.
  assert (Hstc : steps a (one k J) (two x s X) ns c (one k J1) (two x s X1)).
  { eapply (back_steps a b b1 c); try done.
    - intros y _ _. by rewrite E4.
    - intros j Hj. rewrite E2. by rewrite lookup_insert_ne.
    - by apply goes_step.
    - intros k' c' fn. cbn. rewrite !insert_insert. intros [[_ <-]|[_ Hl]]%lookup_insert_Some; [done|by eapply Hn2].
    - cbn. by rewrite Hwb1.
    - intros j Hj. cbn. by rewrite !lookup_insert_ne by done. }
  exists c, kp', J1, X1, n, d'. split; [eapply lasts_mid; [exact G1|exact Hla|by apply goes_step]|]. split; [done|]. split; [done|]. split; [done|]. pose proof Hstc as (_&_&_&_&Hhc&_). split; try done.
  - cbn. rewrite !lookup_insert. by eexists _, _.
  - intros dd Hcd Ecd Had Hhd Hfd. apply Hgo; [|done]. split; [done|]. split; [by rewrite Hcb1|]. split; [|done]. destruct Had as [B1 B2 B3 B4 B5]. split; try done.
    intros j Hj. rewrite B2 by done. cbn. rewrite !lookup_insert_ne by (intros ->; done). done.
  - intros dd Hcd Ecd Had Hhd Hfd. apply Hkill; [|done]. split; [done|]. split; [by rewrite Hcb1|]. split; [|done]. destruct Had as [B1 B2 B3 B4 B5]. split; try done.
    intros j Hj. rewrite B2 by done. cbn. rewrite !lookup_insert_ne by (intros ->; done). done.
Qed.
(** ... or the end: the function returned or threw. *)
Lemma csusp_inc_end a x k s v kp Z J X d ns st op po kk : csusp a x k s v kp Z J X d (inl <$> ns) st -> st <> Cut -> calm a -> advance x op po ->
  a_foc a = AUser (SDo op kk) ->
  exists b J' X', steps a (one k J) (two x s X) ns b (one k J') (two x s X') /\ a_foc b = AUser (kk (answer_end st (nomore po))) /\ finished b x k s /\
    ~ J' k /\ ~ X' x /\ ~ X' s /\ undoable Z b J' X'.
Proof.
  intros Hsu Hst0 Hcm Hadv Hf. pose proof (csusp_cur _ _ _ _ _ _ _ _ _ _ _ _ Hsu) as Hcur.
  destruct (csusp_enter _ _ _ _ _ _ _ _ _ _ _ _ _ _ _ Hsu Hcm Hadv Hf) as (b&o&by_&G1&C1&Hh1&A1&E1&Hf1&O1&Hac&Hco&E2&E3&E4&E5&E6&E7).
  destruct (ctl_of st) as [ct|] eqn:Hct; [|by destruct st].
  destruct (does_end _ _ _ _ _ _ _ _ _ _ Hac ns ct eq_refl Hct C1 Hh1) as (_&b1&J1&X1&Hst&Hf2&Hun).
  destruct Hsu as [Hx Hs Hxs _ [Hha1 Hha2] Hk Hnx Hns Hk0 _ _]. destruct (Hha1 k) as (Hkn&Hwk&_); [by left|].
  assert (Hxn : x < a_nh a) by (apply Hha2; by left). assert (Hsn : s < a_nh a) by (apply Hha2; by right; left).
  pose proof Hst as (_&C2&F&[Gr1 Gr2]&Hh2&_). assert (Hcob1 : a_co b1 !! k = Some (ACo Pull KVal ARun (SlFull (PVal v)) s (a_cur a))).
  { rewrite (fr_co _ _ _ _ F), E2; [by rewrite lookup_insert|lia|done]. }
  assert (Hsb1 : a_h b1 !! s = Some (HObj Push KVal (Some (Inner k)))) by (rewrite (fr_h _ _ _ _ F), E4; [done|lia|done]).
  assert (Hxb1 : a_h b1 !! x = Some (HObj Pull KVal (Some (Outer k)))) by (rewrite (fr_h _ _ _ _ F), E4; [done|lia|done]).
  assert (Hwb1 : a_wait b1 = <[ a_cur a := WOp k (NOp op) po kk ]> (a_wait a)) by (by rewrite (fr_wait _ _ _ _ F), E3).
  assert (Hcb1 : a_cur b1 = k) by (by rewrite (fr_cur _ _ _ _ F)).
  assert (HJ1 : ~ J1 k). { intros [?|?]%Gr1; [done|lia]. } assert (HX1 : ~ X1 x). { intros [?|?]%Gr2; [done|lia]. } assert (HX2 : ~ X1 s). { intros [?|?]%Gr2; [done|lia]. }
  pose proof C2 as (Hn2&_).
  assert (exists c, astep b1 = ANext c /\ a_foc c = AUser (kk (answer_end st (nomore po))) /\ a_cur c = a_cur a /\ a_wait c = delete (a_cur a) (a_wait b1) /\
    a_h c = a_h b1 /\ a_user c = a_user b1 /\ a_nh c = a_nh b1 /\ a_nk c = a_nk b1 /\ (exists ex, a_co c = <[ k := ACo Pull KVal (ADone ex) (SlFull (PVal v)) s (a_cur a) ]> (a_co b1)) /\
    output (a_tr c) = output (a_tr b1)) as (c&E&Hfc&R1&R2&R3&R4&R5&R6&[ex R7]&R8).
  { unfold astep. rewrite Hf2. destruct st as [| |e|]; [| | |done]; injection Hct as <-; rewrite ?exec_skip0, ?exec_ret0, ?exec_exn0; unfold do_leave; rewrite Hcb1;
      rewrite decide_False by lia; rewrite Hcob1; cbn; unfold give_back; cbn; rewrite Hwb1; rewrite ?lookup_insert; cbn; rewrite ?lookup_insert; cbn; rewrite ?Hcob1; cbn; rewrite ?lookup_insert; cbn;
      unfold deliver; cbn; (destruct Hadv as [[-> ->]|[-> ->]]); cbn; rewrite ?Hxb1; cbn; rewrite ?lookup_insert; cbn; unfold ret_to, exn_to; cbn; eexists; (split; [reflexivity|]); cbn; rewrite ?insert_insert; split_and!; try done; by eexists. }
  assert (Hstc : steps a (one k J) (two x s X) ns c (one k J1) (two x s X1)).
  { eapply (back_steps a b b1 c); try done.
    - intros y _ _. by rewrite E4.
    - intros j Hj. rewrite E2. by rewrite lookup_insert_ne.
    - by apply goes_step.
    - by eapply (nonew_of b1).
    - intros y _ _. by rewrite R3.
    - intros j Hj. rewrite R7. by rewrite !lookup_insert_ne by done. }
  exists c, J1, X1. split; [done|]. split; [done|]. split.
  { unfold finished. rewrite R3, R7. split; [done|]. split; [done|]. split; [done|]. rewrite lookup_insert. by eexists _, _, _. }
  split; [done|]. split; [done|]. split; [done|]. eapply undoable_agree; [done|]. split; [by rewrite R3| |done|lia|lia].
  intros j Hj. rewrite R7. by rewrite lookup_insert_ne by (intros ->; done).
Qed.
(** ... or neither, for long. *)
Lemma csusp_inc_long a x k s v kp Z J X d ns op po kk : csusp a x k s v kp Z J X d (inl <$> ns) Cut -> calm a -> advance x op po -> a_foc a = AUser (SDo op kk) -> long d a ns.
Proof.
  intros Hsu Hcm Hadv Hf. destruct (csusp_enter _ _ _ _ _ _ _ _ _ _ _ _ _ _ _ Hsu Hcm Hadv Hf) as (b&o&by_&G1&_&_&_&_&_&O1&Hac&_).
  apply (long_trans 0 _ a b []); [by apply lasts_goes|by rewrite app_nil_r|]. by eapply does_long.
Qed.
(** The object is destroyed. *)
Lemma csusp_destroy a x k s v kp Z J X d tr st kk : csusp a x k s v kp Z J X d tr st -> calm a -> a_foc a = AUser (SDo (ODestroy x) kk) ->
  exists b J' X', steps a (one k J) (two x s X) [] b J' X' /\ a_foc b = AUser (kk (ROk AUnit)) /\ undoable Z b J' X'.
Proof.
  intros Hsu Hcm Hf. pose proof (csusp_cur _ _ _ _ _ _ _ _ _ _ _ _ Hsu) as Hcur.
  destruct Hsu as [Hx Hs Hxs (o&b0&Hc) [Hha1 Hha2] Hk Hnx Hns Hk0 _ Hkill]. pose proof Hcm as (Hn&Hw&Hn0&Hn1&Hfr).
  destruct (Hha1 k) as (Hkn&Hwk&_); [by left|]. assert (Hxn : x < a_nh a) by (apply Hha2; by left). assert (Hsn : s < a_nh a) by (apply Hha2; by right; left).
  pose proof (astep_do _ _ _ Hf Hn) as E. cbn in E. rewrite Hx in E. cbn in E. unfold kill in E. cbn in E. rewrite Hc in E. cbn in E. unfold exn_to in E. cbn in E.
  match type of E with _ = ANext ?c => set (b := c) in E end.
  assert (Hcb : calm b).
  { split; [|split; [|split; [done|split; [done|]]]]; cbn.
    - intros k' c' fn. cbn. intros [[_ <-]|[_ Hl]]%lookup_insert_Some; [done|by eapply Hn].
    - by rewrite lookup_insert_ne.
    - intros j Hj. rewrite lookup_insert_ne by lia. by apply Hfr. }
  destruct (Hkill b) as (b1&J1&X1&Hst&Hf2&Hun); try done.
  { split; cbn; try done; intros j Hj; [rewrite lookup_delete_ne by (intros ->; done)|rewrite lookup_insert_ne by (intros ->; done)]; done. }
  { split; [|intros y Hy; apply Hha2; by right; right]. intros j Hj. destruct (Hha1 j) as (H1&H2&H3); [by right|]. cbn. split; [done|]. rewrite lookup_insert_ne by done. split; [done|]. intros ->. done. }
  pose proof Hst as (_&C2&F&[Gr1 Gr2]&Hh2&_).
  assert (Hcob1 : a_co b1 !! k = Some (ACo Pull KVal (AUnw true) SlEmpty s (a_cur a))).
  { rewrite (fr_co _ _ _ _ F); [cbn; by rewrite lookup_insert|cbn; lia|done]. }
  assert (Hsb1 : a_h b1 !! s = Some (HObj Push KVal (Some (Inner k)))). { rewrite (fr_h _ _ _ _ F); [cbn; by rewrite lookup_delete_ne|cbn; lia|done]. }
  assert (Hwb1 : a_wait b1 = <[ a_cur a := WKill k (NOp (ODestroy x)) KfDestroy kk ]> (a_wait a)) by (by rewrite (fr_wait _ _ _ _ F)).
  assert (Hcb1 : a_cur b1 = k) by (by rewrite (fr_cur _ _ _ _ F)). pose proof C2 as (Hn2&_).
  assert (HJ1 : ~ J1 k). { intros [?|?]%Gr1; [done|cbn in *; lia]. } assert (HX2 : ~ X1 s). { intros [?|?]%Gr2; [done|cbn in *; lia]. }
  assert (G3 : goes b1 (w_foc AExit (alog (EvLeave k (Some XUnwind)) b1))).
  { apply goes_step. unfold astep. rewrite Hf2, exec_exn0. unfold do_leave. rewrite Hcb1. rewrite decide_False by lia. by rewrite Hcob1. }
  destruct (exit_pull (w_foc AExit (alog (EvLeave k (Some XUnwind)) b1)) k (ACo Pull KVal (AUnw true) SlEmpty s (a_cur a)) k (NOp (ODestroy x)) KfDestroy kk Push KVal) as (c&G4&R1&R2&R3&R4&R5&R6&R7&R8&R9);
    [..|cbn in *]; try done. { cbn. rewrite Hwb1. by rewrite lookup_insert. }
  exists c, (one k J1), (two x s X1). split; [|split; [done|]].
  - eapply (back_steps a b b1 c); try done.
    + by apply goes_step.
    + intros y Hy _. cbn. by rewrite lookup_delete_ne.
    + intros j Hj. cbn. by rewrite lookup_insert_ne.
    + by eapply goes_trans.
    + intros k' c' fn. rewrite R3. intros [_ Hl]%lookup_delete_Some. by eapply Hn2.
    + intros y _ Hy. rewrite R2. by rewrite lookup_delete_ne.
    + intros j Hj. rewrite R3. by rewrite lookup_delete_ne.
  - eapply undoable_weaken; [|apply sub_one|apply sub_two]. eapply undoable_agree; [done|]. split; [| |done|lia|lia].
    + intros y Hy. rewrite R2. by rewrite lookup_delete_ne by (intros ->; done).
    + intros j Hj. rewrite R3. by rewrite lookup_delete_ne by (intros ->; done).
Qed.
Lemma same_agree k x s (J X : fp) a b : same [k] [x; s] a b -> ~ J k -> ~ X x -> ~ X s -> a_nh b = a_nh a -> a_nk b = a_nk a -> agree J X a b.
Proof.
  intros [A1 A2 A3 A4 A5] H1 H2 H3 E1 E2. split; [| |done|lia|lia].
  - intros y Hy. apply A1. rewrite !elem_of_cons, elem_of_nil. by intros [->|[->|[]]].
  - intros j Hj. apply A5. by intros ->%elem_of_list_singleton.
Qed.
Lemma cdone_destroy a x k s Z J X kk : finished a x k s -> 0 < k -> has (one k J) (two x s X) a -> ~ J k -> ~ X x -> ~ X s -> undoable Z a J X -> calm a -> a_foc a = AUser (SDo (ODestroy x) kk) ->
  exists b J' X', steps a (one k J) (two x s X) [] b J' X' /\ a_foc b = AUser (kk (ROk AUnit)) /\ undoable Z b J' X'.
Proof.
  intros Hfi Hk0 Hh D1 D2 D3 Hun Hcm Hf. pose proof Hcm as (Hn&Hw&Hn0&Hn1&Hfr). pose proof Hh as [Hh1 Hh2]. destruct (Hh1 k) as (?&?&?); [by left|].
  destruct (destroy_done a x k s kk Hfi Hn Hf Hw) as (b&G&Hfb&Hnb&Hsm&E1&E2&E3); [done|lia|].
  exists b, (one k J), (two x s X). split; [by apply same_steps|]. split; [done|]. eapply undoable_weaken; [|apply sub_one|apply sub_two].
  eapply undoable_agree; [done|]. by eapply same_agree.
Qed.
Lemma cempty_destroy a x k s Z J X kk : a_h a !! x = Some (HObj Pull KVal None) -> has (one k J) (two x s X) a -> ~ J k -> ~ X x -> ~ X s -> undoable Z a J X -> calm a -> a_foc a = AUser (SDo (ODestroy x) kk) ->
  exists b J' X', steps a (one k J) (two x s X) [] b J' X' /\ a_foc b = AUser (kk (ROk AUnit)) /\ undoable Z b J' X'.
Proof.
  intros Hx Hh D1 D2 D3 Hun Hcm Hf. pose proof Hcm as (Hn&Hw&Hn0&Hn1&Hfr).
  destruct (destroy_empty a x Pull KVal kk k s Hx Hn Hf) as (b&G&Hfb&Hnb&Hsm&E1&E2&E3).
  exists b, (one k J), (two x s X). split; [by apply same_steps|]. split; [done|]. eapply undoable_weaken; [|apply sub_one|apply sub_two].
  eapply undoable_agree; [done|]. by eapply same_agree.
Qed.

(** ** A coroutine is made *)
Lemma cback_new a b b1 c k x s J X J1 X1 ns w : k = a_nk a -> x = a_nh a -> s = S (a_nh a) -> has J X a ->
  calm a -> goes a b -> output (a_tr b) = output (a_tr a) -> (forall y, y < a_nh a -> a_h b !! y = a_h a !! y) -> a_user b = a_user a -> a_nh b = S (S (a_nh a)) -> a_nk b = S (a_nk a) ->
  (forall j, j < a_nk a -> a_co b !! j = a_co a !! j) -> a_wait b = <[ a_cur a := w ]> (a_wait a) -> a_cur b = k ->
  steps b J X ns b1 J1 X1 ->
  goes b1 c -> nonew c -> a_cur c = a_cur a -> a_wait c = delete (a_cur a) (a_wait b1) -> (forall y, y <> x -> y <> s -> a_h c !! y = a_h b1 !! y) -> a_user c = a_user b1 -> a_nh c = a_nh b1 -> a_nk c = a_nk b1 ->
  (forall j, j <> k -> a_co c !! j = a_co b1 !! j) -> output (a_tr c) = output (a_tr b1) ->
  steps a J X ns c (one k J1) (two x s X1).
Proof.
  intros -> -> -> Hha Hcm G1 O1 E1 E2 E3 E4 E5 E6 E7 (G2&C2&[F1 F2 F3 F4 F5 F6 F7]&[W1 W2]&[H1 H2]&O2) G3 Hnc C3 C4 C5 C6 C7 C8 C9 O3.
  pose proof Hcm as (Hn&Hw&Hn0&Hn1&Hfr). assert (Ew : a_wait c = a_wait a). { rewrite C4, F5, E6. by apply delete_insert. }
  split; [eapply goes_trans; [exact G1|by eapply goes_trans]|].
  split. { split; [done|]. rewrite C3, Ew. split; [done|]. split; [lia|]. split; [lia|]. intros j Hj. apply Hfr. lia. }
  split. { split; try congruence; try lia.
    - intros y Hy Hny. rewrite C5, F1, E1; try done; lia.
    - intros j Hj Hnj. rewrite C9, F2, E5; try done; lia. }
  split. { split; intros j.
    - intros [->|[?|?]%W1]; [right; lia|by left|right; lia].
    - intros [->|[->|[?|?]%W2]]; [right; lia|right; lia|by left|right; lia]. }
  split. { split.
    - intros j [->|Hj].
      + rewrite Ew, C3. split; [lia|]. split; [apply Hfr; lia|]. lia.
      + destruct (H1 j Hj) as (?&Hwj&?). rewrite F5, E6 in Hwj. apply lookup_insert_None in Hwj as [? ?]. rewrite Ew, C3. split; [lia|]. split; [done|]. by intros ->.
    - intros j [->|[->|Hj%H2]]; lia. }
  rewrite O3, O2, O1. done.
Qed.

Section made.
Context (a : astate) (fn : nat -> strat) (kk : resp -> strat) (d : nat) (tr : list (T + T)) (st : stop) (Z : list nat) (J0 X0 : fp).
Context (Hcm : calm a) (Hha : has J0 X0 a) (Hf : a_foc a = AUser (SNew Pull KVal (NewP None None) fn kk)).
Let k := a_nk a.
Let x := a_nh a.
Let s := S (a_nh a).
Context (Hfn : forall b, calm b -> agree J0 X0 a b -> has J0 X0 b -> a_foc b = AUser (fn s) -> does (Some s) [] (fun _ => undoable Z) (undoable Z) d b J0 X0 tr st).

Lemma cmade_enter : exists b, goes a b /\ calm b /\ has J0 X0 b /\ does (Some s) [] (fun _ => undoable Z) (undoable Z) d b J0 X0 tr st /\ output (a_tr b) = output (a_tr a) /\
  a_h b = <[ s := HObj Push KVal (Some (Inner k)) ]> (a_h a) /\ a_user b = a_user a /\ a_nh b = S (S (a_nh a)) /\ a_nk b = S (a_nk a) /\
  a_co b = <[ k := ACo Pull KVal ARun SlEmpty s (a_cur a) ]> (a_co a) /\ a_wait b = <[ a_cur a := WOp k (NNew Pull KVal) (PoNew x KVal) kk ]> (a_wait a) /\ a_cur b = k.
Proof.
  destruct (new_enter a fn kk Hf) as (b&G&E). exists b. pose proof Hcm as (Hn&Hw&Hn0&Hn1&Hfr). destruct Hha as [Hh1 Hh2]. assert (Hcb : calm b).
  { rewrite E. split; [|split; [|split; [|split]]]; cbn.
    - intros k' c' fn'. cbn. intros [[_ <-]|[_ Hl]]%lookup_insert_Some; [done|by eapply Hn].
    - rewrite lookup_insert_ne by lia. apply Hfr. done.
    - lia.
    - lia.
    - intros j Hj. rewrite lookup_insert_ne by lia. apply Hfr. lia. }
  assert (Hhb : has J0 X0 b).
  { rewrite E. split; cbn; [|intros y Hy; specialize (Hh2 y Hy); lia]. intros j Hj. destruct (Hh1 j Hj) as (?&?&?). split; [lia|]. split; [by rewrite lookup_insert_ne|lia]. }
  assert (Hab : agree J0 X0 a b).
  { rewrite E. split; cbn; try done; try lia.
    - intros y Hy. specialize (Hh2 y Hy). by rewrite lookup_insert_ne by lia.
    - intros j Hj. destruct (Hh1 j Hj) as (?&?&?). by rewrite lookup_insert_ne by lia. }
  split; [done|]. split; [done|]. split; [done|]. split; [apply Hfn; [done|done|done|by rewrite E]|]. rewrite E. done.
Qed.

Lemma cmade_value ns v tr' : tr = (inl <$> ns) ++ inr v :: tr' ->
  exists b kp J X c d', lasts c a b /\ d <= c + d' /\ steps a J0 X0 ns b (one k J) (two x s X) /\ a_foc b = AUser (kk (ROk (AH x))) /\ csusp b x k s v kp Z J X d' tr' st.
Proof.
  intros Etr. destruct cmade_enter as (b&G1&C1&Hhb&Hac&O1&E1&E2&E3&E4&E5&E6&E7). pose proof Hcm as (Hn&Hw&Hn0&Hn1&Hfr). destruct Hha as [Hh1 Hh3].
  assert (HJk : ~ J0 k). { intros Hk. destruct (Hh1 k Hk). subst k. lia. } assert (HXx : ~ X0 x). { intros Hk. specialize (Hh3 x Hk). subst x. lia. } assert (HXs : ~ X0 s). { intros Hk. specialize (Hh3 s Hk). subst s. lia. }
  destruct (does_value _ _ _ _ _ _ _ _ _ _ Hac ns v tr' Etr C1 Hhb) as (b1&J1&X1&kp'&n&d'&Hla&Hd&Hst&Hf2&Hgo&Hkill).
  pose proof Hst as (_&C2&F&[Gr1 Gr2]&Hh2&_). assert (Hcob1 : a_co b1 !! k = Some (ACo Pull KVal ARun SlEmpty s (a_cur a))).
  { rewrite (fr_co _ _ _ _ F), E5; [by rewrite lookup_insert|lia|done]. }
  assert (Hsb1 : a_h b1 !! s = Some (HObj Push KVal (Some (Inner k)))) by (rewrite (fr_h _ _ _ _ F), E1; [by rewrite lookup_insert|lia|done]).
  assert (Hwb1 : a_wait b1 = <[ a_cur a := WOp k (NNew Pull KVal) (PoNew x KVal) kk ]> (a_wait a)) by (by rewrite (fr_wait _ _ _ _ F), E6).
  assert (Hcb1 : a_cur b1 = k) by (by rewrite (fr_cur _ _ _ _ F)).
  assert (HJ1 : ~ J1 k). { intros [?|?]%Gr1; [done|lia]. } assert (HX1 : ~ X1 x). { intros [?|?]%Gr2; [done|lia]. } assert (HX2 : ~ X1 s). { intros [?|?]%Gr2; [done|lia]. }
  pose proof C2 as (Hn2&_). pose proof (astep_do _ _ _ Hf2 Hn2) as E. cbn in E. fold s in E. rewrite Hsb1 in E. unfold push_op, resumable in E. cbn in E.
  rewrite Hcb1 in E. rewrite bool_decide_eq_true_2 in E by done. cbn in E. rewrite Hcob1 in E. cbn in E. rewrite nothrow in E.
  unfold transfer, give_back in E. cbn in E. rewrite ?lookup_insert, ?Hcb1, ?Hwb1 in E. cbn in E. rewrite ?lookup_insert in E. cbn in E. unfold deliver in E. cbn in E. rewrite ?lookup_insert in E. cbn in E.
  unfold ret_to in E. cbn in E.
  match type of E with _ = ANext ?b => set (c := b) in E end.
  assert (Hstc : steps a J0 X0 ns c (one k J1) (two x s X1)).
  { eapply (cback_new a b b1 c); try done.
    - intros y Hy. rewrite E1. by rewrite lookup_insert_ne by lia.
    - intros j Hj. rewrite E5. by rewrite lookup_insert_ne by lia.
    - by apply goes_step.
    - intros k' c' fn'. cbn. rewrite !insert_insert. intros [[_ <-]|[_ Hl]]%lookup_insert_Some; [done|by eapply Hn2].
    - cbn. by rewrite Hwb1.
    - intros y Hy _. cbn. by rewrite lookup_insert_ne by done.
    - intros j Hj. cbn. by rewrite !lookup_insert_ne by done. }
  exists c, kp', J1, X1, n, d'. split; [eapply lasts_mid; [exact G1|exact Hla|by apply goes_step]|]. split; [done|]. split; [done|]. split; [done|]. pose proof Hstc as (_&_&_&_&Hhc&_). split; try done.
  - cbn. by rewrite lookup_insert.
  - cbn. rewrite lookup_insert_ne by (subst x s; lia). done.
  - subst x s; lia.
  - cbn. rewrite !lookup_insert. by eexists _, _.
  - intros dd Hcd Ecd Had Hhd Hfd. apply Hgo; [|done]. split; [done|]. split; [by rewrite Hcb1|]. split; [|done]. destruct Had as [B1 B2 B3 B4 B5]. split; try done.
    + intros y Hy. rewrite B1 by done. cbn. by rewrite lookup_insert_ne by (intros <-; done).
    + intros j Hj. rewrite B2 by done. cbn. rewrite !lookup_insert_ne by (intros ->; done). done.
  - intros dd Hcd Ecd Had Hhd Hfd. apply Hkill; [|done]. split; [done|]. split; [by rewrite Hcb1|]. split; [|done]. destruct Had as [B1 B2 B3 B4 B5]. split; try done.
    + intros y Hy. rewrite B1 by done. cbn. by rewrite lookup_insert_ne by (intros <-; done).
    + intros j Hj. rewrite B2 by done. cbn. rewrite !lookup_insert_ne by (intros ->; done). done.
Qed.
Lemma cmade_long ns : tr = (inl <$> ns) -> st = Cut -> long d a ns.
Proof.
  intros Etr Es. destruct cmade_enter as (b&G1&C1&_&Hac&O1&_). apply (long_trans 0 _ a b []); [by apply lasts_goes|by rewrite app_nil_r|]. rewrite Etr, Es in Hac. by eapply does_long.
Qed.
Lemma cmade_end ns : tr = (inl <$> ns) -> st <> Cut ->
  exists b J X, steps a J0 X0 ns b (one k J) (two x s X) /\ a_foc b = AUser (kk (answer_end st (AH x))) /\ (match st with Raises _ => True | _ => a_h b !! x = Some (HObj Pull KVal None) end) /\
    ~ J k /\ ~ X x /\ ~ X s /\ undoable Z b J X.
Proof.
  intros Etr Hst0. destruct cmade_enter as (b&G1&C1&Hhb&Hac&O1&E1&E2&E3&E4&E5&E6&E7). pose proof Hcm as (Hn&Hw&Hn0&Hn1&Hfr). destruct Hha as [Hh1 Hh3].
  assert (HJk : ~ J0 k). { intros Hk. destruct (Hh1 k Hk). subst k. lia. } assert (HXx : ~ X0 x). { intros Hk. specialize (Hh3 x Hk). subst x. lia. } assert (HXs : ~ X0 s). { intros Hk. specialize (Hh3 s Hk). subst s. lia. }
  destruct (ctl_of st) as [ct|] eqn:Hct; [|by destruct st].
  destruct (does_end _ _ _ _ _ _ _ _ _ _ Hac ns ct Etr Hct C1 Hhb) as (_&b1&J1&X1&Hst&Hf2&Hun).
  pose proof Hst as (_&C2&F&[Gr1 Gr2]&Hh2&_). assert (Hcob1 : a_co b1 !! k = Some (ACo Pull KVal ARun SlEmpty s (a_cur a))).
  { rewrite (fr_co _ _ _ _ F), E5; [by rewrite lookup_insert|lia|done]. }
  assert (Hsb1 : a_h b1 !! s = Some (HObj Push KVal (Some (Inner k)))) by (rewrite (fr_h _ _ _ _ F), E1; [by rewrite lookup_insert|lia|done]).
  assert (Hwb1 : a_wait b1 = <[ a_cur a := WOp k (NNew Pull KVal) (PoNew x KVal) kk ]> (a_wait a)) by (by rewrite (fr_wait _ _ _ _ F), E6).
  assert (Hcb1 : a_cur b1 = k) by (by rewrite (fr_cur _ _ _ _ F)).
  assert (HJ1 : ~ J1 k). { intros [?|?]%Gr1; [done|lia]. } assert (HX1 : ~ X1 x). { intros [?|?]%Gr2; [done|lia]. } assert (HX2 : ~ X1 s). { intros [?|?]%Gr2; [done|lia]. }
  pose proof C2 as (Hn2&_). set (kf := match st with Raises e => KfThrow e | _ => KfEmpty x KVal end).
  assert (exists c, astep b1 = ANext c /\ a_foc c = AExit /\ a_cur c = k /\ a_h c = a_h b1 /\ a_user c = a_user b1 /\ a_nh c = a_nh b1 /\ a_nk c = a_nk b1 /\
    a_co c = <[ k := ACo Pull KVal (AUnw true) SlEmpty s (a_cur a) ]> (a_co b1) /\ a_wait c = <[ a_cur a := WKill k (NNew Pull KVal) kf kk ]> (a_wait a) /\
    output (a_tr c) = output (a_tr b1)) as (c&E&Hfc&R0&R3&R4&R5&R6&R7&R2&R8).
  { unfold astep. rewrite Hf2. subst kf. destruct st as [| |e|]; [| | |done]; injection Hct as <-; rewrite ?exec_skip0, ?exec_ret0, ?exec_exn0; unfold do_leave; rewrite Hcb1;
      rewrite decide_False by (subst k; lia); rewrite Hcob1; cbn; unfold give_back; cbn; rewrite Hwb1; rewrite ?lookup_insert; cbn; rewrite ?lookup_insert; cbn; rewrite ?Hcob1; cbn; rewrite ?lookup_insert; cbn;
      unfold deliver; cbn; rewrite ?lookup_insert; cbn; unfold kill; cbn; rewrite ?lookup_insert; cbn; eexists; (split; [reflexivity|]); cbn; rewrite ?insert_insert, ?delete_insert by done; split_and!; try done. }
  destruct (exit_pull c k (ACo Pull KVal (AUnw true) SlEmpty s (a_cur a)) k (NNew Pull KVal) kf kk Push KVal) as (z&G4&T1&T2&T3&T4&T5&T6&T7&T8&T9);
    [done|done|by rewrite R7, lookup_insert|done|by rewrite R3|cbn; by rewrite R2, lookup_insert|]. cbn in *.
  assert (Hhz : forall y, y <> x -> y <> s -> a_h z !! y = a_h b1 !! y).
  { intros y Hy Hys. rewrite T2, R3. subst kf. destruct st; rewrite ?(lookup_insert_ne _ x) by done; by rewrite lookup_delete_ne by done. }
  assert (Hcz : forall j, j <> k -> a_co z !! j = a_co b1 !! j).
  { intros j Hj. rewrite T3, R7. rewrite lookup_delete_ne by done. by rewrite !lookup_insert_ne by done. }
  exists z, J1, X1. split; [|split; [rewrite T1; subst kf; by destruct st|split; [rewrite T2; subst kf; by destruct st; rewrite ?lookup_insert|]]].
  - eapply (cback_new a b b1 z); try done; try congruence.
    + intros y Hy. rewrite E1. by rewrite lookup_insert_ne by lia.
    + intros j Hj. rewrite E5. by rewrite lookup_insert_ne by lia.
    + eapply goes_trans; [by apply goes_step|done].
    + intros k' c' fn'. rewrite T3, R7. rewrite delete_insert_delete. intros [_ Hl]%lookup_delete_Some. by eapply Hn2.
    + rewrite T4, R2, Hwb1. by rewrite !delete_insert_delete.
  - split; [done|]. split; [done|]. split; [done|]. eapply undoable_agree; [done|]. split; [| |congruence|lia|lia].
    + intros y Hy. apply Hhz; by intros ->.
    + intros j Hj. apply Hcz. by intros ->.
Qed.
End made.

(** ** Sources *)
(** Object [x]; what its function uses is [Z]. *)
Inductive csrc (a : astate) (x : nat) (Z : list nat) (d : nat) : fp -> fp -> rest -> Prop :=
| csrc_some k s v kp J X d' l st : csusp a x k s v kp Z J X d' l st -> d <= d' -> csrc a x Z d (one k J) (two x s X) (Some (v, (l, st)))
| csrc_done k s J X : finished a x k s -> 0 < k -> has (one k J) (two x s X) a -> ~ J k -> ~ X x -> ~ X s -> undoable Z a J X -> csrc a x Z d (one k J) (two x s X) None
| csrc_empty k s J X : a_h a !! x = Some (HObj Pull KVal None) -> has (one k J) (two x s X) a -> ~ J k -> ~ X x -> ~ X s -> undoable Z a J X -> csrc a x Z d (one k J) (two x s X) None.
Lemma csrc_has a x Z d J X r : csrc a x Z d J X r -> has J X a.
Proof. intros [k s v kp J0 X0 d' l st H _|k s J0 X0 _ _ H _ _ _ _|k s J0 X0 _ H _ _ _ _]; [by destruct H|done..]. Qed.
Lemma csrc_less a x Z d d' J X r : csrc a x Z d J X r -> d' <= d -> csrc a x Z d' J X r.
Proof. intros [k s v kp J0 X0 d0 l st H Hd|k s J0 X0 H1 H2 H3|k s J0 X0 H1 H2 H3] ?; [eapply csrc_some; [done|lia]|by apply csrc_done|by apply csrc_empty]. Qed.
Lemma csrc_agree a b x Z d J X r : csrc a x Z d J X r -> agree J X a b -> has J X b -> csrc b x Z d J X r.
Proof.
  intros [k s v kp J0 X0 d0 l st H Hd|k s J0 X0 (H1&H2&H3&H4) Hk Hh D1 D2 D3 Hu|k s J0 X0 H1 Hh D1 D2 D3 Hu] Ha Hb.
  - eapply csrc_some; [by eapply csusp_agree|done].
  - assert (Ha' : agree J0 X0 a b) by (eapply agree_sub; [done|apply sub_one|apply sub_two]).
    pose proof Ha as [A1 A2 _ _ _]. apply csrc_done; try done; [|by eapply undoable_agree].
    split; [rewrite A1; [done|by left]|]. split; [rewrite A1; [done|by right; left]|]. split; [done|]. rewrite A2; [done|by left].
  - assert (Ha' : agree J0 X0 a b) by (eapply agree_sub; [done|apply sub_one|apply sub_two]).
    pose proof Ha as [A1 A2 _ _ _]. apply csrc_empty; try done; [|by eapply undoable_agree]. rewrite A1; [done|by left].
Qed.
Lemma csrc_undo a x Z d J X r : csrc a x Z d J X r -> undoable (x :: Z) a J X.
Proof.
  intros H b kk Hc Ha Hh Hf. pose proof (csrc_agree _ _ _ _ _ _ _ _ H Ha Hh) as Hb.
  destruct Hb as [k s v kp J0 X0 d0 l st H1 _|k s J0 X0 H1 H2 H3 D1 D2 D3 Hu|k s J0 X0 H1 H2 D1 D2 D3 Hu].
  - by eapply csusp_destroy.
  - by eapply cdone_destroy.
  - by eapply cempty_destroy.
Qed.
Lemma undoable_app Z1 Z2 : forall a J1 X1 J2 X2, undoable Z1 a J1 X1 -> undoable Z2 a J2 X2 -> apart J1 J2 -> apart X1 X2 ->
  undoable (Z1 ++ Z2) a (plus J1 J2) (plus X1 X2).
Proof.
  induction Z1 as [|x Z1 IH]; intros a J1 X1 J2 X2 H1 H2 D1 D2.
  { eapply undoable_weaken; [exact H2|apply sub_r|apply sub_r]. }
  intros b kk Hc Ha Hh Hf. assert (Hh1 : has J1 X1 b) by (eapply has_sub; [exact Hh|apply sub_l|apply sub_l]). assert (Hh2 : has J2 X2 b) by (eapply has_sub; [exact Hh|apply sub_r|apply sub_r]).
  destruct (H1 b kk Hc) as (c&J'&X'&Hs&Hfc&Hu); [eapply agree_sub; [exact Ha|apply sub_l|apply sub_l]|done|done|].
  destruct (steps_agree _ _ _ _ _ _ _ _ _ Hs Hh2 D1 D2) as (Hac&Hhc&D1'&D2'). exists c, (plus J' J2), (plus X' X2). split; [by eapply steps_frame|]. split; [done|].
  apply IH; try done. eapply undoable_agree; [|exact Hac]. eapply undoable_agree; [done|]. eapply agree_sub; [exact Ha|apply sub_r|apply sub_r].
Qed.

(** A list of them, each with the objects that have to be destroyed after it. *)
Inductive csrcs (a : astate) (d : nat) : list (nat * list nat) -> list rest -> fp -> fp -> Prop :=
| csrcs_nil J X : has J X a -> csrcs a d [] [] J X
| csrcs_cons x Z r xs R Jx Xx J X J0 X0 : csrc a x Z d Jx Xx r -> csrcs a d xs R J X -> apart Jx J -> apart Xx X ->
    sub Jx J0 -> sub J J0 -> sub Xx X0 -> sub X X0 -> has J0 X0 a -> csrcs a d ((x, Z) :: xs) (r :: R) J0 X0.
Lemma csrcs_has a d xs R J X : csrcs a d xs R J X -> has J X a.
Proof. by intros []. Qed.
Lemma csrcs_less a d xs R J X : csrcs a d xs R J X -> forall d', d' <= d -> csrcs a d' xs R J X.
Proof. induction 1; intros d' Hd; [by apply csrcs_nil|]. eapply csrcs_cons; [by eapply csrc_less|by apply IHcsrcs|done..]. Qed.
Lemma csrcs_weaken a d xs R J X J0 X0 : csrcs a d xs R J X -> sub J J0 -> sub X X0 -> has J0 X0 a -> csrcs a d xs R J0 X0.
Proof. intros H HJ HX Hh. destruct H; [by apply csrcs_nil|]. eapply csrcs_cons; [done|done|done|done| | | | |done]; intros ? ?; auto. Qed.
Lemma csrcs_agree a d xs R J X : csrcs a d xs R J X -> forall b, agree J X a b -> has J X b -> csrcs b d xs R J X.
Proof.
  induction 1 as [J X H|x Z r xs R Jx Xx J X J0 X0 Hs Hr IH D1 D2 S1 S2 S3 S4 Hh]; intros b Ha Hb; [by apply csrcs_nil|].
  apply (csrcs_cons _ _ _ _ _ _ _ Jx Xx J X); [| |done..].
  - eapply csrc_agree; [done|by eapply agree_sub|by eapply has_sub].
  - apply IH; [by eapply agree_sub|by eapply has_sub].
Qed.
Lemma csrcs_lookup a d xs R J X : csrcs a d xs R J X -> forall i x, xs !! i = Some x -> exists r, R !! i = Some r.
Proof. induction 1; intros [|i] x0 E; try done; cbn in *; [by eexists|by eapply IHcsrcs]. Qed.
Lemma csrcs_none a d xs R J X : csrcs a d xs R J X -> forall i, xs !! i = None -> R !! i = None.
Proof. induction 1; intros [|i] E; try done; cbn in *. by apply IHcsrcs. Qed.
Lemma csrcs_mono xs R : mono (fun d a => csrcs a d xs R).
Proof. intros d d' a J X H Hd. by eapply csrcs_less. Qed.

(** One of them moves, the others stay. *)
Lemma csrcs_at a d xs R J0 X0 : csrcs a d xs R J0 X0 -> forall i x Z r, xs !! i = Some (x, Z) -> R !! i = Some r ->
  exists Jx Xx, csrc a x Z d Jx Xx r /\ sub Jx J0 /\ sub Xx X0 /\
    (forall l c J' X' d' r', steps a Jx Xx l c J' X' -> d' <= d -> csrc c x Z d' J' X' r' ->
       exists J1 X1, steps a J0 X0 l c J1 X1 /\ csrcs c d' xs (<[ i := r' ]> R) J1 X1).
Proof.
  induction 1 as [J X H|x Z r xs R Jx Xx J X J0 X0 Hs Hr IH D1 D2 S1 S2 S3 S4 Hh]; intros i y W r0 Ex Er; [done|]. destruct i as [|i]; cbn in *.
  - injection Ex as <- <-. injection Er as <-. exists Jx, Xx. split; [done|]. split; [done|]. split; [done|].
    intros l c J' X' d' r' Hst Hd Hsc. pose proof (csrcs_has _ _ _ _ _ _ Hr) as Hhr.
    destruct (steps_agree _ _ _ _ _ _ _ _ _ Hst Hhr D1 D2) as (Ha&Hhc&D1'&D2').
    exists (plus J' J), (plus X' X). assert (Hst' : steps a J0 X0 l c (plus J' J) (plus X' X)).
    { eapply steps_weaken; [by eapply steps_frame|by apply sub_plus..]. }
    split; [done|]. eapply csrcs_cons; [done|eapply csrcs_less; [by eapply csrcs_agree|done]|done|done|apply sub_l|apply sub_r|apply sub_l|apply sub_r|by eapply steps_has].
  - destruct (IH i y W r0 Ex Er) as (Jy&Xy&Hy&B1&B2&Hm). exists Jy, Xy. split; [done|]. split; [intros j Hj; auto|]. split; [intros j Hj; auto|].
    intros l c J' X' d' r' Hst Hd Hsc. destruct (Hm l c J' X' d' r' Hst Hd Hsc) as (J1&X1&Hst1&Hs1).
    pose proof (csrc_has _ _ _ _ _ _ _ Hs) as Hhx. destruct (steps_agree _ _ _ _ _ _ _ _ _ Hst1 Hhx (apart_sym _ _ D1) (apart_sym _ _ D2)) as (Ha&Hhc&D1'&D2').
    exists (plus J1 Jx), (plus X1 Xx). assert (Hst' : steps a J0 X0 l c (plus J1 Jx) (plus X1 Xx)).
    { eapply steps_weaken; [eapply steps_frame; [done|done|by apply apart_sym..]|by apply sub_plus..]. }
    split; [done|]. eapply csrcs_cons; [eapply csrc_less; [by eapply csrc_agree|done]|done|by apply apart_sym|by apply apart_sym|apply sub_r|apply sub_l|apply sub_r|apply sub_l|by eapply steps_has].
Qed.

(** The last ones go. *)
Definition flat (ys : list (nat * list nat)) : list nat := concat ((fun y => y.1 :: y.2) <$> ys).
Lemma frames_app Z1 Z2 : frames (Z1 ++ Z2) = frames Z1 ++ frames Z2.
Proof. apply fmap_app. Qed.
Lemma csrcs_leave a d x Z xs R J X c fs : csrcs a d ((x, Z) :: xs) R J X -> calm a -> match c with Go s => s = Skip | _ => True end ->
  a_foc a = AUser (exec c (frames (x :: Z) ++ fs)) ->
  exists b J' X', steps a J X [] b J' X' /\ a_foc b = AUser (exec c fs) /\ csrcs b d xs (tail R) J' X'.
Proof.
  intros H Hc Hct Hf. inversion H as [|x0 Z0 r xs0 R0 Jx Xx J1 X1 J2 X2 Hs Hr D1 D2 S1 S2 S3 S4 Hh]; subst.
  destruct (undo (x :: Z) a Jx Xx c fs (csrc_undo _ _ _ _ _ _ _ Hs) Hc (csrc_has _ _ _ _ _ _ _ Hs) Hct Hf) as (b&J'&X'&Hst&Hfb).
  pose proof (csrcs_has _ _ _ _ _ _ Hr) as Hhr. destruct (steps_agree _ _ _ _ _ _ _ _ _ Hst Hhr D1 D2) as (Ha&Hhc&D1'&D2').
  exists b, (plus J' J1), (plus X' X1). split; [|split; [done|]].
  - eapply steps_weaken; [by eapply steps_frame|by apply sub_plus..].
  - cbn. eapply csrcs_weaken; [by eapply csrcs_agree|apply sub_r|apply sub_r|]. apply has_plus; [by eapply steps_has|done].
Qed.
Lemma csrcs_leave_all ys : forall a d xs Ry R J X c fs, length ys = length Ry -> csrcs a d (ys ++ xs) (Ry ++ R) J X -> calm a -> match c with Go s => s = Skip | _ => True end ->
  a_foc a = AUser (exec c (frames (flat ys) ++ fs)) ->
  exists b J' X', steps a J X [] b J' X' /\ a_foc b = AUser (exec c fs) /\ csrcs b d xs R J' X'.
Proof.
  induction ys as [|[y Z] ys IH]; intros a d xs [|r Ry] R J X c fs El H Hc Hct Hf; try done.
  { exists a, J, X. split; [apply steps_refl; [done|by eapply csrcs_has]|done]. }
  unfold flat in Hf. rewrite fmap_cons in Hf. cbn [concat fst snd] in Hf. rewrite frames_app, <- app_assoc in Hf.
  destruct (csrcs_leave _ _ _ _ _ _ _ _ _ _ H Hc Hct Hf) as (b&J'&X'&S1&F1&H1). cbn in El, H1.
  destruct (IH b d xs Ry R J' X' c fs) as (z&J2&X2&S2&F2&H2); [lia|done|by eapply steps_calm|done|done|].
  exists z, J2, X2. split; [by eapply (steps_trans _ _ _ [])|done].
Qed.
Lemma csrcs_undo a d ys R J X : csrcs a d ys R J X -> undoable (flat ys) a J X.
Proof.
  induction 1 as [J X H|x Z r xs R Jx Xx J X J0 X0 Hs Hr IH D1 D2 S1 S2 S3 S4 Hh]; [done|].
  eapply undoable_weaken; [|apply (sub_plus _ _ _ S1 S2)|apply (sub_plus _ _ _ S3 S4)]. apply (undoable_app (x :: Z) (flat xs)); [by eapply csrc_undo|done..].
Qed.
(** The first ones and the others. *)
Lemma csrcs_split ys : forall a d xs Ry R J X, length ys = length Ry -> csrcs a d (ys ++ xs) (Ry ++ R) J X ->
  exists J1 X1 J2 X2, csrcs a d ys Ry J1 X1 /\ csrcs a d xs R J2 X2 /\ apart J1 J2 /\ apart X1 X2 /\ sub J1 J /\ sub J2 J /\ sub X1 X /\ sub X2 X.
Proof.
  induction ys as [|[y Z] ys IH]; intros a d xs [|r Ry] R J X El H; try done.
  { exists none, none, J, X. split; [apply csrcs_nil, has_none|]. split; [done|]. split; [apply apart_none|]. split; [apply apart_none|]. split; [apply sub_none|]. split; [apply sub_refl|]. split; [apply sub_none|apply sub_refl]. }
  cbn in H. inversion H as [|x0 Z0 r0 xs0 R0 Jx Xx J' X' J2 X2 Hs Hr D1 D2 S1 S2 S3 S4 Hh]; subst. cbn in El.
  destruct (IH a d xs Ry R J' X') as (J1&X1&J2&X2&H1&H2&A1&A2&B1&B2&B3&B4); [lia|done|].
  pose proof (csrc_has _ _ _ _ _ _ _ Hs) as Hhx. pose proof (csrcs_has _ _ _ _ _ _ H1) as Hh1.
  exists (plus Jx J1), (plus Xx X1), J2, X2. split.
  { eapply csrcs_cons; [exact Hs|exact H1| | |apply sub_l|apply sub_r|apply sub_l|apply sub_r|by apply has_plus]; intros j Hj Hj'; [eapply D1|eapply D2]; eauto. }
  split; [done|]. split; [|split; [|split; [|split; [|split]]]].
  - intros j [Hj|Hj] Hj2; [by eapply D1, B2|by eapply A1].
  - intros j [Hj|Hj] Hj2; [by eapply D2, B4|by eapply A2].
  - intros j [Hj|Hj]; auto.
  - intros j Hj; auto.
  - intros j [Hj|Hj]; auto.
  - intros j Hj; auto.
Qed.

(** Testing and reading. *)
Lemma clook_bool a d xs R J X i x Z r ok k fs : csrcs a d xs R J X -> calm a -> xs !! i = Some (x, Z) -> R !! i = Some r ->
  a_foc a = AUser (exec (Go (Do (OBool x) ok k)) fs) ->
  exists b, steps a J X [] b J X /\ a_foc b = AUser (exec (Go (k (AB (live r)))) fs) /\ csrcs b d xs R J X.
Proof.
  intros H Hc Ex Er Hf. pose proof (csrcs_has _ _ _ _ _ _ H) as Hh. destruct (csrcs_at _ _ _ _ _ _ H _ _ _ _ Ex Er) as (Jx&Xx&Hs&_&_&_).
  destruct (steps_look a _ _ _ _ (AB (live r)) [] J X Hc Hh Hf) as (b&S&F&A).
  { intros kk. destruct Hs as [k0 s v kp J0 X0 d' l st Hs _|k0 s J0 X0 (H1&H2&_&H3) _ _ _ _ _ _|k0 s J0 X0 H1 _ _ _ _ _]; cbn.
    - rewrite (cu_x _ _ _ _ _ _ _ _ _ _ _ _ Hs). cbn. destruct (cu_co _ _ _ _ _ _ _ _ _ _ _ _ Hs) as (o1&b1&E). unfold avalid. cbn. by rewrite E.
    - rewrite H1. cbn. destruct H3 as (?&?&?&E). unfold avalid. cbn. by rewrite E.
    - by rewrite H1. }
  { done. }
  exists b. split; [done|]. split; [done|]. eapply csrcs_agree; [done|done|by eapply steps_has].
Qed.
Lemma clook_peek a d xs R J X i x Z v t ok k fs : csrcs a d xs R J X -> calm a -> xs !! i = Some (x, Z) -> R !! i = Some (Some (v, t)) ->
  a_foc a = AUser (exec (Go (Do (OItDeref (Some x)) ok k)) fs) ->
  exists b, steps a J X [] b J X /\ a_foc b = AUser (exec (Go (k (AV v))) fs) /\ csrcs b d xs R J X.
Proof.
  intros H Hc Ex Er Hf. pose proof (csrcs_has _ _ _ _ _ _ H) as Hh. destruct (csrcs_at _ _ _ _ _ _ H _ _ _ _ Ex Er) as (Jx&Xx&Hs&_&_&_).
  destruct (steps_look a _ _ _ _ (AV v) [] J X Hc Hh Hf) as (b&S&F&A).
  { intros kk. inversion Hs as [k0 s v0 kp J0 X0 d' l st Hsu _| |]; subst; cbn.
    rewrite (cu_x _ _ _ _ _ _ _ _ _ _ _ _ Hsu). unfold readable. cbn. destruct (cu_co _ _ _ _ _ _ _ _ _ _ _ _ Hsu) as (o1&b1&E). by rewrite E. }
  { done. }
  exists b. split; [done|]. split; [done|]. eapply csrcs_agree; [done|done|by eapply steps_has].
Qed.
Lemma clook_begin a d xs R J X i x Z r ok k fs : csrcs a d xs R J X -> calm a -> xs !! i = Some (x, Z) -> R !! i = Some r ->
  a_foc a = AUser (exec (Go (Do (OBegin x) ok k)) fs) ->
  exists b, steps a J X [] b J X /\ a_foc b = AUser (exec (Go (k (AIt (if live r then Some x else None)))) fs) /\ csrcs b d xs R J X.
Proof.
  intros H Hc Ex Er Hf. pose proof (csrcs_has _ _ _ _ _ _ H) as Hh. destruct (csrcs_at _ _ _ _ _ _ H _ _ _ _ Ex Er) as (Jx&Xx&Hs&_&_&_).
  destruct (steps_look a _ _ _ _ (AIt (if live r then Some x else None)) [] J X Hc Hh Hf) as (b&S&F&A).
  { intros kk. destruct Hs as [k0 s v kp J0 X0 d' l st Hs _|k0 s J0 X0 (H1&H2&_&H3) _ _ _ _ _ _|k0 s J0 X0 H1 _ _ _ _ _]; cbn.
    - rewrite (cu_x _ _ _ _ _ _ _ _ _ _ _ _ Hs). cbn. destruct (cu_co _ _ _ _ _ _ _ _ _ _ _ _ Hs) as (o1&b1&E). unfold avalid. cbn. by rewrite E.
    - rewrite H1. cbn. destruct H3 as (?&?&?&E). unfold avalid. cbn. by rewrite E.
    - by rewrite H1. }
  { done. }
  exists b. split; [done|]. split; [done|]. eapply csrcs_agree; [done|done|by eapply steps_has].
Qed.
(** Something that touches no object. *)
Lemma clook_pure a d xs R J X o ok k fs r : csrcs a d xs R J X -> calm a -> a_foc a = AUser (exec (Go (Do o ok k)) fs) ->
  (forall kk, do_op o kk (alog (EvCall (a_cur a) (NOp o)) a) = ret_to (NOp o) r kk (alog (EvCall (a_cur a) (NOp o)) a)) -> output [EvCall (a_cur a) (NOp o)] = [] ->
  exists b, steps a J X [] b J X /\ a_foc b = AUser (exec (Go (k r)) fs) /\ csrcs b d xs R J X.
Proof.
  intros H Hc Hf Hr Ho. pose proof (csrcs_has _ _ _ _ _ _ H) as Hh. destruct (steps_look a _ _ _ _ r [] J X Hc Hh Hf Hr Ho) as (b&S&F&A).
  exists b. split; [done|]. split; [done|]. eapply csrcs_agree; [done|done|by eapply steps_has].
Qed.
(** get() *)
Lemma csusp_get a x k s v kp Z J X d tr st kk : csusp a x k s v kp Z J X d tr st -> calm a -> a_foc a = AUser (SDo (OGet x) kk) ->
  exists b, steps a (one k J) (two x s X) [] b (one k J) (two x s X) /\ a_foc b = AUser (kk (ROk (AV v))) /\ csusp b x k s (moved_from v) kp Z J X d tr st.
Proof.
  intros Hsu Hc Hf. pose proof (csusp_cur _ _ _ _ _ _ _ _ _ _ _ _ Hsu) as Hcur. pose proof Hsu as [Hx Hs Hxs (o&b0&Hco) Hh Hk Hnx Hns Hk0 Hgo Hkill]. pose proof Hc as (Hn&Hw&Hn0&Hn1&Hfr).
  pose proof (astep_do _ _ _ Hf Hn) as E. cbn in E. rewrite Hx in E. unfold readable in E. cbn in E. rewrite Hco in E. cbn in E. rewrite nothrow in E. unfold ret_to in E. cbn in E.
  match type of E with _ = ANext ?z => set (b := z) in E end. exists b.
  assert (Hhb : has (one k J) (two x s X) b) by exact Hh.
  assert (Hst : steps a (one k J) (two x s X) [] b (one k J) (two x s X)).
  { split; [by apply goes_step|]. split.
    { split; [|done]. intros k' c' fn. cbn. intros [[_ <-]|[_ Hl]]%lookup_insert_Some; [done|by eapply Hn]. }
    split. { split; try done. intros j Hj Hnj. cbn. rewrite lookup_insert_ne; [done|]. intros ->. apply Hnj. by left. }
    split; [apply grows_refl|]. split; [done|]. cbn. by rewrite app_nil_r. }
  split; [done|]. split; [done|]. split; try done.
  - cbn. rewrite lookup_insert. by eexists _, _.
  - intros z Cz Ez Az Hz Fz. apply Hgo; try done. destruct Az as [B1 B2 B3 B4 B5]. split; try done. intros j Hj. rewrite B2 by done. cbn. rewrite lookup_insert_ne by (intros ->; done). done.
  - intros z Cz Ez Az Hz Fz. apply Hkill; try done. destruct Az as [B1 B2 B3 B4 B5]. split; try done. intros j Hj. rewrite B2 by done. cbn. rewrite lookup_insert_ne by (intros ->; done). done.
Qed.
Lemma clook_get a d xs R J X i x Z v t ok k fs : csrcs a d xs R J X -> calm a -> xs !! i = Some (x, Z) -> R !! i = Some (Some (v, t)) ->
  a_foc a = AUser (exec (Go (Do (OGet x) ok k)) fs) ->
  exists b J' X', steps a J X [] b J' X' /\ a_foc b = AUser (exec (Go (k (AV v))) fs) /\ csrcs b d xs (<[ i := Some (moved_from v, t) ]> R) J' X'.
Proof.
  intros H Hc Ex Er Hf. destruct (csrcs_at _ _ _ _ _ _ H _ _ _ _ Ex Er) as (Jx&Xx&Hs&_&_&Hm). rewrite exec_do in Hf.
  inversion Hs as [k0 s v0 kp J0 X0 d' l st Hsu Hd| |]; subst. destruct (csusp_get _ _ _ _ _ _ _ _ _ _ _ _ _ Hsu Hc Hf) as (b&S&F&Hsu').
  destruct (Hm [] b _ _ d (Some (moved_from v, (l, st))) S (Nat.le_refl _)) as (J1&X1&S1&H1); [by eapply csrc_some|]. by exists b, J1, X1.
Qed.

(** [x();] *)
Lemma cnext_does o fs U d a xs R J X i x Z v l st ok k : csrcs a d xs R J X -> calm a -> xs !! i = Some (x, Z) -> R !! i = Some (Some (v, (l, st))) ->
  (forall r, k r = Skip) -> a_foc a = AUser (exec (Go (Do (OResume x) ok k)) fs) ->
  does o fs (fun d b => csrcs b d xs (<[ i := (turn l st).2 ]> R)) U d a J X (inl <$> (turn l st).1.1) (turn l st).1.2.
Proof.
  intros H Hc Ex Er Hk Hf. destruct (csrcs_at _ _ _ _ _ _ H _ _ _ _ Ex Er) as (Jx&Xx&Hs&_&_&Hm). rewrite exec_do in Hf.
  inversion Hs as [k0 s v0 kp J0 X0 d' l0 st0 Hsu Hd| |]; subst. destruct (split_notes l) as (ns&[->|(v'&l'&->&_)]).
  - rewrite turn_end in *. cbn [fst snd]. destruct (decide (st = Cut)) as [->|Hst].
    { apply ds_cut. eapply long_less; [eapply csusp_inc_long; [exact Hsu|exact Hc|by right|exact Hf]|done]. }
    destruct (csusp_inc_end _ _ _ _ _ _ _ _ _ _ _ _ _ PoUnit _ Hsu Hst Hc ltac:(by right) Hf) as (b&J1&X1&S&F&Hfi&D1&D2&D3&Hu). pose proof (steps_has _ _ _ _ _ _ _ S) as Hh.
    destruct (Hm ns b _ _ d None S (Nat.le_refl _)) as (J2&X2&S2&Hs2). { apply csrc_done; [done|exact (cu_k0 _ _ _ _ _ _ _ _ _ _ _ _ Hsu)|done..]. }
    rewrite <- (app_nil_r (inl <$> ns)). eapply ds_steps; [exact S2|]. destruct st as [| |e|]; [| | |done]; cbn in F; rewrite ?Hk in F; by eapply ds_end.
  - rewrite turn_value in *. cbn [fst snd].
    destruct (csusp_inc _ _ _ _ _ _ _ _ _ _ _ _ _ _ _ PoUnit _ Hsu Hc ltac:(by right) Hf) as (b&kp'&J1&X1&c&d1&L&Hd1&S&F&Hsu').
    destruct (Hm ns b _ _ (d - c) (Some (v', (l', st))) S) as (J2&X2&S2&Hs2); [lia|eapply csrc_some; [done|lia]|].
    rewrite <- (app_nil_r (inl <$> ns)). eapply (ds_count _ _ _ _ _ c (d - c)); [done|lia|exact S2|]. cbn in F. rewrite Hk in F. by eapply ds_end.
Qed.

(** ** All programs *)
Definition cleft (xs : list (nat * list nat)) (b : astate) (J X : fp) : Prop := exists d R, csrcs b d xs R J X.
Definition cleaves (xs : list (nat * list nat)) (R : list rest) (d : nat) (b : astate) (J X : fp) : Prop := csrcs b d xs R J X.
Lemma cleaves_mono xs R : mono (cleaves xs R).
Proof. apply csrcs_mono. Qed.
Lemma cleft_steps xs b J X s s' : cleft xs b J X -> calm b -> a_foc b = AUser s -> rtc tau s s' ->
  exists c J2 X2, steps b J X [] c J2 X2 /\ a_foc c = AUser s' /\ cleft xs c J2 X2.
Proof.
  intros (d&R&H) Hc Hf Ht. destruct (steps_tau b _ _ _ _ Hc (csrcs_has _ _ _ _ _ _ H) Hf Ht) as (c&S&F&A). exists c, J, X. split; [done|]. split; [done|].
  exists d, R. eapply csrcs_agree; [done|done|by eapply steps_has].
Qed.
Lemma cdoes_leave o fs xs R d a J X st c s : cleaves xs R d a J X -> calm a -> a_foc a = AUser s -> rtc tau s (exec c fs) -> ctl_of st = Some c ->
  does o fs (cleaves xs R) (cleft xs) d a J X [] st.
Proof.
  intros H Hc Hf Ht Hct. eapply does_tau; [done|by eapply csrcs_has|done|done|]. intros b _ Hb Ha Fb _. eapply ds_end; [done|done|]. by eapply csrcs_agree.
Qed.

Lemma cdoes_pop o fs xs R d a J X tr st : does o (FBlock Skip :: fs) (cleaves xs R) (cleft xs) d a J X tr st -> calm a -> has J X a -> does o fs (cleaves xs R) (cleft xs) d a J X tr st.
Proof.
  intros H Hc Hh. rewrite <- (app_nil_r tr). eapply does_bind; [apply cleaves_mono|exact H|done|done|done| | |].
  - intros b J1 X1 C1 _ Hh1 HU F1. eapply cleft_steps; [done|done|exact F1|by apply tau_block].
  - intros d' b J1 X1 c Hd C1 _ Hh1 HQ Hct F1. eapply cdoes_leave; [done|done|exact F1| |done]. destruct st; simplify_eq/=; [apply tau_after|by apply tau_block..].
  - done.
Qed.
Lemma cdoes_seq o fs xs d a J X s1 s2 (t : outcome_) (k : list rest -> outcome_) : calm a -> has J X a -> a_foc a = AUser (exec (Go (Block s1 s2)) fs) ->
  (forall b fs, calm b -> agree J X a b -> has J X b -> a_foc b = AUser (exec (Go s1) fs) -> does o fs (cleaves xs t.2) (cleft xs) (pred d) b J X (conv o t.1.1) t.1.2) ->
  (forall d' b J X, d' <= pred d -> calm b -> cleaves xs t.2 d' b J X -> a_foc b = AUser (exec (Go s2) fs) ->
     does o fs (cleaves xs (k t.2).2) (cleft xs) d' b J X (conv o (k t.2).1.1) (k t.2).1.2) ->
  does o fs (cleaves xs (and_then t k).2) (cleft xs) d a J X (conv o (and_then t k).1.1) (and_then t k).1.2.
Proof.
  intros Hc Hh Hf H1 H2. rewrite (strat_eta (exec _ _)) in Hf. cbn in Hf. eapply does_tick; [done|done|exact Hf|]. intros b C1 Hh1 A1 F1 _.
  specialize (H1 b (FBlock s2 :: fs) C1 A1 Hh1 F1).
  assert (exists tr2, (and_then t k).1.1 = t.1.1 ++ tr2 /\ (t.1.2 = Ends /\ tr2 = (k t.2).1.1 /\ (and_then t k).1.2 = (k t.2).1.2 /\ (and_then t k).2 = (k t.2).2 \/
    t.1.2 <> Ends /\ tr2 = [] /\ (and_then t k).1.2 = t.1.2 /\ (and_then t k).2 = t.2)) as (tr2&->&Hcs).
  { destruct t as [[l1 st1] R1]. destruct (decide (st1 = Ends)) as [->|Hs]; cbn; [exists (k R1).1.1; auto 10|]. exists []. rewrite app_nil_r. split; [by destruct st1|]. right. split; [done|]. split; [done|]. by destruct st1. }
  rewrite conv_app. eapply does_bind; [apply cleaves_mono|exact H1|done|done|done| | |].
  - intros c J1 X1 C2 _ Hh2 HU F2. eapply cleft_steps; [done|done|exact F2|by apply tau_block].
  - intros d' c J1 X1 ct Hd C2 _ Hh2 HQ Hct F2. destruct Hcs as [(He&->&->&->)|(He&->&->&->)].
    + rewrite He in Hct. injection Hct as <-. eapply does_tau; [done|done|exact F2|apply tau_after|]. intros z Cz Hz Az Fz _. apply H2; [done|done| |done].
      by eapply csrcs_agree.
    + rewrite conv_nil. eapply cdoes_leave; [done|done|exact F2| |done]. apply tau_block. by destruct t.1.2; simplify_eq/=.
  - intros Hcut. destruct Hcs as [(He&_)|(_&->&->&_)]; [congruence|]. by rewrite conv_nil.
Qed.

Section loops.
Context (o : option nat) (xs : list (nat * list nat)) (D : nat) (b : nat -> stm) (f : nat -> list rest -> outcome_).
Context (Hb : forall j fs R d a J X, d <= D -> calm a -> cleaves xs R d a J X -> a_foc a = AUser (exec (Go (b j)) fs) ->
  does o fs (cleaves xs (f j R).2) (cleft xs) d a J X (conv o (f j R).1.1) (f j R).1.2).
Lemma cploops_does m : forall j fs R d a J X, d <= m -> d <= D -> calm a -> cleaves xs R d a J X -> a_foc a = AUser (exec (Go (forever_do b j)) fs) ->
  does o fs (cleaves xs (ploops f j m R).2) (cleft xs) d a J X (conv o (ploops f j m R).1.1) (ploops f j m R).1.2.
Proof.
  induction m as [|m IH]; intros j fs R d a J X Hd HD Hc Hs Hf; cbn [ploops].
  { cbn. rewrite conv_nil. apply (ds_cut _ _ _ _ _ _ _ _ []). eapply long_less; [apply long_0|lia]. }
  rewrite forever_eq in Hf. eapply cdoes_seq; [done|by eapply csrcs_has|exact Hf| |].
  - intros b0 fs0 Cb Ab Hhb Fb. apply Hb; [lia|done| |done]. eapply csrcs_less; [by eapply csrcs_agree|lia].
  - intros d' b0 J0 X0 Hd' Cb Hl Fb. apply IH; [lia|lia|done|done|done].
Qed.
Lemma cwhiles_does i x Z : xs !! i = Some (x, Z) -> forall m j fs R d a J X, d <= m -> d <= D -> calm a -> cleaves xs R d a J X -> a_foc a = AUser (exec (Go (while_do x b j)) fs) ->
  does o fs (cleaves xs (whiles f i j m R).2) (cleft xs) d a J X (conv o (whiles f i j m R).1.1) (whiles f i j m R).1.2.
Proof.
  intros Ex m. induction m as [|m IH]; intros j fs R d a J X Hd HD Hc Hs Hf; rewrite while_eq in Hf.
  all: destruct (csrcs_lookup _ _ _ _ _ _ Hs i _ Ex) as [r Er]; rewrite whiles_eq, (rest_of_eq _ _ _ Er);
    destruct (clook_bool _ _ _ _ _ _ _ _ _ _ _ _ _ Hs Hc Ex Er Hf) as (a1&S1&F1&Hs1); (eapply ds_nil; [exact S1|]);
    pose proof (steps_calm _ _ _ _ _ _ _ S1) as C1; destruct r as [r|]; cbn in F1.
  2,4: cbn; rewrite conv_nil; by eapply ds_end.
  - cbn. rewrite conv_nil. apply (ds_cut _ _ _ _ _ _ _ _ []). eapply long_less; [apply long_0|lia].
  - eapply cdoes_seq; [done|by eapply csrcs_has|exact F1| |].
    + intros b0 fs0 Cb Ab Hhb Fb. apply Hb; [lia|done| |done]. eapply csrcs_less; [by eapply csrcs_agree|lia].
    + intros d' b0 J0 X0 Hd' Cb Hl Fb. apply IH; [lia|lia|done|done|done].
Qed.
End loops.


Section code.
Context (n : nat) (up : P -> bool).
Definition code_ok (p : P) : Prop := forall o xs fs R d a J X, d <= n -> calm a -> cleaves xs R d a J X -> a_foc a = AUser (exec (Go (ccode up p xs.*1 (yielder o))) fs) ->
  does o fs (cleaves xs (pmeans n p R).2) (cleft xs) d a J X (conv o (pmeans n p R).1.1) (pmeans n p R).1.2.
(** How a declaration goes on: with the object; with the exception of the function; not at all. *)
Definition goes_on (t : list T * stop * rest) (k : nat -> stm) (fs0 : list frame) (xs : list (nat * list nat)) (R : list rest)
    (o : option nat) (fs : list frame) (Q : nat -> astate -> fp -> fp -> Prop) (U : astate -> fp -> fp -> Prop) (d : nat) (tr : list (T + T)) (st : stop) : Prop :=
  match t.1.2 with
  | Ends => forall d' b x Z J X, d' <= d -> calm b -> cleaves ((x, Z) :: xs) (t.2 :: R) d' b J X -> a_foc b = AUser (exec (Go (k x)) (frames (x :: Z) ++ fs0)) -> does o fs Q U d' b J X tr st
  | Raises e => forall d' b J X, d' <= d -> calm b -> cleaves xs R d' b J X -> a_foc b = AUser (exec (Exn (XUser e)) fs0) -> does o fs Q U d' b J X tr st
  | _ => tr = [] /\ st = Cut
  end.
Definition chain_ok (p : P) : Prop := forall o fs Q U ys xs fs0 Ry R k d a J X tr st, d <= n -> calm a -> length ys = length Ry -> cleaves (ys ++ xs) (Ry ++ R) d a J X ->
  a_foc a = AUser (exec (Go (chain up p ys.*1 k)) (frames (flat ys) ++ fs0)) ->
  goes_on (turn (pmeans n p Ry).1.1 (pmeans n p Ry).1.2) k fs0 xs R o fs Q U d tr st ->
  does o fs Q U d a J X ((inl <$> (turn (pmeans n p Ry).1.1 (pmeans n p Ry).1.2).1.1) ++ tr) st.
Lemma goes_on_less t k fs0 xs R o fs Q U d d' tr st : goes_on t k fs0 xs R o fs Q U d tr st -> d' <= d -> goes_on t k fs0 xs R o fs Q U d' tr st.
Proof. unfold goes_on. intros H Hd. destruct t.1.2 as [| |e|]; try done; intros; eapply H; eauto; lia. Qed.

Lemma turn_notes (ns : list T) l st : turn ((inl <$> ns) ++ l) st = (ns ++ (turn l st).1.1, (turn l st).1.2, (turn l st).2).
Proof. induction ns as [|w ns IH]; cbn; [by destruct (turn l st) as [[? ?] ?]|]. by rewrite IH. Qed.
Lemma turn_not_returns l st : (turn l st).1.2 <> Returns.
Proof. induction l as [|[w|v] l IH]; cbn; [by destruct st|done|done]. Qed.

Lemma declare_does p o fs Q U ys xs fs0 Ry R k d a J X tr st : code_ok p -> d <= n -> calm a -> length ys = length Ry -> cleaves (ys ++ xs) (Ry ++ R) d a J X ->
  a_foc a = AUser (exec (Go (declare (ccode up p) ys.*1 k)) (frames (flat ys) ++ fs0)) ->
  goes_on (turn (pmeans n p Ry).1.1 (pmeans n p Ry).1.2) k fs0 xs R o fs Q U d tr st ->
  does o fs Q U d a J X ((inl <$> (turn (pmeans n p Ry).1.1 (pmeans n p Ry).1.2).1.1) ++ tr) st.
Proof.
  intros Hp Hd Hc El Hs Hf Hg. unfold declare in Hf. rewrite exec_new in Hf.
  destruct (csrcs_split _ _ _ _ _ _ _ _ El Hs) as (J1&X1&J2&X2&Hy&Hx&A1&A2&B1&B2&B3&B4).
  pose proof (csrcs_has _ _ _ _ _ _ Hy) as Hhy. pose proof (csrcs_has _ _ _ _ _ _ Hx) as Hhx.
  assert (Hfn : forall b, calm b -> agree J1 X1 a b -> has J1 X1 b -> a_foc b = AUser (exec (Go (ccode up p ys.*1 (fun v => push (S (a_nh a)) (AImm v) Skip))) []) ->
    does (Some (S (a_nh a))) [] (fun _ => undoable (flat ys)) (undoable (flat ys)) d b J1 X1 (pmeans n p Ry).1.1 (pmeans n p Ry).1.2).
  { intros b Hb Ha Hh Hfb. eapply does_weaken; [apply (Hp (Some (S (a_nh a))) ys [] Ry d b J1 X1 Hd Hb); [by eapply csrcs_agree|exact Hfb]| |].
    - intros d' z J' X' H. by eapply csrcs_undo.
    - intros z J' X' (d'&R'&H). by eapply csrcs_undo. }
  (* what the function does stays away from the other objects *)
  assert (Hfr : forall ns b J' X', steps a J1 X1 ns b J' X' -> steps a J X ns b (plus J' J2) (plus X' X2) /\ csrcs b d xs R J2 X2 /\ apart J' J2 /\ apart X' X2).
  { intros ns b J' X' S1. destruct (steps_agree _ _ _ _ _ _ _ _ _ S1 Hhx A1 A2) as (Ha&Hhb&D1&D2).
    split; [eapply steps_weaken; [by eapply steps_frame|by apply sub_plus..]|]. split; [by eapply csrcs_agree|done]. }
  destruct (pmeans n p Ry).1 as [l st1] eqn:Em. cbn [fst snd] in Hfn, Hg |- *. destruct (split_notes l) as (ns&[->|(v&l'&->&_)]).
  - rewrite turn_end in *. unfold goes_on in Hg. cbn [fst snd] in Hg |- *. destruct (decide (st1 = Cut)) as [->|Hst].
    { destruct Hg as [-> ->]. rewrite app_nil_r. apply ds_cut. by eapply (cmade_long a _ _ _ _ _ _ _ _ Hc Hhy Hf Hfn). }
    destruct (cmade_end a _ _ _ _ _ _ _ _ Hc Hhy Hf Hfn ns eq_refl Hst) as (b&J'&X'&S1&F1&Hx0&D1&D2&D3&Hu).
    pose proof (steps_calm _ _ _ _ _ _ _ S1) as C1. pose proof (steps_has _ _ _ _ _ _ _ S1) as Hh1. destruct (Hfr _ _ _ _ S1) as (S2&Hx2&E1&E2).
    eapply ds_steps; [exact S2|].
    assert (Hcase : (exists e, st1 = Raises e) \/ (forall e, st1 <> Raises e)) by (destruct st1; [right; done|right; done|left; by eexists|done]).
    destruct Hcase as [[e ->]|Hne].
    + cbn in F1, Hg. destruct (undo (flat ys) b _ _ (Exn (XUser e)) fs0 (undoable_weaken _ _ _ _ _ _ Hu (sub_one _ _) (sub_two _ _ _)) C1 Hh1 I F1) as (z&J3&X3&S3&F3).
      pose proof (csrcs_has _ _ _ _ _ _ Hx2) as Hhx2. destruct (steps_agree _ _ _ _ _ _ _ _ _ S3 Hhx2 E1 E2) as (Ha&Hhz&D1'&D2').
      eapply ds_nil; [eapply steps_frame; [exact S3|exact Hhx2|exact E1|exact E2]|]. eapply (Hg d); [done|by eapply steps_calm| |exact F3].
      eapply csrcs_weaken; [by eapply csrcs_agree|apply sub_r|apply sub_r|]. apply has_plus; [by eapply steps_has|done].
    + assert (Hx' : a_h b !! a_nh a = Some (HObj Pull KVal None)) by (destruct st1; [done|done| |done]; by destruct (Hne e)).
      assert (E : match st1 with Returns => Ends | _ => st1 end = Ends) by (destruct st1; [done|done| |done]; by destruct (Hne e)). rewrite E in Hg.
      assert (F1' : a_foc b = AUser (exec (Go (k (a_nh a))) (frames (a_nh a :: flat ys) ++ fs0))) by (rewrite F1; destruct st1; [done|done| |done]; by destruct (Hne e)).
      eapply (Hg d); [done|done| |exact F1']. eapply csrcs_cons; [by apply csrc_empty|exact Hx2|done|done|apply sub_l|apply sub_r|apply sub_l|apply sub_r|by eapply steps_has].
  - rewrite turn_value in *. unfold goes_on in Hg. cbn [fst snd] in Hg |- *.
    destruct (cmade_value a _ _ _ _ _ _ _ _ Hc Hhy Hf Hfn ns v l' eq_refl) as (b&kp&J'&X'&c1&d1&L1&Hd1&S1&F1&Su1). pose proof (steps_calm _ _ _ _ _ _ _ S1) as C1.
    destruct (Hfr _ _ _ _ S1) as (S2&Hx2&E1&E2).
    eapply (ds_count _ _ _ _ _ c1 (d - c1)); [done|lia|exact S2|]. eapply (Hg (d - c1) _ _ (flat ys)); [lia|done| |exact F1].
    eapply csrcs_cons; [eapply csrc_some; [exact Su1|lia]|eapply csrcs_less; [exact Hx2|lia]|done|done|apply sub_l|apply sub_r|apply sub_l|apply sub_r|by eapply steps_has].
Qed.

Lemma chain_does p : code_ok p -> (forall q r, p = PLet q r -> chain_ok q /\ chain_ok r) -> chain_ok p.
Proof.
  intros Hcode Hsub o fs Q U ys xs fs0 Ry R k d a J X tr st Hd Hc El Hs Hf Hg.
  assert (Hcase : chain up p ys.*1 k = declare (ccode up p) ys.*1 k \/ exists q r, p = PLet q r /\ chain up p ys.*1 k = chain up q [] (fun y => chain up r (y :: ys.*1) k)).
  { destruct p; try (by left). unfold chain, ccode. cbn [both snd fst]. destruct (up _); [right; by eexists _, _|by left]. }
  destruct Hcase as [E|(q&r&->&E)]; rewrite E in Hf; [by eapply declare_does|]. destruct (Hsub q r eq_refl) as [Hq Hr].
  set (t := turn (pmeans n q []).1.1 (pmeans n q []).1.2). set (t2 := turn (pmeans n r (t.2 :: Ry)).1.1 (pmeans n r (t.2 :: Ry)).1.2).
  set (tt := turn (pmeans n (PLet q r) Ry).1.1 (pmeans n (PLet q r) Ry).1.2) in *.
  assert (Et : (t.1.2 = Ends /\ tt = (t.1.1 ++ t2.1.1, t2.1.2, t2.2)) \/ (t.1.2 <> Ends /\ tt = (t.1.1, t.1.2, None))).
  { subst t2 tt. cbn [pmeans]. fold t. pose proof (turn_not_returns (pmeans n q []).1.1 (pmeans n q []).1.2) as Hnr. fold t in Hnr. destruct t as [[ns [| |e|]] r0]; cbn [fst snd] in *.
    - left. split; [done|]. by rewrite turn_notes.
    - done.
    - right. split; [done|]. by rewrite turn_end.
    - right. split; [done|]. by rewrite turn_end. }
  destruct Et as [[Ee ->]|[Ee Ett]].
  - cbn [fst snd]. rewrite fmap_app, <- app_assoc.
    apply (Hq o fs Q U [] (ys ++ xs) (frames (flat ys) ++ fs0) [] (Ry ++ R) (fun y => chain up r (y :: ys.*1) k)); [done|done|done|exact Hs|exact Hf|]. fold t. unfold goes_on. rewrite Ee.
    intros d' b y Z J1 X1 Hd' C1 Hl F1. apply (Hr o fs Q U ((y, Z) :: ys) xs fs0 (t.2 :: Ry) R k); [lia|done|cbn; lia|exact Hl| |].
    + rewrite F1. change (flat ((y, Z) :: ys)) with ((y :: Z) ++ flat ys). rewrite frames_app, <- app_assoc. reflexivity.
    + eapply goes_on_less; [exact Hg|done].
  - rewrite Ett in Hg |- *. cbn [fst snd] in Hg |- *.
    apply (Hq o fs Q U [] (ys ++ xs) (frames (flat ys) ++ fs0) [] (Ry ++ R) (fun y => chain up r (y :: ys.*1) k)); [done|done|done|exact Hs|exact Hf|]. fold t. unfold goes_on in Hg |- *. cbn [fst snd] in Hg.
    destruct t.1.2 as [| |e|]; [done|done| |done]. intros d' b J1 X1 Hd' C1 Hl F1.
    destruct (csrcs_leave_all ys b d' xs Ry R J1 X1 (Exn (XUser e)) fs0 El Hl C1 I F1) as (z&J2&X2&S2&F2&H2). eapply ds_nil; [exact S2|]. eapply (Hg d'); [done|by eapply steps_calm|done|done].
Qed.

Lemma names_lookup (xs : list (nat * list nat)) i : match xs.*1 !! i with Some x => exists Z, xs !! i = Some (x, Z) | None => xs !! i = None end.
Proof. rewrite list_lookup_fmap. destruct (xs !! i) as [[x Z]|]; cbn; [by exists Z|done]. Qed.

Theorem both_ok p : code_ok p /\ chain_ok p.
Proof.
  induction p as [|v|w|e| |p1 [IH1 _] p2 [IH2 _]|p [IHp _] h IHh|src [IHs0 IHs] body [IHb IHb0]|i f IHf q [IHq _]|i f IHf q [IHq _]|i|i f IHf|f IHf].
  all: match goal with |- code_ok ?p /\ _ => enough (Hcode : code_ok p) end.
  all: try by (split; [exact Hcode|]; apply chain_does; [exact Hcode|]; intros ? ? E; simplify_eq).
  all: intros o xs fs R d a J X Hd Hc Hs Hf; unfold ccode in Hf; cbn [both fst snd pmeans] in *.
  - cbn. rewrite conv_nil. by eapply ds_end.
  - pose proof (csrcs_has _ _ _ _ _ _ Hs) as Hh. destruct o as [s|]; cbn in Hf |- *.
    + unfold push in Hf. rewrite exec_do in Hf. eapply ds_yield; [done|exact Hf| |].
      * intros b (Cb&_&Ab&Hb) Hfb. eapply ds_end; [done|done|]. by eapply csrcs_agree.
      * intros b (Cb&_&Ab&Hb) Hfb. exists b, J, X. split; [by apply steps_refl|]. split; [done|]. exists d, R. by eapply csrcs_agree.
    + destruct (steps_look a _ _ _ _ AUnit [v] J X Hc Hh Hf) as (b&S&F&A); [done|done|].
      apply (ds_steps _ _ _ _ _ _ _ _ [v] _ _ _ [] _ S). eapply ds_end; [done|done|]. eapply csrcs_agree; [done|done|by eapply steps_has].
  - pose proof (csrcs_has _ _ _ _ _ _ Hs) as Hh. destruct (steps_look a _ _ _ _ AUnit [w] J X Hc Hh Hf) as (b&S&F&A); [done|done|].
    cbn [fst snd]. replace (conv o [inl w]) with ((inl <$> [w]) ++ @nil (T + T)) by (by destruct o).
    eapply ds_steps; [exact S|]. eapply ds_end; [done|done|]. eapply csrcs_agree; [done|done|by eapply steps_has].
  - cbn. rewrite conv_nil. eapply cdoes_leave; [done|done|exact Hf| |reflexivity]. rewrite exec_throw. eapply rtc_l; constructor.
  - cbn. rewrite conv_nil. eapply cdoes_leave; [done|done|exact Hf|apply tau_return|reflexivity].
  - eapply cdoes_seq; [done|by eapply csrcs_has|exact Hf| |].
    + intros b fs0 Cb Ab Hb Fb. apply IH1; [lia|done| |done]. eapply csrcs_less; [by eapply csrcs_agree|lia].
    + intros d' b J0 X0 Hd' Cb Hl Fb. apply IH2; [lia|done..].
  - (* try *)
    eapply does_tau; [done|by eapply csrcs_has|exact Hf| |]. { rewrite exec_try. eapply rtc_l; constructor. }
    intros b C1 Hh1 A1 F1 _. set (t := pmeans n p R). set (k := fun e => pmeans n (h e)).
    assert (exists tr2, (or_else t k).1.1 = t.1.1 ++ tr2 /\
      ((exists e, t.1.2 = Raises e /\ tr2 = (k e t.2).1.1 /\ (or_else t k).1.2 = (k e t.2).1.2 /\ (or_else t k).2 = (k e t.2).2) \/
       (forall e, t.1.2 <> Raises e) /\ tr2 = [] /\ (or_else t k).1.2 = t.1.2 /\ (or_else t k).2 = t.2)) as (tr2&E&Hcs).
    { destruct t as [[l1 [| |e|]] R1]; cbn; [exists []; rewrite app_nil_r; auto 10..|exists (k e R1).1.1; split; [done|left; by exists e]|exists []; rewrite app_nil_r; auto 10]. }
    rewrite E, conv_app. eapply does_bind; [apply cleaves_mono|apply IHp; [exact Hd|exact C1| |exact F1]|done|done|done| | |].
    + by eapply csrcs_agree.
    + intros c J1 X1 C2 _ Hh2 HU F2. eapply cleft_steps; [done|done|exact F2|]. rewrite (strat_eta (exec _ (_ :: _))). cbn. eapply rtc_l; constructor.
    + intros d' c J1 X1 ct Hd' C2 _ Hh2 HQ Hct F2. fold t in HQ, Hct. destruct Hcs as [(e&He&->&->&->)|(He&->&->&->)].
      * rewrite He in Hct. injection Hct as <-. eapply does_tau; [done|done|exact F2|apply tau_catch|]. intros z Cz Hz Az Fz _.
        eapply cdoes_pop; [|done|done]. apply (proj1 (IHh e)); [lia|done| |done]. by eapply csrcs_agree.
      * rewrite conv_nil. eapply cdoes_leave; [done|done|exact F2| |done].
        rewrite (strat_eta (exec _ (_ :: _))). destruct t.1.2 as [| |e|]; simplify_eq/=; [eapply rtc_l; constructor..|]. by destruct (He e).
    + intros Hcut. fold t in Hcut. destruct Hcs as [(e&He&_)|(_&->&->&_)]; [congruence|]. by rewrite conv_nil.
  - (* a new object *)
    set (t := turn (pmeans n src []).1.1 (pmeans n src []).1.2).
    assert (Hbody : forall r d' b x Z J1 X1, d' <= n -> calm b -> cleaves ((x, Z) :: xs) (r :: R) d' b J1 X1 ->
       a_foc b = AUser (exec (Go (ccode up body (x :: xs.*1) (yielder o))) (frames (x :: Z) ++ fs)) ->
       does o fs (cleaves xs (tail (pmeans n body (r :: R)).2)) (cleft xs) d' b J1 X1 (conv o (pmeans n body (r :: R)).1.1) (pmeans n body (r :: R)).1.2).
    { intros r d' b x Z J1 X1 Hd' Cb Hl Fb. rewrite <- (app_nil_r (conv _ _)).
      eapply does_bind; [apply cleaves_mono|by apply (IHb o ((x, Z) :: xs) _ _ _ _ _ _ Hd' Cb Hl Fb)|done|done|by eapply csrcs_has| | |].
      - intros c J2 X2 C2 _ Hh2 (d2&R2&HU) F2. destruct (csrcs_leave _ _ _ _ _ _ _ _ (Exn XUnwind) _ HU C2 I F2) as (z&J3&X3&S3&F3&H3). exists z, J3, X3. split; [done|]. split; [done|]. by eexists _, _.
      - intros d2 c J2 X2 ct Hd2 C2 _ Hh2 HQ Hct F2. destruct (csrcs_leave _ _ _ _ _ _ _ _ ct _ HQ C2 ltac:(destruct (pmeans n body (r :: R)).1.2; by simplify_eq/=) F2) as (z&J3&X3&S3&F3&H3).
        eapply ds_nil; [exact S3|]. by eapply ds_end.
      - done. }
    pose proof (turn_not_returns (pmeans n src []).1.1 (pmeans n src []).1.2) as Hnr. fold t in Hnr.
    pose proof (fun tr st Q => IHs o fs Q (cleft xs) [] xs fs [] R (fun x => ccode up body (x :: xs.*1) (yielder o)) d a J X tr st Hd Hc eq_refl Hs Hf) as H. fold t in H. unfold goes_on in H.
    destruct t as [[ns [| |e|]] r]; cbn [fst snd] in *.
    + rewrite conv_app, conv_notes. apply H. intros d' b x Z J1 X1 Hd' C1 Hl F1. eapply Hbody; [lia|done|exact Hl|exact F1].
    + done.
    + rewrite conv_notes, <- (app_nil_r (inl <$> ns)). apply H. intros d' b J1 X1 Hd' C1 Hl F1. by eapply ds_end.
    + rewrite conv_notes, <- (app_nil_r (inl <$> ns)). by apply H.
  - (* get *)
    pose proof (names_lookup xs i) as Ei. destruct (xs.*1 !! i) as [x|] eqn:Ex0; [destruct Ei as [Z Ex]|rename Ei into Ex; rewrite (rest_of_none _ _ (csrcs_none _ _ _ _ _ _ Hs _ Ex)); by apply IHq].
    destruct (csrcs_lookup _ _ _ _ _ _ Hs i _ Ex) as [r Er]. rewrite (rest_of_eq _ _ _ Er).
    destruct (clook_bool _ _ _ _ _ _ _ _ _ _ _ _ _ Hs Hc Ex Er Hf) as (a1&S1&F1&Hs1). eapply ds_nil; [exact S1|]. pose proof (steps_calm _ _ _ _ _ _ _ S1) as C1.
    destruct r as [[v t]|]; cbn in F1; [|by apply IHq].
    destruct (clook_get _ _ _ _ _ _ _ _ _ _ _ _ _ _ Hs1 C1 Ex Er F1) as (a2&J2&X2&S2&F2&Hs2). eapply ds_nil; [exact S2|]. pose proof (steps_calm _ _ _ _ _ _ _ S2) as C2.
    by apply (proj1 (IHf v)).
  - (* peek *)
    pose proof (names_lookup xs i) as Ei. destruct (xs.*1 !! i) as [x|] eqn:Ex0; [destruct Ei as [Z Ex]|rename Ei into Ex; rewrite (rest_of_none _ _ (csrcs_none _ _ _ _ _ _ Hs _ Ex)); by apply IHq].
    destruct (csrcs_lookup _ _ _ _ _ _ Hs i _ Ex) as [r Er]. rewrite (rest_of_eq _ _ _ Er).
    destruct (clook_begin _ _ _ _ _ _ _ _ _ _ _ _ _ Hs Hc Ex Er Hf) as (a1&S1&F1&Hs1). eapply ds_nil; [exact S1|]. pose proof (steps_calm _ _ _ _ _ _ _ S1) as C1.
    destruct (clook_pure _ _ _ _ _ _ _ _ _ _ (AIt None) Hs1 C1 F1) as (a2&S2&F2&Hs2); [done|done|]. eapply ds_nil; [exact S2|]. pose proof (steps_calm _ _ _ _ _ _ _ S2) as C2.
    destruct r as [[v t]|]; cbn in F2.
    + destruct (clook_pure _ _ _ _ _ _ _ _ _ _ (AB true) Hs2 C2 F2) as (a3&S3&F3&Hs3); [done|done|]. eapply ds_nil; [exact S3|]. pose proof (steps_calm _ _ _ _ _ _ _ S3) as C3. cbn in F3.
      destruct (clook_peek _ _ _ _ _ _ _ _ _ _ _ _ _ _ Hs3 C3 Ex Er F3) as (a4&S4&F4&Hs4). eapply ds_nil; [exact S4|]. pose proof (steps_calm _ _ _ _ _ _ _ S4) as C4.
      by apply (proj1 (IHf v)).
    + destruct (clook_pure _ _ _ _ _ _ _ _ _ _ (AB false) Hs2 C2 F2) as (a3&S3&F3&Hs3); [done|done|]. eapply ds_nil; [exact S3|]. pose proof (steps_calm _ _ _ _ _ _ _ S3) as C3. cbn in F3.
      by apply IHq.
  - (* next *)
    pose proof (names_lookup xs i) as Ei. destruct (xs.*1 !! i) as [x|] eqn:Ex0; [destruct Ei as [Z Ex]|rename Ei into Ex; rewrite (rest_of_none _ _ (csrcs_none _ _ _ _ _ _ Hs _ Ex)); cbn; rewrite conv_nil; by eapply ds_end].
    destruct (csrcs_lookup _ _ _ _ _ _ Hs i _ Ex) as [r Er]. rewrite (rest_of_eq _ _ _ Er).
    destruct (clook_bool _ _ _ _ _ _ _ _ _ _ _ _ _ Hs Hc Ex Er Hf) as (a1&S1&F1&Hs1). eapply ds_nil; [exact S1|]. pose proof (steps_calm _ _ _ _ _ _ _ S1) as C1.
    destruct r as [[v [l st]]|]; cbn in F1; [|cbn; rewrite conv_nil; by eapply ds_end]. cbn [fst snd]. rewrite conv_notes.
    eapply cnext_does; [exact Hs1|exact C1|exact Ex|exact Er|done|exact F1].
  - (* while *)
    pose proof (names_lookup xs i) as Ei. destruct (xs.*1 !! i) as [x|] eqn:Ex0; [destruct Ei as [Z Ex]|rename Ei into Ex].
    + eapply (cwhiles_does o xs n); [|done|lia|lia|done|done|exact Hf]. intros j fs0 R0 d0 a0 J0 X0 H1 H2 H3 H4. by apply (proj1 (IHf j)).
    + cbn. assert (E : whiles (fun j => pmeans n (f j)) i 0 n R = (([], Ends), R)). { pose proof (rest_of_none _ _ (csrcs_none _ _ _ _ _ _ Hs _ Ex)) as En. destruct n; cbn; by rewrite En. }
      rewrite E. cbn. rewrite conv_nil. by eapply ds_end.
  - eapply (cploops_does o xs n); [|lia|lia|done|done|exact Hf]. intros j fs0 R0 d0 a0 J0 X0 H1 H2 H3 H4. by apply (proj1 (IHf j)).
Qed.
End code.

(** ** Whole programs *)
Lemma cmain_acts n up p u : acts None [] n (ainit (cmain up p) u) none none (inl <$> written (pdoes n p).1) (pdoes n p).2.
Proof.
  rewrite <- conv_written. eapply does_acts. apply (proj1 (both_ok n up p) None [] [] []); [done|apply init_calm| |done].
  apply csrcs_nil, has_none.
Qed.
Lemma cmain_long n up p u : (pdoes n p).2 = Cut -> exists k a, n <= k /\ arun k (ainit (cmain up p) u) = ANext a /\ output (a_tr a) = written (pdoes n p).1.
Proof. intros Hs. pose proof (cmain_acts n up p u) as H. rewrite Hs in H. destruct (acts_long _ _ _ _ _ _ _ _ H _ eq_refl eq_refl) as (b&(k&Hk&Hr)&O). by exists k, b. Qed.
Lemma cmain_reaches n up p u : exists k a, arun k (ainit (cmain up p) u) = ANext a /\ output (a_tr a) = written (pdoes n p).1.
Proof.
  destruct (acts_prefix _ _ _ _ _ _ _ _ (cmain_acts n up p u) eq_refl _ eq_refl (init_calm _ _) (has_none _)) as [Hs|(b&J&X&[k G]&_&_&_&_&O)]; [|exists k, b; by rewrite O].
  destruct (cmain_long n up p u Hs) as (k&a&_&H1&H2). by exists k, a.
Qed.
Lemma cmain_ends n up p u : match (pdoes n p).2 with Ends | Returns => True | _ => False end -> exists k a, arun k (ainit (cmain up p) u) = AHalt Finished a /\ output (a_tr a) = written (pdoes n p).1.
Proof.
  intros Hs. pose proof (cmain_acts n up p u) as H. destruct (ctl_of (pdoes n p).2) as [c|] eqn:Hc; [|by destruct (pdoes n p).2].
  destruct (acts_end _ _ _ _ _ _ _ _ H _ c eq_refl Hc (init_calm _ _) (has_none _)) as (b&J&X&(G&_&[_ _ _ Hcur _ _ _]&_&_&O)&F).
  destruct (goes_halt _ _ Finished b G) as [k Hk]; [|exists k, b; by rewrite O]. unfold astep. rewrite F. cbn in Hcur.
  destruct (pdoes n p).2; try done; injection Hc as <-; rewrite ?exec_skip0, ?exec_ret0; unfold do_leave; by rewrite Hcur.
Qed.
Lemma cmain_raises n up p u e : (pdoes n p).2 = Raises e -> exists k a, arun k (ainit (cmain up p) u) = AHalt Terminated a /\ output (a_tr a) = written (pdoes n p).1.
Proof.
  intros Hs. pose proof (cmain_acts n up p u) as H. rewrite Hs in H.
  destruct (acts_end _ _ _ _ _ _ _ _ H _ _ eq_refl eq_refl (init_calm _ _) (has_none _)) as (b&J&X&(G&_&[_ _ _ Hcur _ _ _]&_&_&O)&F).
  destruct (goes_halt _ _ Terminated b G) as [k Hk]; [|exists k, b; by rewrite O]. unfold astep. rewrite F. cbn in Hcur.
  rewrite exec_exn0. unfold do_leave. by rewrite Hcur.
Qed.
End chain.
