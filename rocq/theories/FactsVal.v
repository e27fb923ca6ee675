(** FactsVal.v -- lemmas about transferred values. *)
From stdpp Require Import prelude gmap relations.
From Coq Require Import Lia.
From Verif Require Import Base Model Spec InvSpec Main Micro Trace Life Pend Den Tgt Stack Own Slot Turn Hist.

Section facts.
Context {env : Env}.

(** ** Histories alone *)
Lemma slotv_pushes k h p : slotv k h = Some p ->
  exists p0 rest, pushes k h = p0 :: rest /\ p = Nat.iter (ngets k h) move_out p0.
Proof.
  revert p. induction h as [|e h IH]; intros p; [done|]. destruct e; cbn; try apply IH.
  - destruct o as [[]|]; try apply IH. destruct a; try apply IH. destruct (den h !! h0) as [[e|]|]; try apply IH.
    destruct (decide (ep_co e = k)) as [<-|]; [|apply IH].
    destruct (slotv (ep_co e) h) as [q|]; cbn; [|done]. intros E. injection E as <-.
    destruct (IH q eq_refl) as (p0&rest&E1&->). exists p0, rest. by split.
  - destruct (decide (k0 = k)) as [->|]; [|apply IH]. intros. simplify_eq. eauto.
  - destruct (decide (k0 = k)) as [->|]; [done|]. apply IH.
Qed.
Lemma iter_move_val n v p : PVal v = Nat.iter n move_out p -> exists w, p = PVal w /\ v = Nat.iter n moved_from w.
Proof.
  revert v. induction n as [|n IH]; intros v E; [cbn in E; subst; eauto|]. rewrite Nat.iter_succ in E. destruct (Nat.iter n move_out p) eqn:En; [|done].
  destruct (IH _ eq_refl) as (w&->&->). cbn in E. injection E as ->. exists w. by rewrite Nat.iter_succ.
Qed.
Lemma iter_move_ref n l p : PRef l = Nat.iter n move_out p -> p = PRef l.
Proof.
  revert l. induction n as [|n IH]; intros l E; [done|]. rewrite Nat.iter_succ in E. destruct (Nat.iter n move_out p) eqn:En; [done|].
  cbn in E. injection E as ->. by apply IH.
Qed.

(** ** Objects named by a call in progress *)
Lemma call_den p u a o k h : mreach p u (a, MCall o k) -> h ∈ op_hs o -> (forall k', MCall o k <> MCall (ODestroy h) k') ->
  den (a_tr a) !! h = h_ep <$> a_h a !! h.
Proof.
  intros Hx Hh Hn. pose proof (mreach_den _ _ _ Hx) as D. apply (d_den2 _ D); [|done]. by eapply (d_known _ D).
Qed.

Definition robj (o : op) : option nat := match o with OGet x | OItDeref (Some x) => Some x | _ => None end.

Lemma local_read o a a' r x : local_op o a = Some (a', r) -> robj o = Some x ->
  exists kd e c, a_h a !! x = Some (HObj Pull kd (Some e)) /\ readable e a = Some c /\ a_co a !! ep_co e = Some c /\
    ((exists v, kd = KVal /\ ac_slot c = SlFull (PVal v) /\ r = AV v) \/ (exists l, kd = KRef /\ ac_slot c = SlFull (PRef l) /\ r = ALoc l)).
Proof.
  intros H Hx. assert (Hr : forall e c, readable e a = Some c -> a_co a !! ep_co e = Some c) by (intros; by apply readable_co).
  destruct o as [| | | | | | |h| | |[i|]|[i|]| | | | |[i|]| | | | ]; cbn in Hx; simplify_eq; cbn in H.
  - destruct (a_h a !! x) as [[[] kd [e|]]|]; try done. destruct (readable e a) as [c|] eqn:Er; [|done].
    exists kd, e, c. split; [done|]. split; [done|]. split; [by apply Hr|].
    destruct kd, (ac_slot c) as [|[]|]; simplify_eq; [destruct (move_exn v); simplify_eq|]; eauto 10.
  - destruct (a_h a !! x) as [[[] kd [e|]]|]; try done. destruct (readable e a) as [c|] eqn:Er; [|done].
    exists kd, e, c. split; [done|]. split; [done|]. split; [by apply Hr|].
    destruct kd, (ac_slot c) as [|[]|]; simplify_eq; eauto 10.
Qed.

(** get() and dereferencing an iterator hand out what is in the slot. *)
Lemma read_value p u a o k a' r x : mreach p u (a, MCall o k) -> local_op o a = Some (a', r) -> robj o = Some x ->
  exists sd kd e, den (a_tr a) !! x = Some (Some e) /\ e = receiver sd (ep_co e) /\ cls (ep_co e) (a_tr a) = Some (sd, kd) /\
    length (pushes (ep_co e) (a_tr a)) = turns sd (ep_co e) (a_tr a) /\
    ((exists v, kd = KVal /\ slotv (ep_co e) (a_tr a) = Some (PVal v) /\ r = AV v) \/
     (exists l, kd = KRef /\ slotv (ep_co e) (a_tr a) = Some (PRef l) /\ r = ALoc l)).
Proof.
  intros Hx Hl Ho. destruct (local_read _ _ _ _ _ Hl Ho) as (kd&e&c&Hh&Hr&Hc&Hs).
  pose proof (mreach_basic _ _ _ Hx) as B. cbn in B. destruct (ib_h _ B _ _ _ _ _ Hh Hc) as [Ek Es].
  pose proof (mreach_slot _ _ _ Hx) as S. pose proof (mreach_turn _ _ _ Hx) as T.
  exists (ac_side c), kd, e. split.
  { erewrite call_den; [by rewrite Hh|exact Hx| |].
    - destruct o as [| | | | | | |h| | |[i|]|[i|]| | | | |[i|]| | | | ]; cbn in Ho; simplify_eq; cbn; set_solver.
    - intros k' E. injection E as ->. done. }
  split; [destruct e; cbn in *; by rewrite Es|]. split; [rewrite <- Ek; by apply (sl_cls _ _ S)|].
  assert (Hsl : slotv (ep_co e) (a_tr a) = slp (ac_slot c)).
  { pose proof (sl_slot _ _ S _ _ Hc) as Q. unfold slot_exp in Q. cbn in Q. destruct e as [n|n]; cbn in *.
    - rewrite Hc in Hr. cbn in Hr. destruct (ac_st c) eqn:Est; try done; cbn in Q; by rewrite andb_false_r in Q.
    - rewrite Es in Q. done. }
  split.
  { assert (Hkd : ac_kind c <> KVoid) by (destruct Hs as [(?&?&_)|(?&?&_)]; congruence).
    pose proof (tn_ok _ T _ _ Hc Hkd) as Q. unfold tok in Q. cbn in Q. lia. }
  rewrite Hsl. destruct Hs as [(v&?&E&?)|(l&?&E&?)]; rewrite E; eauto 10.
Qed.

Context {comp : Compiler}.

Lemma ret_local p u n c o r b : respects p u n -> occurs (hist p u n) (EvRet c (NOp o) r) b ->
  (exists a k a', mreach p u (a, MCall o k) /\ a_tr a = b /\ c = a_cur a /\ local_op o a = Some (a', r)) \/
  (exists a k, mreach p u (a, MRet (NOp o) r k) /\ a_tr a = b /\ c = a_cur a).
Proof.
  intros Hr Ho. destruct (hist_at _ _ _ _ _ Hr Ho) as ([a f]&y&Hx&Hm&Hb&Hc&H); cbn in *.
  destruct H as [(k&Hf&_)|[(o'&k&a'&Hf&Eo&Hl&_)|(h&kd&k&Hf&_)]]; subst f.
  - right. eauto 10.
  - left. injection Eo as <-. eauto 10.
  - exfalso. pose proof (mreach_pend _ _ _ Hx) as P. by pose proof (pi_foc _ P).
Qed.

Lemma read_event p u n c o x r b : respects p u n -> occurs (hist p u n) (EvRet c (NOp o) r) b -> robj o = Some x ->
  exists sd kd e, den b !! x = Some (Some e) /\ e = receiver sd (ep_co e) /\ cls (ep_co e) b = Some (sd, kd) /\
    length (pushes (ep_co e) b) = turns sd (ep_co e) b /\
    ((exists v w rest, kd = KVal /\ pushes (ep_co e) b = PVal w :: rest /\ slotv (ep_co e) b = Some (PVal v) /\ r = AV v /\ v = Nat.iter (ngets (ep_co e) b) moved_from w) \/
     (exists l rest, kd = KRef /\ pushes (ep_co e) b = PRef l :: rest /\ r = ALoc l)).
Proof.
  intros Hr Ho Hx. destruct (ret_local _ _ _ _ _ _ _ Hr Ho) as [(a&k&a'&Ha&Hb&Hc&Hl)|(a&k&Ha&Hb&Hc)].
  - destruct (read_value _ _ _ _ _ _ _ _ Ha Hl Hx) as (sd&kd&e&E1&E2&E3&E4&E5). rewrite Hb in *.
    exists sd, kd, e. split; [done|]. split; [done|]. split; [done|]. split; [done|].
    destruct E5 as [(v&Ek&Es&Er)|(l&Ek&Es&Er)].
    + left. destruct (slotv_pushes _ _ _ Es) as (p0&rest&Ep&Ei). apply iter_move_val in Ei as (w&->&Ev). eauto 10.
    + right. destruct (slotv_pushes _ _ _ Es) as (p0&rest&Ep&Ei). apply iter_move_ref in Ei as ->. eauto 10.
  - exfalso. pose proof (mreach_pend _ _ _ Ha) as P. pose proof (pi_foc _ P) as F. cbn in F.
    destruct o as [| | | | | | |h| | |[i|]|[i|]| | | | |[i|]| | | | ]; cbn in Hx; simplify_eq; destruct r; naive_solver.
Qed.

(** ** Turns *)
Lemma cls_life k h x : cls k h = Some x -> life k h <> PNone.
Proof.
  revert x. induction h as [|e h IH]; intros x; [done|]. destruct e; cbn; try apply IH; try (case_decide; [done|apply IH]).
  - repeat case_match; try done; eapply IH.
  - case_decide; [|apply IH]. intros Hq. specialize (IH _ Hq). by destruct (life k h).
Qed.

Lemma cur_coro p u x : mreach p u x -> a_cur x.1 <> 0 -> exists c, a_co x.1 !! a_cur x.1 = Some c.
Proof. intros Hx H0. destruct (ib_cur _ (mreach_basic _ _ _ Hx)) as [|(c&?&_)]; [done|eauto]. Qed.

Definition is_dn (ph : phase) : bool := match ph with PDone _ => true | _ => false end.

(** A resumption by the receiving side comes back. *)
Lemma recv_turn p u n c o r b sd k kd : respects p u n -> occurs (hist p u n) (EvRet c o r) b -> recv o = true ->
  tgt c b = Some (receiver sd k) -> cls k b = Some (sd, kd) -> kd <> KVoid ->
  (life k b = PRun /\ length (pushes k b) = S (turns sd k b)) \/ (sd = Pull /\ life k b = PDone None /\ length (pushes k b) = turns sd k b).
Proof.
  intros Hr Ho Hrv Ht Hcl Hkd. destruct o as [o|]; [|done].
  destruct (ret_local _ _ _ _ _ _ _ Hr Ho) as [(a&kk&a'&Ha&Hb&Hc&Hl)|(a&kk&Ha&Hb&Hc)].
  { exfalso. destruct o as [| | | | | | |h| | |[i|]|[i|]| | | | |[i|]| | | | ]; done. }
  assert (X : xret a (tgt c b)).
  { pose proof (tg_foc _ (mreach_tgt _ _ _ Ha)) as F. cbn in F. subst b c. destruct o as [| | | | | | |h| | |[i|]|[i|]| | | | |[i|]| | | | ]; try done. apply F. }
  rewrite Ht in X. pose proof (mreach_life _ _ _ Ha) as L. pose proof (mreach_slot _ _ _ Ha) as S. pose proof (mreach_turn _ _ _ Ha) as T.
  assert (Hco : exists co, a_co a !! k = Some co /\ ((sd = Push /\ k = a_cur a) \/ (sd = Pull /\ (is_susp (ac_st co) \/ ac_st co = ADone None)))).
  { destruct X as [(j&_&E&(co&Hco&Hst))|E]; destruct sd; cbn in E; try done; injection E as ->.
    - exists co. split; [done|]. right. split; [done|]. naive_solver.
    - destruct (decide (a_cur a = 0)) as [E0|E0].
      + exfalso. apply (cls_life _ _ _ Hcl). rewrite <- Hb. apply (li_none _ L). by left.
      + destruct (cur_coro _ _ _ Ha E0) as [co Hco]. exists co. auto. }
  destruct Hco as (co&Hco&Hst). pose proof (sl_cls _ _ S _ _ Hco) as E. cbn in E. rewrite Hb, Hcl in E. injection E as -> ->.
  pose proof (tn_ok _ T _ _ Hco Hkd) as Q. unfold tok, transit in Q. cbn [fst snd] in Q. subst c. rewrite Hb, Hrv, Ht, bool_decide_eq_true_2 in Q by done. cbn in Q.
  destruct Hst as [[Es Ek]|[Es Hst]].
  - left. subst k. assert (life (a_cur a) b = PRun) as E.
    { rewrite <- Hb. apply (li_cur _ L); [|done]. cbn. intros E0. apply (ib_dom _ (mreach_basic _ _ _ Ha)) in Hco. cbn in Hco. lia. }
    rewrite E in Q. cbn in Q. split; [done|]. lia.
  - pose proof (li_st _ L _ _ Hco) as Hph. cbn in Hph. rewrite Hb in Hph. destruct Hst as [(?&?&?&Hst)|Hst]; rewrite Hst in Hph; cbn in Hph; rewrite Hph in *; cbn in Q.
    + left. split; [done|]. lia.
    + right. split; [done|]. split; [done|]. lia.
Qed.

Lemma recv_exn p u n c o e b k kd : respects p u n -> occurs (hist p u n) (EvExn c o (XUser e)) b -> recv o = true ->
  tgt c b = Some (Outer k) -> cls k b = Some (Pull, kd) -> kd <> KVoid ->
  life k b = PDone (Some e) /\ length (pushes k b) = turns Pull k b.
Proof.
  intros Hr Ho Hrv Ht Hcl Hkd. destruct (hist_at _ _ _ _ _ Hr Ho) as ([a f]&y&Hx&Hm&Hb&Hc&kk&Hf&_); cbn in *. subst f c.
  pose proof (tg_foc _ (mreach_tgt _ _ _ Hx)) as F. cbn in F. pose proof (mreach_life _ _ _ Hx) as L. rewrite <- Hb in *.
  destruct F as [(j&h'&_&Htr&E&(co&Hco&Hst)&_)|[(?&?&_&Hp&_)|[(?&?&?&->&_)|[(?&?&?&?&->&_)|(?&?&?&->&_)]]]]; try done.
  - rewrite Ht in E. injection E as <-. pose proof (li_st _ L _ _ Hco) as Hph. cbn in Hph. rewrite Hst in Hph. split; [done|].
    pose proof (mreach_slot _ _ _ Hx) as S. pose proof (sl_cls _ _ S _ _ Hco) as E. cbn in E. rewrite Hcl in E. injection E as -> ->.
    pose proof (tn_ok _ (mreach_turn _ _ _ Hx) _ _ Hco Hkd) as Q. unfold tok, transit in Q. cbn in Q. lia.
  - by destruct o as [[]|].
Qed.

Lemma new_turn p u n k x b : respects p u n -> occurs (hist p u n) (EvNew k x) b ->
  (exists kd, cls k b = Some (Pull, kd) /\ life k b = PRun /\ (kd <> KVoid -> length (pushes k b) = S (turns Pull k b))) \/
  (exists kd, cls k b = Some (Push, kd) /\ life k b = PAlloc /\ pushes k b = [] /\ turns Push k b = 0).
Proof.
  intros Hr Ho. destruct (hist_at _ _ _ _ _ Hr Ho) as ([a f]&y&Hx&Hm&Hb&H); cbn in *. subst b.
  pose proof (mreach_slot _ _ _ Hx) as S. pose proof (mreach_turn _ _ _ Hx) as T. pose proof (mreach_life _ _ _ Hx) as L.
  destruct H as [(o&kd&kk&c&o'&po'&k'&Hf&Hco&Hst&_)|(kd&np&fn&kk&Hf&_)]; subst f.
  - left. destruct (mreach_minv _ _ _ Hx) as [_ M]. destruct (M _ _ eq_refl) as (c'&Hc'&Hsd&Hk). cbn in Hc'. assert (c' = c) as -> by congruence.
    exists kd. pose proof (sl_cls _ _ S _ _ Hco) as E. cbn in E. rewrite E, Hsd, Hk. split; [done|].
    pose proof (li_st _ L _ _ Hco) as Hph. cbn in Hph. rewrite Hst in Hph. split; [done|]. intros Hkd.
    pose proof (tn_ok _ T k _ Hco) as Q. rewrite Hk in Q. specialize (Q Hkd). unfold tok, transit in Q. cbn in Q. rewrite Nat.eqb_refl, Hsd, Hst in Q. cbn in Q.
    destruct (decide (k = a_cur a)) as [->|]; [|cbn in Q; lia].
    exfalso. eapply cur_not_susp; [by eapply (mreach_basic _ _ _ Hx)|]. cbn. eexists. split; [exact Hco|]. unfold is_susp. eauto.
  - right. exists kd. destruct (sl_new _ _ S _ _ _ _ _ _ _ eq_refl) as [E _]. split; [done|]. split; [by eapply (li_new2 _ L)|].
    destruct (tn_none _ T k) as [? ?]; [right; eauto 10|]. done.
Qed.

Lemma enter_turn p u n k x b : respects p u n -> occurs (hist p u n) (EvEnter k x) b ->
  (exists kd, cls k b = Some (Push, kd) /\ life k b = PNew /\ (kd <> KVoid -> length (pushes k b) = S (turns Push k b))) \/
  (exists kd, cls k b = Some (Pull, kd) /\ life k b = PAlloc /\ pushes k b = [] /\ turns Pull k b = 0).
Proof.
  intros Hr Ho. destruct (hist_at _ _ _ _ _ Hr Ho) as ([a f]&y&Hx&Hm&Hb&H); cbn in *. subst b.
  pose proof (mreach_slot _ _ _ Hx) as S. pose proof (mreach_turn _ _ _ Hx) as T. pose proof (mreach_life _ _ _ Hx) as L.
  destruct H as [(o&po&kk&c&fn&Hf&Hco&Hst&_)|(kd&np&fn&kk&h0&Hf&_)]; subst f.
  - left. pose proof (sl_cls _ _ S _ _ Hco) as E. cbn in E. assert (Hsd : ac_side c = Push) by (eapply (ib_new _ (mreach_basic _ _ _ Hx)); done).
    exists (ac_kind c). rewrite E, Hsd. split; [done|]. pose proof (li_st _ L _ _ Hco) as Hph. cbn in Hph. rewrite Hst in Hph. split; [done|]. intros Hkd.
    pose proof (tn_ok _ T k _ Hco Hkd) as Q. unfold tok, transit in Q. cbn in Q. rewrite Hsd, bool_decide_eq_true_2 in Q by done. lia.
  - right. exists kd. destruct (sl_new _ _ S _ _ _ _ _ _ _ eq_refl) as [E _]. split; [done|]. split; [by eapply (li_new2 _ L)|].
    destruct (tn_none _ T k) as [? ?]; [right; eauto 10|]. done.
Qed.

(** ** Pushes *)
Lemma set_event p u n k q b : respects p u n -> occurs (hist p u n) (EvSet k q) b ->
  exists c o lv g sd kd b', c = hd 0 (cstack b) /\ pend c b = Some o /\ pusharg o = Some (lv, g) /\ tgt c b = Some (sender sd k) /\ cls k b = Some (sd, kd) /\
    (b = EvCall c o :: b' \/ b = EvDel k :: EvCall c o :: b') /\
    ((exists l, kd = KRef /\ q = PRef l /\ g = ARefTo l) \/
     (exists v, kd = KVal /\ q = PVal v /\ slotv k b = None /\ argval u g b = Some v)).
Proof.
  intros Hr Ho. destruct (hist_at _ _ _ _ _ Hr Ho) as ([a f]&y&Hx&Hm&Hb&H); cbn in *. subst b.
  pose proof (mreach_slot _ _ _ Hx) as S. pose proof (mreach_tgt _ _ _ Hx) as G. pose proof (mreach_pend _ _ _ Hx) as P.
  destruct H as [(d&lv&l&o&po&kk&c&Hf&Hk&Hq&Hco&_)|(d&lv&g&o&po&kk&c&v&u'&Hf&Hk&Hq&Hco&Hag&_)]; subst f.
  - assert (hd 0 (cstack (a_tr a)) = a_cur a) as Hcur by (eapply cur_top; [exact Hx|done]).
    destruct (tg_foc _ G) as (Ht&_&h'&Etr). cbn in Ht, Etr. pose proof (pi_pend _ P (a_cur a)) as Hp. unfold xop in Hp. cbn in Hp. rewrite decide_True in Hp by done.
    destruct (sl_arg _ _ S) as [Ha _]. cbn in Ha. destruct (r_foc _ (mreach_rcv _ _ _ Hx)) as (_&_&c'&Hc'&E). cbn in Hc', E. rewrite <- Hk in Hc'. assert (c' = c) as -> by congruence.
    exists (a_cur a), o, lv, (ARefTo l), (ac_side c), (ac_kind c), h'. rewrite Hcur. split; [done|]. split; [done|]. split; [done|].
    split; [rewrite Ht; congruence|]. split; [by apply (sl_cls _ _ S)|]. split; [by left|]. left. exists l.
    destruct (mreach_minv _ _ _ Hx) as (_&_&_&c1&Hc1&[Hkd _]). cbn in Hc1. rewrite <- Hk in Hc1. assert (c1 = c) as -> by congruence. done.
  - assert (hd 0 (cstack (a_tr a)) = a_cur a) as Hcur by (eapply cur_top; [exact Hx|done]).
    destruct (tg_foc _ G) as (Ht&_&h'&Etr). cbn in Ht, Etr. pose proof (pi_pend _ P (a_cur a)) as Hp. unfold xop in Hp. cbn in Hp. rewrite decide_True in Hp by done.
    destruct (sl_arg _ _ S) as [Ha _]. cbn in Ha. destruct (r_foc _ (mreach_rcv _ _ _ Hx)) as (_&_&c'&Hc'&E). cbn in Hc', E. rewrite <- Hk in Hc'. assert (c' = c) as -> by congruence.
    exists (a_cur a), o, lv, g, (ac_side c), (ac_kind c), h'. rewrite Hcur. split; [done|]. split; [done|]. split; [done|].
    split; [rewrite Ht; congruence|]. split; [by apply (sl_cls _ _ S)|]. split; [rewrite Hk; done|]. right. exists v.
    destruct (mreach_minv _ _ _ Hx) as (_&_&Hres&c1&Hc1&[Hkd _]&Hsl). cbn in Hc1. rewrite <- Hk in Hc1. assert (c1 = c) as -> by congruence.
    split; [done|]. split; [done|]. split.
    + pose proof (sl_slot _ _ S _ _ Hco) as Q. unfold slot_exp in Q. cbn in Q. rewrite Hk in Hco. erewrite resumable_unw in Q by done. rewrite andb_false_r in Q. cbn in Q.
      rewrite Q. by destruct Hsl as [-> | ->].
    + pose proof (sl_user _ _ S) as U. cbn in U. unfold aconstruct in Hag. destruct g; cbn in *; rewrite <- ?U.
      * destruct (a_user a !! l); cbn in *; [|done]. destruct (copy_exn t); simplify_eq. done.
      * destruct (a_user a !! l); cbn in *; [|done]. destruct (move_exn t); simplify_eq. done.
      * repeat case_match; simplify_eq; done.
      * done.
      * done.
Qed.

End facts.
