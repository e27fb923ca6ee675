(** RulesProof.v -- all histories obey the rules of Rules.v. *)
From stdpp Require Import prelude gmap relations.
From Coq Require Import Lia.
From Verif Require Import Base Model Spec InvSpec Main Micro Trace Rules Life Pend Den Tgt Stack Own Slot Turn Hist FactsVal Next.

Section rules.
Context {env : Env}.

Ltac rec H := destruct H as [H|[H _]]; [injection H as <-|exfalso; by eapply cons_self].
Ltac sil H Hn := destruct H as [H|[_ Hn]]; [exfalso; symmetry in H; by eapply cons_self|].

Lemma nexts_user p u a s e : mreach p u (a, MFoc) -> a_foc a = AUser s -> nexts (a, MFoc) e -> acts (a_cur a) e.
Proof.
  intros Hx Hf (x'&y'&Hs&Hm&He).
  assert (exists a' s', x' = (a', MFoc) /\ a_foc a' = AUser s' /\ a_cur a' = a_cur a /\ a_co a' = a_co a) as (a'&s'&->&Hf'&Hc&Hco).
  { remember (a, MFoc) as x eqn:Ex. clear Hx Hm He. revert a s Ex Hf. induction Hs as [x|x y z [H1 H2] Hs IH]; intros a s -> Hf; [eauto 10|].
    inversion H1; subst; try congruence; cbn in H2; try (exfalso; symmetry in H2; by eapply cons_self); try (exfalso; by eapply cons_self).
    edestruct (IH _ s0 eq_refl) as (a'&s'&?&?&?&?); [done|]. eauto 10. }
  inversion Hm; subst; try congruence; cbn in He; try (exfalso; by eapply cons_self); injection He as <-; rewrite <- Hc.
  - left. eauto.
  - left. eauto.
  - right. split; [|eauto]. intros E0. match goal with H : a_co a' !! _ = Some _ |- _ => rewrite Hco, E0 in H; apply (ib_dom _ (mreach_basic _ _ _ Hx)) in H end. lia.
  - right. split; [|eauto]. intros E0. match goal with H : a_co a' !! _ = Some _ |- _ => rewrite Hco, E0 in H; apply (ib_dom _ (mreach_basic _ _ _ Hx)) in H end. lia.
Qed.

Lemma call_lookup p u a o k x : mreach p u (a, MCall o k) -> opobj o = Some x -> (forall k', MCall o k <> MCall (ODestroy x) k') -> forall ho, a_h a !! x = Some ho -> den (a_tr a) !! x = Some (h_ep ho).
Proof. intros Hx Ho Hd ho Hh. erewrite call_den; [by rewrite Hh|done| |done]. destruct o as [| | | | | | |h| | |[i|]|[i|]| | | | |[i|]| | | | ]; cbn in *; simplify_eq; set_solver. Qed.

Context {comp : Compiler}.

(** A destructor is called. *)
Lemma calld_den p u n e' c x b : respects p u n -> occurs (hist p u n) e' (EvCall c (NOp (ODestroy x)) :: b) ->
  exists a a0 k, mreach p u (a, MCall (ODestroy x) k) /\ a_tr a = EvCall c (NOp (ODestroy x)) :: b /\ c = a_cur a /\ nexts (a, MCall (ODestroy x) k) e' /\
    a_h a = a_h a0 /\ den b !! x = h_ep <$> a_h a0 !! x.
Proof.
  intros Hr Ho. destruct (hist_nexts _ _ _ _ _ _ Hr Ho) as ([a0 f0]&y&Hx&Hm&Hy&Hb&He&(Hc&Hf&H)&Hn). cbn in *.
  destruct H as [(o'&k&Eo&Hfo&Hk&Ey)|(sd&kd&np&fn&k&Eo&_)]; [|done]. injection Eo as <-. subst y. cbn in He.
  exists (alog (EvCall c (NOp (ODestroy x))) a0), a0, k. split; [done|]. split; [cbn; congruence|]. split; [done|]. split; [done|]. split; [done|].
  subst b. apply (d_den2 _ (mreach_den _ _ _ Hx)); [|cbn; congruence]. intros Hh. by eapply (d_known _ (mreach_den _ _ _ Hy) _ _ eq_refl x); [cbn; set_solver|].
Qed.

Lemma next_destroy p u n e' c x b : respects p u n -> occurs (hist p u n) e' (EvCall c (NOp (ODestroy x)) :: b) ->
  match den b !! x with
  | Some (Some (Outer k)) => destroys k (EvCall c (NOp (ODestroy x)) :: b) e'
  | Some _ => e' = EvRet c (NOp (ODestroy x)) AUnit
  | None => False
  end.
Proof.
  intros Hr Ho. destruct (calld_den _ _ _ _ _ _ _ Hr Ho) as (a&a0&k&Ha&Hb&->&Hn&Eh&->). rewrite <- Eh.
  apply nexts_step in Hn as (y&Hm&H). assert (Hy : mreach p u y) by (eapply rtc_r; [exact Ha|exact Hm]).
  inversion Hm; subst; cbn in H.
  - match goal with Hl : local_op _ _ = Some _ |- _ => rename Hl into Hlo end. destruct (local_op_frame _ _ _ _ Hlo) as (E1&E2&E3&_). rewrite E1, E3 in H. cbn in Hlo.
    destruct (a_h a !! x) as [[sd kd [[n'|n']|]]|]; try done; cbn; rec H; [|by injection Hlo as _ <-].
    destruct (a_co a !! n'); [|done]. by injection Hlo as _ <-.
  - match goal with Hl : a_h a !! x = Some _ |- _ => rewrite Hl end. cbn. sil H Hn. eapply nexts_kill in Hn; [|done]. cbn in Hn. by rewrite Hb in Hn.
Qed.

Lemma next_resume p u n e' c o x b : respects p u n -> occurs (hist p u n) e' (EvCall c (NOp o) :: b) -> o = OResume x \/ o = OItInc (Some x) ->
  exists sd k kd, den b !! x = Some (Some (receiver sd k)) /\ cls k b = Some (sd, kd) /\ handover (receiver sd k) (EvCall c (NOp o) :: b) e'.
Proof.
  intros Hr Ho Ho'. destruct (call_nexts _ _ _ _ _ _ _ Hr Ho) as (a&k&Ha&Hb&->&Hn).
  assert (Hx : opobj o = Some x) by (by destruct Ho' as [->| ->]).
  assert (Hl : forall ho, a_h a !! x = Some ho -> den b !! x = Some (h_ep ho)).
  { intros ho Hh. pose proof (call_lookup _ _ _ _ _ _ Ha Hx) as Q. rewrite Hb in Q. destruct Ho' as [->| ->]; cbn in Q; by apply Q. }
  assert (Hcls : forall kd e, a_h a !! x = Some (HObj Pull kd (Some e)) -> resumable e a = true -> exists sd kd', e = receiver sd (ep_co e) /\ cls (ep_co e) b = Some (sd, kd')).
  { intros kd e Hh Hres. destruct (obj_receiver _ _ _ _ (mreach_basic _ _ _ Ha) Hh Hres) as (co&Hco&E). exists (ac_side co), (ac_kind co). split; [done|].
    pose proof (sl_cls _ _ (mreach_slot _ _ _ Ha) _ _ Hco) as Q. cbn in Q. by rewrite Hb in Q. }
  apply nexts_step in Hn as (y&Hm&H). assert (Hy : mreach p u y) by (eapply rtc_r; [exact Ha|exact Hm]).
  inversion Hm; subst; cbn in H; cbn in Hx; simplify_eq; try (by destruct Ho').
  - destruct Ho' as [->| ->]; done.
  - match goal with Hh : a_h a !! x = Some _, Hres : resumable e a = true |- _ => destruct (Hcls _ _ Hh Hres) as (sd&kd'&Ed&Hcl); exists sd, (ep_co e), kd'; rewrite (Hl _ Hh) end.
    cbn. split; [congruence|]. split; [done|]. rewrite <- Ed. sil H Hn. eapply nexts_xfer in Hn; [|done]. by rewrite Hb in Hn.
  - match goal with Hh : a_h a !! x = Some _, Hres : resumable e a = true |- _ => destruct (Hcls _ _ Hh Hres) as (sd&kd'&Ed&Hcl); exists sd, (ep_co e), kd'; rewrite (Hl _ Hh) end.
    cbn. split; [congruence|]. split; [done|]. rewrite <- Ed. sil H Hn. eapply nexts_xfer in Hn; [|done]. by rewrite Hb in Hn.
Qed.

Lemma next_new p u n e' c sd kd b : respects p u n -> occurs (hist p u n) e' (EvCall c (NNew sd kd) :: b) ->
  (exists x, e' = EvExn c (NNew sd kd) (XUser x)) \/ (exists k, k <> 0 /\ life k (EvCall c (NNew sd kd) :: b) = PNone /\ e' = EvAlloc k).
Proof.
  intros Hr Ho. destruct (hist_nexts _ _ _ _ _ _ Hr Ho) as ([a0 f0]&y&Hx&Hm&Hy&Hb&He&(Hc&Hf&H)&Hn). cbn in *.
  destruct H as [(o'&k&Eo&_)|(sd'&kd'&np&fn&k&Eo&_&Ey)]; [done|]. injection Eo as <- <-. subst y. cbn in He.
  apply nexts_step in Hn as (y&Hm'&H). inversion Hm'; subst; cbn in H.
  - sil H Hn. apply nexts_exn in Hn. cbn in Hn. left. eauto.
  - rec H. right. exists (a_nk a0). split; [pose proof (ib_nk _ (mreach_basic _ _ _ Hx)) as Q; cbn in Q; lia|]. split; [|done].
    apply (li_none _ (mreach_life _ _ _ Hx)). cbn. right. lia.
Qed.

Lemma next_alloc p u n e' k b : respects p u n -> occurs (hist p u n) e' (EvAlloc k :: b) ->
  match b with
  | EvCall c (NNew sd kd) :: _ =>
      (exists x, e' = EvExn c (NNew sd kd) (XUser x)) \/
      match sd with Pull => exists s, e' = EvEnter k s | Push => exists x, e' = EvNew k x end
  | _ => False
  end.
Proof.
  intros Hr Ho. destruct (hist_nexts _ _ _ _ _ _ Hr Ho) as ([a0 f0]&y&Hx&Hm&Hy&Hb&He&(Hk&sd&kd&np&fn&kk&Hf&_&Ey)&Hn). cbn in *. subst f0 y k.
  destruct (tg_foc _ (mreach_tgt _ _ _ Hx)) as (h'&E). cbn in E. rewrite <- Hb, E. cbn.
  apply nexts_step in Hn as (y&Hm'&H). inversion Hm'; subst; cbn in H.
  - sil H Hn. apply nexts_exn in Hn. cbn in Hn. left. eauto.
  - rec H. right. eauto.
  - rec H. right. eauto.
Qed.

Lemma next_new2 p u n e' k x b : respects p u n -> occurs (hist p u n) e' (EvNew k x :: b) ->
  exists c sd kd, pend c (EvNew k x :: b) = Some (NNew sd kd) /\ tgt c (EvNew k x :: b) = Some (Outer k) /\ e' = EvRet c (NNew sd kd) (AH x).
Proof.
  intros Hr Ho. destruct (hist_nexts _ _ _ _ _ _ Hr Ho) as ([a0 f0]&[a f]&Hx&Hm&Hy&Hb&He&H&Hn). cbn in H, Hn, He, Hb.
  pose proof (mreach_pend _ _ _ Hy) as P. pose proof (tg_foc _ (mreach_tgt _ _ _ Hy)) as F. cbn in F.
  destruct H as [(o&kd&kk&c&o'&po'&k'&Hf&Hco&Hst&Ey)|(kd&np&fn&kk&Hf&Ey)].
  - injection Ey as E1 ->. apply nexts_ret in Hn. pose proof (pi_pend _ P (a_cur a)) as Q. unfold xop in Q. cbn in Q. rewrite decide_True in Q by done.
    destruct (pi_foc _ P) as (sd&kd'&->). exists (a_cur a), sd, kd'. rewrite <- He. split; [done|]. split; [|done].
    destruct sd; cbn in F.
    + destruct F as (j&h&h'&E&Etr&Ht&_). rewrite Ht. rewrite Etr in He. by injection He as -> _ _.
    + exfalso. subst f0. pose proof (pi_foc _ (mreach_pend _ _ _ Hx)). done.
  - subst f. apply nexts_ret in Hn. pose proof (pi_pend _ P (a_cur a)) as Q. unfold xop in Q. cbn in Q. rewrite decide_True in Q by done.
    exists (a_cur a), Push, kd. rewrite <- He. split; [done|]. split; [|done]. cbn in F. destruct F as (n'&h&h'&E&Etr). rewrite Etr in He. injection He as -> -> <-.
    rewrite Etr. cbn. by rewrite decide_True by done.
Qed.

Lemma next_leave p u n e' k r b : respects p u n -> occurs (hist p u n) e' (EvLeave k r :: b) ->
  match r with
  | Some XUnwind => exists s, e' = EvGone k s
  | _ => exists c o s, cstack b = k :: c :: s /\ pend c b = Some o /\ tgt c b = Some (Outer k) /\
            match o with
            | NNew _ _ => destroys k (EvLeave k r :: b) e'
            | NOp _ => match r with None => exists a, e' = EvRet c o a | Some x => e' = EvExn c o x end
            end
  end.
Proof.
  intros Hr Ho. destruct (hist_nexts _ _ _ _ _ _ Hr Ho) as ([a0 f0]&y&Hx&Hm&Hy&Hb&He&(Hk&Hf&H)&Hn). cbn in *. subst f0.
  destruct H as [(s&c&ex&Hfo&Hl&Er&Hco&Hst&Ey)|(c&en&Hfo&Er&Hco&Hst&Ey)]; subst y.
  - eapply nexts_left in Hn as (c'&o&s'&E1&E2&E3&E4); [|done]. cbn in *. rewrite Hb, <- Hk in *.
    destruct ex as [ex|]; cbn in Er; subst r; (exists c', o, s'; split; [done|]; split; [done|]; split; [done|]; done).
  - subst r. apply nexts_step in Hn as (y&Hm'&H'). cbn in H'. inversion Hm'; subst; try done; cbn in *; simplify_eq; rec H'; eauto.
Qed.

Lemma kill_last p u a j w : mreach p u (a, MKill j w) ->
  match a_tr a with EvCall c o :: _ => push_arg o = None | EvLeave _ _ :: _ | EvGone _ _ :: _ => True | _ => False end.
Proof.
  intros Hx. destruct (rtc_inv_r _ _ Hx) as [E|(y&Hy&Hm)]; [done|]. pose proof (tg_foc _ (mreach_tgt _ _ _ Hy)) as F.
  inversion Hm; subst; cbn in *.
  - destruct F as [(h'&->) _]. done.
  - destruct F as (_&_&(h'&->)&_). done.
  - destruct F as [(_&_&c1&Hc1&Hs)|(->&_&Hnp)]; [|by destruct (Hnp h kd)]. assert (c1 = c) as -> by congruence.
    destruct Hs as [(?&?&?&Hs)|(Hs&h'&->)]; [congruence|done].
  - done.
  - by match goal with Hy : match ?w with _ => _ end |- _ => destruct w as [|? ? []|] end.
Qed.

Lemma exit2_last p u a : mreach p u (a, MFoc) -> a_foc a = AExit2 -> match a_tr a with EvGone _ _ :: _ | EvFree _ :: _ => True | _ => False end.
Proof.
  intros Hx Hf. destruct (rtc_inv_r _ _ Hx) as [E|(y&Hy&Hm)]; [injection E as <-; done|].
  inversion Hm; subst; cbn in *; try done.
  match goal with Hy : match ?w with _ => _ end |- _ => destruct w as [|? ? []|]; try done; injection Hy as -> end. done.
Qed.

Lemma next_del p u n e' k b l : respects p u n -> hist p u n = l ++ e' :: EvDel k :: b ->
  match b with
  | EvCall c o :: _ => match push_arg o with Some g => constructs u c o g k (EvDel k :: b) e' | None => dies k (EvDel k :: b) e' end
  | _ => match cls k b with Some (Pull, _) => dies k (EvDel k :: b) e' | _ => e' = EvFree k end
  end.
Proof.
  intros Hr Hh. assert (Ho : occurs (hist p u n) e' (EvDel k :: b)) by (by exists l).
  destruct (hist_nexts _ _ _ _ _ _ Hr Ho) as ([a f]&y&Hx&Hm&Hy&Hb&He&(c1&q&Hco&Hsl&H)&Hn). cbn in *.
  destruct H as [(d&lv&g&o&po&kk&Hf&Hk&->)|[(w&Hf&Hsd&Hkd&->)|(Hk&Hf&Hfo&Hsd&Hkd&->)]]; subst f.
  - destruct (tg_foc _ (mreach_tgt _ _ _ Hx)) as (_&Hpo&h'&Eh). cbn in Eh. rewrite Hb in Eh. rewrite Eh in Hh |- *. destruct (push_arg o) as [g'|] eqn:Hg; [|by destruct o as [[]|]].
    by eapply next_push_del.
  - pose proof (kill_last _ _ _ _ _ Hx) as Q. rewrite Hb in Q. pose proof (sl_cls _ _ (mreach_slot _ _ _ Hx) _ _ Hco) as E. cbn in E. rewrite Hb, Hsd in E.
    assert (D : dies k (EvDel k :: b) e'). { eapply nexts_kill2 in Hn; [|done]. cbn in Hn. by rewrite Hb in Hn. }
    destruct b as [|[] b]; try done; cbn in E |- *; rewrite ?E; try done. by rewrite Q.
  - pose proof (exit2_last _ _ _ Hx Hfo) as Q. rewrite Hb in Q. pose proof (sl_cls _ _ (mreach_slot _ _ _ Hx) _ _ Hco) as E. cbn in E. rewrite Hb, Hsd in E.
    assert (D : e' = EvFree k).
    { apply nexts_step in Hn as (y&Hm'&H'). inversion Hm'; subst.
      match goal with Hw : match ?w with _ => _ end |- _ => destruct w as [|? ? []|]; [done|..]; subst y end; cbn in H'; by rec H'. }
    destruct b as [|[] b]; try done; cbn in E |- *; by rewrite ?E.
Qed.

Lemma next_gone p u n e' k s b : respects p u n -> occurs (hist p u n) e' (EvGone k s :: b) ->
  match den b !! s with
  | Some (Some (Outer j)) => destroys j (EvGone k s :: b) e'
  | _ => frees k (EvGone k s :: b) e'
  end.
Proof.
  intros Hr Ho. destruct (hist_nexts _ _ _ _ _ _ Hr Ho) as ([a f]&[a1 f1]&Hx&Hm&Hy&Hb&He&(Hk&Hf&Hfo&c&ho&Hco&Hs&Hh&Ey&H)&Hn). cbn in *. subst f.
  assert (Hc1 : a_cur a1 = a_cur a) by (by rewrite Ey).
  assert (Hd : den b !! s = Some (h_ep ho) \/ den b !! s = None).
  { rewrite <- Hb. destruct (decide (den (a_tr a) !! s = None)) as [|Hne]; [by right|]. left.
    pose proof (d_den2 _ (mreach_den _ _ _ Hx) s) as Q. cbn in Q. rewrite Hh in Q. apply Q; [|done]. intros Hh'. apply Hne. by apply (d_den1 _ (mreach_den _ _ _ Hx)). }
  destruct H as [(Hno&Hfo1&->)|(j&Hj&->)].
  - pose proof (nexts_exit2 _ _ _ _ Hy Hfo1 Hn) as Q. rewrite Hc1, He, <- Hk in Q.
    destruct Hd as [->| ->]; [|done]. destruct (h_ep ho) as [[j|j]|]; [by destruct (Hno j)|done|done].
  - eapply nexts_kill in Hn; [|done]. rewrite He in Hn. assert (den b !! s = Some (h_ep ho)) as ->; [|by rewrite Hj].
    pose proof (d_den2 _ (mreach_den _ _ _ Hx) s) as Q. cbn in Q. rewrite Hb, Hh in Q. apply Q; [|done].
    intros (k1&c1&Hc&E1&E2). cbn in *. destruct (hst (ac_st c1)) as [|[|?]] eqn:E.
    + pose proof (d_new _ (mreach_den _ _ _ Hx) _ _ Hc E) as Q2. cbn in Q2. rewrite E2, Hh in Q2. injection Q2 as ->. done.
    + destruct (d_unw _ (mreach_den _ _ _ Hx) _ _ Hc E) as (_&_&Q2&_). cbn in Q2. specialize (Q2 eq_refl Hfo). rewrite E2, Hh in Q2. injection Q2 as ->. done.
    + exfalso. by destruct (ac_st c1) as [| | | |[]].
Qed.

Lemma next_free p u n e' k b : respects p u n -> occurs (hist p u n) e' (EvFree k :: b) ->
  exists c s, cstack b = k :: c :: s /\
    match pend c b with
    | None => frees c (EvFree k :: b) e'
    | Some (NOp o) => e' = EvRet c (NOp o) AUnit /\ (exists x, o = ODestroy x) /\ tgt c b = Some (Outer k)
    | Some (NNew sd kd) => sd = Pull /\ tgt c b = Some (Outer k) /\
        ((life k b = PDone None /\ exists x, e' = EvRet c (NNew Pull kd) (AH x)) \/
         (exists ex, life k b = PDone (Some ex) /\ e' = EvExn c (NNew Pull kd) (XUser ex)))
    end.
Proof.
  intros Hr Ho. destruct (hist_nexts _ _ _ _ _ _ Hr Ho) as ([a f]&y&Hx&Hm&Hy&Hb&He&(Hk&Hf&c&w&Hco&Hw&H)&Hn). cbn in *. subst f k.
  assert (H0 : a_cur a <> 0). { intros E0. rewrite E0 in Hco. apply (ib_dom _ (mreach_basic _ _ _ Hx)) in Hco. lia. }
  destruct (wait_resumer _ _ _ _ _ _ Hx ltac:(done) H0 Hco Hw) as (Ej&(s&Es)&Hp). pose proof (pi_wait _ (mreach_pend _ _ _ Hx) _ _ Hw) as Hk.
  pose proof (tg_wait _ (mreach_tgt _ _ _ Hx) _ _ Hw) as Ht. cbn in Hk, Ht. rewrite Hb in Es, Hp, Ht.
  exists (ac_by c), s. split; [done|]. rewrite Hp. destruct w as [|j o [|h kd|ex] kk|j]; [done|..]; cbn in *; subst j y.
  - destruct Hk as [x ->]. apply nexts_ret in Hn. cbn in Hn. split; [done|]. destruct Ht. eauto.
  - subst o. destruct Ht as [Ht Hl]. split; [done|]. split; [done|]. left. split; [done|].
    apply nexts_step in Hn as (y&Hm'&H'). inversion Hm'; subst; cbn in H'. rec H'. eauto.
  - destruct Hk as [kd ->]. destruct Ht as [Ht Hl]. split; [done|]. split; [done|]. right. exists ex. split; [done|].
    apply nexts_exn in Hn. done.
  - pose proof (nexts_exit2 _ _ _ _ Hy eq_refl Hn) as Q. cbn in Q. rewrite Hb in Q. exact Q.
Qed.

Theorem history_follows p u n e h : respects p u n -> occurs (hist p u n) e h -> follows u h e.
Proof.
  intros Hr Ho. destruct h as [|e0 b].
  - cbn. destruct (hist_occurs _ _ _ _ _ Hr Ho) as (z&Hz&[l Hl]).
    apply (nexts_user p u (ainit p u) p); [apply rtc_refl|done|].
    destruct (path_split (ainit p u, MFoc) z l e Hz Hl) as (y'&Hn&_). by eapply nextst_nexts.
  - assert (Hu : forall c a s, mreach p u (a, MFoc) -> nexts (a, MFoc) e -> a_foc a = AUser s -> c = a_cur a -> acts c e) by (intros; subst; by eapply nexts_user).
    destruct e0 as [c o|c o r|c o x|k x|k r|k q|k|k x|k x|k|k].
    + destruct o as [o|sd kd]; [|by apply (next_new p u n)].
      assert (Hl : is_local o = true -> exists r, e = EvRet c (NOp o) r) by (by eapply next_local).
      assert (Hp : forall x g, push_arg (NOp o) = Some g -> opobj o = Some x ->
        exists sd k kd, den b !! x = Some (Some (sender sd k)) /\ cls k b = Some (sd, kd) /\ push_follows u c (NOp o) g (sender sd k) kd (EvCall c (NOp o) :: b) e).
      { intros x g Hg Hx. destruct (next_push _ _ _ _ _ _ _ _ Hr Ho Hg) as (sd&k&kd&Ht&?&?). exists sd, k, kd. split; [|done].
        cbn in Ht. rewrite decide_True, Hx in Ht by done. cbn in Ht. destruct (den b !! x) as [d|]; cbn in Ht; [by subst|done]. }
      destruct o as [| | | | | | |h| | |[i|]|[i|]| | | | |[i|]| | | | ]; cbn; try (by apply Hl); try (by eapply Hp).
      * by apply (next_destroy p u n).
      * eapply (next_resume p u n); eauto.
      * eapply (next_resume p u n); eauto.
      * destruct (call_nexts _ _ _ _ _ _ _ Hr Ho) as (a&k&Ha&Hb&->&Hn). apply nexts_step in Hn as (y&Hm&H). by inversion Hm.
      * destruct (call_nexts _ _ _ _ _ _ _ Hr Ho) as (a'&k&Ha&Hb&->&Hn). apply nexts_step in Hn as (y&Hm&H). by inversion Hm.
    + destruct (hist_nexts _ _ _ _ _ _ Hr Ho) as ([a f]&y&Hx&Hm&Hy&Hb&He&(Hc&H)&Hn). cbn in *. subst c.
      destruct H as [(?&_&->)|[(?&?&a'&_&_&Hl&->)|(?&?&?&_&_&->)]]; (eapply Hu; [exact Hy|exact Hn|done|]); cbn; try done. by apply local_op_frame in Hl as (_&_&->&_).
    + destruct (hist_nexts _ _ _ _ _ _ Hr Ho) as ([a f]&y&Hx&Hm&Hy&Hb&He&(Hc&?&_&->)&Hn). cbn in *. by eapply Hu.
    + destruct (hist_nexts _ _ _ _ _ _ Hr Ho) as ([a f]&y&Hx&Hm&Hy&Hb&He&H&Hn). cbn in *.
      destruct H as [(?&?&?&?&?&->&?&?&?)|(?&?&?&?&?&->&_)]; inversion Hm; subst; try congruence; cbn in He; try (by destruct (cons_self _ _ He)); simplify_eq; by eapply Hu.
    + by apply (next_leave p u n).
    + destruct (next_set _ _ _ _ _ _ _ Hr Ho) as (sd&kd&?&?&?). exists sd, kd. done.
    + destruct Ho as [l Hl]. by eapply (next_del p u n).
    + by apply (next_new2 p u n).
    + by apply (next_gone p u n).
    + by apply (next_alloc p u n).
    + by apply (next_free p u n).
Qed.

(** ** Answers *)
Lemma valid_tests p u a f h ho v : mreach p u (a, f) -> (forall k, f <> MCall (ODestroy h) k) ->
  match f with MCall _ _ | MRet _ _ _ => True | _ => False end ->
  a_h a !! h = Some ho -> avalid (h_ep ho) a = Some v -> tests h (a_tr a) = Some v.
Proof.
  intros Hx Hd Hf Hh Hv. pose proof (mreach_den _ _ _ Hx) as D. pose proof (mreach_life _ _ _ Hx) as L.
  assert (Hn : ~ hid a h).
  { intros (k&c&Hc&E1&E2). subst h. destruct (hst (ac_st c)) as [|[|?]] eqn:E.
    + pose proof (d_new _ D _ _ Hc E) as Q. cbn in Q. rewrite Hh in Q. injection Q as ->. cbn in Hv. rewrite Hc in Hv. by destruct (ac_st c) as [| | | |[]].
    + destruct (d_unw _ D _ _ Hc E) as (_&_&_&Q). cbn in Q. rewrite Q in Hh; [done|]. intros [-> _]. done.
    + by destruct (ac_st c) as [| | | |[]]. }
  pose proof (d_den2 _ D _ Hn Hd) as Q. cbn in Q. rewrite Hh in Q. cbn in Q. unfold tests. rewrite Q.
  destruct (h_ep ho) as [[k|k]|]; cbn in Hv.
  - destruct (a_co a !! k) as [c|] eqn:Hc; [|done]. pose proof (li_st _ L _ _ Hc) as Q2. cbn in Q2. f_equal.
    destruct (ac_st c) eqn:E; cbn in Q2; simplify_eq; rewrite ?Q2; try done. by destruct f.
  - destruct (a_co a !! k) as [c|] eqn:Hc; [|done]. by destruct (ac_st c) as [| | | |[]]; simplify_eq.
  - by simplify_eq.
Qed.

Theorem history_answers p u n c o r h : respects p u n -> occurs (hist p u n) (EvRet c o r) h -> pend c h = Some o /\ answers u h c o r.
Proof.
  intros Hr Ho. destruct (hist_at _ _ _ _ _ Hr Ho) as ([a f]&y&Hx&Hm&Hb&Hc&H). cbn in H, Hb, Hc.
  split.
  { rewrite <- Hb, (pi_pend _ (mreach_pend _ _ _ Hx)). unfold xop. cbn. rewrite decide_True by done. destruct H as [(?&->&_)|[(?&?&?&->&->&_)|(?&?&?&->&_)]]; done. }
  destruct H as [(k&->&_)|[(o'&k&a'&->&->&Hl&_)|(x&kd&k&->&->&_)]].
  - pose proof (pi_foc _ (mreach_pend _ _ _ Hx)) as F. pose proof (tg_foc _ (mreach_tgt _ _ _ Hx)) as F2. cbn in F, F2.
    assert (Hit : forall x, itret a x r -> exists v, tests x h = Some v /\ r = AIt (if v then Some x else None)).
    { intros x (ho&v&Hh&Hv&->). exists v. split; [|done]. rewrite <- Hb. by eapply valid_tests. }
    destruct o as [o|[] kd].
    + destruct r; cbn in F.
      * destruct F as [(x&->)|[(x&g&->)|(x&->)]]; done.
      * done.
      * destruct F as (?&?&?). done.
      * destruct F as [(x&E&_)|(x&g&E&_)]; injection E as ->; destruct F2 as [_ F2]; by apply Hit.
      * done.
      * done.
    + destruct F2 as (j&x&h'&->&E&_). exists x. split; [done|]. left. rewrite <- Hb, E. eauto.
    + destruct F2 as (j&x&h'&->&E). exists x. split; [done|]. left. rewrite <- Hb, E. eauto.
  - assert (Hv : forall x ho v, opobj o' = Some x -> (forall z, o' <> ODestroy z) -> a_h a !! x = Some ho -> avalid (h_ep ho) a = Some v -> tests x h = Some v).
    { intros x ho v Ho' Hnd Hh Hv. rewrite <- Hb. eapply valid_tests; try done. intros k' E. injection E as E _. by eapply Hnd. }
    assert (Hd : forall x ho, x ∈ op_hs o' -> (forall z, o' <> ODestroy z) -> a_h a !! x = Some ho -> den h !! x <> None).
    { intros x ho Ho' Hnd Hh. rewrite <- Hb. erewrite call_den; [by rewrite Hh|done|done|]. intros k' E. injection E as E _. by eapply Hnd. }
    assert (Hro : forall x, robj o' = Some x -> exists sd k0, den h !! x = Some (Some (receiver sd k0)) /\ reads sd k0 h r).
    { intros x Hrx. destruct (read_event _ _ _ _ _ _ _ _ Hr Ho Hrx) as (sd&kd&e&E1&E2&E3&E4&E5). exists sd, (ep_co e). rewrite <- E2. split; [done|]. split; [done|].
      destruct E5 as [(v&w&rest&->&E5&_&->&->)|(l&rest&->&E5&->)]; eauto 10. }
    assert (Hnone : forall y, o' = OMoveCtor y -> den h !! a_nh a = None).
    { intros ? ->. rewrite <- Hb. pose proof (mreach_den _ _ _ Hx) as D. destruct (den (a_tr a) !! a_nh a) eqn:E; [exfalso|done].
      rewrite (d_den2 _ D) in E; [|intros Hh; pose proof (d_den1 _ D _ Hh) as Q; cbn in Q; congruence|done].
      destruct (a_h a !! a_nh a) eqn:E2; [|cbn in E; by rewrite E2 in E]. pose proof (d_h _ D _ _ E2) as Q. cbn in Q. lia. }
    destruct o' as [y1|x1 x2|x|x|x g|x|x|x|x| |[x|]|[x|]|i j|i j|x| |[x|] g|v|m|l|l v]; cbn in Hl |- *; try done; try (by injection Hl as <- <-); try (by apply Hro).
    + destruct (a_h a !! y1) as [[sd kd e]|] eqn:Hh; [|done]. injection Hl as <- <-. exists (a_nh a). split; [done|]. split; [by eapply Hnone|]. eapply Hd; [cbn; set_solver|done|done].
    + destruct (a_h a !! x1) as [[sd1 kd1 e1]|] eqn:Hh1; [|done]. destruct (a_h a !! x2) as [[sd2 kd2 e2]|] eqn:Hh2; [|done]. destruct (_ && _); [|done]. injection Hl as <- <-.
      split; [done|]. split; (eapply Hd; [cbn; set_solver|done|done]).
    + destruct (a_h a !! x) as [[sd kd [[]|]]|]; try done; [|by injection Hl as <- <-]. destruct (a_co a !! k0); [|done]. by injection Hl as <- <-.
    + destruct (a_h a !! x) as [[sd kd e]|] eqn:Hh; [|done]. destruct (avalid e a) as [b|] eqn:E; [|done]. injection Hl as <- <-. exists b. split; [|done]. by eapply Hv.
    + destruct (a_h a !! x) as [[sd kd e]|] eqn:Hh; [|done]. destruct (avalid e a) as [b|] eqn:E; [|done]. injection Hl as <- <-. exists b. split; [|done]. by eapply Hv.
    + destruct (a_h a !! x) as [[[] kd e]|] eqn:Hh; try done. destruct (not_void kd); [|done]. destruct (avalid e a) as [b|] eqn:E; [|done]. injection Hl as <- <-. exists b. split; [|done]. by eapply Hv.
    + injection Hl as <- <-. f_equal. by rewrite bool_decide_not.
    + destruct (a_h a !! x) as [[[] kd e]|] eqn:Hh; try done. destruct (not_void kd); [|done]. injection Hl as <- <-. split; [|done].
      assert (den h !! x <> None) as Hq by (eapply Hd; [cbn; set_solver|done|done]). unfold tests. by destruct (den h !! x) as [[[]|]|].
    + destruct (a_user a !! l) eqn:E; [|done]. injection Hl as <- <-. exists t. split; [|done]. rewrite <- Hb. pose proof (sl_user _ _ (mreach_slot _ _ _ Hx)) as Q. cbn in Q. by rewrite <- Q.
  - pose proof (pi_foc _ (mreach_pend _ _ _ Hx)) as F. cbn in F. subst o. exists x. split; [done|]. right. split; [done|].
    pose proof (mreach_den _ _ _ Hx) as D. destruct (d_empty _ D _ _ _ _ eq_refl) as (E1&E2&_). cbn in E1, E2. rewrite <- Hb.
    destruct (den (a_tr a) !! x) eqn:E; [exfalso|done].
    rewrite (d_den2 _ D) in E; [|intros Hh; pose proof (d_den1 _ D _ Hh) as Q; cbn in Q; congruence|done]. cbn in E. by rewrite E1 in E.
Qed.

End rules.
