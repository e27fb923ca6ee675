(** FactsSym.v -- chains of push coroutines with the functions of Sym.v: proofs. *)
From stdpp Require Import prelude gmap relations.
From Coq Require Import Lia.
From Verif Require Import Base Model Spec InvSpec Main Hist Trace Cpp FactsReplay Progs Steps FactsProg Gens Sym FactsPipe.
From Verif Require FactsGen.

Local Opaque gmap_lookup map_insert map_delete gmap_partial_alter.

Section sym.
Context {env : Env}.
Context (nothrow : forall v, move_exn v = None).
Local Arguments px : simpl never.
Local Arguments ps : simpl never.

Definition fns : Type := list fn.
(** The push coroutines are numbered from [off]. *)
Context (off : nat).
(** What yielding to [n] functions stands for. *)
Definition yl (n : nat) : T -> stm := match n with O => fun v => emit v Skip | S m => fun v => push (px (off + m)) (AImm v) Skip end.
Definition loop_at (m : nat) (g : fn) (s : nat) : stm := for_loop None (fun v => code (gbody g v) (yl m)) (Some s) None.

Definition sstat (m : nat) (g : fn) (st : astatus) (sl : aslot) : Prop :=
  (st = ANew (fun s => exec (Go (stage g s (yl m))) []) /\ sl = SlEmpty) \/
  exists o kp, st = ASusp o (PoInc (ps (off + m))) kp /\ kp (ROk (AIt (Some (ps (off + m))))) = exec (Go (loop_at m g (ps (off + m)))) [] /\ kp (RExn XUnwind) = exec (Exn XUnwind) [].
(** [d]: the function may have thrown. *)
Definition scell (d : bool) (a : astate) (m : nat) (g : fn) : Prop :=
  a_h a !! px (off + m) = Some (HObj Push KVal (Some (Outer (S (off + m))))) /\ a_h a !! ps (off + m) = Some (HObj Pull KVal (Some (Inner (S (off + m))))) /\
  exists st sl b, a_co a !! S (off + m) = Some (ACo Push KVal st sl (ps (off + m)) b) /\ sl <> SlBad /\ (sstat m g st sl \/ d = true /\ exists ex, st = ADone ex).
Fixpoint sline (d : bool) (a : astate) (p : fns) : Prop := match p with [] => True | g :: p => scell d a (length p) g /\ sline d a p end.
Definition after_ (x : option E) : bool := match x with None => false | Some _ => true end.

Lemma sline_low d a b p : (forall m, m < length p -> a_h b !! px (off + m) = a_h a !! px (off + m) /\ a_h b !! ps (off + m) = a_h a !! ps (off + m) /\ a_co b !! S (off + m) = a_co a !! S (off + m)) -> sline d a p -> sline d b p.
Proof.
  induction p as [|g p IH]; [done|]. cbn. intros Ec [(H1&H2&st&sl&b0&H3&H4) Hp]. split; [|apply IH; [intros; apply Ec; lia|done]].
  destruct (Ec (length p)) as (E1&E2&E3); [lia|]. unfold scell. rewrite E1, E2, E3. split; [done|]. split; [done|]. by eexists _, _, _.
Qed.
Lemma sline_same d a b p : a_h b = a_h a -> (forall m, m < length p -> a_co b !! S (off + m) = a_co a !! S (off + m)) -> sline d a p -> sline d b p.
Proof. intros E1 E2. apply sline_low. intros m Hm. rewrite E1. auto. Qed.
Lemma sline_kept d a b p : kept 0 a b -> sline d a p -> sline d b p.
Proof. intros [K1 K2 _ _ _]. apply sline_same; [done|]. intros m _. apply K2. lia. Qed.
Lemma sline_more d a p : sline false a p -> sline d a p.
Proof. induction p as [|g p IH]; [done|]. intros [(H1&H2&st&sl&b&H3&H4&[H5|[? _]]) Hp]; [|done]. split; [|by apply IH]. split; [done|]. split; [done|]. exists st, sl, b. auto. Qed.
(** Nothing changed but the first [n] push coroutines. *)
Definition low (a b : astate) : Prop := forall k, 0 < k -> k <= off -> a_co b !! k = a_co a !! k.
Definition tou (n : nat) (a : astate) (l : list T) (b : astate) : Prop := to (off + n) a l b /\ low a b.
Lemma tou_more n a l b : to 0 a l b -> tou n a l b.
Proof. intros (G&[K1 K2 K3 K4 K5]&O). split; [split; [done|]; split; [|done]; split; try done|]; intros k Hk; [apply K2|intros _; apply K2]; lia. Qed.
Lemma tou_trans n a l b l' c : tou n a l b -> tou n b l' c -> tou n a (l ++ l') c.
Proof. intros [H1 L1] [H2 L2]. split; [by eapply to_trans|]. intros k Hk Ho. by rewrite L2, L1. Qed.
Lemma tou_nil n a b l c : tou n a [] b -> tou n b l c -> tou n a l c.
Proof. intros H1 H2. exact (tou_trans _ _ _ _ _ _ H1 H2). Qed.
Lemma tou_last n a l b c : tou n a l b -> tou n b [] c -> tou n a l c.
Proof. intros H1 H2. rewrite <- (app_nil_r l). by eapply tou_trans. Qed.
Lemma tou_kept n a l b : tou n a l b -> kept (off + n) a b.
Proof. by intros [(_&?&_) _]. Qed.
Lemma tou_ready n a l b : tou n a l b -> ready (off + n) a -> ready (off + n) b.
Proof. intros H. eapply kept_ready. by eapply tou_kept. Qed.
Lemma tou_num n a l b : tou n a l b -> numbered b.
Proof. by intros H%tou_kept; apply H. Qed.

(** What a value causes in the functions that follow. *)
Fixpoint runx (f : T -> list T * option E) (l : list (T + T)) (x : option E) : list T * option E :=
  match l with
  | [] => ([], x)
  | inl w :: l => (w :: (runx f l x).1, (runx f l x).2)
  | inr v :: l => match f v with (o, Some e) => (o, Some e) | (o, None) => (o ++ (runx f l x).1, (runx f l x).2) end
  end.
Fixpoint out (p : fns) : T -> list T * option E :=
  match p with [] => fun v => ([v], None) | g :: p => fun v => runx (out p) (g v).1 (g v).2 end.
(** How a piece of code ends. *)
Definition ctl_of (x : option E) : ctl := match x with None => Go Skip | Some e => Exn (XUser e) end.

Definition yields (p : fns) : Prop := forall v a fs, ready (off + length p) a -> sline false a p -> a_foc a = AUser (exec (Go (yl (length p) v)) fs) ->
  exists b, tou (length p) a (out p v).1 b /\ sline (after_ (out p v).2) b p /\ a_foc b = AUser (exec (ctl_of (out p v).2) fs).

Lemma tou_refl n a : numbered a -> tou n a [] a.
Proof. intros H. split; [|done]. split; [apply goes_refl|]. split; [by apply kept_refl|]. by rewrite app_nil_r. Qed.

Lemma tau_exn x k fs : rtc tau (exec (Exn x) (FBlock k :: fs)) (exec (Exn x) fs).
Proof. rewrite (strat_eta (exec _ (FBlock k :: fs))). cbn. eapply rtc_l; constructor. Qed.

Lemma work_yields p l : yields p -> forall a fs, ready (off + length p) a -> sline false a p -> a_foc a = AUser (exec (Go (code (gwork l) (yl (length p)))) fs) ->
  exists b, tou (length p) a (runx (out p) l None).1 b /\ sline (after_ (runx (out p) l None).2) b p /\ a_foc b = AUser (exec (ctl_of (runx (out p) l None).2) fs).
Proof.
  intros HY. induction l as [|x l IH]; intros a fs Hr Hl Hf.
  - exists a. split; [by apply tou_refl, Hr|done].
  - cbn [gwork foldr code] in Hf. fold (gwork l) in Hf.
    destruct (to_tau 0 a _ _ (proj1 Hr) Hf (FactsGen.tau_in _ _ _)) as (a1&T1&F1&_).
    assert (R1 : ready (off + length p) a1) by (eapply tou_ready; [apply (tou_more _ _ _ _ T1)|done]). assert (L1 : sline false a1 p) by (eapply sline_kept; [apply T1|done]).
    set (r := match x with inl w => ([w], None) | inr v => out p v end).
    assert (Hx : exists a2, tou (length p) a1 r.1 a2 /\ sline (after_ r.2) a2 p /\ a_foc a2 = AUser (exec (ctl_of r.2) (FBlock (code (gwork l) (yl (length p))) :: fs))).
    { destruct x as [w|v]; cbn [code] in F1.
      - destruct (to_emit 0 a1 _ _ _ (proj1 R1) F1) as (a2&T2&F2&_). exists a2. split; [by apply tou_more|]. split; [eapply sline_kept; [apply T2|done]|done].
      - by apply HY. }
    destruct Hx as (a2&T2&L2&F2).
    assert (N2 : numbered a2) by (by eapply tou_num).
    assert (Er : runx (out p) (x :: l) None = match r with (o, Some e) => (o, Some e) | (o, None) => (o ++ (runx (out p) l None).1, (runx (out p) l None).2) end) by (by destruct x).
    rewrite Er. destruct r as [o [e|]]; cbn [fst snd ctl_of after_] in *.
    + destruct (to_tau 0 a2 _ _ N2 F2 (tau_exn _ _ _)) as (a3&T3&F3&_). exists a3. split; [|split; [eapply sline_kept; [apply T3|done]|done]].
      eapply tou_nil; [apply tou_more; exact T1|]. eapply tou_last; [exact T2|apply tou_more; exact T3].
    + destruct (to_tau 0 a2 _ _ N2 F2 (FactsGen.tau_after _ _)) as (a3&T3&F3&_).
      destruct (IH a3 fs) as (b&T4&L4&F4).
      * eapply tou_ready; [apply (tou_more _ _ _ _ T3)|]. eapply tou_ready; [exact T2|done].
      * eapply sline_kept; [apply T3|done].
      * done.
      * exists b. split; [|done]. eapply tou_nil; [apply tou_more; exact T1|]. eapply tou_trans; [exact T2|]. eapply tou_nil; [apply tou_more; exact T3|exact T4].
Qed.
Lemma runx_app f k l x : runx f (k ++ l) x = match runx f k None with (o, Some e) => (o, Some e) | (o, None) => (o ++ (runx f l x).1, (runx f l x).2) end.
Proof.
  induction k as [|[w|v] k IH]; cbn; [by destruct (runx f l x)|..].
  - rewrite IH. by destruct (runx f k None) as [o [e|]].
  - destruct (f v) as [o [e|]]; [done|]. rewrite IH. destruct (runx f k None) as [o' [e|]]; cbn; [done|]. by rewrite app_assoc.
Qed.
Lemma runx_end f l x : runx f l x = match runx f l None with (o, Some e) => (o, Some e) | (o, None) => (o, x) end.
Proof. rewrite <- (app_nil_r l) at 1. rewrite runx_app. destruct (runx f l None) as [o [e|]]; [done|]. cbn. by rewrite app_nil_r. Qed.
Lemma source_yields p l x : yields p -> forall a fs, ready (off + length p) a -> sline false a p -> a_foc a = AUser (exec (Go (code (source_of l x) (yl (length p)))) fs) ->
  exists b, tou (length p) a (runx (out p) l x).1 b /\ sline (after_ (runx (out p) l x).2) b p /\ a_foc b = AUser (exec (ctl_of (runx (out p) l x).2) fs).
Proof.
  intros HY a fs Hr Hl Hf. unfold source_of in Hf. cbn [code] in Hf.
  destruct (to_tau 0 a _ _ (proj1 Hr) Hf (FactsGen.tau_in _ _ _)) as (a1&T1&F1&_).
  destruct (work_yields p l HY a1 _ ltac:(eapply tou_ready; [apply (tou_more _ _ _ _ T1)|done]) ltac:(eapply sline_kept; [apply T1|done]) F1) as (a2&T2&L2&F2).
  rewrite runx_end. destruct (runx (out p) l None) as [o [e|]]; cbn [fst snd ctl_of after_] in *.
  - destruct (to_tau 0 a2 _ _ (tou_num _ _ _ _ T2) F2 (tau_exn _ _ _)) as (a3&T3&F3&_). exists a3. split; [|split; [eapply sline_kept; [apply T3|done]|done]].
    eapply tou_nil; [apply tou_more; exact T1|]. eapply tou_last; [exact T2|apply tou_more; exact T3].
  - destruct (to_tau 0 a2 _ _ (tou_num _ _ _ _ T2) F2 (FactsGen.tau_after _ _)) as (a3&T3&F3&_).
    assert (L3 : sline false a3 p) by (eapply sline_kept; [apply T3|done]).
    assert (TT : tou (length p) a o a3). { eapply tou_nil; [apply tou_more; exact T1|]. eapply tou_last; [exact T2|apply tou_more; exact T3]. }
    destruct x as [e|]; cbn in F3; [|by exists a3].
    rewrite exec_throw in F3. destruct (to_tau 0 a3 _ (exec (Exn (XUser e)) fs) ltac:(apply T3) F3 (rtc_l _ _ _ _ (tau_i _) (rtc_refl _ _))) as (a4&T4&F4&_).
    exists a4. split; [eapply tou_last; [exact TT|apply tou_more; exact T4]|]. split; [|done]. eapply sline_kept; [apply T4|]. by apply sline_more.
Qed.

(** A round of a function, from the loop back to whoever pushed. *)
Lemma loop_round p g : yields p -> forall a b kk v, runs (off + length p) a b kk v -> sline false a p ->
  a_foc a = AUser (exec (Go (loop_at (length p) g (ps (off + length p)))) []) ->
  exists a', low a a' /\ back (off + length p) a b (runx (out p) (g v).1 (g v).2).1 a' /\ sline (after_ (runx (out p) (g v).1 (g v).2).2) a' (g :: p) /\ a_foc a' = AUser (kk (resp_of (runx (out p) (g v).1 (g v).2).2)).
Proof.
  intros HY a b kk v R Hl Hf. set (m := off + length p) in *. unfold loop_at in Hf. rewrite FactsGen.for_loop_eq in Hf. cbn [fmap option_fmap option_map] in Hf.
  pose proof R as [_ N0 _ _ _ _ _ _].
  destruct (to_look 0 a _ _ _ _ (AB true) [] N0 Hf) as (a1&T1&F1&_); [done|done|done|]. cbv beta iota in F1.
  assert (K1 : kept m a a1) by apply (tou_kept _ _ _ _ (tou_more (length p) _ _ _ T1)). pose proof (runs_kept _ _ _ _ _ _ R K1) as R1.
  pose proof R1 as [_ N1 _ S1 C1 _ _ _].
  destruct (to_look 0 a1 _ _ _ _ (AV v) [] N1 F1) as (a2&T2&F2&_).
  { cbn. rewrite (known_s a1 m _ N1 C1) by done. done. }
  { intros k. cbn. rewrite S1. unfold readable. cbn. by rewrite C1. }
  { done. }
  cbv beta iota in F2. assert (K2 : kept m a1 a2) by apply (tou_kept _ _ _ _ (tou_more (length p) _ _ _ T2)). pose proof (runs_kept _ _ _ _ _ _ R1 K2) as R2.
  destruct (to_tau 0 a2 _ _ ltac:(apply T2) F2 (FactsGen.tau_in _ _ _)) as (a3&T3&F3&_).
  assert (K3 : kept m a2 a3) by apply (tou_kept _ _ _ _ (tou_more (length p) _ _ _ T3)). pose proof (runs_kept _ _ _ _ _ _ R2 K3) as R3.
  assert (L3 : sline false a3 p). { eapply sline_kept; [apply T3|]. eapply sline_kept; [apply T2|]. eapply sline_kept; [apply T1|done]. }
  destruct (source_yields p (g v).1 (g v).2 HY a3 _ (runs_ready _ _ _ _ _ R3) L3 F3) as (a4&T4&L4&F4).
  pose proof (runs_kept _ _ _ _ _ _ R3 (tou_kept _ _ _ _ T4)) as R4.
  set (r := runx (out p) (g v).1 (g v).2) in *. destruct r as [o [e|]]; cbn [fst snd after_ ctl_of resp_of] in *.
  - (* it throws *)
    destruct (to_tau 0 a4 _ _ (tou_num _ _ _ _ T4) F4 (tau_exn _ _ _)) as (a5&T5&F5&_).
    assert (K5 : kept m a4 a5) by apply (tou_kept _ _ _ _ (tou_more (length p) _ _ _ T5)). pose proof (runs_kept _ _ _ _ _ _ R4 K5) as R5.
    assert (L5 : sline true a5 p) by (eapply sline_kept; [apply T5|done]).
    assert (TT : tou (length p) a o a5).
    { eapply tou_nil; [apply tou_more; exact T1|]. eapply tou_nil; [apply tou_more; exact T2|]. eapply tou_nil; [apply tou_more; exact T3|]. eapply tou_last; [exact T4|apply tou_more; exact T5]. }
    clear T1 T2 T3 T4 T5 F1 F2 F3 F4 K1 K2 K3 K5 R1 R2 R3 R4 L4 N1 S1 C1 N0. pose proof R5 as [Q1 Q2 Q3 Q4 Q5 [o' Q6] Q7 Q8]. rewrite exec_exn0 in F5.
    assert (E : astep a5 = do_leave (Some (XUser e)) a5) by (unfold astep; by rewrite F5). unfold do_leave in E. rewrite Q1 in E. rewrite decide_False in E by lia. cbn in E. rewrite Q5 in E. cbn in E. unfold give_back in E. cbn in E.
    rewrite Q5 in E. cbn in E. rewrite Q6 in E. cbn in E. unfold deliver, exn_to in E. cbn in E. match type of E with _ = ANext ?b => remember b as a6 eqn:Ea end.
    exists a6. split; [intros k' Hk Ho; rewrite Ea; cbn; rewrite lookup_insert_ne by (unfold m; lia); by apply TT|]. split; [|split].
    + rewrite <- (app_nil_r o). eapply back_to; [exact (proj1 TT)|]. rewrite Ea. split; try done.
      * rewrite Ea in E. by apply goes_step.
      * cbn. intros k' Hk. apply lookup_insert_ne. lia.
      * eapply numbered_put; [exact Q2| |reflexivity]. done.
      * cbn. by rewrite app_nil_r.
    + rewrite Ea. cbn. split.
      * split; [done|]. split; [done|]. cbn. rewrite lookup_insert. eexists _, _, _. split; [reflexivity|]. split; [done|]. right. split; [done|]. by eexists.
      * apply (sline_same _ a5); [done| |done]. intros i Hi. cbn. apply lookup_insert_ne. unfold m. lia.
    + by rewrite Ea.
  - destruct (to_tau 0 a4 _ _ (tou_num _ _ _ _ T4) F4 (FactsGen.tau_after _ _)) as (a5&T5&F5&_).
    assert (K5 : kept m a4 a5) by apply (tou_kept _ _ _ _ (tou_more (length p) _ _ _ T5)). pose proof (runs_kept _ _ _ _ _ _ R4 K5) as R5.
    assert (L5 : sline false a5 p) by (eapply sline_kept; [apply T5|done]).
    assert (TT : tou (length p) a o a5).
    { eapply tou_nil; [apply tou_more; exact T1|]. eapply tou_nil; [apply tou_more; exact T2|]. eapply tou_nil; [apply tou_more; exact T3|]. eapply tou_last; [exact T4|apply tou_more; exact T5]. }
    clear T1 T2 T3 T4 T5 F1 F2 F3 F4 K1 K2 K3 K5 R1 R2 R3 R4 L4 N1 S1 C1 N0. pose proof R5 as [Q1 Q2 Q3 Q4 Q5 [o' Q6] Q7 Q8].
    rewrite exec_do in F5. set (k := fun r => match r with ROk a => _ | RExn x => _ end) in F5.
    pose proof (astep_op _ _ _ F5) as E. cbn [op_hs it_hs forallb] in E. rewrite (known_s a5 m _ Q2 Q5) in E by done. specialize (E eq_refl). cbn in E. rewrite Q4 in E.
    unfold resumable in E. cbn in E. rewrite Q1, bool_decide_eq_true_2 in E by done. rewrite Q5 in E. cbn in E. unfold transfer, give_back in E. cbn in E. rewrite Q5 in E. cbn in E.
    rewrite Q6 in E. cbn in E. unfold deliver, ret_to in E. cbn in E. match type of E with _ = ANext ?b => remember b as a6 eqn:Ea end.
    exists a6. split; [intros k' Hk Ho; rewrite Ea; cbn; rewrite lookup_insert_ne by (unfold m; lia); by apply TT|]. split; [|split].
    + rewrite <- (app_nil_r o). eapply back_to; [exact (proj1 TT)|]. rewrite Ea. split; try done.
      * rewrite Ea in E. by apply goes_step.
      * cbn. intros k' Hk. apply lookup_insert_ne. lia.
      * eapply numbered_put; [exact Q2| |reflexivity]. done.
      * cbn. by rewrite app_nil_r.
    + rewrite Ea. cbn. split.
      * split; [done|]. split; [done|]. cbn. rewrite lookup_insert. eexists _, _, _. split; [reflexivity|]. split; [done|]. left. right. eexists _, k. split; [reflexivity|]. done.
      * apply (sline_same _ a5); [done| |done]. intros i Hi. cbn. apply lookup_insert_ne. unfold m. lia.
    + by rewrite Ea.
Qed.

Lemma yields_all p : yields p.
Proof.
  induction p as [|g p IH]; intros v a fs Hr Hl Hf.
  - cbn in Hf. destruct (to_emit 0 a _ _ _ (proj1 Hr) Hf) as (b&T1&F1&_). exists b. split; [by apply tou_more|done].
  - cbn [length] in *. cbn in Hl. set (m := off + length p) in *. destruct Hl as [(X1&X2&st&sl&b&X3&X4&[X5|[? _]]) Hl]; [|done]. fold m in X1, X2, X3. unfold sstat in X5. fold m in X5. pose proof Hr as (N&W1&W2&C). assert (W3 : forall i, i <= m -> a_wait a !! S i = None) by (intros i Hi; apply W2; unfold m in Hi; lia). assert (C' : a_cur a = 0 \/ S m < a_cur a) by (unfold m; lia).
    cbn [yl] in Hf. fold m in Hf. unfold push in Hf. rewrite exec_do in Hf. set (kk := fun r => match r with ROk a => _ | RExn x => _ end) in Hf.
    (* the function has been entered *)
    assert (exists a2, goes a a2 /\ runs m a2 (a_cur a) kk v /\ a_foc a2 = AUser (exec (Go (loop_at (length p) g (ps m))) []) /\
      a_h a2 = a_h a /\ (forall k, S m <> k -> a_co a2 !! k = a_co a !! k) /\ delete (a_cur a) (a_wait a2) = a_wait a /\ output (a_tr a2) = output (a_tr a)) as (a2&G2&R2&F2&Y1&Y2&Y3&Y4).
    { pose proof (astep_op _ _ _ Hf) as E1. cbn [op_hs forallb] in E1. rewrite (known_x _ _ N) in E1. specialize (E1 eq_refl). cbn in E1. rewrite X1 in E1. cbn in E1.
      unfold push_op, resumable in E1. cbn in E1. rewrite X3 in E1. cbn in E1.
      assert (Hw : forall x i, i <= m -> <[a_cur a := x]> (a_wait a) !! S i = None). { intros x0 i Hi. rewrite lookup_insert_ne by lia. by apply W3. }
      destruct X5 as [[-> ->]|(o1&kp&->&Hk1&Hk2)].
      - cbn in E1. rewrite nothrow in E1. unfold transfer in E1. cbn in E1. rewrite lookup_insert in E1. cbn in E1. match type of E1 with _ = ANext ?b => remember b as a1 eqn:Ea1 end.
        assert (R1 : runs m a1 (a_cur a) kk v).
        { rewrite Ea1. split; cbn; try done.
          - eapply numbered_put; [exact N| |cbn; by rewrite insert_insert]. done.
          - by rewrite lookup_insert.
          - rewrite lookup_insert. by eexists.
          - intros i Hi. by apply Hw. }
        assert (F1 : a_foc a1 = AUser (exec (Go (stage g (ps m) (yl (length p)))) [])) by (by rewrite Ea1).
        pose proof R1 as [P1 P2 P3 P4 P5 P6 P7 P8]. unfold stage in F1.
        destruct (to_look 0 a1 _ _ _ _ (AIt (Some (ps m))) [] P2 F1) as (a2&T2&F2&_).
        { cbn. rewrite (known_s a1 m _ P2 P5) by done. done. }
        { intros k. cbn. rewrite P4. cbn. by rewrite P5. }
        { done. }
        destruct (to_look 0 a2 _ _ _ _ (AIt None) [] ltac:(apply T2) F2) as (a3&T3&F3&_); [done|done|done|]. cbn in F3.
        pose proof (to_nil _ _ _ _ _ T2 T3) as (G3&[K1 K2 K3 K4 K5]&O3). rewrite app_nil_r in O3. exists a3. split; [eapply goes_trans; [by apply goes_step|exact G3]|]. split; [eapply runs_kept; [exact R1|by apply (tou_kept _ _ _ _ (tou_more (length p) _ _ _ (to_nil _ _ _ _ _ T2 T3)))]|].
        split; [exact F3|]. rewrite K1, K4, O3. rewrite Ea1. cbn. split; [done|]. split; [|split; [by apply delete_insert|done]].
        intros k' Hk. destruct k' as [|k']. { destruct (a_co a !! 0) as [c0|] eqn:E0; [by destruct (N _ _ E0) as (?&?&_)|]. destruct (a_co a3 !! 0) as [c0|] eqn:E3; [|done]. by destruct (K5 _ _ E3) as (?&?&_). }
        rewrite K2 by lia. rewrite Ea1. cbn. rewrite !lookup_insert_ne by done. done.
      - cbn in E1. destruct sl as [|pl|]; [| |done]; cbn in E1; rewrite nothrow in E1; unfold transfer in E1; cbn in E1; rewrite lookup_insert in E1; cbn in E1; unfold deliver, ret_to in E1; cbn in E1;
          rewrite X2 in E1; cbn in E1; rewrite lookup_insert in E1; cbn in E1;
          rewrite Hk1 in E1; (match type of E1 with _ = ANext ?b => remember b as a2 eqn:Ea2 end);
          exists a2; (split; [by apply goes_step|]); rewrite Ea2; (split; [split; cbn; try done|split; [done|cbn; split; [done|]; split; [|split; [|done]]]]).
        all: first [by apply delete_insert | by rewrite lookup_insert | (eapply numbered_put; [exact N| |cbn; by rewrite insert_insert]; done)
          | by intros i Hi; apply Hw | by intros k' Hk; rewrite !lookup_insert_ne by done | by rewrite lookup_insert; eexists]. }
    assert (Hl2 : sline false a2 p). { apply (sline_same _ a); [done| |done]. intros i Hi. apply Y2. unfold m. lia. }
    destruct (loop_round p g IH a2 (a_cur a) kk v R2 Hl2 F2) as (a3&Lo&[B1 B2 B3 B4 B5 B6 B7]&L3&F3).
    exists a3. split; [|split; [done|rewrite F3; cbn [out]; by destruct (runx _ _ _).2]]. split; [|intros k' Hk Ho; rewrite Lo, Y2 by (unfold m; lia); done]. split; [by eapply goes_trans|]. split; [|by rewrite B7, Y4]. split; try congruence; try done.
    intros k' Hk. fold m in B3. rewrite B3, Y2 by (unfold m; lia). done.
Qed.

(** What is below the push coroutines is as it was. *)
Definition below (a b : astate) : Prop := forall i, i < off -> a_h b !! px i = a_h a !! px i /\ a_h b !! ps i = a_h a !! ps i /\ a_co b !! S i = a_co a !! S i.
Lemma below_trans a b c : below a b -> below b c -> below a c.
Proof. intros H1 H2 i Hi. destruct (H1 i Hi) as (?&?&?), (H2 i Hi) as (?&?&?). split; [|split]; congruence. Qed.

Lemma destroy_stage d a m g p k : scell d a (length p) g -> sline d a p -> off + length p = m -> numbered a -> a_cur a = 0 -> a_wait a !! 0 = None ->
  a_foc a = AUser (SDo (ODestroy (px m)) k) ->
  exists b, goes a b /\ numbered b /\ a_cur b = 0 /\ a_wait b = a_wait a /\ sline d b p /\ below a b /\ a_h b = delete (ps m) (delete (px m) (a_h a)) /\ output (a_tr b) = output (a_tr a) /\ a_foc b = AUser (k (ROk AUnit)).
Proof.
  intros (X1&X2&st&sl&b0&X3&X4&X5) Hl Hp N C W Hf. rewrite Hp in X1, X2, X3.
  pose proof (astep_op _ _ _ Hf) as E. cbn [op_hs forallb] in E. rewrite (known_x _ _ N) in E. specialize (E eq_refl). cbn in E. rewrite X1 in E. cbn in E. unfold kill in E. cbn in E. rewrite X3 in E. cbn in E.
  assert (Hxs : px m <> ps m) by (unfold px, ps; lia).
  (* the end of the coroutine *)
  assert (Hexit : forall a1 en, a_foc a1 = AExit -> a_cur a1 = S m -> a_h a1 = delete (px m) (a_h a) -> a_co a1 = <[ S m := ACo Push KVal (AUnw en) sl (ps m) 0 ]> (a_co a) ->
    a_wait a1 = <[ 0 := WKill (S m) (NOp (ODestroy (px m))) KfDestroy k ]> (a_wait a) -> output (a_tr a1) = output (a_tr a) ->
    exists b, goes a1 b /\ numbered b /\ a_cur b = 0 /\ a_wait b = a_wait a /\ sline d b p /\ below a b /\ a_h b = delete (ps m) (delete (px m) (a_h a)) /\ output (a_tr b) = output (a_tr a) /\ a_foc b = AUser (k (ROk AUnit))).
  { clear E. intros a1 en F1 F2 F3 F4 F5 F6.
    assert (E0 : a_co a1 !! S m = Some (ACo Push KVal (AUnw en) sl (ps m) 0)) by (by rewrite F4, lookup_insert).
    assert (G1 : goes a1 (w_foc AExit2 (alog (EvGone (S m) (ps m)) (w_h (delete (ps m) (a_h a1)) a1)))).
    { apply goes_step. unfold astep. rewrite F1. unfold do_exit. rewrite F2, E0. cbn. rewrite F3, lookup_delete_ne, X2 by done. cbn. by rewrite E0. }
    set (b1 := w_foc AExit2 (alog (EvGone (S m) (ps m)) (w_h (delete (ps m) (a_h a1)) a1))) in *.
    assert (E : astep b1 = do_exit2 b1) by done. unfold do_exit2 in E. cbn in E. rewrite F2, E0 in E. cbn in E.
    assert (E2 : exists tr, do_exit2 b1 = ANext (w_foc (AUser (k (ROk AUnit))) (ASt (delete (S m) (a_co a1)) (delete 0 (a_wait a1)) (a_h b1) (a_user a1) (a_nh a1) (a_nk a1) 0 (a_foc a1) tr)) /\ output tr = output (a_tr a1)).
    { unfold do_exit2. cbn. rewrite F2, E0. cbn. destruct sl as [|pl|]; [| |done]; cbn; rewrite F5, lookup_insert; cbn; rewrite <- F5; eexists; (split; [reflexivity|done]). }
    destruct E2 as (tr&E2&Otr). eexists. split; [eapply goes_trans; [exact G1|apply goes_step; exact E2]|]. cbn. split; [|split; [done|split; [|split; [|split; [|split; [by rewrite F3|split; [by rewrite Otr|done]]]]]]].
    - intros k' c'. cbn. rewrite F4, delete_insert_delete. intros [_ H]%lookup_delete_Some. by apply N.
    - rewrite F5. by apply delete_insert.
    - apply (sline_low _ a); [|done]. cbn. intros i Hi. rewrite F3, F4. split; [|split].
      + rewrite !lookup_delete_ne; [done|unfold px, ps; lia..].
      + rewrite !lookup_delete_ne; [done|unfold px, ps; lia..].
      + rewrite lookup_delete_ne, lookup_insert_ne by lia. done.
    - intros i Hi. cbn. rewrite F3, F4. split; [|split].
      + rewrite !lookup_delete_ne; [done|unfold px, ps; lia..].
      + rewrite !lookup_delete_ne; [done|unfold px, ps; lia..].
      + rewrite lookup_delete_ne, lookup_insert_ne by lia. done. }
  assert (H0 : (exists fs o kp en po, st = ASusp o po kp /\ onto fs [] /\ kp (RExn XUnwind) = exec (Exn XUnwind) fs /\ en = true) \/
    exists en, match st with ANew _ => en = false | ADone _ => en = true | _ => False end).
  { destruct X5 as [[[-> _]|(o&kp&->&_&Hk)]|[_ [ex ->]]]; [by right; eexists|left|by right; eexists]. exists [], o, kp, true, (PoInc (ps (off + length p))). split; [done|]. split; [apply onto_refl|done]. }
  destruct H0 as [(fs&o&kp&en&po&->&Ho&Hk&->)|(en&Hst)].
  - cbn in E. unfold exn_to in E. cbn in E. rewrite Hk in E. match type of E with _ = ANext ?b => remember b as a1 eqn:Ea in E end.
    destruct (goes_tau a1 (exec (Exn XUnwind) fs) (exec (Exn XUnwind) [])) as (a2&G2&E2); [by rewrite Ea|apply Ho|]. rewrite exec_exn0 in E2.
    assert (E3 : astep a2 = ANext (w_foc AExit (alog (EvLeave (S m) (Some XUnwind)) a2))).
    { unfold astep. rewrite E2, Ea. cbn. unfold do_leave. cbn. by rewrite lookup_insert. }
    destruct (Hexit (w_foc AExit (alog (EvLeave (S m) (Some XUnwind)) a2)) true) as (b&G4&R); try (by rewrite E2, Ea; cbn; rewrite ?C; done).
    exists b. split; [|done]. eapply goes_trans; [apply goes_step; exact E|]. eapply goes_trans; [exact G2|]. eapply goes_trans; [apply goes_step; exact E3|done].
  - assert (E' : astep a = ANext (w_foc AExit (w_cur (S m) (w_wait (<[a_cur a := WKill (S m) (NOp (ODestroy (px m))) KfDestroy k]> (a_wait a))
        (put_co (S m) (ACo Push KVal (AUnw en) sl (ps m) (a_cur a)) (w_h (delete (px m) (a_h a)) (alog (EvCall (a_cur a) (NOp (ODestroy (px m)))) a))))))).
    { destruct st; try done; subst en; exact E. }
    match type of E' with _ = ANext ?b => remember b as a1 eqn:Ea in E' end.
    destruct (Hexit a1 en) as (b&G4&R); try (by rewrite Ea; cbn; rewrite ?C; done).
    exists b. split; [|done]. eapply goes_trans; [apply goes_step; exact E'|done].
Qed.


Lemma destroy_stages d0 x p : forall a, sline d0 a p -> numbered a -> a_cur a = 0 -> a_wait a !! 0 = None -> owners (off + length p) a -> a_foc a = AUser (exec (ctl_of x) (owned (off + length p))) ->
  exists b, goes a b /\ numbered b /\ a_cur b = 0 /\ a_wait b = a_wait a /\ owners off b /\ below a b /\ output (a_tr b) = output (a_tr a) /\ a_foc b = AUser (exec (ctl_of x) (owned off)).
Proof.
  induction p as [|g p IH]; intros a Hl N C W Ow Hf; cbn in Hl; cbn [length] in Hf, Ow; rewrite ?Nat.add_0_r in Hf, Ow.
  - exists a. split; [apply goes_refl|done].
  - destruct Hl as [Hc Hl]. rewrite Nat.add_succ_r in Hf, Ow. cbn [owned] in Hf.
    assert (Hd : exists k, exec (ctl_of x) (FLocal (ODestroy (px (off + length p))) Skip :: owned (off + length p)) = SDo (ODestroy (px (off + length p))) k /\ k (ROk AUnit) = exec (ctl_of x) (owned (off + length p))).
    { rewrite (strat_eta (exec _ _)). destruct x; cbn; by eexists. }
    destruct Hd as (k&E1&E2). rewrite E1 in Hf. destruct (destroy_stage _ _ _ _ p k Hc Hl eq_refl N C W Hf) as (b&G1&N1&C1&W1&L1&Bl1&H1&O1&F1). rewrite E2 in F1.
    destruct (IH b L1 N1 C1) as (d&G2&N2&C2&W2&Ow2&Bl2&O2&F2); [by rewrite W1| |done|].
    { intros y sd kd j. rewrite H1. intros [_ [Hy Ha]%lookup_delete_Some]%lookup_delete_Some. destruct (Ow _ _ _ _ Ha) as (i&Hi&->). exists i. split; [|done].
      destruct (decide (i = off + length p)) as [->|]; [done|lia]. }
    exists d. split; [by eapply goes_trans|]. split; [done|]. split; [done|]. split; [congruence|]. split; [done|]. split; [by eapply below_trans|]. split; [congruence|done].
Qed.

(** The objects are made. *)
Lemma sinks_run body gs : forall a p, sline false a p -> numbered a -> a_cur a = 0 -> a_wait a = ∅ -> a_nh a = px (off + length p) -> a_nk a = S (off + length p) -> owners (off + length p) a ->
  a_foc a = AUser (exec (Go (sinks gs (yl (length p)) body)) (owned (off + length p))) ->
  exists b p', p' = rev gs ++ p /\ goes a b /\ sline false b p' /\ numbered b /\ a_cur b = 0 /\ a_wait b = ∅ /\ owners (off + length p') b /\ output (a_tr b) = output (a_tr a) /\
    a_foc b = AUser (exec (Go (body (yl (length p')))) (owned (off + length p'))) /\ below a b.
Proof.
  induction gs as [|g gs IH]; intros a p Hl N C W Nh Nk Ow Hf.
  - exists a, p. split; [done|]. split; [apply goes_refl|done].
  - cbn [sinks] in Hf. rewrite exec_new in Hf. assert (E : astep a = do_new Push KVal plain_new (fun s => exec (Go (stage g s (yl (length p)))) [])
      (fun r => match r with ROk (AH h) => exec (Go (sinks gs (fun v => push h (AImm v) Skip) body)) (FLocal (ODestroy h) Skip :: owned (off + length p)) | ROk _ => exec Ret (owned (off + length p)) | RExn x => exec (Exn x) (owned (off + length p)) end)
      (alog (EvCall (a_cur a) (NNew Push KVal)) a)) by (unfold astep; by rewrite Hf).
    unfold do_new in E. cbn in E. unfold ret_to in E. cbn in E. match type of E with _ = ANext ?b => remember b as a1 eqn:Ea end.
    assert (Hs : S (px (off + length p)) = ps (off + length p)) by done.
    destruct (IH a1 (g :: p)) as (b&p'&Ep&G&R).
    + cbn. split.
      * rewrite Ea. unfold scell. cbn. rewrite Nh, Nk, C, Hs. rewrite !lookup_insert, lookup_insert_ne, lookup_insert by (unfold px, ps; lia). split; [done|]. split; [done|].
        eexists _, _, _. split; [reflexivity|]. split; [done|]. left. by left.
      * apply (sline_low _ a); [|done]. intros i Hi. rewrite Ea. cbn. rewrite Nh, Nk, Hs. split; [|split].
        { rewrite !lookup_insert_ne; [done|unfold px, ps; lia..]. }
        { rewrite !lookup_insert_ne; [done|unfold px, ps; lia..]. }
        { rewrite lookup_insert_ne; [done|lia]. }
    + rewrite Ea. intros k c'. cbn. rewrite Nk. intros [[<- <-]|[_ H]]%lookup_insert_Some; [|by apply N]. exists (off + length p). cbn. by rewrite Nh.
    + by rewrite Ea.
    + by rewrite Ea.
    + rewrite Ea. cbn. rewrite Nh. unfold px. cbn. lia.
    + rewrite Ea. cbn. rewrite Nk. lia.
    + rewrite Ea. intros y sd kd j. cbn. rewrite Nh. intros [[<- _]|[_ [[_ ?]|[_ Ha]]%lookup_insert_Some]]%lookup_insert_Some; [exists (off + length p); cbn; split; [lia|done]|done|].
      destruct (Ow _ _ _ _ Ha) as (i&Hi&->). exists i. split; [cbn; lia|done].
    + rewrite Ea. cbn. rewrite Nh, Nat.add_succ_r. done.
    + exists b, p'. split; [rewrite Ep; cbn; by rewrite <- app_assoc|]. split; [eapply goes_trans; [apply goes_step; exact E|done]|].
      destruct R as (R1&R2&R3&R4&R5&R6&R7&R8). rewrite R6. split; [done|]. split; [done|]. split; [done|]. split; [done|]. split; [done|]. split; [by rewrite Ea|]. split; [done|].
      eapply below_trans; [|exact R8]. intros i Hi. rewrite Ea. cbn. rewrite Nh, Nk, Hs. rewrite !lookup_insert_ne by (unfold px, ps; lia). done.
Qed.

End sym.
Section whole.
Context {env : Env}.
Context (nothrow : forall v, move_exn v = None).
Lemma smain_run gs l x u : exists n a, arun n (ainit (smain gs l x) u) = AHalt (match (runx (out gs) l x).2 with None => Finished | Some _ => Terminated end) a /\
  output (a_tr a) = (runx (out gs) l x).1 /\ forall y sd kd k, a_h a !! y <> Some (HObj sd kd (Some (Outer k))).
Proof.
  set (a := ainit (smain gs l x) u).
  destruct (sinks_run 0 (code (source_of l x)) (rev gs) a []) as (b&p&Ep&G1&L1&N1&C1&W1&Ow1&O1&F1&_); try done.
  rewrite app_nil_r, rev_involutive in Ep. subst p.
  destruct (source_yields 0 gs l x (yields_all nothrow 0 gs) b (owned (length gs))) as (d&((G2&K2&O2)&_)&L2&F2).
  { split; [done|]. rewrite C1, W1. split; [apply lookup_empty|]. split; [intros; apply lookup_empty|by left]. }
  { done. }
  { done. }
  set (r := runx (out gs) l x) in *.
  destruct (destroy_stages 0 _ r.2 gs d L2) as (f&G3&_&C3&_&Ow3&_&O3&F3); try done.
  { apply K2. }
  { by rewrite (k_cur _ _ _ K2). }
  { rewrite (k_wait _ _ _ K2), W1. apply lookup_empty. }
  { intros y sd kd j. rewrite (k_h _ _ _ K2). apply Ow1. }
  destruct (goes_halt a f (match r.2 with None => Finished | Some _ => Terminated end) f) as [n H].
  { eapply goes_trans; [exact G1|]. by eapply goes_trans. }
  { unfold astep. rewrite F3. destruct (r.2); cbn; rewrite ?exec_exn0; unfold do_leave; by rewrite C3. }
  exists n, f. split; [done|]. split; [by rewrite O3, O2, O1|]. intros y sd kd j Hy. destruct (Ow3 _ _ _ _ Hy) as (?&?&_). lia.
Qed.
End whole.

(** ** What it comes to *)
Section means.
Context {env : Env}.
Lemma runx_some f l e : is_Some (runx f l (Some e)).2.
Proof. induction l as [|[w|v] l IH]; cbn; [done|done|]. by destruct (f v) as [o [?|]]. Qed.
Lemma runx_flow g p l x : runx (out p) (flow g l x).1 (flow g l x).2 = runx (out (g :: p)) l x.
Proof.
  induction l as [|[w|v] l IH]; [done|..].
  - cbn [flow runx fst snd]. by rewrite IH.
  - cbn [flow runx]. rewrite <- IH. cbn [out]. destruct (g v) as [k [e|]]; cbn [fst snd].
    + destruct (runx_some (out p) k e) as [e' He]. destruct (runx (out p) k (Some e)) as [o [?|]]; done.
    + by rewrite runx_app.
Qed.
Lemma runx_flows gs : forall l x, runx (out gs) l x = (written (flows gs l x).1, (flows gs l x).2).
Proof.
  induction gs as [|g gs IH]; intros l x.
  - cbn. induction l as [|[w|v] l IHl]; [done|..]; cbn; by rewrite IHl.
  - rewrite <- runx_flow, IH. unfold flows. cbn. by destruct (flow g l x).
Qed.

Definition stop_of (x : option E) : stop := match x with None => Ends | Some e => Raises e end.
Lemma gwork_means n l : means n (gwork l) = (l, Ends).
Proof. induction l as [|[w|v] l IH]; [done|..]; cbn; fold (gwork l); by rewrite IH. Qed.
Lemma source_means n l x : means n (source_of l x) = (l, stop_of x).
Proof. unfold source_of. cbn [means]. rewrite gwork_means. destruct x; cbn; by rewrite app_nil_r. Qed.
Lemma over_flow n g l x : over (fun v => means n (gbody g v)) None l (stop_of x) = ((flow g l x).1, stop_of (flow g l x).2).
Proof.
  induction l as [|[w|v] l IH]; [by destruct x|..]; cbn [over flow]; [by rewrite IH|].
  unfold gbody at 1. rewrite source_means. cbn [fmap option_fmap option_map]. rewrite IH. destruct (g v) as [k [e|]]; done.
Qed.
Lemma gstages_means n gs : forall src l x, means n src = (l, stop_of x) -> means n (gstages gs src) = ((flows gs l x).1, stop_of (flows gs l x).2).
Proof.
  induction gs as [|g gs IH]; intros src l x H; [done|]. unfold flows. cbn. destruct (flow g l x) as [l' x'] eqn:E. apply (IH (For None src (gbody g))).
  cbn [means]. rewrite H. cbn [fst snd]. rewrite over_flow, E. done.
Qed.
End means.

(** ** The operations used *)
From Verif Require Import Contract Discipline Uses SafeCpp.
Section safe.
Context {env : Env} (nothrow : forall v, move_exn v = None).
Lemma gwork_safe l (yield : T -> stm) : (forall v, stm_only good (yield v)) -> stm_only good (code (gwork l) yield).
Proof.
  intros Hy. induction l as [|[w|v] l IH]; cbn; [apply skip_safe|..]; apply only_fold; cbn; (split; [|exact IH]); [apply emit_safe, skip_safe|apply Hy].
Qed.
Lemma for_safe (b : T -> stm) i e : (forall v, stm_only good (b v)) -> stm_only good (for_loop None b i e).
Proof.
  intros Hb. exists (fun s => stm_only good s \/ exists i, s = for_loop None b i e \/
    s = (Do (OItDeref i) eq_refl (fun v => match v with AV v => Block (b v) (Do (OItInc i) eq_refl (fun j => match j with AIt j => for_loop None b j e | _ => Skip end)) | _ => Skip end)) \/
    (exists v, s = Block (b v) (Do (OItInc i) eq_refl (fun j => match j with AIt j => for_loop None b j e | _ => Skip end))) \/
    s = (Do (OItInc i) eq_refl (fun j => match j with AIt j => for_loop None b j e | _ => Skip end))). split; [right; exists i; by left|].
  intros s [Hs|[j [-> |[-> |[[v ->]| ->]]]]]; [eapply stm_ok_mono; [|by apply only_unfold]; auto|..].
  - rewrite FactsGen.for_loop_eq. cbn. split; [done|]. intros [|[]| | | |]; try (left; apply skip_safe). right. exists j. by right; left.
  - cbn. split; [done|]. intros [| | | |v|]; try (left; apply skip_safe). right. exists j. right. right. left. by eexists.
  - cbn. split; [by left|]. right. exists j. by right; right; right.
  - cbn. split; [done|]. intros [| | |i'| |]; try (left; apply skip_safe). right. exists i'. by left.
Qed.
Lemma source_safe l x (yield : T -> stm) : (forall v, stm_only good (yield v)) -> stm_only good (code (source_of l x) yield).
Proof. intros Hy. cbn. apply only_fold; cbn. split; [by apply gwork_safe|]. destruct x; cbn; [by apply only_fold|apply skip_safe]. Qed.
Lemma stage_safe g x (yield : T -> stm) : (forall v, stm_only good (yield v)) -> stm_only good (stage g x yield).
Proof.
  intros Hy. apply only_fold; cbn. split; [done|]. intros i. apply only_fold; cbn. split; [done|]. intros e.
  destruct i; try apply skip_safe. destruct e; try apply skip_safe. apply for_safe. intros v. by apply source_safe.
Qed.
Lemma sinks_safe gs : forall (yield : T -> stm) body, (forall v, stm_only good (yield v)) -> (forall yield, (forall v, stm_only good (yield v)) -> stm_only good (body yield)) -> stm_only good (sinks gs yield body).
Proof.
  induction gs as [|g gs IH]; intros yield body Hy Hb; cbn; [by apply Hb|]. apply only_fold; cbn. split; [intros s; by apply stage_safe|]. split; [|apply skip_safe].
  intros h. apply IH; [|done]. intros v. by apply push_imm_safe, skip_safe.
Qed.
Lemma smain_good gs l x : only good (smain gs l x).
Proof. apply cxx_only; [done..|]. apply sinks_safe; [intros v; apply emit_safe, skip_safe|]. intros yield Hy. by apply source_safe. Qed.
Lemma smain_safe gs l x : pushes_safe (smain gs l x).
Proof. eapply only_mono; [|apply smain_good]. by intros o [? _]. Qed.
Lemma smain_still gs l x : only moves_no (smain gs l x).
Proof. eapply only_mono; [|apply smain_good]. by intros o [_ ?]. Qed.
Lemma pulls_safe gs : forall x body, (forall x, stm_only good (body x)) -> stm_only good (pulls gs x body).
Proof.
  induction gs as [|g gs IH]; intros x body Hb; cbn; [by apply Hb|]. apply only_fold; cbn. split; [|split; [|apply skip_safe]].
  - intros s. apply stage_safe. intros v. by apply push_imm_safe, skip_safe.
  - intros y. by apply IH.
Qed.
Lemma mixed_good gs g hs l x : only good (mixed gs g hs l x).
Proof.
  apply cxx_only; [done..|]. apply only_fold; cbn -[source_of]. split; [|split; [|apply skip_safe]].
  - intros s. apply source_safe. intros v. by apply push_imm_safe, skip_safe.
  - intros y. apply pulls_safe. intros z. apply sinks_safe; [intros v; apply emit_safe, skip_safe|]. intros yield Hy. by apply stage_safe.
Qed.
Lemma mixed_safe gs g hs l x : pushes_safe (mixed gs g hs l x).
Proof. eapply only_mono; [|apply mixed_good]. by intros o [? _]. Qed.
Lemma mixed_still gs g hs l x : only moves_no (mixed gs g hs l x).
Proof. eapply only_mono; [|apply mixed_good]. by intros o [_ ?]. Qed.
End safe.
