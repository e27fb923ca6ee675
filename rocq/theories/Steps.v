(** Steps.v -- lemmas for executing programs symbolically in the reference semantics: a
    consumer (any context) reading from a pull coroutine through iterators. *)
From stdpp Require Import prelude gmap relations.
From Coq Require Import Lia.
From Verif Require Import Base Model Spec InvSpec Main Hist Trace FactsReplay Progs.

Local Opaque gmap_lookup map_insert map_delete gmap_partial_alter.

Section steps.
Context {env : Env}.

Definition goes (a a' : astate) : Prop := exists n, arun n a = ANext a'.

Lemma goes_refl a : goes a a.
Proof. by exists 0. Qed.
Lemma arun_add n m a a' : arun n a = ANext a' -> arun (n + m) a = arun m a'.
Proof.
  revert a. induction n as [|n IH]; intros a H; cbn in H; [by injection H as ->|]. cbn.
  destruct (astep a); try done. by apply IH.
Qed.
Lemma goes_trans a b c : goes a b -> goes b c -> goes a c.
Proof. intros [n Hn] [m Hm]. exists (n + m). by rewrite (arun_add _ _ _ _ Hn). Qed.
Lemma goes_step a b : astep a = ANext b -> goes a b.
Proof. intros H. exists 1. cbn. by rewrite H. Qed.
Lemma goes_halt a b o c : goes a b -> astep b = AHalt o c -> exists n, arun n a = AHalt o c.
Proof. intros [n Hn] H. exists (n + 1). rewrite (arun_add _ _ _ _ Hn). cbn. by rewrite H. Qed.

Lemma goes_tau a s s' : a_foc a = AUser s -> rtc tau s s' -> exists a', goes a a' /\ a' = w_foc (AUser s') a.
Proof.
  intros H Ht. revert a H. induction Ht as [s|s s1 s' Hs _ IH]; intros a H.
  - exists a. split; [apply goes_refl|]. destruct a; cbn in *. by rewrite H.
  - destruct Hs as [s1]. destruct (IH (w_foc (AUser s1) a) eq_refl) as (a'&H1&->).
    exists (w_foc (AUser s') a). split; [|done]. eapply goes_trans; [apply goes_step|exact H1]. unfold astep. by rewrite H.
Qed.

(** An ended run stays ended. *)
Lemma arun_halt_le n N a o b : arun n a = AHalt o b -> n <= N -> arun N a = AHalt o b.
Proof.
  revert N a. induction n as [|n IH]; intros N a H Hle; cbn in H; [done|].
  destruct N as [|N]; [lia|]. cbn. destruct (astep a); try done. apply IH; [done|lia].
Qed.
(** No coroutine waits to be entered for the first time. *)
Definition nonew (a : astate) : Prop := forall k c fn, a_co a !! k = Some c -> ac_st c <> ANew fn.
Lemma nonew_known a h : nonew a -> known a h = true.
Proof.
  intros H. unfold known. apply bool_decide_eq_true. intros k c Hc. unfold hides. destruct (ac_st c) eqn:E; try done.
  exfalso. by eapply H.
Qed.
Lemma nonew_all a l : nonew a -> forallb (known a) l = true.
Proof. intros H. induction l as [|h l IH]; [done|]. cbn. by rewrite nonew_known, IH. Qed.

Lemma astep_do a o k : a_foc a = AUser (SDo o k) -> nonew a -> astep a = do_op o k (alog (EvCall (a_cur a) (NOp o)) a).
Proof. intros H Hn. unfold astep. rewrite H. by rewrite nonew_all. Qed.

(** What does not change while a context does something else: everything but the coroutines
    [K] and the objects [X]. *)
Record same (K X : list nat) (a a' : astate) : Prop := {
  sm_h : forall y, y ∉ X -> a_h a' !! y = a_h a !! y;
  sm_user : a_user a' = a_user a;
  sm_cur : a_cur a' = a_cur a;
  sm_wait : a_wait a' = a_wait a;
  sm_co : forall k', k' ∉ K -> a_co a' !! k' = a_co a !! k' }.

(** Coroutine [k], owned by [x], counterpart [s], is suspended with value [v]; when resumed
    it goes on with [K], when destroyed with [D]. *)
Definition reader (a : astate) (x k s : nat) (v : T) (K D : strat) : Prop :=
  a_h a !! x = Some (HObj Pull KVal (Some (Outer k))) /\ a_h a !! s = Some (HObj Push KVal (Some (Inner k))) /\ x <> s /\
  exists o kp b, a_co a !! k = Some (ACo Pull KVal (ASusp o PoUnit kp) (SlFull (PVal v)) s b) /\ kp (ROk AUnit) = K /\ kp (RExn XUnwind) = D.
(** ... has finished. *)
Definition finished (a : astate) (x k s : nat) : Prop :=
  a_h a !! x = Some (HObj Pull KVal (Some (Outer k))) /\ a_h a !! s = Some (HObj Push KVal (Some (Inner k))) /\ x <> s /\
  exists ex v b, a_co a !! k = Some (ACo Pull KVal (ADone ex) (SlFull (PVal v)) s b).

Lemma reader_same a a' x k s v K D J X : reader a x k s v K D -> same J X a a' -> k ∉ J -> x ∉ X -> s ∉ X -> reader a' x k s v K D.
Proof. intros (H1&H2&H3&o&kp&b&H4&H5) [E1 _ _ _ E2] Hj Hx Hs. unfold reader. rewrite !E1, (E2 k) by done. split; [done|]. split; [done|]. split; [done|]. by exists o, kp, b. Qed.
Lemma finished_same a a' x k s J X : finished a x k s -> same J X a a' -> k ∉ J -> x ∉ X -> s ∉ X -> finished a' x k s.
Proof. intros (H1&H2&H3&ex&v&b&H4) [E1 _ _ _ E2] Hj Hx Hs. unfold finished. rewrite !E1, (E2 k) by done. eauto 10. Qed.

Lemma nonew_put k c a : nonew a -> (forall fn, ac_st c <> ANew fn) -> nonew (put_co k c a).
Proof. intros H Hc k' c' fn. cbn. intros [[_ <-]|[_ Hl]]%lookup_insert_Some; [apply Hc|by eapply H]. Qed.

(** The consumer advances, the producer yields another value. *)
Lemma inc_yield a x k s v K D kk g kp v' : reader a x k s v K D -> nonew a -> a_foc a = AUser (SDo (OItInc (Some x)) kk) ->
  a_wait a !! a_cur a = None -> a_cur a <> k -> rtc tau K (SDo (OPush s g) kp) ->
  aarg_ok KVal g = true -> aconstruct false g (a_user a) = Some (inr (v', a_user a)) ->
  exists a', goes a a' /\ a_foc a' = AUser (kk (ROk (AIt (Some x)))) /\ reader a' x k s v' (kp (ROk AUnit)) (kp (RExn XUnwind)) /\ nonew a' /\
    same [k] [] a a' /\ a_nh a' = a_nh a /\ a_nk a' = a_nk a /\ output (a_tr a') = output (a_tr a).
Proof.
  intros (Hx&Hs&Hxs&o&kp0&b&Hc&HK&HD) Hn Hf Hw Hcur Ht Hok Hg.
  set (c := ACo Pull KVal (ASusp o PoUnit kp0) (SlFull (PVal v)) s b) in *.
  set (a1 := alog (EvCall (a_cur a) (NOp (OItInc (Some x)))) a).
  set (a2 := w_foc (AUser K) (alog (EvRet k o AUnit) (w_cur k (w_wait (<[a_cur a := WOp k (NOp (OItInc (Some x))) (PoInc x) kk]> (a_wait a)) (put_co k (c_by (a_cur a) (c_st ARun c)) a1))))).
  assert (G1 : goes a a2).
  { apply goes_step. rewrite (astep_do _ _ _ Hf Hn). cbn. rewrite Hx. cbn. unfold resumable. cbn. rewrite Hc. cbn.
    unfold transfer. cbn. rewrite Hc. cbn. unfold deliver, ret_to. cbn. by rewrite HK. }
  destruct (goes_tau a2 K _ eq_refl Ht) as (a3&G2&E3).
  assert (Hn3 : nonew a3). { rewrite E3. intros k' c' fn. cbn. intros [[_ <-]|[_ Hl]]%lookup_insert_Some; [done|by eapply Hn]. }
  eexists. split; [|split; [|split; [|split; [|split]]]].
  - eapply goes_trans; [exact G1|]. eapply goes_trans; [exact G2|]. apply goes_step. rewrite (astep_do a3 (OPush s g) kp); [|by rewrite E3|done].
    rewrite E3. cbn. rewrite Hs. rewrite Hok. unfold push_op, resumable. cbn. rewrite bool_decide_eq_true_2 by done. cbn. rewrite ?lookup_insert. cbn. rewrite Hg.
    unfold transfer, give_back. cbn. rewrite ?lookup_insert. cbn. rewrite ?lookup_insert. cbn. unfold deliver. cbn. rewrite Hx. cbn. rewrite ?lookup_insert. cbn.
    unfold ret_to. cbn. reflexivity.
  - done.
  - split; [done|]. split; [done|]. split; [done|]. cbn. rewrite !lookup_insert. by eexists _, _, _.
  - intros k' c' fn. cbn. rewrite !insert_insert. intros [[_ <-]|[_ Hl]]%lookup_insert_Some; [done|by eapply Hn].
  - split; cbn; try done.
    + by rewrite delete_insert.
    + intros k' [Hk _]%not_elem_of_cons. by rewrite !lookup_insert_ne.
  - done.
Qed.

(** ... the producer's function returns ... *)
Lemma inc_end a x k s v K D kk : reader a x k s v K D -> nonew a -> a_foc a = AUser (SDo (OItInc (Some x)) kk) ->
  a_wait a !! a_cur a = None -> a_cur a <> k -> k <> 0 -> rtc tau K SRet ->
  exists a', goes a a' /\ a_foc a' = AUser (kk (ROk (AIt None))) /\ finished a' x k s /\ nonew a' /\
    same [k] [] a a' /\ a_nh a' = a_nh a /\ a_nk a' = a_nk a /\ output (a_tr a') = output (a_tr a).
Proof.
  intros (Hx&Hs&Hxs&o&kp0&b&Hc&HK&HD) Hn Hf Hw Hcur Hk0 Ht.
  set (c := ACo Pull KVal (ASusp o PoUnit kp0) (SlFull (PVal v)) s b) in *.
  set (a1 := alog (EvCall (a_cur a) (NOp (OItInc (Some x)))) a).
  set (a2 := w_foc (AUser K) (alog (EvRet k o AUnit) (w_cur k (w_wait (<[a_cur a := WOp k (NOp (OItInc (Some x))) (PoInc x) kk]> (a_wait a)) (put_co k (c_by (a_cur a) (c_st ARun c)) a1))))).
  assert (G1 : goes a a2).
  { apply goes_step. rewrite (astep_do _ _ _ Hf Hn). cbn. rewrite Hx. cbn. unfold resumable. cbn. rewrite Hc. cbn.
    unfold transfer. cbn. rewrite Hc. cbn. unfold deliver, ret_to. cbn. by rewrite HK. }
  destruct (goes_tau a2 K _ eq_refl Ht) as (a3&G2&E3).
  eexists. split; [|split; [|split; [|split; [|split]]]].
  - eapply goes_trans; [exact G1|]. eapply goes_trans; [exact G2|]. apply goes_step. unfold astep. rewrite E3. cbn.
    unfold do_leave. cbn. rewrite decide_False by done. rewrite ?lookup_insert. cbn. unfold give_back. cbn. rewrite ?lookup_insert. cbn. rewrite ?lookup_insert. cbn.
    unfold deliver. cbn. rewrite Hx. cbn. rewrite ?lookup_insert. cbn. unfold ret_to. cbn. reflexivity.
  - done.
  - split; [done|]. split; [done|]. split; [done|]. cbn. rewrite ?lookup_insert. by eexists _, _, _.
  - intros k' c' fn. cbn. rewrite !insert_insert. intros [[_ <-]|[_ Hl]]%lookup_insert_Some; [done|by eapply Hn].
  - split; cbn; try done.
    + by rewrite delete_insert.
    + intros k' [Hk _]%not_elem_of_cons. by rewrite !lookup_insert_ne.
  - done.
Qed.

(** ... or throws. *)
Lemma inc_throw a x k s v K D kk e : reader a x k s v K D -> nonew a -> a_foc a = AUser (SDo (OItInc (Some x)) kk) ->
  a_wait a !! a_cur a = None -> a_cur a <> k -> k <> 0 -> rtc tau K (SThrow (XUser e)) ->
  exists a', goes a a' /\ a_foc a' = AUser (kk (RExn (XUser e))) /\ finished a' x k s /\ nonew a' /\
    same [k] [] a a' /\ a_nh a' = a_nh a /\ a_nk a' = a_nk a /\ output (a_tr a') = output (a_tr a).
Proof.
  intros (Hx&Hs&Hxs&o&kp0&b&Hc&HK&HD) Hn Hf Hw Hcur Hk0 Ht.
  set (c := ACo Pull KVal (ASusp o PoUnit kp0) (SlFull (PVal v)) s b) in *.
  set (a1 := alog (EvCall (a_cur a) (NOp (OItInc (Some x)))) a).
  set (a2 := w_foc (AUser K) (alog (EvRet k o AUnit) (w_cur k (w_wait (<[a_cur a := WOp k (NOp (OItInc (Some x))) (PoInc x) kk]> (a_wait a)) (put_co k (c_by (a_cur a) (c_st ARun c)) a1))))).
  assert (G1 : goes a a2).
  { apply goes_step. rewrite (astep_do _ _ _ Hf Hn). cbn. rewrite Hx. cbn. unfold resumable. cbn. rewrite Hc. cbn.
    unfold transfer. cbn. rewrite Hc. cbn. unfold deliver, ret_to. cbn. by rewrite HK. }
  destruct (goes_tau a2 K _ eq_refl Ht) as (a3&G2&E3).
  eexists. split; [|split; [|split; [|split; [|split]]]].
  - eapply goes_trans; [exact G1|]. eapply goes_trans; [exact G2|]. apply goes_step. unfold astep. rewrite E3. cbn.
    unfold do_leave. cbn. rewrite decide_False by done. rewrite ?lookup_insert. cbn. unfold give_back. cbn. rewrite ?lookup_insert. cbn. rewrite ?lookup_insert. cbn.
    unfold deliver. cbn. unfold exn_to. cbn. reflexivity.
  - done.
  - split; [done|]. split; [done|]. split; [done|]. cbn. rewrite ?lookup_insert. by eexists _, _, _.
  - intros k' c' fn. cbn. rewrite !insert_insert. intros [[_ <-]|[_ Hl]]%lookup_insert_Some; [done|by eapply Hn].
  - split; cbn; try done.
    + by rewrite delete_insert.
    + intros k' [Hk _]%not_elem_of_cons. by rewrite !lookup_insert_ne.
  - done.
Qed.

(** ** Construction *)
Lemma new_enter a fn kk : a_foc a = AUser (SNew Pull KVal (NewP None None) fn kk) ->
  exists a', goes a a' /\ a' = w_foc (AUser (fn (S (a_nh a)))) (alog (EvEnter (a_nk a) (S (a_nh a))) (w_cur (a_nk a)
    (w_wait (<[ a_cur a := WOp (a_nk a) (NNew Pull KVal) (PoNew (a_nh a) KVal) kk ]> (a_wait a))
    (put_co (a_nk a) (ACo Pull KVal ARun SlEmpty (S (a_nh a)) (a_cur a))
    (w_h (<[ S (a_nh a) := HObj Push KVal (Some (Inner (a_nk a))) ]> (a_h a))
    (w_nh (S (S (a_nh a))) (alog (EvAlloc (a_nk a)) (w_nk (S (a_nk a)) (w_nh (S (a_nh a)) (alog (EvCall (a_cur a) (NNew Pull KVal)) a)))))))))).
Proof. intros Hf. eexists. split; [apply goes_step|reflexivity]. unfold astep. by rewrite Hf. Qed.

Lemma new_yield a fn kk g kp v' : nonew a -> a_foc a = AUser (SNew Pull KVal (NewP None None) fn kk) ->
  a_wait a !! a_cur a = None -> rtc tau (fn (S (a_nh a))) (SDo (OPush (S (a_nh a)) g) kp) ->
  aarg_ok KVal g = true -> aconstruct false g (a_user a) = Some (inr (v', a_user a)) ->
  exists a', goes a a' /\ a_foc a' = AUser (kk (ROk (AH (a_nh a)))) /\ reader a' (a_nh a) (a_nk a) (S (a_nh a)) v' (kp (ROk AUnit)) (kp (RExn XUnwind)) /\ nonew a' /\
    same [a_nk a] [a_nh a; S (a_nh a)] a a' /\ a_nh a' = S (S (a_nh a)) /\ a_nk a' = S (a_nk a) /\ output (a_tr a') = output (a_tr a).
Proof.
  intros Hn Hf Hw Ht Hok Hg. destruct (new_enter a fn kk Hf) as (a1&G1&E1).
  assert (Hf1 : a_foc a1 = AUser (fn (S (a_nh a)))) by (by rewrite E1). destruct (goes_tau a1 _ _ Hf1 Ht) as (a3&G2&E3).
  assert (Hn3 : nonew a3). { rewrite E3, E1. intros k' c' fn'. cbn. intros [[_ <-]|[_ Hl]]%lookup_insert_Some; [done|by eapply Hn]. }
  eexists. split; [|split; [|split; [|split; [|split]]]].
  - eapply goes_trans; [exact G1|]. eapply goes_trans; [exact G2|]. apply goes_step. rewrite (astep_do a3 (OPush (S (a_nh a)) g) kp); [|by rewrite E3|done].
    rewrite E3, E1. cbn. rewrite ?lookup_insert. rewrite Hok. unfold push_op, resumable. cbn. rewrite bool_decide_eq_true_2 by done. cbn. rewrite ?lookup_insert. cbn. rewrite Hg.
    unfold transfer, give_back. cbn. rewrite ?lookup_insert. cbn. rewrite ?lookup_insert. cbn. unfold deliver. cbn. rewrite ?lookup_insert. cbn.
    unfold ret_to. cbn. reflexivity.
  - done.
  - split; [cbn; by rewrite lookup_insert|]. split; [cbn; rewrite lookup_insert_ne by lia; by rewrite lookup_insert|]. split; [lia|]. cbn. rewrite ?lookup_insert. by eexists _, _, _.
  - intros k' c' fn'. cbn. rewrite !insert_insert. intros [[_ <-]|[_ Hl]]%lookup_insert_Some; [done|by eapply Hn].
  - split; cbn; try done.
    + intros y Hy. rewrite !not_elem_of_cons in Hy. by rewrite !lookup_insert_ne by naive_solver.
    + by rewrite delete_insert.
    + intros k' [Hk _]%not_elem_of_cons. by rewrite !lookup_insert_ne.
  - done.
Qed.

(** The end of a coroutine that is being destroyed. *)
Lemma exit_pull a k c j o kf kk sd kd : a_foc a = AExit -> a_cur a = k -> a_co a !! k = Some c -> ac_side c = Pull ->
  a_h a !! ac_syn c = Some (HObj sd kd (Some (Inner k))) -> a_wait a !! ac_by c = Some (WKill j o kf kk) ->
  exists a', goes a a' /\
    a_foc a' = AUser (kk (match kf with KfDestroy => ROk AUnit | KfEmpty h _ => ROk (AH h) | KfThrow e => RExn (XUser e) end)) /\
    a_h a' = match kf with KfEmpty h kd => <[ h := HObj Pull kd None ]> (delete (ac_syn c) (a_h a)) | _ => delete (ac_syn c) (a_h a) end /\
    a_co a' = delete k (a_co a) /\ a_wait a' = delete (ac_by c) (a_wait a) /\ a_cur a' = ac_by c /\ a_user a' = a_user a /\
    a_nh a' = a_nh a /\ a_nk a' = a_nk a /\ output (a_tr a') = output (a_tr a).
Proof.
  intros Hf <- Hc Hsd Hs Hw.
  assert (G1 : goes a (w_foc AExit2 (alog (EvGone (a_cur a) (ac_syn c)) (w_h (delete (ac_syn c) (a_h a)) a)))).
  { apply goes_step. unfold astep. rewrite Hf. unfold do_exit. rewrite Hc, Hs. cbn. by rewrite Hc. }
  set (b := w_foc AExit2 (alog (EvGone (a_cur a) (ac_syn c)) (w_h (delete (ac_syn c) (a_h a)) a))) in *.
  assert (E : astep b = do_exit2 b) by done. unfold do_exit2 in E. cbn in E. rewrite Hc, Hsd in E. cbn in E. rewrite Hw in E.
  destruct kf as [|h kd'|e]; cbn in E; eexists; (split; [eapply goes_trans; [exact G1|apply goes_step; exact E]|]); by cbn.
Qed.

Lemma new_end a fn kk : nonew a -> a_foc a = AUser (SNew Pull KVal (NewP None None) fn kk) ->
  a_wait a !! a_cur a = None -> a_cur a <> a_nk a -> a_nk a <> 0 -> rtc tau (fn (S (a_nh a))) SRet ->
  exists a', goes a a' /\ a_foc a' = AUser (kk (ROk (AH (a_nh a)))) /\ a_h a' !! a_nh a = Some (HObj Pull KVal None) /\ nonew a' /\
    same [a_nk a] [a_nh a; S (a_nh a)] a a' /\ a_nh a' = S (S (a_nh a)) /\ a_nk a' = S (a_nk a) /\ output (a_tr a') = output (a_tr a).
Proof.
  intros Hn Hf Hw Hcur Hk0 Ht. destruct (new_enter a fn kk Hf) as (a1&G1&E1).
  assert (Hf1 : a_foc a1 = AUser (fn (S (a_nh a)))) by (by rewrite E1). destruct (goes_tau a1 _ _ Hf1 Ht) as (a3&G2&E3).
  assert (E0 : astep a3 = do_leave None a3) by (by rewrite E3). remember (do_leave None a3) as R eqn:E. unfold do_leave in E.
  rewrite E3, E1 in E. cbn in E. rewrite decide_False in E by done. rewrite ?lookup_insert in E. cbn in E.
  unfold give_back in E. cbn in E. rewrite ?lookup_insert in E. cbn in E. rewrite ?lookup_insert in E. cbn in E. unfold deliver in E. cbn in E. rewrite ?lookup_insert in E. cbn in E.
  unfold kill in E. cbn in E. rewrite ?lookup_insert in E. cbn in E.
  match type of E with _ = ANext ?b => remember b as a4 eqn:E4 in E end. rewrite E in E0. apply goes_step in E0 as G3.
  destruct (exit_pull a4 (a_nk a) (ACo Pull KVal (AUnw true) SlEmpty (S (a_nh a)) (a_cur a)) (a_nk a) (NNew Pull KVal) (KfEmpty (a_nh a) KVal) kk Push KVal) as (a'&G4&R1&R2&R3&R4&R5&R6&R7&R8&R9);
    [..|cbn in *]; try reflexivity; try (rewrite E4; cbn; rewrite ?lookup_insert; done).
  exists a'. split; [|split; [|split; [|split; [|split]]]].
  - eapply goes_trans; [exact G1|]. eapply goes_trans; [exact G2|]. by eapply goes_trans.
  - done.
  - rewrite R2. by rewrite lookup_insert.
  - intros k' c' fn'. rewrite R3, E4. cbn. rewrite !insert_insert. rewrite delete_insert_delete. intros [_ Hl]%lookup_delete_Some. by eapply Hn.
  - split; rewrite ?R2, ?R3, ?R4, ?R5, ?R6, ?E4; cbn; try done.
    + intros y Hy. rewrite !not_elem_of_cons in Hy. destruct Hy as (H1&H2&_). rewrite lookup_insert_ne, lookup_delete_ne by done. by rewrite lookup_insert_ne by done.
    + rewrite !delete_insert_delete. by rewrite ?(delete_notin (a_wait a)).
    + intros k' [Hk _]%not_elem_of_cons. rewrite lookup_delete_ne by done. by rewrite !lookup_insert_ne.
  - rewrite R7, R8, R9, E4. done.
Qed.

Lemma new_throw a fn kk e : nonew a -> a_foc a = AUser (SNew Pull KVal (NewP None None) fn kk) ->
  a_wait a !! a_cur a = None -> a_cur a <> a_nk a -> a_nk a <> 0 -> rtc tau (fn (S (a_nh a))) (SThrow (XUser e)) ->
  exists a', goes a a' /\ a_foc a' = AUser (kk (RExn (XUser e))) /\ nonew a' /\
    same [a_nk a] [a_nh a; S (a_nh a)] a a' /\ a_nh a' = S (S (a_nh a)) /\ a_nk a' = S (a_nk a) /\ output (a_tr a') = output (a_tr a).
Proof.
  intros Hn Hf Hw Hcur Hk0 Ht. destruct (new_enter a fn kk Hf) as (a1&G1&E1).
  assert (Hf1 : a_foc a1 = AUser (fn (S (a_nh a)))) by (by rewrite E1). destruct (goes_tau a1 _ _ Hf1 Ht) as (a3&G2&E3).
  assert (E0 : astep a3 = do_leave (Some (XUser e)) a3) by (by rewrite E3). remember (do_leave (Some (XUser e)) a3) as R eqn:E. unfold do_leave in E.
  rewrite E3, E1 in E. cbn in E. rewrite decide_False in E by done. rewrite ?lookup_insert in E. cbn in E.
  unfold give_back in E. cbn in E. rewrite ?lookup_insert in E. cbn in E. rewrite ?lookup_insert in E. cbn in E. unfold deliver in E. cbn in E. rewrite ?lookup_insert in E. cbn in E.
  unfold kill in E. cbn in E. rewrite ?lookup_insert in E. cbn in E.
  match type of E with _ = ANext ?b => remember b as a4 eqn:E4 in E end. rewrite E in E0. apply goes_step in E0 as G3.
  destruct (exit_pull a4 (a_nk a) (ACo Pull KVal (AUnw true) SlEmpty (S (a_nh a)) (a_cur a)) (a_nk a) (NNew Pull KVal) (KfThrow e) kk Push KVal) as (a'&G4&R1&R2&R3&R4&R5&R6&R7&R8&R9);
    [..|cbn in *]; try reflexivity; try (rewrite E4; cbn; rewrite ?lookup_insert; done).
  exists a'. split; [|split; [|split; [|split]]].
  - eapply goes_trans; [exact G1|]. eapply goes_trans; [exact G2|]. by eapply goes_trans.
  - done.
  - intros k' c' fn'. rewrite R3, E4. cbn. rewrite !insert_insert. rewrite delete_insert_delete. intros [_ Hl]%lookup_delete_Some. by eapply Hn.
  - split; rewrite ?R2, ?R3, ?R4, ?R5, ?R6, ?E4; cbn; try done.
    + intros y Hy. rewrite !not_elem_of_cons in Hy. destruct Hy as (H1&H2&_). rewrite lookup_delete_ne by done. by rewrite lookup_insert_ne by done.
    + rewrite !delete_insert_delete. by rewrite ?(delete_notin (a_wait a)).
    + intros k' [Hk _]%not_elem_of_cons. rewrite lookup_delete_ne by done. by rewrite !lookup_insert_ne.
  - rewrite R7, R8, R9, E4. done.
Qed.

(** ** Destruction *)
Lemma destroy_susp a x k s v K D kk : reader a x k s v K D -> nonew a -> a_foc a = AUser (SDo (ODestroy x) kk) ->
  a_wait a !! a_cur a = None -> a_cur a <> k -> k <> 0 -> rtc tau D (SThrow XUnwind) ->
  exists a', goes a a' /\ a_foc a' = AUser (kk (ROk AUnit)) /\ nonew a' /\
    same [k] [x; s] a a' /\ a_nh a' = a_nh a /\ a_nk a' = a_nk a /\ output (a_tr a') = output (a_tr a).
Proof.
  intros (Hx&Hs&Hxs&o&kp0&b&Hc&HK&HD) Hn Hf Hw Hcur Hk0 Ht.
  pose proof (astep_do _ _ _ Hf Hn) as E. cbn in E. rewrite Hx in E. cbn in E. unfold kill in E. cbn in E. rewrite Hc in E. cbn in E. unfold exn_to in E. cbn in E.
  match type of E with _ = ANext ?b => remember b as a1 eqn:E1 in E end. apply goes_step in E as G1.
  assert (Hf1 : a_foc a1 = AUser D) by (rewrite E1, <- HD; done). destruct (goes_tau a1 _ _ Hf1 Ht) as (a3&G2&E3).
  assert (G3 : goes a3 (w_foc AExit (alog (EvLeave k (Some XUnwind)) a3))).
  { apply goes_step. rewrite E3, E1. unfold astep. cbn. unfold do_leave. cbn. rewrite decide_False by done. rewrite ?lookup_insert. done. }
  destruct (exit_pull (w_foc AExit (alog (EvLeave k (Some XUnwind)) a3)) k (ACo Pull KVal (AUnw true) SlEmpty s (a_cur a)) k (NOp (ODestroy x)) KfDestroy kk Push KVal) as (a'&G4&R1&R2&R3&R4&R5&R6&R7&R8&R9);
    [..|cbn in *]; try reflexivity; try (rewrite E3, E1; cbn; rewrite ?lookup_insert; rewrite ?lookup_delete_ne by done; done).
  exists a'. split; [|split; [|split; [|split]]].
  - eapply goes_trans; [exact G1|]. eapply goes_trans; [exact G2|]. by eapply goes_trans.
  - done.
  - intros k' c' fn'. rewrite R3, E3, E1. cbn. rewrite ?insert_insert. rewrite delete_insert_delete. intros [_ Hl]%lookup_delete_Some. by eapply Hn.
  - split; rewrite ?R2, ?R3, ?R4, ?R5, ?R6, ?E3, ?E1; cbn; try done.
    + intros y Hy. rewrite !not_elem_of_cons in Hy. destruct Hy as (H1&H2&_). by rewrite !lookup_delete_ne by done.
    + rewrite ?delete_insert_delete. by rewrite ?(delete_notin (a_wait a)).
    + intros k' [Hk _]%not_elem_of_cons. rewrite lookup_delete_ne by done. by rewrite ?lookup_insert_ne.
  - rewrite R7, R8, R9, E3, E1. done.
Qed.

Lemma destroy_done a x k s kk : finished a x k s -> nonew a -> a_foc a = AUser (SDo (ODestroy x) kk) ->
  a_wait a !! a_cur a = None -> a_cur a <> k -> k <> 0 ->
  exists a', goes a a' /\ a_foc a' = AUser (kk (ROk AUnit)) /\ nonew a' /\
    same [k] [x; s] a a' /\ a_nh a' = a_nh a /\ a_nk a' = a_nk a /\ output (a_tr a') = output (a_tr a).
Proof.
  intros (Hx&Hs&Hxs&ex&v&b&Hc) Hn Hf Hw Hcur Hk0.
  pose proof (astep_do _ _ _ Hf Hn) as E. cbn in E. rewrite Hx in E. cbn in E. unfold kill in E. cbn in E. rewrite Hc in E. cbn in E.
  match type of E with _ = ANext ?b => remember b as a1 eqn:E1 in E end. apply goes_step in E as G1.
  destruct (exit_pull a1 k (ACo Pull KVal (AUnw true) SlEmpty s (a_cur a)) k (NOp (ODestroy x)) KfDestroy kk Push KVal) as (a'&G4&R1&R2&R3&R4&R5&R6&R7&R8&R9);
    [..|cbn in *]; try reflexivity; try (rewrite E1; cbn; rewrite ?lookup_insert; rewrite ?lookup_delete_ne by done; done).
  exists a'. split; [|split; [|split; [|split]]].
  - by eapply goes_trans.
  - done.
  - intros k' c' fn'. rewrite R3, E1. cbn. rewrite ?insert_insert. rewrite delete_insert_delete. intros [_ Hl]%lookup_delete_Some. by eapply Hn.
  - split; rewrite ?R2, ?R3, ?R4, ?R5, ?R6, ?E1; cbn; try done.
    + intros y Hy. rewrite !not_elem_of_cons in Hy. destruct Hy as (H1&H2&_). by rewrite !lookup_delete_ne by done.
    + rewrite ?delete_insert_delete. by rewrite ?(delete_notin (a_wait a)).
    + intros k' [Hk _]%not_elem_of_cons. rewrite lookup_delete_ne by done. by rewrite ?lookup_insert_ne.
  - rewrite R7, R8, R9, E1. done.
Qed.

Lemma destroy_empty a x sd kd kk k s : a_h a !! x = Some (HObj sd kd None) -> nonew a -> a_foc a = AUser (SDo (ODestroy x) kk) ->
  exists a', goes a a' /\ a_foc a' = AUser (kk (ROk AUnit)) /\ nonew a' /\
    same [k] [x; s] a a' /\ a_nh a' = a_nh a /\ a_nk a' = a_nk a /\ output (a_tr a') = output (a_tr a).
Proof.
  intros Hx Hn Hf.
  eexists. split; [|split; [|split; [|split]]].
  - apply goes_step. rewrite (astep_do _ _ _ Hf Hn). cbn. rewrite Hx. cbn. unfold ret_to. cbn. reflexivity.
  - done.
  - done.
  - split; cbn; try done. intros y Hy. rewrite !not_elem_of_cons in Hy. destruct Hy as (H1&H2&_). by rewrite !lookup_delete_ne by done.
  - done.
Qed.

(** ** Sources: pull coroutines known by the values they are going to yield *)

(** Code [S] yields the values [vs] through counterpart [s] and then returns, or throws the
    exception [f]; wherever it is destroyed it just unwinds. *)
Inductive gen (u : gmap nat T) (s : nat) : strat -> list T -> option E -> Prop :=
| gen_end S : rtc tau S SRet -> gen u s S [] None
| gen_throw S e : rtc tau S (SThrow (XUser e)) -> gen u s S [] (Some e)
| gen_yield S g kp v vs f : rtc tau S (SDo (OPush s g) kp) -> aarg_ok KVal g = true -> aconstruct false g u = Some (inr (v, u)) ->
    rtc tau (kp (RExn XUnwind)) (SThrow XUnwind) -> gen u s (kp (ROk AUnit)) vs f -> gen u s S (v :: vs) f.

(** Object [x] denotes such a coroutine. *)
Inductive source (a : astate) (x k s : nat) : list T -> option E -> Prop :=
| src_more v K D vs f : reader a x k s v K D -> gen (a_user a) s K vs f -> rtc tau D (SThrow XUnwind) -> a_cur a <> k -> k <> 0 -> source a x k s (v :: vs) f
| src_done f : finished a x k s -> a_cur a <> k -> k <> 0 -> source a x k s [] f
| src_none f : a_h a !! x = Some (HObj Pull KVal None) -> source a x k s [] f.

(** Nothing prevents the current context from calling, and no coroutine is new. *)
Definition calm (a : astate) : Prop := nonew a /\ a_wait a !! a_cur a = None /\ 0 < a_nk a /\ a_cur a < a_nk a.

Definition pos (x : nat) (vs : list T) : iter := match vs with [] => None | _ => Some x end.

(** The state changes only in the coroutines [J], the objects [X] and the history; the
    program puts out [l]. *)
Definition moves (a : astate) (J X : list nat) (l : list T) (s' : strat) (a' : astate) : Prop :=
  goes a a' /\ a_foc a' = AUser s' /\ calm a' /\ same J X a a' /\ output (a_tr a') = output (a_tr a) ++ l.
(** ... and no object is made. *)
Definition fixed (a a' : astate) : Prop := a_nh a' = a_nh a /\ a_nk a' = a_nk a.

Lemma calm_same a a' J X : calm a -> nonew a' -> same J X a a' -> a_nk a <= a_nk a' -> calm a'.
Proof. intros (H1&H2&H3&H4) Hn [_ _ E1 E2 _] Hle. unfold calm. rewrite E1, E2. repeat split; try done; lia. Qed.

Lemma source_same a a' x k s vs f J X : source a x k s vs f -> same J X a a' -> k ∉ J -> x ∉ X -> s ∉ X -> source a' x k s vs f.
Proof.
  intros H Hs Hj Hx Hss. pose proof Hs as [E1 E2 E3 _ _]. destruct H as [v K D vs f H1 H2 H3 H4 H5|f H1 H2 H3|f H1].
  - apply (src_more _ _ _ _ v K D); try done; [by eapply reader_same|by rewrite E2|by rewrite E3].
  - apply src_done; try done; [by eapply finished_same|by rewrite E3].
  - apply src_none. by rewrite E1.
Qed.

Lemma src_inc a x k s v vs f kk : calm a -> source a x k s (v :: vs) f -> a_foc a = AUser (SDo (OItInc (Some x)) kk) ->
  exists a', moves a [k] [] [] (kk (match vs, f with [], Some e => RExn (XUser e) | _, _ => ROk (AIt (pos x vs)) end)) a' /\ fixed a a' /\ source a' x k s vs f.
Proof.
  intros Hcm H Hf. pose proof Hcm as (Hn&Hw&_). inversion H as [v' K D vs' f' H1 H2 H3 H4 H5| |]; subst.
  inversion H2 as [S Ht|S e Ht|S g kp v1 vs1 f1 Ht Hok Hg HD HG]; subst.
  - destruct (inc_end _ _ _ _ _ _ _ _ H1 Hn Hf Hw H4 H5 Ht) as (a'&G1&G2&G3&G4&G5&G6&G7&G8).
    exists a'. split; [|split; [done|]].
    + split; [done|]. split; [done|]. split; [eapply calm_same; try done; lia|]. split; [done|]. by rewrite app_nil_r.
    + apply src_done; [done| |done]. by rewrite (sm_cur _ _ _ _ G5).
  - destruct (inc_throw _ _ _ _ _ _ _ _ _ H1 Hn Hf Hw H4 H5 Ht) as (a'&G1&G2&G3&G4&G5&G6&G7&G8).
    exists a'. split; [|split; [done|]].
    + split; [done|]. split; [done|]. split; [eapply calm_same; try done; lia|]. split; [done|]. by rewrite app_nil_r.
    + apply src_done; [done| |done]. by rewrite (sm_cur _ _ _ _ G5).
  - destruct (inc_yield _ _ _ _ _ _ _ _ _ _ _ H1 Hn Hf Hw H4 Ht Hok Hg) as (a'&G1&G2&G3&G4&G5&G6&G7&G8).
    exists a'. split; [|split; [done|]].
    + split; [done|]. split; [done|]. split; [eapply calm_same; try done; lia|]. split; [done|]. by rewrite app_nil_r.
    + eapply src_more; [done| |done| |done]; [by rewrite (sm_user _ _ _ _ G5)|by rewrite (sm_cur _ _ _ _ G5)].
Qed.

Lemma src_new a fn kk vs f : calm a -> a_foc a = AUser (SNew Pull KVal (NewP None None) fn kk) -> gen (a_user a) (S (a_nh a)) (fn (S (a_nh a))) vs f ->
  exists a', moves a [a_nk a] [a_nh a; S (a_nh a)] [] (kk (match vs, f with [], Some e => RExn (XUser e) | _, _ => ROk (AH (a_nh a)) end)) a' /\
    a_nh a' = S (S (a_nh a)) /\ a_nk a' = S (a_nk a) /\ (vs <> [] \/ f = None -> source a' (a_nh a) (a_nk a) (S (a_nh a)) vs f).
Proof.
  intros Hcm Hf H. pose proof Hcm as (Hn&Hw&Hk0&Hk1). assert (a_cur a <> a_nk a) by lia. assert (a_nk a <> 0) by lia.
  inversion H as [S0 Ht|S0 e Ht|S0 g kp v1 vs1 f1 Ht Hok Hg HD HG]; subst.
  - destruct (new_end a fn kk) as (a'&G1&G2&G3&G4&G5&G6&G7&G8); try done.
    exists a'. split; [|split; [done|split; [done|]]].
    + split; [done|]. split; [done|]. split; [eapply calm_same; try done; lia|]. split; [done|]. by rewrite app_nil_r.
    + intros _. by apply src_none.
  - destruct (new_throw a fn kk e) as (a'&G1&G2&G4&G5&G6&G7&G8); try done.
    exists a'. split; [|split; [done|split; [done|]]].
    + split; [done|]. split; [done|]. split; [eapply calm_same; try done; lia|]. split; [done|]. by rewrite app_nil_r.
    + by intros [?|?].
  - destruct (new_yield a fn kk g kp v1) as (a'&G1&G2&G3&G4&G5&G6&G7&G8); try done.
    exists a'. split; [|split; [done|split; [done|]]].
    + split; [done|]. split; [done|]. split; [eapply calm_same; try done; lia|]. split; [done|]. by rewrite app_nil_r.
    + intros _. eapply src_more; [done| |done| |done]; [by rewrite (sm_user _ _ _ _ G5)|by rewrite (sm_cur _ _ _ _ G5)].
Qed.

Lemma src_destroy a x k s vs f kk : calm a -> source a x k s vs f -> a_foc a = AUser (SDo (ODestroy x) kk) ->
  exists a', moves a [k] [x; s] [] (kk (ROk AUnit)) a' /\ fixed a a'.
Proof.
  intros Hcm H Hf. pose proof Hcm as (Hn&Hw&_). destruct H as [v K D vs f H1 H2 H3 H4 H5|f H1 H2 H3|f H1].
  - destruct (destroy_susp _ _ _ _ _ _ _ _ H1 Hn Hf Hw H4 H5 H3) as (a'&G1&G2&G4&G5&G6&G7&G8).
    exists a'. split; [|done]. split; [done|]. split; [done|]. split; [eapply calm_same; try done; lia|]. split; [done|]. by rewrite app_nil_r.
  - destruct (destroy_done _ _ _ _ _ H1 Hn Hf Hw H2 H3) as (a'&G1&G2&G4&G5&G6&G7&G8).
    exists a'. split; [|done]. split; [done|]. split; [done|]. split; [eapply calm_same; try done; lia|]. split; [done|]. by rewrite app_nil_r.
  - destruct (destroy_empty _ _ _ _ kk k s H1 Hn Hf) as (a'&G1&G2&G4&G5&G6&G7&G8).
    exists a'. split; [|done]. split; [done|]. split; [done|]. split; [eapply calm_same; try done; lia|]. split; [done|]. by rewrite app_nil_r.
Qed.

(** Operations that only look. *)
Lemma look a o kk r l : calm a -> a_foc a = AUser (SDo o kk) -> do_op o kk (alog (EvCall (a_cur a) (NOp o)) a) = ret_to (NOp o) r kk (alog (EvCall (a_cur a) (NOp o)) a) ->
  output [EvCall (a_cur a) (NOp o)] = l -> exists a', moves a [] [] l (kk (ROk r)) a' /\ fixed a a'.
Proof.
  intros (Hn&Hw&Hk&Hk1) Hf E <-. eexists. split; [split; [|split; [|split; [|split]]]|].
  - apply goes_step. rewrite (astep_do _ _ _ Hf Hn), E. unfold ret_to. cbn. reflexivity.
  - done.
  - done.
  - done.
  - cbn. destruct o; by rewrite ?app_nil_r.
  - done.
Qed.

Lemma src_begin a x k s vs f kk : calm a -> source a x k s vs f -> a_foc a = AUser (SDo (OBegin x) kk) ->
  exists a', moves a [] [] [] (kk (ROk (AIt (pos x vs)))) a' /\ fixed a a'.
Proof.
  intros Hcm H Hf. eapply look; try done. cbn.
  destruct H as [v K D vs f (Hx&Hs&Hxs&o&kp0&b&Hc&_) H2 H3 H4 H5|f (Hx&Hs&Hxs&o&v&b&Hc) H2 H3|f Hx]; rewrite Hx; cbn; rewrite ?Hc; done.
Qed.
Lemma src_deref a x k s v vs f kk : calm a -> source a x k s (v :: vs) f -> a_foc a = AUser (SDo (OItDeref (Some x)) kk) ->
  exists a', moves a [] [] [] (kk (ROk (AV v))) a' /\ fixed a a'.
Proof.
  intros Hcm H Hf. eapply look; try done. cbn.
  inversion H as [v' K D vs' f' (Hx&Hs&Hxs&o&kp0&b&Hc&_)| |]; subst. rewrite Hx. cbn. by rewrite Hc.
Qed.

End steps.
