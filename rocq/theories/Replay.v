(** Replay.v -- what a context executes is its own code, fed with the results of the calls
    it has made itself. *)
From stdpp Require Import prelude gmap relations.
From Coq Require Import Lia.
From Verif Require Import Base Model Spec InvSpec Main Micro Trace Life Pend Den Tgt Hist FactsLife.

Section replay.
Context {env : Env}.
Implicit Types h b : list event.

(** The calls of context [c] that have ended, with their results, newest first. *)
Fixpoint completed (c : nat) h : list (opn * resp) :=
  match h with
  | [] => []
  | EvRet n o r :: h' => if decide (n = c) then (o, ROk r) :: completed c h' else completed c h'
  | EvExn n o x :: h' => if decide (n = c) then (o, RExn x) :: completed c h' else completed c h'
  | _ :: h' => completed c h'
  end.

(** Code [s0], after its calls got the results [l] (newest first), goes on with [s]. *)
Inductive run_on (s0 : strat) : list (opn * resp) -> strat -> Prop :=
| ro_nil : run_on s0 [] s0
| ro_tau l s : run_on s0 l (STau s) -> run_on s0 l s
| ro_op l o k r : run_on s0 l (SDo o k) -> run_on s0 ((NOp o, r) :: l) (k r)
| ro_new l sd kd np fn k r : run_on s0 l (SNew sd kd np fn k) -> run_on s0 ((NNew sd kd, r) :: l) (k r).

(** [code_of p c h s]: in program [p], as the history [h] shows, context [c] executes [s]:
    main executes the program, a coroutine the function that was passed to its constructor,
    applied to the counterpart object. *)
Inductive code_of (p : strat) : nat -> list event -> strat -> Prop :=
| co_main h : code_of p 0 h p
| co_fn h k x b c h0 sd kd np fn kk s0 :
    occurs h (EvEnter k x) b -> occurs h (EvAlloc k) (EvCall c (NNew sd kd) :: h0) ->
    code_of p c h0 s0 -> run_on s0 (completed c h0) (SNew sd kd np fn kk) -> code_of p k h (fn x).

Definition goes_on (p : strat) (c : nat) h (s : strat) : Prop := exists s0, code_of p c h s0 /\ run_on s0 (completed c h) s.
Definition calling (p : strat) (c : nat) h (o : opn) (k : resp -> strat) : Prop :=
  match o with
  | NOp o => goes_on p c h (SDo o k)
  | NNew sd kd => exists np fn, goes_on p c h (SNew sd kd np fn k)
  end.
Definition born (p : strat) (n : nat) h (fn : nat -> strat) : Prop :=
  exists c h0 sd kd np kk, occurs h (EvAlloc n) (EvCall c (NNew sd kd) :: h0) /\ goes_on p c h0 (SNew sd kd np fn kk).

(** Events that are not the end of a call of [c]. *)
Definition ends_call (c : nat) (e : event) : bool :=
  match e with EvRet n _ _ | EvExn n _ _ => bool_decide (n = c) | _ => false end.

Lemma occurs_cons h e e' b : occurs h e b -> occurs (e' :: h) e b.
Proof. intros (l&->). by exists (e' :: l). Qed.
Lemma code_cons p c h e s : code_of p c h s -> code_of p c (e :: h) s.
Proof. destruct 1; [apply co_main|]. eapply co_fn; try done; by apply occurs_cons. Qed.
Lemma completed_cons c e h : ends_call c e = false -> completed c (e :: h) = completed c h.
Proof. destruct e; cbn; try done; intros E%bool_decide_eq_false; by rewrite decide_False. Qed.
Lemma goes_cons p c h e s : ends_call c e = false -> goes_on p c h s -> goes_on p c (e :: h) s.
Proof. intros He (s0&H1&H2). exists s0. split; [by apply code_cons|]. by rewrite completed_cons. Qed.
Lemma calling_cons p c h e o k : ends_call c e = false -> calling p c h o k -> calling p c (e :: h) o k.
Proof. destruct o as [o|sd kd]; cbn; [apply goes_cons|]. intros He (np&fn&H). exists np, fn. by apply goes_cons. Qed.
Lemma born_cons p n h e fn : born p n h fn -> born p n (e :: h) fn.
Proof. intros (c&h0&sd&kd&np&kk&Ho&H). exists c, h0, sd, kd, np, kk. split; [by apply occurs_cons|done]. Qed.
Lemma goes_op p c h o k r e : e = EvRet c o r -> calling p c h o k -> goes_on p c (e :: h) (k (ROk r)).
Proof.
  intros -> H. assert (E : completed c (EvRet c o r :: h) = (o, ROk r) :: completed c h) by (cbn; by rewrite decide_True).
  destruct o as [o|sd kd].
  - destruct H as (s0&H1&H2). exists s0. split; [by apply code_cons|]. rewrite E. by apply ro_op.
  - destruct H as (np&fn&s0&H1&H2). exists s0. split; [by apply code_cons|]. rewrite E. by eapply ro_new.
Qed.
Lemma goes_exn p c h o k x : calling p c h o k -> goes_on p c (EvExn c o x :: h) (k (RExn x)).
Proof.
  intros H. assert (E : completed c (EvExn c o x :: h) = (o, RExn x) :: completed c h) by (cbn; by rewrite decide_True).
  destruct o as [o|sd kd].
  - destruct H as (s0&H1&H2). exists s0. split; [by apply code_cons|]. rewrite E. by apply ro_op.
  - destruct H as (np&fn&s0&H1&H2). exists s0. split; [by apply code_cons|]. rewrite E. by eapply ro_new.
Qed.

Definition wcalling (p : strat) (c : nat) h (w : wait) : Prop :=
  match w with WOp _ o _ k | WKill _ o _ k => calling p c h o k | WExit _ => True end.
Definition fcalling (p : strat) (c : nat) h (a : astate) (f : mfoc) : Prop :=
  match f with
  | MFoc => match a_foc a with AUser s => goes_on p c h s | _ => True end
  | MCall o k => calling p c h (NOp o) k
  | MNew sd kd np fn k => exists h0, h = EvCall c (NNew sd kd) :: h0 /\ goes_on p c h0 (SNew sd kd np fn k)
  | MNew2 sd kd np fn k _ n => exists h0, h = EvAlloc n :: EvCall c (NNew sd kd) :: h0 /\ goes_on p c h0 (SNew sd kd np fn k)
  | MPush _ _ _ _ o _ k | MPush2 _ _ _ o _ k | MXfer _ o _ k | MGot _ o _ k _ | MRet o _ k | MExn o _ k | MEmpty o _ _ k => calling p c h o k
  | MKill _ w | MKill2 _ w => wcalling p c h w
  | MLeft _ | MExit3 => True
  end.
Definition scalling (p : strat) (n : nat) h (s : astatus) : Prop :=
  match s with ASusp o _ k => calling p n h o k | ANew fn => born p n h fn | _ => True end.

Record RepI (p : strat) (x : astate * mfoc) : Prop := {
  rp_foc : fcalling p (a_cur x.1) (a_tr x.1) x.1 x.2;
  rp_wait : forall c w, a_wait x.1 !! c = Some w -> wcalling p c (a_tr x.1) w;
  rp_co : forall n c, a_co x.1 !! n = Some c -> scalling p n (a_tr x.1) (ac_st c) }.

Lemma rep_init p u : RepI p (ainit p u, MFoc).
Proof. split; try done. exists p. split; [apply co_main|apply ro_nil]. Qed.

Lemma wcalling_cons p c h e w : ends_call c e = false -> wcalling p c h w -> wcalling p c (e :: h) w.
Proof. destruct w; cbn; auto using calling_cons. Qed.
Lemma scalling_cons p n h e s : ends_call n e = false -> scalling p n h s -> scalling p n (e :: h) s.
Proof. destruct s; cbn; auto using calling_cons, born_cons. Qed.

(** A coroutine that was not entered has not called anything. *)
Lemma mreach_fresh p u x : mreach p u x -> forall n, n <> 0 -> completed n (a_tr x.1) <> [] -> 3 <= rank (life n (a_tr x.1)).
Proof.
  apply (mreach_ind p u (fun x => forall n, n <> 0 -> completed n (a_tr x.1) <> [] -> 3 <= rank (life n (a_tr x.1)))); [done|].
  intros x0 y Hx IH Hm n Hn Hc. destruct (micro_tr _ _ Hm) as [E|[e E]]; rewrite E in *; [by apply IH|].
  pose proof (life_at _ _ _ _ _ _ Hx Hm eq_refl E) as Hl.
  assert (Hb : 3 <= rank (life n (a_tr x0.1))).
  { destruct (ends_call n e) eqn:Hec; [|rewrite completed_cons in Hc by done; by apply IH].
    destruct e; cbn in Hec; try done; apply bool_decide_eq_true in Hec; subst; cbn in Hl; rewrite Hl by done; cbn; lia. }
  destruct (life_cons n _ _ Hl) as [->|?]; lia.
Qed.
Lemma fresh_nil p u x n : mreach p u x -> n <> 0 -> rank (life n (a_tr x.1)) < 3 -> completed n (a_tr x.1) = [].
Proof. intros Hx Hn Hr. destruct (completed n (a_tr x.1)) eqn:E; [done|]. pose proof (mreach_fresh _ _ _ Hx n Hn) as H. rewrite E in H. assert (3 <= rank (life n (a_tr x.1))) by (by apply H). lia. Qed.

(** Events that do not end the call of another context. *)
Lemma rep_log p u x e : mreach p u x -> RepI p x -> (forall c, c <> a_cur x.1 -> ends_call c e = false) ->
  (forall c w, a_wait x.1 !! c = Some w -> wcalling p c (e :: a_tr x.1) w) /\
  (forall n c, a_co x.1 !! n = Some c -> scalling p n (e :: a_tr x.1) (ac_st c)).
Proof.
  intros Hx [_ R2 R3] He. pose proof (mreach_basic _ _ _ Hx) as B. split.
  - intros c w Hw. apply wcalling_cons; [|eauto]. apply He. intros ->. by rewrite (ib_wcur _ B) in Hw.
  - intros n c Hn. destruct (decide (n = a_cur x.1)) as [->|Hne]; [|by apply scalling_cons; eauto].
    destruct (ib_cur _ B) as [E|(c'&E&Ha)]; [apply (ib_dom _ B) in Hn; lia|]. assert (c' = c) as -> by congruence. by destruct (ac_st c).
Qed.

Lemma ends_ctx c c' e : ev_ctx e = None \/ ev_ctx e = Some c -> c' <> c -> ends_call c' e = false.
Proof. destruct e; cbn; try done; intros [[=]|[= ->]] ?; by apply bool_decide_eq_false. Qed.

Theorem rep_step p u x y : mreach p u x -> RepI p x -> micro x y -> RepI p y.
Proof.
  intros Hx R Hm. pose proof (mreach_minv _ _ _ Hx) as M. pose proof (mreach_basic _ _ _ Hx) as B.
  pose proof (tg_foc _ (mreach_tgt _ _ _ Hx)) as F. pose proof (fun e => rep_log p u x e Hx R) as L.
  destruct R as [R1 R2 R3].
  assert (Ls : forall e, (ev_ctx e = None \/ ev_ctx e = Some (a_cur x.1)) ->
    (forall c w, a_wait x.1 !! c = Some w -> wcalling p c (e :: a_tr x.1) w) /\
    (forall n c, a_co x.1 !! n = Some c -> scalling p n (e :: a_tr x.1) (ac_st c))).
  { intros e He. apply L. intros. by eapply ends_ctx. }
  assert (Hcur : forall c, a_co x.1 !! a_cur x.1 = Some c -> active (ac_st c) = true).
  { intros c Hc. destruct (ib_cur _ B) as [E|(c'&E&Ha)]; [apply (ib_dom _ B) in Hc; lia|]. congruence. }
  destruct Hm; cbn in M, B, F, R1, R2, R3, Ls.
  - rewrite H in R1. split; cbn; try done. destruct R1 as (s0&?&?). exists s0. split; [done|by apply ro_tau].
  - rewrite H in R1. destruct (Ls (EvCall (a_cur a) (NOp o))) as [L1 L2]; [by right|]. split; cbn -[completed]; try done. by apply goes_cons.
  - rewrite H in R1. destruct (Ls (EvCall (a_cur a) (NNew sd kd))) as [L1 L2]; [by right|]. split; cbn -[completed]; try done. eauto.
  - destruct (Ls (EvRet (a_cur a) o r)) as [L1 L2]; [by right|]. split; cbn -[completed]; try done. by eapply goes_op.
  - destruct (Ls (EvExn (a_cur a) o x)) as [L1 L2]; [by right|]. split; cbn -[completed]; try done. by apply goes_exn.
  - destruct (Ls (EvRet (a_cur a) (NOp o) r)) as [L1 L2]; [by right|].
    apply local_op_frame in H as (E1&E2&E3&E4&E5&E6). split; cbn -[completed]; rewrite ?E1, ?E2, ?E3; try done.
    + by eapply (goes_op _ _ _ (NOp o)).
    + intros n c Hn. destruct E6 as [E6|(n0&c0&s&Hn0&E6)]; rewrite E6 in Hn; [eauto|].
      apply lookup_insert_Some in Hn as [[<- <-]|[_ Hn]]; [exact (L2 _ _ Hn0)|eauto].
  - destruct (Ls (EvRet (a_cur a) o (AH h))) as [L1 L2]; [by right|]. split; cbn -[completed]; try done. by eapply goes_op.
  - split; cbn; done.
  - split; cbn; done.
  - split; cbn; done.
  - split; cbn; done.
  - split; cbn; done.
  - split; cbn; done.
  - destruct (Ls (EvSet (ep_co e) (PRef l))) as [L1 L2]; [by left|]. split; cbn -[completed]; try done. { by apply calling_cons. }
    intros n c0 Hn. apply lookup_insert_Some in Hn as [[<- <-]|[_ Hn]]; [exact (L2 _ _ H)|eauto].
  - destruct (Ls (EvDel (ep_co e))) as [L1 L2]; [by left|]. split; cbn -[completed]; try done. { by apply calling_cons. }
    intros n c0 Hn. apply lookup_insert_Some in Hn as [[<- <-]|[_ Hn]]; [exact (L2 _ _ H)|eauto].
  - split; cbn; done.
  - destruct (Ls (EvSet (ep_co e) (PVal v))) as [L1 L2]; [by left|]. split; cbn -[completed]; try done. { by apply calling_cons. }
    intros n c0 Hn. apply lookup_insert_Some in Hn as [[<- <-]|[_ Hn]]; [exact (L2 _ _ H)|eauto].
  - split; cbn; done.
  - split; cbn.
    + pose proof (R3 _ _ H) as Q. by rewrite H0 in Q.
    + intros c0 w Hw. apply lookup_insert_Some in Hw as [[<- <-]|[_ Hw]]; [done|eauto].
    + intros n0 c0 Hn. apply lookup_insert_Some in Hn as [[<- <-]|[_ Hn]]; [done|eauto].
  - assert (Hne : n <> a_cur a). { intros ->. apply Hcur in H. by rewrite H0 in H. }
    pose proof (R3 _ _ H) as Q. rewrite H0 in Q. split; cbn -[completed].
    + destruct Q as (c0&h0&sd&kd&np&kk&Ho&s0&H1&H2). eexists. split.
      * eapply co_fn; [by exists []|by apply occurs_cons|done|done].
      * rewrite completed_cons by done. pose proof (fresh_nil p u _ n Hx) as Q. cbn [fst snd] in Q. rewrite Q; [apply ro_nil|apply (ib_dom _ B) in H; lia|].
        assert (Hli : life n (a_tr a) = PNew). { pose proof (li_st _ (mreach_life _ _ _ Hx) _ _ H) as Q0. cbn [fst snd] in Q0. rewrite H0 in Q0. exact Q0. }
        rewrite Hli. cbn. lia.
    + intros c0 w Hw. apply lookup_insert_Some in Hw as [[<- <-]|[_ Hw]].
      * by apply calling_cons.
      * apply wcalling_cons; [done|eauto].
    + intros n0 c0 Hn. apply lookup_insert_Some in Hn as [[<- <-]|[_ Hn]]; [done|]. apply scalling_cons; [done|eauto].
  - split; cbn.
    + by pose proof (R2 _ _ H0).
    + intros c0 w Hw. apply lookup_delete_Some in Hw as [_ Hw]. eauto.
    + intros n0 c0 Hn. apply lookup_insert_Some in Hn as [[<- <-]|[_ Hn]]; [|eauto]. cbn.
      destruct M as (Hp&Hr&_). unfold resumable in Hr. by apply andb_true_iff in Hr as [->%bool_decide_eq_true Hr].
  - split; cbn; done.
  - split; cbn; done.
  - split; cbn; done.
  - split; cbn; done.
  - split; cbn; done.
  - split; cbn; done.
  - destruct (Ls (EvNew j h)) as [L1 L2]; [by left|]. split; cbn -[completed]; try done. by apply calling_cons.
  - destruct (Ls (EvDel j)) as [L1 L2]; [by left|]. split; cbn -[completed]; try done. by apply wcalling_cons.
  - split; cbn; done.
  - split; cbn.
    + pose proof (R3 _ _ H) as Q. by rewrite H0 in Q.
    + intros c0 w0 Hw. apply lookup_insert_Some in Hw as [[<- <-]|[_ Hw]]; [done|eauto].
    + intros n0 c0 Hn. apply lookup_insert_Some in Hn as [[<- <-]|[_ Hn]]; [done|eauto].
  - split; cbn; [done| |].
    + intros c0 w0 Hw. apply lookup_insert_Some in Hw as [[<- <-]|[_ Hw]]; [done|eauto].
    + intros n0 c0 Hn. apply lookup_insert_Some in Hn as [[<- <-]|[_ Hn]]; [done|eauto].
  - destruct R1 as (h0&E&R1). split; cbn; try done. rewrite E. exists np, fn. by apply goes_cons.
  - destruct R1 as (h0&E&R1). destruct (Ls (EvAlloc (a_nk a))) as [L1 L2]; [by left|]. split; cbn -[completed]; try done. rewrite E. eauto.
  - destruct R1 as (h0&E&R1). split; cbn; try done. rewrite E. exists np, fn. by apply goes_cons, goes_cons.
  - destruct R1 as (h0&R0&R1). destruct M as (I&Hn&Hh).
    assert (Hn0 : n <> 0) by (pose proof (ic_nk _ _ _ _ _ I); lia).
    split; cbn -[completed].
    + destruct R1 as (s0&H1&H2). eexists. split.
      * eapply co_fn; [by exists []| |exact H1|exact H2]. rewrite R0. by apply occurs_cons; exists [].
      * rewrite completed_cons by done. pose proof (fresh_nil p u _ n Hx) as Q. cbn [fst snd] in Q. rewrite Q; [apply ro_nil|done|]. rewrite R0. cbn. rewrite decide_True by done. cbn. lia.
    + intros c0 w Hw. apply lookup_insert_Some in Hw as [[<- <-]|[_ Hw]].
      * cbn -[completed]. exists np, fn. rewrite R0. by apply goes_cons, goes_cons, goes_cons.
      * apply wcalling_cons; [done|eauto].
    + intros n0 c0 Hk. apply lookup_insert_Some in Hk as [[<- <-]|[_ Hk]]; [done|]. apply scalling_cons; [done|eauto].
  - destruct R1 as (h0&R0&R1). destruct (Ls (EvNew n h)) as [L1 L2]; [by left|]. split; cbn -[completed]; [|done|].
    + exists np, fn. rewrite R0. by apply goes_cons, goes_cons, goes_cons.
    + intros n0 c0 Hk. apply lookup_insert_Some in Hk as [[<- <-]|[_ Hk]]; [|eauto]. cbn.
      exists (a_cur a), h0, Push, kd, np, k. split; [rewrite R0; apply occurs_cons; by exists []|done].
  - destruct (Ls (EvLeave (a_cur a) (XUser <$> x))) as [L1 L2]; [by right|]. split; cbn -[completed]; try done.
  - split; cbn.
    + by pose proof (R2 _ _ H0).
    + intros c0 w Hw. apply lookup_delete_Some in Hw as [_ Hw]. eauto.
    + intros n0 c0 Hn. apply lookup_insert_Some in Hn as [[<- <-]|[_ Hn]]; [done|eauto].
  - destruct (Ls (EvLeave (a_cur a) (Some XUnwind))) as [L1 L2]; [by right|]. split; cbn -[completed]; try done.
  - destruct (Ls (EvGone (a_cur a) (ac_syn c))) as [L1 L2]; [by left|]. split; cbn -[completed]; try done.
  - destruct (Ls (EvGone (a_cur a) (ac_syn c))) as [L1 L2]; [by left|]. split; cbn -[completed]; try done.
  - destruct (Ls (EvDel (a_cur a))) as [L1 L2]; [by left|]. split; cbn -[completed]; try done.
  - split; cbn; done.
  - destruct (Ls (EvFree (a_cur a))) as [L1 L2]; [by left|].
    assert (HW : forall c0 w0, delete (ac_by c) (a_wait a) !! c0 = Some w0 -> wcalling p c0 (EvFree (a_cur a) :: a_tr a) w0).
    { intros c0 w0 Hw. apply lookup_delete_Some in Hw as [_ Hw]. eauto. }
    assert (HS : forall n c0, delete (a_cur a) (a_co a) !! n = Some c0 -> scalling p n (EvFree (a_cur a) :: a_tr a) (ac_st c0)).
    { intros n0 c0 Hk. apply lookup_delete_Some in Hk as [_ Hk]. eauto. }
    pose proof (L1 _ _ H0) as Q. destruct w as [|j o [|h kd|e] k|j]; [done| | | |]; subst y; split; cbn -[completed]; try done.
Qed.

Theorem mreach_rep p u x : mreach p u x -> RepI p x.
Proof. apply (mreach_ind p u (RepI p)); [apply rep_init|intros ???; by eapply rep_step]. Qed.

End replay.
