(** FactsCpp.v -- automatic objects of functions in the structured language. *)
From stdpp Require Import prelude gmap relations.
From Coq Require Import Lia.
From Verif Require Import Base Model Spec InvSpec Main Micro Trace Hist Rules RulesProof FactsLife FactsBack FactsCall FactsEnd Replay FactsReplay Cpp.

Section fcpp.
Context {env : Env} {comp : Compiler}.
Implicit Types h b : list event.

(** The destructors that have run to completion in [h], newest first. *)
Definition ran (c : nat) h : list op :=
  omap (fun x : opn * resp => match x with (NOp o, _) => if is_dtor o then Some o else None | _ => None end) (completed c h).
(** ... among completed calls. *)
Definition ranl (l : list (opn * resp)) : list op :=
  omap (fun x : opn * resp => match x with (NOp o, _) => if is_dtor o then Some o else None | _ => None end) l.

Lemma completed_app c h b : completed c (h ++ b) = completed c h ++ completed c b.
Proof. induction h as [|e h IH]; [done|]. destruct e; cbn; try done; case_decide; cbn; by rewrite IH. Qed.

Lemma code_past p c h b s : past h b -> code_of p c b s -> code_of p c h s.
Proof. intros [l ->] H. induction l as [|e l IH]; [done|]. by apply code_cons. Qed.

(** The function of context [c] is at a point of its code when it acts. *)
Lemma cxx_point p u n c f e b : respects p u n -> occurs (hist p u n) e b -> code_of p c b (cxx f) ->
  (exists o, e = EvCall c o) \/ (exists r, e = EvLeave c r) ->
  exists k fs, does e (exec k fs) /\ frames_ok fs /\ objs fs = live c b /\ run_on (cxx f) (completed c b) (exec k fs).
Proof.
  intros Hr Ho Hc He. destruct (act_code _ _ _ _ _ _ Hr Ho He) as (s0&s&H1&H2&H3).
  assert (s0 = cxx f) as -> by (eapply code_unique; [exact Hr|exact (past_tail _ _ _ Ho)|done|done]).
  destruct (point_run _ _ _ H2) as (k&fs&->&Hf&Hobj). by exists k, fs.
Qed.

Lemma exec_dtor k fs d kk : exec k fs = SDo d kk -> is_dtor d = true -> head (objs fs) = Some d.
Proof.
  intros E Hd. rewrite (strat_eta (exec k fs)) in E. destruct k as [s| |x].
  - destruct s as [| |e|o' ok k'|n body k'|sd kd np fn body k'|h body k'|body hd k'|body n k'|body k']; cbn in E; try done.
    + destruct fs as [|[d' k'| | |] fs]; cbn in E; try done. by injection E as -> _.
    + injection E as -> _. destruct (plain_nothing d (RExn XUnwind) ok). congruence.
    + injection E as <- _. by rewrite ctor_dtor in Hd.
    + by injection E as <- _.
  - destruct fs as [|[d' k'| | |] fs]; cbn in E; try done. by injection E as -> _.
  - destruct fs as [|[d' k'| |n k'|] fs]; cbn in E; try done; [by injection E as -> _|by destruct x|].
    injection E as <- _. by rewrite (cleanup_dtor _ (cleanup_cleanup n)) in Hd.
Qed.
Lemma exec_end k fs r c : does (EvLeave c r) (exec k fs) -> fs = [].
Proof.
  intros H. cbn in H. rewrite (strat_eta (exec k fs)) in H. destruct k as [s| |x].
  - destruct s as [| |e|o' ok k'|n body k'|sd kd np fn body k'|h body k'|body hd k'|body n k'|body k']; try (by destruct r). destruct fs as [|[d' k'| | |] fs]; by destruct r.
  - destruct fs as [|[d' k'| | |] fs]; by destruct r.
  - destruct fs as [|[d' k'| |n k'|] fs]; cbn in H; try done; destruct r; try done; by destruct x.
Qed.

Lemma lifo p u n c f d b : respects p u n -> occurs (hist p u n) (EvCall c (NOp d)) b -> code_of p c b (cxx f) -> is_dtor d = true ->
  head (live c b) = Some d.
Proof.
  intros Hr Ho Hc Hd. destruct (cxx_point _ _ _ _ _ _ _ Hr Ho Hc) as (k&fs&(kk&E)&_&<-&_); [eauto|]. by eapply exec_dtor.
Qed.
Lemma all_gone p u n c f r b : respects p u n -> occurs (hist p u n) (EvLeave c r) b -> code_of p c b (cxx f) -> live c b = [].
Proof.
  intros Hr Ho Hc. destruct (cxx_point _ _ _ _ _ _ _ Hr Ho Hc) as (k&fs&H&_&<-&_); [eauto|]. by rewrite (exec_end _ _ _ _ H).
Qed.

(** Forced unwinding: only destructors and clean-up handlers are executed. *)
Definition tidy (x : opn * resp) : Prop :=
  match x with (NOp o, r) => is_dtor o || is_cleanup o = true -> exists a, r = ROk a | _ => True end.
Definition tidying (x : opn * resp) : Prop :=
  match x with (NOp o, ROk _) => is_dtor o || is_cleanup o = true | _ => False end.

Lemma exec_unwinding fs o k : exec (Exn XUnwind) fs = SDo o k -> frames_ok fs ->
  is_dtor o || is_cleanup o = true /\ exists fs', (forall a, k (ROk a) = exec (Exn XUnwind) fs') /\ frames_ok fs' /\
    objs fs = (if is_dtor o then [o] else []) ++ objs fs'.
Proof.
  intros E Hf. rewrite (strat_eta (exec _ fs)) in E. destruct fs as [|[d' k'| |n k'|] fs]; cbn in E; try done; injection E as <- <-.
  - pose proof (frames_head _ _ _ Hf) as Hd. rewrite Hd. split; [done|]. exists fs. split; [done|]. split; [by eapply frames_tail|done].
  - pose proof (cleanup_cleanup n) as Hc. rewrite Hc, (cleanup_dtor _ Hc). split; [done|]. exists fs. split; [done|]. split; [by eapply frames_tail|done].
Qed.

Lemma unwinding_run f l s o l1 l2 : run_on (cxx f) l s -> l = l1 ++ (o, RExn XUnwind) :: l2 -> Forall tidy l1 ->
  (forall o', o = NOp o' -> is_dtor o' = false) ->
  Forall tidying l1 /\ exists fs, s = exec (Exn XUnwind) fs /\ frames_ok fs /\ alive l2 = rev (ranl l1) ++ objs fs.
Proof.
  intros H. revert l1.
  induction H as [|l s H IH|l o' k r H IH|l sd kd np fn k r H IH]; intros l1 E Ht Hnd.
  - by destruct l1.
  - destruct (IH l1 E Ht Hnd) as (Hti&fs&Es&Hf&Ha). split; [done|]. rewrite (strat_eta (exec _ fs)) in Es.
    destruct fs as [|[d' k'|hd k'|n k'|k'] fs]; cbn in Es; try done; injection Es as ->; exists fs; (split; [done|]; split; [by eapply frames_tail|done]).
  - destruct l1 as [|x l1]; cbn in E.
    + injection E as <- -> ->. split; [done|]. specialize (Hnd _ eq_refl).
      destruct (point_run _ _ _ H) as (c&fs&Es&Hf&<-). rewrite (strat_eta (exec c fs)) in Es.
      assert (Hl : forall d k' fs', fs = FLocal d k' :: fs' -> d <> o') by (intros d k' fs' -> ->; pose proof (frames_head _ _ _ Hf); congruence).
      destruct c as [s| |x].
      * destruct s as [| |e|o2 ok k'|n body k'|sd kd np fn body k'|h body k'|body hd k'|body n k'|body k']; cbn in Es; try done; try (injection Es as -> ->; eauto).
        destruct fs as [|[d' k'| |n k'|] fs]; cbn in Es; try done; injection Es as -> ->; by destruct (Hl _ _ _ eq_refl).
      * destruct fs as [|[d' k'| |n k'|] fs]; cbn in Es; try done; injection Es as -> ->; by destruct (Hl _ _ _ eq_refl).
      * destruct fs as [|[d' k'| |n k'|] fs]; cbn in Es; try done; try (by destruct x); injection Es as -> ->; [by destruct (Hl _ _ _ eq_refl)|].
        exists fs. split; [done|]. split; [by eapply frames_tail|done].
    + injection E as <- E. apply Forall_cons in Ht as [Ht Htl]. destruct (IH l1 E Htl Hnd) as (Hti&fs&Es&Hf&Ha).
      symmetry in Es. destruct (exec_unwinding _ _ _ Es Hf) as (Hd&fs'&Hk&Hf'&Ho). destruct (Ht Hd) as [a ->]. rewrite Hk.
      split; [by constructor|]. exists fs'. split; [done|]. split; [done|]. rewrite Ha, Ho. unfold ranl. cbn. destruct (is_dtor o'); cbn; [by rewrite <- app_assoc|done].
  - destruct l1 as [|x l1]; cbn in E.
    + injection E as <- -> ->. split; [done|].
      destruct (point_run _ _ _ H) as (c&fs&Es&Hf&<-). rewrite (strat_eta (exec c fs)) in Es. destruct c as [s| |x].
      * destruct s as [| |e|o2 ok k'|n body k'|sd' kd' np' fn' body k'|h body k'|body hd k'|body n k'|body k']; cbn in Es; try done.
        -- destruct fs as [|[d' k'| |n k'|] fs]; done.
        -- injection Es as -> -> -> -> ->. eauto.
      * destruct fs as [|[d' k'| |n k'|] fs]; done.
      * destruct fs as [|[d' k'| |n k'|] fs]; try done; by destruct x.
    + injection E as <- E. apply Forall_cons in Ht as [Ht Htl]. destruct (IH l1 E Htl Hnd) as (Hti&fs&Es&Hf&Ha).
      rewrite (strat_eta (exec _ fs)) in Es. destruct fs as [|[d' k'| |n k'|] fs]; done.
Qed.

Lemma log_no_exn p u n c m x b : respects p u n -> ~ occurs (hist p u n) (EvExn c (NOp (OLog m)) x) b.
Proof. intros Hr Ho. destruct (exn_op _ _ _ _ _ _ _ Hr Ho) as (y&[?|[?|[[? ?]|[? ?]]]]); done. Qed.
Lemma tidy_no_exn p u n c o x b : respects p u n -> is_dtor o || is_cleanup o = true -> ~ occurs (hist p u n) (EvExn c (NOp o) x) b.
Proof. intros Hr Hd. destruct o; try done; [by apply exn_destroy|by apply log_no_exn]. Qed.

Lemma completed_occurs c o r h : (o, r) ∈ completed c h -> exists b, match r with ROk a => occurs h (EvRet c o a) b | RExn x => occurs h (EvExn c o x) b end.
Proof.
  induction h as [|e h IH]; [by intros ?%elem_of_nil|]. intros H.
  assert (Hc : (o, r) ∈ completed c h -> exists b, match r with ROk a => occurs (e :: h) (EvRet c o a) b | RExn x => occurs (e :: h) (EvExn c o x) b end).
  { intros [b Hb]%IH. exists b. destruct r; by apply occurs_cons. }
  destruct e; cbn in H; try (by apply Hc); (case_decide; [subst|by apply Hc]);
    (apply elem_of_cons in H as [[= -> ->]|H]; [|by apply Hc]; exists h; by exists []).
Qed.

Lemma tidy_all p u n c h : respects p u n -> past (hist p u n) h -> Forall tidy (completed c h).
Proof.
  intros Hr Hp. apply Forall_forall. intros [[o|sd kd] r] Hin; [|done]. intros Hd. destruct r as [a|x]; [eauto|].
  apply completed_occurs in Hin as [b Hb]. exfalso. eapply tidy_no_exn; [exact Hr|exact Hd|]. by eapply past_occurs.
Qed.

(** What a function does after forced unwinding has been raised in it. *)
Lemma unwinds p u n c f o b l e : respects p u n -> occurs (hist p u n) e (l ++ EvExn c o XUnwind :: b) -> code_of p c b (cxx f) ->
  (forall o', e = EvCall c o' -> exists d, o' = NOp d /\ (is_cleanup d = true \/ is_dtor d = true /\ exists L, live c b = rev (ran c l) ++ d :: L)) /\
  (forall r, e = EvLeave c r -> r = Some XUnwind /\ ran c l = rev (live c b) /\ Forall tidying (completed c l)).
Proof.
  intros Hr Ho Hc. set (h := l ++ EvExn c o XUnwind :: b) in *.
  assert (Hp : past (hist p u n) h) by exact (past_tail _ _ _ Ho).
  assert (Hex : occurs (hist p u n) (EvExn c o XUnwind) b) by (eapply past_trans; [exact Hp|by exists l]).
  assert (Hlist : completed c h = completed c l ++ (o, RExn XUnwind) :: completed c b).
  { unfold h. rewrite completed_app. cbn. by rewrite decide_True. }
  assert (Hch : code_of p c h (cxx f)). { eapply code_past; [|exact Hc]. exists (l ++ [EvExn c o XUnwind]). by rewrite <- app_assoc. }
  assert (Ht : Forall tidy (completed c l)). { pose proof (tidy_all p u n c h Hr Hp) as Q. rewrite Hlist in Q. by apply Forall_app in Q as [? _]. }
  assert (Hnd : forall o', o = NOp o' -> is_dtor o' = false).
  { intros o' ->. destruct (is_dtor o') eqn:E; [|done]. exfalso. eapply tidy_no_exn; [exact Hr| |exact Hex]. by rewrite E. }
  assert (Hrun : forall s, run_on (cxx f) (completed c h) s -> Forall tidying (completed c l) /\
    exists fs, s = exec (Exn XUnwind) fs /\ frames_ok fs /\ live c b = rev (ran c l) ++ objs fs).
  { intros s Hs. rewrite Hlist in Hs. by eapply unwinding_run. }
  split.
  - intros o' ->. destruct (cxx_point _ _ _ _ _ _ _ Hr Ho Hch) as (k&fs&Hd&_&_&Hs); [eauto|].
    destruct (Hrun _ Hs) as (_&fs'&Es&Hf&Ha). rewrite Es in Hd. destruct o' as [d|sd kd].
    + destruct Hd as [kk Hd]. destruct (exec_unwinding _ _ _ Hd Hf) as (Ht'&fs2&_&_&Ho2). exists d. split; [done|].
      apply orb_true_iff in Ht' as [E|E]; [right|by left]. split; [done|]. rewrite E in Ho2. exists (objs fs2). by rewrite Ha, Ho2.
    + destruct Hd as (np&fn&kk&Hd). rewrite (strat_eta (exec _ fs')) in Hd. destruct fs' as [|[d' k'| |n' k'|] fs']; done.
  - intros r ->. destruct (cxx_point _ _ _ _ _ _ _ Hr Ho Hch) as (k&fs&Hd&_&_&Hs); [eauto|].
    destruct (Hrun _ Hs) as (Hti&fs'&Es&Hf&Ha). rewrite Es in Hd. pose proof (exec_end _ _ _ _ Hd) as ->. cbn in Ha. rewrite app_nil_r in Ha.
    split; [|by rewrite Ha, rev_involutive]. clear -Hd. rewrite (strat_eta (exec _ _)) in Hd. cbn in Hd. destruct r; [by injection Hd as ->|done].
Qed.

(** A coroutine whose stack is released after forced unwinding was raised in it has left its
    function in between. *)
Lemma life_left k h : life k h = PLeft -> exists b, occurs h (EvLeave k (Some XUnwind)) b.
Proof.
  induction h as [|e h IH]; [done|]. intros H.
  assert (Hc : life k h = PLeft -> exists b, occurs (e :: h) (EvLeave k (Some XUnwind)) b) by (intros [b Hb]%IH; exists b; by apply occurs_cons).
  destruct e as [| | | |m r| | |m y| |m|m]; cbn in H; try (by apply Hc); try (case_decide; [|by apply Hc]; try done).
  - destruct r as [[e|]|]; (case_decide; [|by apply Hc]); try done. subst. exists h. by exists [].
  - apply Hc. by destruct (life k h).
Qed.
Lemma life_done k x h : life k h = PDone x -> exists b, occurs h (EvLeave k (XUser <$> x)) b.
Proof.
  induction h as [|e h IH]; [done|]. intros H.
  assert (Hc : life k h = PDone x -> exists b, occurs (e :: h) (EvLeave k (XUser <$> x)) b) by (intros [b Hb]%IH; exists b; by apply occurs_cons).
  destruct e as [| | | |m r| | |m y| |m|m]; cbn in H; try (by apply Hc); try (case_decide; [|by apply Hc]; try done).
  - destruct r as [[e|]|]; (case_decide; [|by apply Hc]); try done; subst; injection H as <-; exists h; by exists [].
  - apply Hc. by destruct (life k h).
Qed.

Lemma freed_left p u n k h o b : respects p u n -> occurs (hist p u n) (EvFree k) h -> occurs h (EvExn k o XUnwind) b ->
  exists l1 l2, h = l1 ++ EvLeave k (Some XUnwind) :: l2 ++ EvExn k o XUnwind :: b.
Proof.
  intros Hr Ho Hx. assert (Hp : past (hist p u n) h) by exact (past_tail _ _ _ Ho).
  assert (Hxh : occurs (hist p u n) (EvExn k o XUnwind) b) by (by eapply past_occurs).
  assert (Hl : life k b = PRun).
  { destruct (history_origin _ _ _ _ _ Hr Hxh) as [(?&?&?&?&_&?&_)|[(?&?&?&?&_&?&_)|[(?&?&?&_&_&?)|[(?&?&?&_&_&?&_)|(_&_&H&_)]]]]; done. }
  assert (Hlv : exists r b', occurs h (EvLeave k r) b' /\ (r = Some XUnwind \/ exists x, r = XUser <$> x)).
  { destruct (hist_life _ _ _ _ _ Hr Ho) as [Q|[(x&Q)|Q]].
    - pose proof (life_rank p u n h b k Hr Hp (past_tail _ _ _ Hx)) as Hrk. rewrite Hl, Q in Hrk. cbn in Hrk. lia.
    - destruct (life_done _ _ _ Q) as [b' Hb]. eauto 10.
    - destruct (life_left _ _ Q) as [b' Hb]. eauto 10. }
  destruct Hlv as (r&b'&Hb'&Hr').
  destruct (occurs_or _ _ _ _ _ Hb' Hx) as [[? _]|[Hin|Hin]]; [done| |].
  - assert (r = Some XUnwind) as ->. { assert (Hlh : occurs (hist p u n) (EvLeave k r) b') by exact (past_occurs _ _ _ _ Hp Hb'). apply (leave_unw p u n k r b' Hr Hlh). by exists o, b. }
    destruct Hb' as [l1 ->], Hin as [l2 ->]. eauto.
  - exfalso. assert (rank (life k (EvLeave k r :: b')) <= rank (life k b)) as Hrk by (apply (life_rank p u n b _ k Hr (past_tail _ _ _ Hxh)); done).
    rewrite Hl in Hrk. destruct Hr' as [->|[[x|] ->]]; cbn in Hrk; rewrite decide_True in Hrk by done; cbn in Hrk; lia.
Qed.

End fcpp.
