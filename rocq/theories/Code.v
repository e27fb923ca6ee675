(** Code.v -- what single operations of the model do to the whole state of the machine,
    from any state whatever (reachable or not). *)
From stdpp Require Import prelude gmap.
From Coq Require Import NArith Lia.
From Verif Require Import Base Model Mono Blind.

Section code.
Context {env : Env} {comp : Compiler}.

(** [after_op s o m r k]: the state in which user code goes on as [k (ROk r)] after
    operation [o], with memory [m] (but for the history) and everything else as in [s]. *)
Definition after_op (s : cstate) (o : op) (m : mem) (r : ans) (k : resp -> strat) : cstate :=
  CState (log (EvRet (c_cur s) (NOp o) r) (log (EvCall (c_cur s) (NOp o)) m)) (c_fib s) (c_unw s) (c_cur s) (FStrat (k (ROk r))) (c_stack s).

Lemma run_do {A} s o k (f : M A) (g : A -> ans) : c_focus s = FStrat (SDo o k) -> api o = LDo f (fun x => LRet (RVAns (g x))) ->
  forall x m', f (log (EvCall (c_cur s) (NOp o)) (c_mem s)) = MOk x m' ->
  crun 4 s = CNext (CState (log (EvRet (c_cur s) (NOp o) (g x)) m') (c_fib s) (c_unw s) (c_cur s) (FStrat (k (ROk (g x)))) (c_stack s)).
Proof. destruct s as [m fib unw cur fc K]. cbn. intros -> -> x m' E. cbn. by rewrite E. Qed.

(** operator bool and operator! of the same object in the same memory. *)
Lemma not_bool o m : coro_not o m =
  match coro_bool o m with MOk v m' => MOk (negb v) m' | MThrow e m' => MThrow e m' | MUB r => MUB r | MTerm m' => MTerm m' end.
Proof.
  unfold coro_not, coro_bool, pull_not, pull_bool, push_not, push_bool. unfold mb, mret.
  destruct (h_side o), (h_ep o) as [e|]; done.
Qed.

Lemma move_run s y k ob : c_focus s = FStrat (SDo (OMoveCtor y) k) -> m_h (c_mem s) !! y = Some ob ->
  let m := c_mem s in
  crun 4 s = CNext (after_op s (OMoveCtor y)
    (set_nh (S (m_nh m)) (set_h (<[ y := HObj (h_side ob) (h_kind ob) None ]> (<[ m_nh m := ob ]> (m_h m))) m)) (AH (m_nh m)) k).
Proof.
  intros Hf Hy m. erewrite (run_do s _ k _ _ Hf eq_refl).
  2:{ unfold coro_move, mb, get_h. cbn. rewrite Hy. cbn. reflexivity. }
  unfold after_op. destruct s as [[] ? ? ? ? ?], ob; done.
Qed.

Lemma assign_run s x y k o1 o2 : c_focus s = FStrat (SDo (OMoveAssign x y) k) ->
  m_h (c_mem s) !! x = Some o1 -> m_h (c_mem s) !! y = Some o2 -> h_side o1 = h_side o2 -> h_kind o1 = h_kind o2 ->
  let m := c_mem s in
  crun 4 s = CNext (after_op s (OMoveAssign x y) (set_h (<[ y := o1 ]> (<[ x := o2 ]> (m_h m))) m) AUnit k).
Proof.
  intros Hf Hx Hy Hs Hk m. destruct o1 as [sd kd e1], o2 as [sd2 kd2 e2]. cbn in Hs, Hk. subst sd2 kd2.
  destruct (decide (x = y)) as [->|Hne].
  - assert (e2 = e1) as -> by congruence. rewrite insert_insert, insert_id by done.
    erewrite (run_do s _ k _ _ Hf eq_refl).
    2:{ unfold coro_assign, mb, get_h. cbn. rewrite !Hx. cbn. rewrite !bool_decide_true by done. cbn.
        instantiate (1 := log (EvCall (c_cur s) (NOp (OMoveAssign y y))) (c_mem s)). instantiate (1 := tt).
        rewrite Hx. cbn. rewrite !bool_decide_true by done. cbn. destruct sd; cbn; [|done]. unfold put_h. cbn. f_equal.
        unfold set_h, log. cbn. f_equal. by rewrite insert_insert, insert_id. }
    unfold after_op. destruct s as [[] ? ? ? ? ?]; done.
  - erewrite (run_do s _ k _ _ Hf eq_refl).
    2:{ unfold coro_assign, mb, get_h. cbn. rewrite Hx. cbn. rewrite Hy. cbn. rewrite (bool_decide_true (sd = sd)), (bool_decide_true (kd = kd)) by done. cbn.
        replace (match sd with Pull => false | Push => bool_decide (x = y) end) with false by (destruct sd; by rewrite ?bool_decide_false).
        reflexivity. }
    unfold after_op. destruct s as [[] ? ? ? ? ?]; done.
Qed.

Lemma destroy_empty_run s y k sd kd : c_focus s = FStrat (SDo (ODestroy y) k) -> m_h (c_mem s) !! y = Some (HObj sd kd None) ->
  crun 4 s = CNext (after_op s (ODestroy y) (set_h (delete y (m_h (c_mem s))) (c_mem s)) AUnit k).
Proof.
  destruct s as [[] fib unw cur fc K]. cbn. intros -> Hy. cbn. unfold mb, get_h. cbn. rewrite Hy. cbn. done.
Qed.

(** Destroying an object through which a coroutine sees its other side. *)
Lemma destroy_inner_run s y k sd kd e b : c_focus s = FStrat (SDo (ODestroy y) k) -> m_h (c_mem s) !! y = Some (HObj sd kd (Some e)) ->
  m_cbs (c_mem s) !! e = Some b -> cb_alive b = true -> cb_state b = st_none ->
  crun 5 s = CNext (after_op s (ODestroy y) (set_h (delete y (m_h (c_mem s))) (c_mem s)) AUnit k).
Proof.
  destruct s as [[] fib unw cur fc K]. cbn. intros -> Hy Hb Ha Hs. cbn. unfold mb, get_h. cbn. rewrite Hy. cbn.
  unfold get_cb. cbn. rewrite Hb, Ha. cbn. by rewrite Hs.
Qed.

(** The history does not influence behaviour: the run from a state with another history
    differs in nothing but the history. *)
Lemma same_future p u n s st N : crun n (cinit p u) = CNext s ->
  exists r, forall l, crun N (went_on s st l) = older_c (l ++ m_tr (c_mem s)) r.
Proof.
  intros H. apply reach_blind in H. destruct s as [[] fib unw cur fc K]. cbn.
  exists (crun N (CState (Mem m_cbs m_h m_stk m_user m_nh m_nk []) fib unw cur (FStrat st) K)). intros l.
  rewrite <- crun_blind; [done|]. destruct H as [H1 H2 H3]. by split.
Qed.

End code.
