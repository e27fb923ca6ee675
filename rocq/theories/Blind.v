(** Blind.v -- the code never reads the history: a run continued from a state with a
    longer past does the same as from that state with a shorter past.  Holds in every
    state the model can reach, with no precondition. *)
From stdpp Require Import prelude gmap.
From Coq Require Import NArith Lia.
From Verif Require Import Base Model Mono.

Section blind.
Context {env : Env} {comp : Compiler}.

(** The same memory, with [t] recorded before everything recorded so far. *)
Definition older (t : list event) (m : mem) : mem :=
  Mem (m_cbs m) (m_h m) (m_stk m) (m_user m) (m_nh m) (m_nk m) (m_tr m ++ t).
Definition older_r {A} (t : list event) (r : mres A) : mres A :=
  match r with MOk a m => MOk a (older t m) | MThrow e m => MThrow e (older t m) | MUB r => MUB r | MTerm m => MTerm (older t m) end.
Definition older_s (t : list event) (s : cstate) : cstate :=
  CState (older t (c_mem s)) (c_fib s) (c_unw s) (c_cur s) (c_focus s) (c_stack s).
Definition older_c (t : list event) (r : cres) : cres :=
  match r with CNext s => CNext (older_s t s) | CHalt o m => CHalt o (older t m) end.

Definition mblind {A} (x : M A) : Prop := forall t m, x (older t m) = older_r t (x m).

Lemma mm_ret {A} (a : A) : mblind (mret a). Proof. done. Qed.
Lemma mm_b {A B} (x : M A) (f : A -> M B) : mblind x -> (forall a, mblind (f a)) -> mblind (mb x f).
Proof. intros Hx Hf t m. unfold mb. rewrite Hx. destruct (x m); cbn; try done. apply Hf. Qed.
Lemma mm_ub {A} r : mblind (A := A) (mub r). Proof. done. Qed.
Lemma mm_throw {A} e : mblind (A := A) (mthrow e). Proof. done. Qed.
Lemma mm_term {A} : mblind (A := A) mterm. Proof. done. Qed.
Lemma mm_log e : mblind (mlog e). Proof. done. Qed.
Lemma mm_get_cb e : mblind (get_cb e).
Proof. intros t m. unfold get_cb. cbn. destruct (m_cbs m !! e) as [b|]; [|done]. by destruct (cb_alive b). Qed.
Lemma mm_put_cb e b : mblind (put_cb e b). Proof. done. Qed.
Lemma mm_nonnull {A} (o : option A) : mblind (nonnull o). Proof. by destruct o. Qed.
Lemma mm_raw e f : mblind (or_state_raw e f).
Proof. intros t m. unfold or_state_raw. cbn. by destruct (m_cbs m !! e). Qed.
Lemma mm_get_h h : mblind (get_h h).
Proof. intros t m. unfold get_h. cbn. by destruct (m_h m !! h). Qed.
Lemma mm_put_h h o : mblind (put_h h o). Proof. done. Qed.
Lemma mm_del_h h : mblind (del_h h). Proof. done. Qed.
Lemma mm_fresh_h : mblind fresh_h. Proof. done. Qed.
Lemma mm_check b r : mblind (check b r). Proof. by destruct b. Qed.
Lemma mm_load l : mblind (user_load l).
Proof. intros t m. unfold user_load. cbn. by destruct (m_user m !! l). Qed.
Lemma mm_store l v : mblind (user_store l v). Proof. done. Qed.
Lemma mm_drop e : mblind (drop_cb e). Proof. done. Qed.
Lemma mm_alloc np : mblind (salloc_allocate np).
Proof. intros t m. unfold salloc_allocate. by destruct (np_alloc np). Qed.

#[local] Hint Resolve mm_ret mm_ub mm_throw mm_term mm_log mm_get_cb mm_put_cb mm_nonnull mm_raw mm_get_h mm_put_h
  mm_del_h mm_fresh_h mm_check mm_load mm_store mm_drop mm_alloc : mm.

Ltac mm := repeat first [ apply mm_b; [|intros ?] | solve [auto with mm] | case_match ].

Lemma mm_take_c e : mblind (take_c e). Proof. unfold take_c. mm. Qed.
Lemma mm_swap_c e f : mblind (swap_c e f). Proof. unfold swap_c. mm. Qed.
Lemma mm_or e f : mblind (or_state e f). Proof. unfold or_state. mm. Qed.
Lemma mm_deref sd h : mblind (deref_h sd h). Proof. unfold deref_h. mm. Qed.
Lemma mm_destroy_T e : mblind (destroy_T e). Proof. unfold destroy_T. mm. Qed.
Lemma mm_construct lv a : mblind (construct_T lv a). Proof. unfold construct_T. mm. Qed.
#[local] Hint Resolve mm_take_c mm_swap_c mm_or mm_deref mm_destroy_T mm_construct : mm.
Lemma mm_set kd e lv a : mblind (pull_cb_set kd e lv a). Proof. unfold pull_cb_set. mm. Qed.
Lemma mm_pvalid kd e : mblind (pull_cb_valid kd e). Proof. unfold pull_cb_valid. mm. Qed.
Lemma mm_qvalid kd e : mblind (push_cb_valid kd e). Proof. unfold push_cb_valid. mm. Qed.
Lemma mm_pget kd e : mblind (pull_get kd e). Proof. unfold pull_get. mm. Qed.
Lemma mm_pderef kd e : mblind (pull_deref kd e). Proof. unfold pull_deref. mm. Qed.
Lemma mm_other e : mblind (other_of e). Proof. unfold other_of. mm. Qed.
Lemma mm_set_other e : mblind (set_other e). Proof. unfold set_other. mm. Qed.
Lemma mm_capture np : mblind (capture_fn np). Proof. unfold capture_fn. mm. Qed.
#[local] Hint Resolve mm_set mm_pvalid mm_qvalid mm_pget mm_pderef mm_other mm_set_other mm_capture : mm.
Lemma mm_bool o : mblind (coro_bool o). Proof. unfold coro_bool, pull_bool, push_bool. mm. Qed.
Lemma mm_pbool o : mblind (pull_bool o). Proof. unfold pull_bool. mm. Qed.
Lemma mm_not o : mblind (coro_not o). Proof. unfold coro_not, pull_not, push_not. mm. Qed.
Lemma mm_pnot o : mblind (pull_not o). Proof. unfold pull_not. mm. Qed.
Lemma mm_qnot o : mblind (push_not o). Proof. unfold push_not. mm. Qed.
Lemma mm_move h : mblind (coro_move h). Proof. unfold coro_move. mm. Qed.
Lemma mm_assign h1 h2 : mblind (coro_assign h1 h2). Proof. unfold coro_assign. mm. Qed.
#[local] Hint Resolve mm_bool mm_pbool mm_not mm_pnot mm_qnot mm_move mm_assign : mm.
Lemma mm_fetch h : mblind (it_fetch h). Proof. unfold it_fetch. mm. Qed.
#[local] Hint Resolve mm_fetch : mm.

(** Code all of whose straight-line parts never read the history. *)
Fixpoint lblind (l : lcode) : Prop :=
  match l with
  | LDo m k => mblind m /\ forall a, lblind (k a)
  | LMkFiber _ entry k => (forall f, lblind (entry f)) /\ lblind k
  | LResume _ k => forall f, lblind (k f)
  | LKill _ k => lblind k
  | LFn _ _ => True
  | LTry b h k => lblind b /\ (forall x, lblind (h x)) /\ lblind k
  | LScope d b => lblind d /\ lblind b
  | LRet _ => True
  | LThrow _ => True
  end.

Definition fblind (f : frame) : Prop :=
  match f with
  | KTry h k => (forall x, lblind (h x)) /\ lblind k
  | KThen k => lblind k
  | KScope d => lblind d
  | KResume k => forall f, lblind (k f)
  | KUnwind k => lblind k
  | _ => True
  end.

Record sblind (s : cstate) : Prop := {
  sm_fib : forall n K, c_fib s !! n = Some K -> Forall fblind K;
  sm_foc : match c_focus s with FCode l => lblind l | _ => True end;
  sm_K : Forall fblind (c_stack s) }.

Ltac lm := repeat (cbn; first [ exact I | assumption | solve [mm] | match goal with |- _ /\ _ => split | |- forall _, _ => intro end | case_match ]).

Lemma lm_dealloc sd kd e k : lblind k -> lblind (cb_deallocate sd kd e k).
Proof. intros. unfold cb_deallocate, cb_destroy, cb_dtor. lm. Qed.
Lemma lm_coro_dtor h k : lblind k -> lblind (coro_dtor h k).
Proof.
  intros. unfold coro_dtor. cbn. split; [mm|]. intros o. destruct (h_ep o); [|done]. by apply lm_dealloc.
Qed.
Lemma lm_synth_dtor k h : lblind (synth_dtor k h).
Proof. unfold synth_dtor. split; [mm|intros _]. by apply lm_coro_dtor. Qed.
Lemma lm_run k h fn l : lblind l -> lblind (run_fn k h fn l).
Proof. intros. unfold run_fn, fn_handler. lm. Qed.
Lemma lm_tail_r k : lblind (tail_return k).
Proof. unfold tail_return. lm. Qed.
Lemma lm_tail_a k : lblind (tail_assign k).
Proof. unfold tail_assign, fiber_assign. lm. Qed.
Lemma lm_resume e k : lblind k -> lblind (resume_assign e k).
Proof. intros. unfold resume_assign, fiber_assign. lm. Qed.
Lemma lm_pull_resume e k : lblind k -> lblind (pull_cb_resume e k).
Proof. intros. unfold pull_cb_resume, rethrow_if. apply lm_resume. lm. Qed.
Lemma lm_push_resume kd e lv a k : lblind k -> lblind (push_cb_resume kd e lv a k).
Proof.
  intros. unfold push_cb_resume, rethrow_if.
  destruct kd; [split; [mm|intros _]..|]; apply lm_resume; lm.
Qed.
Lemma lm_scd sd kd e : lblind (synth_cb_dtor sd kd e).
Proof. unfold synth_cb_dtor, cb_dtor. lm. Qed.
Lemma lm_new sd kd np fn : lblind (new_coro sd kd np fn).
Proof.
  destruct sd; unfold new_coro, new_pull, new_push, pull_entry, push_entry, fiber_assign.
  - split; [mm|intros h]. split; [mm|intros k]. split; [mm|intros _]. split.
    + intros f. split; [mm|]. intros _. split; [apply lm_scd|]. split; [mm|]. intros s. split; [apply lm_synth_dtor|].
      split; [mm|]. intros _. apply lm_run, lm_tail_r.
    + split; [mm|intros _]. split; [|split].
      * lm.
      * unfold ctor_cleanup. lm.
      * split; [mm|]. intros []; [lm|]. apply lm_dealloc. lm.
  - split; [mm|intros h]. split; [mm|intros k]. split; [mm|intros _]. split.
    + intros f. split; [mm|]. intros _. split; [apply lm_scd|]. split; [mm|]. intros s. split; [apply lm_synth_dtor|].
      split; [mm|]. intros _. split; [mm|]. intros f0 r. split; [mm|]. intros o. split; [mm|]. intros old. apply lm_run.
      unfold push_tail. repeat case_match; auto using lm_tail_a, lm_tail_r.
    + split; [mm|intros _]. split; [|split].
      * lm.
      * unfold ctor_cleanup. lm.
      * lm.
Qed.
Lemma lm_api o : lblind (api o).
Proof.
  destruct o as [h|h1 h2|h|h|h a|h|h|h|h| |[h|]|[h|]|i j|i j|h| |[h|] a|v|n|l|l v]; unfold api; try solve [lm].
  all: split; [mm|]; intros p; apply lm_push_resume; lm.
Qed.

Lemma fm_insert (fib : gmap nat (list frame)) g K : Forall fblind K -> (forall n K, fib !! n = Some K -> Forall fblind K) ->
  forall n K', <[g := K]> fib !! n = Some K' -> Forall fblind K'.
Proof. intros H H' n K'. rewrite lookup_insert_Some. intros [[<- <-]|[_ ?]]; eauto. Qed.
Lemma fm_delete (fib : gmap nat (list frame)) g : (forall n K, fib !! n = Some K -> Forall fblind K) ->
  forall n K', delete g fib !! n = Some K' -> Forall fblind K'.
Proof. intros H' n K'. rewrite lookup_delete_Some. intros [_ ?]. eauto. Qed.

Lemma fiber_exit_blind t n g m fib unw : fiber_exit n g (older t m) fib unw = older_c t (fiber_exit n g m fib unw).
Proof.
  unfold fiber_exit. cbn. destruct (decide _); [|done].
  destruct (fib !! g) as [[|[] K]|] eqn:E; done.
Qed.

Lemma fiber_exit_ok n g m fib unw : (forall n K, fib !! n = Some K -> Forall fblind K) ->
  match fiber_exit n g m fib unw with CNext s' => sblind s' | _ => True end.
Proof.
  intros Hf. unfold fiber_exit. destruct (decide _); [|done].
  destruct (fib !! g) as [[|[] K]|] eqn:E; try done; pose proof (Hf _ _ E) as HK; inversion HK; subst; cbn in *;
    (split; cbn; eauto using fm_delete).
Qed.

Lemma step_ok s : sblind s -> match step s with CNext s' => sblind s' | _ => True end.
Proof.
  intros [Hf Hc HK]. destruct s as [m fib unw cur fc K]. cbn in *.
  destruct fc as [st|l|r|x].
  - destruct st as [|x|o k|sd kd np fn k|st].
    + destruct K as [|[]]; try done. inversion HK; subst. by split; cbn.
    + destruct K as [|[]]; try done; [|by destruct x]. inversion HK; subst. by split; cbn.
    + split; cbn; eauto using lm_api.
    + split; cbn; eauto using lm_new.
    + by split; cbn.
  - destruct l as [A f k|n en k|f k|f k|n st|b h k|d b|r|x]; cbn in Hc.
    + destruct Hc as [_ Hk]. destruct (f m); try done; (split; cbn; eauto).
    + destruct Hc as [Hen Hk]. split; cbn; eauto. apply fm_insert; [|done]. by repeat constructor.
    + destruct f as [g|]; [|done]. destruct (fib !! g) as [[|[] K']|] eqn:E; try done.
      pose proof (Hf _ _ E) as HK'; inversion HK'; subst.
      split; cbn; eauto. apply fm_insert; [by constructor|]. by apply fm_delete.
    + destruct f as [g|]; [|by split]. destruct (fib !! g) as [[|[] K']|] eqn:E; try done.
      pose proof (Hf _ _ E) as HK'; inversion HK'; subst.
      split; cbn; eauto. apply fm_insert; [by constructor|]. by apply fm_delete.
    + split; cbn; eauto; try (by constructor).
    + destruct Hc as (?&?&?). split; cbn; eauto; try (by constructor).
    + destruct Hc as (?&?). split; cbn; eauto; try (by constructor).
    + split; cbn; eauto; try (by constructor).
    + split; cbn; eauto; try (by constructor).
  - destruct K as [|f K]; [done|]. apply Forall_cons in HK as [Hf0 HK].
    destruct f; cbn in *; try done.
    all: try (destruct Hf0; split; cbn; eauto; by constructor).
    all: try (split; cbn; eauto; by constructor).
    + destruct r; try done.
    + destruct r0; (split; cbn; eauto).
    + destruct r as [| |[g|]]; try done. by apply fiber_exit_ok.
  - destruct K as [|f K]; [done|]. apply Forall_cons in HK as [Hf0 HK].
    destruct f; cbn in *; try done.
    all: try (destruct Hf0; split; cbn; eauto; by constructor).
    all: try (split; cbn; eauto; by constructor).
    destruct x; [done|]. destruct (unw !! n); [|done]. by apply fiber_exit_ok.
Qed.

Lemma step_blind t s : sblind s -> step (older_s t s) = older_c t (step s).
Proof.
  intros [_ Hc _]. destruct s as [m fib unw cur fc K]. cbn in *.
  destruct fc as [st|l|r|x].
  - destruct st as [|x|o k|sd kd np fn k|st]; try done; destruct K as [|[]]; try done. by destruct x.
  - destruct l as [A f k|n en k|f k|f k|n st|b h k|d b|r|x]; cbn in Hc; try done.
    + destruct Hc as [Hm _]. rewrite Hm. by destruct (f m).
    + destruct f as [g|]; [|done]. by destruct (fib !! g) as [[|[] K']|].
    + destruct f as [g|]; [|done]. by destruct (fib !! g) as [[|[] K']|].
  - destruct K as [|f K]; [done|]. destruct f; cbn; try done.
    + by destruct r.
    + by destruct r0.
    + destruct r as [| |[g|]]; try done. apply fiber_exit_blind.
  - destruct K as [|f K]; [done|]. destruct f; cbn; try done.
    destruct x; [done|]. destruct (unw !! n); [|done]. apply fiber_exit_blind.
Qed.

Theorem crun_blind t n s : sblind s -> crun n (older_s t s) = older_c t (crun n s).
Proof.
  revert s. induction n as [|n IH]; intros s Hs; [done|].
  cbn [crun]. rewrite step_blind by done. pose proof (step_ok s Hs) as Hok. destruct (step s); [by apply IH|done].
Qed.

Lemma cinit_blind p u : sblind (cinit p u).
Proof. split; cbn; [|done|by repeat constructor]. intros n K. by rewrite lookup_empty. Qed.

Lemma crun_ok n s : sblind s -> match crun n s with CNext s' => sblind s' | _ => True end.
Proof.
  revert s. induction n as [|n IH]; intros s Hs; cbn; [done|].
  pose proof (step_ok s Hs) as Hok. destruct (step s); [by apply IH|done].
Qed.
Lemma reach_blind p u n s : crun n (cinit p u) = CNext s -> sblind s.
Proof. intros H. pose proof (crun_ok n _ (cinit_blind p u)) as Hs. by rewrite H in Hs. Qed.

(** ** Code that only reads *)
Definition mro {A} (x : M A) : Prop := forall m, match x m with MOk _ m' => m' = m | MUB _ => True | _ => False end.
Lemma ro_ret {A} (a : A) : mro (mret a). Proof. done. Qed.
Lemma ro_b {A B} (x : M A) (f : A -> M B) : mro x -> (forall a, mro (f a)) -> mro (mb x f).
Proof. intros Hx Hf m. unfold mb. specialize (Hx m). destruct (x m); try done. subst. apply Hf. Qed.
Lemma ro_ub {A} r : mro (A := A) (mub r). Proof. done. Qed.
Lemma ro_get_cb e : mro (get_cb e).
Proof. intros m. unfold get_cb. destruct (m_cbs m !! e) as [b|]; [|done]. by destruct (cb_alive b). Qed.
Lemma ro_nonnull {A} (o : option A) : mro (nonnull o). Proof. by destruct o. Qed.
Lemma ro_get_h h : mro (get_h h).
Proof. intros m. unfold get_h. by destruct (m_h m !! h). Qed.
Lemma ro_check b r : mro (check b r). Proof. by destruct b. Qed.

(** The observers. *)
Definition observer (o : op) : bool :=
  match o with
  | OBool _ | ONot _ | OBegin _ | OEnd | OItDeref _ | OItEq _ _ | OItNe _ _ | OOutBegin _ | OOutEnd => true
  | _ => false
  end.

#[local] Hint Resolve ro_ret ro_ub ro_get_cb ro_nonnull ro_get_h ro_check : ro.
Ltac ro := repeat first [ apply ro_b; [|intros ?] | solve [auto with ro] | case_match ].

Definition lro (l : lcode) : Prop :=
  (exists a, l = LRet (RVAns a)) \/
  exists A (m : M A) k, l = LDo m k /\ mro m /\ ((exists r, forall m', m m' = MUB r) \/ forall a, exists r, k a = LRet (RVAns r)).
Lemma lro_do {A} (m : M A) (f : A -> ans) : mro m -> lro (LDo m (fun a => LRet (RVAns (f a)))).
Proof. intros. right. exists A, m, (fun a => LRet (RVAns (f a))). split; [done|]. split; [done|]. right. eauto. Qed.

Lemma observer_ro o : observer o = true -> lro (api o).
Proof.
  destruct o as [h|h1 h2|h|h|h a|h|h|h|h| |i|[h|]|i j|i j|h| |[h|] a|v|n|l|l v]; intros E; try done; cbn; try (left; by eexists).
  - apply lro_do. unfold coro_bool, pull_bool, push_bool, pull_cb_valid, push_cb_valid. ro.
  - apply lro_do. unfold coro_not, pull_not, push_not, pull_cb_valid, push_cb_valid. ro.
  - apply lro_do. unfold it_fetch, pull_not, pull_cb_valid. ro.
  - apply (lro_do _ id). unfold deref_h, pull_deref. ro.
  - right. eexists _, _, _. split; [done|]. split; [done|]. left. by eexists.
  - apply (lro_do _ (fun _ => AIt (Some h))). ro.
Qed.

(** The same state as [s], with user code going on as [st] and [l] recorded. *)
Definition went_on (s : cstate) (st : strat) (l : list event) : cstate :=
  let m := c_mem s in
  CState (Mem (m_cbs m) (m_h m) (m_stk m) (m_user m) (m_nh m) (m_nk m) (l ++ m_tr m)) (c_fib s) (c_unw s) (c_cur s) (FStrat st) (c_stack s).

Theorem observer_run s o k : c_focus s = FStrat (SDo o k) -> observer o = true ->
  (exists n r m, crun n s = CHalt (Undefined r) m) \/
  (exists n a, crun (S n) s = CNext (went_on s (k (ROk a)) [EvRet (c_cur s) (NOp o) a; EvCall (c_cur s) (NOp o)])).
Proof.
  intros Hf Ho. destruct s as [m fib unw cur fc K]. cbn in Hf. subst fc.
  destruct (observer_ro o Ho) as [[a Ha]|(A&f&g&Hl&Hro&Hg)].
  - right. exists 2, a. cbn. rewrite Ha. done.
  - specialize (Hro (log (EvCall cur (NOp o)) m)). destruct (f (log (EvCall cur (NOp o)) m)) as [x m'| |r|] eqn:E; try done.
    + subst m'. destruct Hg as [[r Hr]|Hg]; [by rewrite Hr in E|]. destruct (Hg x) as [a Ha].
      right. exists 3, a. cbn. rewrite Hl. cbn. rewrite E. rewrite Ha. done.
    + left. exists 2, r, (log (EvCall cur (NOp o)) m). cbn. rewrite Hl. cbn. by rewrite E.
Qed.

End blind.
