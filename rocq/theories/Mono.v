(** Mono.v -- whatever a program does, the model only appends to the history and
    never reuses a number of a coroutine or of an object.  No precondition. *)
From stdpp Require Import prelude gmap.
From Coq Require Import NArith Lia.
From Verif Require Import Base Model.

Section mono.
Context {env : Env} {comp : Compiler}.

(** [m'] is a later memory than [m]. *)
Record ext (m m' : mem) : Prop := {
  ext_tr : exists l, m_tr m' = l ++ m_tr m;
  ext_nh : m_nh m <= m_nh m';
  ext_nk : m_nk m <= m_nk m' }.

Lemma ext_refl m : ext m m.
Proof. split; [by exists []|lia|lia]. Qed.
Lemma ext_trans m1 m2 m3 : ext m1 m2 -> ext m2 m3 -> ext m1 m3.
Proof.
  intros [[l H1] ??] [[l' H2] ??]. split; [|lia|lia]. exists (l' ++ l). by rewrite H2, H1, app_assoc.
Qed.
Lemma ext_log e m m' : ext m m' -> ext m (log e m').
Proof. intros [[l H1] ??]. split; [|done|done]. exists (e :: l). cbn. by rewrite H1. Qed.

Definition mext {A} (m : mem) (r : mres A) : Prop :=
  match r with MOk _ m' | MThrow _ m' | MTerm m' => ext m m' | MUB _ => True end.
Definition mmono {A} (x : M A) : Prop := forall m, mext m (x m).

Lemma mm_ret {A} (a : A) : mmono (mret a).
Proof. intros m. apply ext_refl. Qed.
Lemma mm_b {A B} (x : M A) (f : A -> M B) : mmono x -> (forall a, mmono (f a)) -> mmono (mb x f).
Proof.
  intros Hx Hf m. unfold mb. specialize (Hx m). destruct (x m) as [a m'| | |]; try done.
  specialize (Hf a m'). destruct (f a m'); cbn in *; try done; by eapply ext_trans.
Qed.
Lemma mm_ub {A} r : mmono (A := A) (mub r). Proof. done. Qed.
Lemma mm_throw {A} e : mmono (A := A) (mthrow e). Proof. intros m. apply ext_refl. Qed.
Lemma mm_term {A} : mmono (A := A) mterm. Proof. intros m. apply ext_refl. Qed.
Lemma mm_log e : mmono (mlog e). Proof. intros m. apply ext_log, ext_refl. Qed.
Lemma mm_get_cb e : mmono (get_cb e).
Proof. intros m. unfold get_cb. destruct (m_cbs m !! e) as [b|]; [|done]. destruct (cb_alive b); [apply ext_refl|done]. Qed.
Lemma ext_same m m' : m_tr m' = m_tr m -> m_nh m' = m_nh m -> m_nk m' = m_nk m -> ext m m'.
Proof. intros H1 H2 H3. split; [exists []; by rewrite H1|lia|lia]. Qed.
Lemma mm_put_cb e b : mmono (put_cb e b). Proof. intros m. by apply ext_same. Qed.
Lemma mm_nonnull {A} (o : option A) : mmono (nonnull o).
Proof. destruct o; [apply mm_ret|done]. Qed.
Lemma mm_raw e f : mmono (or_state_raw e f).
Proof. intros m. unfold or_state_raw. destruct (m_cbs m !! e); [|done]. by apply ext_same. Qed.
Lemma mm_get_h h : mmono (get_h h).
Proof. intros m. unfold get_h. destruct (m_h m !! h); [|done]. apply ext_refl. Qed.
Lemma mm_put_h h o : mmono (put_h h o). Proof. intros m. by apply ext_same. Qed.
Lemma mm_del_h h : mmono (del_h h). Proof. intros m. by apply ext_same. Qed.
Lemma mm_fresh_h : mmono fresh_h. Proof. intros m. split; cbn; [by exists []|lia|lia]. Qed.
Lemma mm_check b r : mmono (check b r). Proof. destruct b; [apply mm_ret|done]. Qed.
Lemma mm_load l : mmono (user_load l).
Proof. intros m. unfold user_load. destruct (m_user m !! l); [|done]. apply ext_refl. Qed.
Lemma mm_store l v : mmono (user_store l v). Proof. intros m. by apply ext_same. Qed.
Lemma mm_drop e : mmono (drop_cb e). Proof. intros m. by apply ext_same. Qed.
Lemma mm_alloc np : mmono (salloc_allocate np).
Proof.
  intros m. unfold salloc_allocate. destruct (np_alloc np); cbn; [apply ext_refl|].
  split; cbn; [by exists [EvAlloc (m_nk m)]|lia|lia].
Qed.

#[local] Hint Resolve mm_ret mm_ub mm_throw mm_term mm_log mm_get_cb mm_put_cb mm_nonnull mm_raw mm_get_h mm_put_h
  mm_del_h mm_fresh_h mm_check mm_load mm_store mm_drop mm_alloc : mm.

Ltac mm := repeat first [ apply mm_b; [|intros ?] | solve [auto with mm] | case_match ].

Lemma mm_take_c e : mmono (take_c e). Proof. unfold take_c. mm. Qed.
Lemma mm_swap_c e f : mmono (swap_c e f). Proof. unfold swap_c. mm. Qed.
Lemma mm_or e f : mmono (or_state e f). Proof. unfold or_state. mm. Qed.
Lemma mm_deref sd h : mmono (deref_h sd h). Proof. unfold deref_h. mm. Qed.
Lemma mm_destroy_T e : mmono (destroy_T e). Proof. unfold destroy_T. mm. Qed.
Lemma mm_construct lv a : mmono (construct_T lv a). Proof. unfold construct_T. mm. Qed.
#[local] Hint Resolve mm_take_c mm_swap_c mm_or mm_deref mm_destroy_T mm_construct : mm.
Lemma mm_set kd e lv a : mmono (pull_cb_set kd e lv a). Proof. unfold pull_cb_set. mm. Qed.
Lemma mm_pvalid kd e : mmono (pull_cb_valid kd e). Proof. unfold pull_cb_valid. mm. Qed.
Lemma mm_qvalid kd e : mmono (push_cb_valid kd e). Proof. unfold push_cb_valid. mm. Qed.
Lemma mm_pget kd e : mmono (pull_get kd e). Proof. unfold pull_get. mm. Qed.
Lemma mm_pderef kd e : mmono (pull_deref kd e). Proof. unfold pull_deref. mm. Qed.
Lemma mm_other e : mmono (other_of e). Proof. unfold other_of. mm. Qed.
Lemma mm_set_other e : mmono (set_other e). Proof. unfold set_other. mm. Qed.
Lemma mm_capture np : mmono (capture_fn np). Proof. unfold capture_fn. mm. Qed.
#[local] Hint Resolve mm_set mm_pvalid mm_qvalid mm_pget mm_pderef mm_other mm_set_other mm_capture : mm.
Lemma mm_bool o : mmono (coro_bool o). Proof. unfold coro_bool, pull_bool, push_bool. mm. Qed.
Lemma mm_pbool o : mmono (pull_bool o). Proof. unfold pull_bool. mm. Qed.
Lemma mm_not o : mmono (coro_not o). Proof. unfold coro_not, pull_not, push_not. mm. Qed.
Lemma mm_pnot o : mmono (pull_not o). Proof. unfold pull_not. mm. Qed.
Lemma mm_qnot o : mmono (push_not o). Proof. unfold push_not. mm. Qed.
Lemma mm_move h : mmono (coro_move h). Proof. unfold coro_move. mm. Qed.
Lemma mm_assign h1 h2 : mmono (coro_assign h1 h2). Proof. unfold coro_assign. mm. Qed.
#[local] Hint Resolve mm_bool mm_pbool mm_not mm_pnot mm_qnot mm_move mm_assign : mm.
Lemma mm_fetch h : mmono (it_fetch h). Proof. unfold it_fetch. mm. Qed.
#[local] Hint Resolve mm_fetch : mm.

(** Code all of whose straight-line parts are monotone. *)
Fixpoint lmono (l : lcode) : Prop :=
  match l with
  | LDo m k => mmono m /\ forall a, lmono (k a)
  | LMkFiber _ entry k => (forall f, lmono (entry f)) /\ lmono k
  | LResume _ k => forall f, lmono (k f)
  | LKill _ k => lmono k
  | LFn _ _ => True
  | LTry b h k => lmono b /\ (forall x, lmono (h x)) /\ lmono k
  | LScope d b => lmono d /\ lmono b
  | LRet _ => True
  | LThrow _ => True
  end.

Definition fmono (f : frame) : Prop :=
  match f with
  | KTry h k => (forall x, lmono (h x)) /\ lmono k
  | KThen k => lmono k
  | KScope d => lmono d
  | KResume k => forall f, lmono (k f)
  | KUnwind k => lmono k
  | _ => True
  end.

Record smono (s : cstate) : Prop := {
  sm_fib : forall n K, c_fib s !! n = Some K -> Forall fmono K;
  sm_foc : match c_focus s with FCode l => lmono l | _ => True end;
  sm_K : Forall fmono (c_stack s) }.

Ltac lm := repeat (cbn; first [ exact I | assumption | solve [mm] | match goal with |- _ /\ _ => split | |- forall _, _ => intro end | case_match ]).

Lemma lm_dealloc sd kd e k : lmono k -> lmono (cb_deallocate sd kd e k).
Proof. intros. unfold cb_deallocate, cb_destroy, cb_dtor. lm. Qed.
Lemma lm_coro_dtor h k : lmono k -> lmono (coro_dtor h k).
Proof.
  intros. unfold coro_dtor. cbn. split; [mm|]. intros o. destruct (h_ep o); [|done]. by apply lm_dealloc.
Qed.
Lemma lm_synth_dtor k h : lmono (synth_dtor k h).
Proof. unfold synth_dtor. split; [mm|intros _]. by apply lm_coro_dtor. Qed.
Lemma lm_run k h fn l : lmono l -> lmono (run_fn k h fn l).
Proof. intros. unfold run_fn, fn_handler. lm. Qed.
Lemma lm_tail_r k : lmono (tail_return k).
Proof. unfold tail_return. lm. Qed.
Lemma lm_tail_a k : lmono (tail_assign k).
Proof. unfold tail_assign, fiber_assign. lm. Qed.
Lemma lm_resume e k : lmono k -> lmono (resume_assign e k).
Proof. intros. unfold resume_assign, fiber_assign. lm. Qed.
Lemma lm_pull_resume e k : lmono k -> lmono (pull_cb_resume e k).
Proof. intros. unfold pull_cb_resume, rethrow_if. apply lm_resume. lm. Qed.
Lemma lm_push_resume kd e lv a k : lmono k -> lmono (push_cb_resume kd e lv a k).
Proof.
  intros. unfold push_cb_resume, rethrow_if.
  destruct kd; [split; [mm|intros _]..|]; apply lm_resume; lm.
Qed.
Lemma lm_scd sd kd e : lmono (synth_cb_dtor sd kd e).
Proof. unfold synth_cb_dtor, cb_dtor. lm. Qed.
Lemma lm_new sd kd np fn : lmono (new_coro sd kd np fn).
Proof.
  destruct sd; unfold new_coro, new_pull, new_push, pull_entry, push_entry, fiber_assign.
  - split; [mm|intros h]. split; [mm|intros k]. split; [mm|intros _]. split.
    + intros f. split; [mm|]. intros _. split; [apply lm_scd|]. split; [mm|]. intros s. split; [apply lm_synth_dtor|].
      split; [mm|]. intros _. apply lm_run, lm_tail_r.
    + split; [mm|intros _]. split; [|split].
      * lm.
      * unfold ctor_cleanup. lm.
      * split; [mm|]. intros []; [lm|]. apply lm_dealloc. lm.
  - split; [mm|intros h]. split; [mm|intros k]. split; [mm|intros _]. split.
    + intros f. split; [mm|]. intros _. split; [apply lm_scd|]. split; [mm|]. intros s. split; [apply lm_synth_dtor|].
      split; [mm|]. intros _. split; [mm|]. intros f0 r. split; [mm|]. intros o. split; [mm|]. intros old. apply lm_run.
      unfold push_tail. repeat case_match; auto using lm_tail_a, lm_tail_r.
    + split; [mm|intros _]. split; [|split].
      * lm.
      * unfold ctor_cleanup. lm.
      * lm.
Qed.
Lemma lm_api o : lmono (api o).
Proof.
  destruct o as [h|h1 h2|h|h|h a|h|h|h|h| |[h|]|[h|]|i j|i j|h| |[h|] a|v|n|l|l v]; unfold api; try solve [lm].
  all: split; [mm|]; intros p; apply lm_push_resume; lm.
Qed.

Lemma fm_insert (fib : gmap nat (list frame)) g K : Forall fmono K -> (forall n K, fib !! n = Some K -> Forall fmono K) ->
  forall n K', <[g := K]> fib !! n = Some K' -> Forall fmono K'.
Proof. intros H H' n K'. rewrite lookup_insert_Some. intros [[<- <-]|[_ ?]]; eauto. Qed.
Lemma fm_delete (fib : gmap nat (list frame)) g : (forall n K, fib !! n = Some K -> Forall fmono K) ->
  forall n K', delete g fib !! n = Some K' -> Forall fmono K'.
Proof. intros H' n K'. rewrite lookup_delete_Some. intros [_ ?]. eauto. Qed.

Lemma fiber_exit_mono n g m fib unw : (forall n K, fib !! n = Some K -> Forall fmono K) ->
  match fiber_exit n g m fib unw with
  | CNext s' => smono s' /\ ext m (c_mem s')
  | CHalt _ m' => ext m m'
  end.
Proof.
  intros Hf. unfold fiber_exit. destruct (decide _); [|apply ext_refl].
  assert (forall cb st, ext m (log (EvFree n) (set_stk st (set_cbs cb m)))) as He.
  { intros. apply ext_log. by apply ext_same. }
  destruct (fib !! g) as [[|[] K]|] eqn:E; try apply He; pose proof (Hf _ _ E) as HK; inversion HK; subst; cbn in *;
    (split; [split; cbn; eauto using fm_delete|apply He]).
Qed.

Lemma step_mono s : smono s ->
  match step s with
  | CNext s' => smono s' /\ ext (c_mem s) (c_mem s')
  | CHalt _ m' => ext (c_mem s) m'
  end.
Proof.
  intros [Hf Hc HK]. destruct s as [m fib unw cur fc K]. cbn in *.
  assert (He : forall e, ext m (log e m)) by (intros; apply ext_log, ext_refl).
  pose proof (ext_refl m) as Hr.
  destruct fc as [st|l|r|x].
  - destruct st as [|x|o k|sd kd np fn k|st].
    + destruct K as [|[]]; try done. inversion HK; subst. split; [split; cbn; done|apply He].
    + destruct K as [|[]]; try done; [|by destruct x]. inversion HK; subst. split; [split; cbn; done|apply He].
    + split; [split; cbn; eauto using lm_api|apply He].
    + split; [split; cbn; eauto using lm_new|apply He].
    + split; [split; cbn; done|done].
  - destruct l as [A f k|n en k|f k|f k|n st|b h k|d b|r|x]; cbn in Hc.
    + destruct Hc as [Hm Hk]. specialize (Hm m). destruct (f m); try done; (split; [split; cbn; eauto|done]).
    + destruct Hc as [Hen Hk]. split; [split; cbn; eauto; try (by constructor)|done]. apply fm_insert; [|done]. by repeat constructor.
    + destruct f as [g|]; [|done]. destruct (fib !! g) as [[|[] K']|] eqn:E; try done.
      pose proof (Hf _ _ E) as HK'; inversion HK'; subst.
      split; [split; cbn; eauto; try (by constructor)|done]. apply fm_insert; [by constructor|]. by apply fm_delete.
    + destruct f as [g|]; [|by split; [split|]]. destruct (fib !! g) as [[|[] K']|] eqn:E; try done.
      pose proof (Hf _ _ E) as HK'; inversion HK'; subst.
      split; [split; cbn; eauto; try (by constructor)|done]. apply fm_insert; [by constructor|]. by apply fm_delete.
    + split; [split; cbn; eauto; try (by constructor)|done].
    + destruct Hc as (?&?&?). split; [split; cbn; eauto; try (by constructor)|done].
    + destruct Hc as (?&?). split; [split; cbn; eauto; try (by constructor)|done].
    + split; [split; cbn; eauto; try (by constructor)|done].
    + split; [split; cbn; eauto; try (by constructor)|done].
  - destruct K as [|f K]; [done|]. apply Forall_cons in HK as [Hf0 HK].
    destruct f; cbn in *; try done.
    all: try (destruct Hf0; split; [split; cbn; eauto; try (by constructor)|done]).
    all: try (split; [split; cbn; eauto; try (by constructor)|done]).
    + destruct r; try done. split; [split; cbn; eauto|apply He].
    + destruct r0; (split; [split; cbn; eauto|done]).
    + destruct r as [| |[g|]]; try done. by apply fiber_exit_mono.
  - destruct K as [|f K]; [done|]. apply Forall_cons in HK as [Hf0 HK].
    destruct f; cbn in *; try done.
    all: try (destruct Hf0; split; [split; cbn; eauto; try (by constructor)|done]).
    all: try (split; [split; cbn; eauto; try (by constructor)|done]).
    destruct x; [done|]. destruct (unw !! n); [|done]. by apply fiber_exit_mono.
Qed.

Lemma cinit_mono p u : smono (cinit p u).
Proof. split; cbn; [|done|by repeat constructor]. intros n K. by rewrite lookup_empty. Qed.

Lemma crun_mono n s : smono s ->
  match crun n s with
  | CNext s' => smono s' /\ ext (c_mem s) (c_mem s')
  | CHalt _ m' => ext (c_mem s) m'
  end.
Proof.
  revert s. induction n as [|n IH]; intros s Hs; cbn; [split; [done|apply ext_refl]|].
  pose proof (step_mono s Hs) as Hst. destruct (step s) as [s'|o m]; [|done].
  destruct Hst as [Hs' He]. specialize (IH _ Hs'). destruct (crun n s') as [s2|o m].
  - destruct IH as [??]. split; [done|]. by eapply ext_trans.
  - by eapply ext_trans.
Qed.

Lemma crun_add n1 n2 s : crun (n1 + n2) s = match crun n1 s with CNext s' => crun n2 s' | CHalt o m => CHalt o m end.
Proof. revert s. induction n1 as [|n1 IH]; intros s; cbn; [done|]. destruct (step s); [apply IH|done]. Qed.

(** The history after more steps extends the history after fewer steps. *)
Lemma crun_le p u n1 n2 : n1 <= n2 -> ext (cres_mem (crun n1 (cinit p u))) (cres_mem (crun n2 (cinit p u))).
Proof.
  intros Hle. pose proof (crun_mono n1 _ (cinit_mono p u)) as H1.
  replace n2 with (n1 + (n2 - n1)) by lia. rewrite crun_add.
  destruct (crun n1 (cinit p u)) as [s'|o m]; [|apply ext_refl]. destruct H1 as [Hs _].
  pose proof (crun_mono (n2 - n1) _ Hs) as H2. destruct (crun (n2 - n1) s') as [s2|o m]; [apply H2|apply H2].
Qed.

End mono.
