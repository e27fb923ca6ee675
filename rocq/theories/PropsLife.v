(** PropsLife.v -- properties of the life of coroutines: C03, C10, C11, C12, C14, C15, C16,
    C17, C27, C37, C43.

    Vocabulary: Trace.v.  [controls], [hands], [starts_kill], [ended_in], [freed_in] are
    defined in FactsBack.v, [owner] and [made] in FactsObj.v, [unw] in FactsCall.v; all are
    functions of histories. *)
From stdpp Require Import prelude gmap.
From Coq Require Import Lia.
From Verif Require Import Base Model Spec InvSpec Main Trace Hist FactsVal Next Rules RulesProof FactsLife FactsSeq FactsBack FactsObj FactsCall FactsEnd Slot Turn Examples.

Section life.
Context {env : Env} {comp : Compiler}.

(** ** C03: eager pull construction, lazy push construction, single entry *)

(** The constructor of a pull object enters the function as the first thing after
    allocating its stack, unless copying the function object fails. *)
Theorem C03_pull_eager p u n c kd k b e : respects p u n -> occurs (hist p u n) e (EvAlloc k :: EvCall c (NNew Pull kd) :: b) ->
  (exists s, e = EvEnter k s) \/ (exists x, e = EvExn c (NNew Pull kd) (XUser x)).
Proof. intros Hr Ho. destruct (history_follows _ _ _ _ _ Hr Ho) as [?|?]; auto. Qed.

(** When it returns, the function of the coroutine it made has been entered. *)
Theorem C03_pull_entered p u n c kd r b : respects p u n -> occurs (hist p u n) (EvRet c (NNew Pull kd) r) b ->
  exists k s b', tgt c b = Some (Outer k) /\ occurs b (EvEnter k s) b'.
Proof.
  intros Hr Ho. destruct (ret_new_pull _ _ _ _ _ _ _ Hr Ho) as (k&x&b'&_&Ht&H).
  assert (Hb : past (hist p u n) b) by (by eapply past_tail, occurs_past).
  assert (past (hist p u n) b' /\ past b b' /\ (life k b' = PRun \/ exists x, life k b' = PDone x)) as (Hb'&Hbb&Hl).
  { destruct H as [[-> Hl]|(->&Hl&_)]; (split; [by eapply past_tail|]; split; [apply past_cons, past_refl|eauto]). }
  destruct (entered p u n k b' Hr Hb') as (s&b0&Hs); [destruct Hl; eauto|]. exists k, s, b0. split; [done|]. by eapply past_occurs.
Qed.

(** The constructor of a push object allocates a stack and returns: nothing else happens. *)
Theorem C03_push_lazy p u n c kd r b : respects p u n -> occurs (hist p u n) (EvRet c (NNew Push kd) r) b ->
  exists k x b', r = AH x /\ b = EvNew k x :: EvAlloc k :: EvCall c (NNew Push kd) :: b'.
Proof. apply ret_new_push. Qed.

(** The function of a push coroutine is entered directly after its owner was called with
    a value (and the value was put into the slot), and only then. *)
Theorem C03_push_entered_by_push p u n k s b kd : respects p u n -> occurs (hist p u n) (EvEnter k s) b -> cls k b = Some (Push, kd) ->
  exists c o g b', push_arg o = Some g /\ tgt c b = Some (Outer k) /\ pend c b = Some o /\
    (b = EvCall c o :: b' \/ exists v, b = EvSet k v :: EvCall c o :: b').
Proof. apply entered_by_push. Qed.

(** The first push on a push object enters the function: at once (void), or as soon as the
    value is in the slot. *)
Theorem C03_first_push_enters p u n c x g b k kd e : respects p u n -> occurs (hist p u n) e (EvCall c (NOp (OPush x g)) :: b) ->
  den b !! x = Some (Some (Outer k)) -> cls k b = Some (Push, kd) -> life k b = PNew ->
  match kd with
  | KVoid => exists s, e = EvEnter k s
  | _ => (exists v, e = EvSet k v /\ forall e', occurs (hist p u n) e' (e :: EvCall c (NOp (OPush x g)) :: b) -> exists s, e' = EvEnter k s) \/
         (exists v ex, argval u g b = Some v /\ arg_exn (NOp (OPush x g)) v = Some ex /\ e = EvExn c (NOp (OPush x g)) (XUser ex))
  end.
Proof. apply first_push_enters. Qed.

(** A function is entered at most once. *)
Theorem C03_once p u n k s b s' b' : respects p u n -> occurs (hist p u n) (EvEnter k s) b -> ~ occurs b (EvEnter k s') b'.
Proof. apply enter_once. Qed.

(** ** C10: exception before the first yield *)

(** The function of a coroutine is left by an exception while its constructor is running:
    the constructor, when it comes back, throws this exception, directly after releasing
    the stack. *)
Theorem C10_constructor_throws p u n c kd k ex e h b : respects p u n -> occurs (hist p u n) e h ->
  (exists r, e = EvRet c (NNew Pull kd) r) \/ (exists x, e = EvExn c (NNew Pull kd) x) -> tgt c h = Some (Outer k) ->
  occurs h (EvLeave k (Some (XUser ex))) b ->
  e = EvExn c (NNew Pull kd) (XUser ex) /\ exists h', h = EvFree k :: h'.
Proof. apply ctor_throws. Qed.

(** No object denotes the coroutine, then or later. *)
Theorem C10_no_object p u n c sd kd k r b s h : respects p u n -> past (hist p u n) h -> past h (EvLeave k r :: b) ->
  r <> Some XUnwind -> cstack b = k :: c :: s -> pend c b = Some (NNew sd kd) -> tgt c b = Some (Outer k) -> ~ owner k h.
Proof. apply ctor_no_object. Qed.

(** The other exceptions of a pull constructor come from the stack allocator or from
    copying the function object, before the function is entered. *)
Theorem C10_other_exceptions p u n c kd x b : respects p u n -> occurs (hist p u n) (EvExn c (NNew Pull kd) x) b ->
  exists ex, x = XUser ex /\
    ((exists b', b = EvCall c (NNew Pull kd) :: b') \/ (exists k b', b = EvAlloc k :: EvCall c (NNew Pull kd) :: b') \/
     (exists k b', tgt c b = Some (Outer k) /\ b = EvFree k :: b' /\ life k b' = PDone (Some ex))).
Proof.
  intros Hr Ho. destruct (exn_new _ _ _ _ _ _ _ _ Hr Ho) as (ex&->&[H|[H|(_&H)]]); exists ex; (split; [done|]); [by left|right; by left|by right; right].
Qed.

(** ** C11: exception of the function of a pull coroutine after the first yield *)
Theorem C11_rethrown p u n k ex b e kd : respects p u n -> occurs (hist p u n) e (EvLeave k (Some (XUser ex)) :: b) ->
  cls k b = Some (Pull, kd) -> made k b ->
  exists c o s, recv o = true /\ cstack b = k :: c :: s /\ pend c b = Some o /\ tgt c b = Some (Outer k) /\ e = EvExn c o (XUser ex).
Proof. apply rethrown_pull. Qed.

(** Only there: a resumption exits by a user exception only when the function of the very
    coroutine has just thrown it. *)
Theorem C11_only_there p u n c o ex b : respects p u n -> occurs (hist p u n) (EvExn c o (XUser ex)) b -> recv o = true ->
  exists k b', b = EvLeave k (Some (XUser ex)) :: b' /\ tgt c b' = Some (Outer k).
Proof.
  intros Hr Ho Hv. destruct (history_origin _ _ _ _ _ Hr Ho) as [(?&?&?&?&->&_)|[(?&?&?&?&Hg&_)|[(k&ex'&o'&(b'&s&->&_&_&Ht)&_&E)|[(?&?&?&_&->&_)|(?&_)]]]]; try done.
  - by destruct o as [[]|].
  - eauto.
Qed.

(** Afterwards the coroutine is complete: whatever happens, its owner tests false. *)
Theorem C11_complete_afterwards p u n k ex b h x v : respects p u n -> past (hist p u n) h -> past h (EvLeave k (Some (XUser ex)) :: b) ->
  den h !! x = Some (Some (Outer k)) -> tests x h = Some v -> v = false.
Proof. intros Hr Hh Hb. eapply done_tests; [done|done|exact Hb|cbn; rewrite decide_True by done; eauto]. Qed.

(** ** C12: exception of the function of a push coroutine *)
Theorem C12_rethrown p u n k ex b e kd : respects p u n -> occurs (hist p u n) e (EvLeave k (Some (XUser ex)) :: b) ->
  cls k b = Some (Push, kd) ->
  exists c o g s, push_arg o = Some g /\ cstack b = k :: c :: s /\ pend c b = Some o /\ tgt c b = Some (Outer k) /\ e = EvExn c o (XUser ex).
Proof. apply rethrown_push. Qed.

(** Only there: a push exits by a user exception only when its argument could not be
    copied or moved, or when the function of the very coroutine has just thrown it. *)
Theorem C12_only_there p u n c o g ex b : respects p u n -> occurs (hist p u n) (EvExn c o (XUser ex)) b -> push_arg o = Some g ->
  (exists k b', b = EvLeave k (Some (XUser ex)) :: b' /\ tgt c b' = Some (Outer k)) \/
  (exists v b', argval u g b' = Some v /\ arg_exn o v = Some ex /\ (b = EvCall c o :: b' \/ exists k, b = EvDel k :: EvCall c o :: b')).
Proof.
  intros Hr Ho Hv. destruct (history_origin _ _ _ _ _ Hr Ho) as [(?&?&?&?&->&_)|[(g'&v&ex'&b'&Hg&Ex&Ha&He&Hb)|[(k&ex'&o'&(b'&s&->&_&_&Ht)&_&E)|[(?&?&?&_&->&_)|(?&_)]]]]; try done.
  - right. simplify_eq. eauto 6.
  - left. eauto.
Qed.

(** The constructor of a push object throws only what the allocator or copying the
    function object throws; the function does not run. *)
Theorem C12_constructor p u n c kd x b : respects p u n -> occurs (hist p u n) (EvExn c (NNew Push kd) x) b ->
  exists b', b = EvCall c (NNew Push kd) :: b' \/ exists k, b = EvAlloc k :: EvCall c (NNew Push kd) :: b'.
Proof.
  intros Hr Ho. destruct (exn_new _ _ _ _ _ _ _ _ Hr Ho) as (ex&->&[(b'&->)|[(k&b'&->)|(?&_)]]); [| |done]; eauto.
Qed.

(** ** C14: unwinding *)

(** No destructor exits by an exception. *)
Theorem C14_destructor_nothrow p u n c x ex b : respects p u n -> ~ occurs (hist p u n) (EvExn c (NOp (ODestroy x)) ex) b.
Proof. apply exn_destroy. Qed.

(** Forced unwinding appears only at the suspension point of a coroutine that is being
    destroyed: out of a call made through the counterpart, in the coroutine-function
    itself, while that coroutine is not in control. *)
Theorem C14_unwind_where p u n c o b : respects p u n -> occurs (hist p u n) (EvExn c o XUnwind) b ->
  kills c b /\ life c b = PRun /\ c ∉ cstack b /\ pend c b = Some o /\ tgt c b = Some (Inner c).
Proof.
  intros Hr Ho. destruct (history_origin _ _ _ _ _ Hr Ho) as [(?&?&?&?&_&?&_)|[(?&?&?&?&_&?&_)|[(?&?&?&_&_&?)|[(?&?&?&_&_&?&_)|(_&H)]]]]; done.
Qed.

(** A function that is left by forced unwinding was being unwound, and a function that is
    being unwound is left by it. *)
Theorem C14_unwind_leaves p u n k r b : respects p u n -> occurs (hist p u n) (EvLeave k r) b -> (r = Some XUnwind <-> unw k b).
Proof. apply leave_unw. Qed.

(** What follows is the end of the coroutine, not an exception anywhere. *)
Theorem C14_not_rethrown p u n k b e : respects p u n -> occurs (hist p u n) e (EvLeave k (Some XUnwind) :: b) -> exists s, e = EvGone k s.
Proof. intros Hr Ho. exact (history_follows _ _ _ _ _ Hr Ho). Qed.

(** The destructor returns when the clean-up has finished and the stack is released. *)
Theorem C14_destructor_returns p u n c x r b k : respects p u n -> occurs (hist p u n) (EvRet c (NOp (ODestroy x)) r) b ->
  tgt c b = Some (Outer k) -> r = AUnit /\ exists b', b = EvFree k :: b'.
Proof. intros Hr Ho Ht. split; [by destruct (history_answers _ _ _ _ _ _ _ Hr Ho)|by eapply ret_destroy]. Qed.

(** ** C15: a push coroutine destroyed unused never runs *)
Theorem C15_never_runs p u n c x b k e h : respects p u n -> occurs (hist p u n) (EvCall c (NOp (ODestroy x))) b ->
  den b !! x = Some (Some (Outer k)) -> life k b = PNew -> occurs (hist p u n) e h -> ev_ctx e <> Some k.
Proof. apply unused_never_runs. Qed.
(** [life k b = PNew] is the case only for push coroutines. *)
Theorem C15_only_push p u n b k : respects p u n -> past (hist p u n) b -> life k b = PNew -> exists kd, cls k b = Some (Push, kd).
Proof. apply new_push. Qed.
(** Its stack is released (an instance of C17). *)
Theorem C15_released p u n c x r b k : respects p u n -> occurs (hist p u n) (EvRet c (NOp (ODestroy x)) r) b ->
  tgt c b = Some (Outer k) -> life k b = PFreed.
Proof. intros Hr Ho Ht. destruct (ret_destroy _ _ _ _ _ _ _ _ Hr Ho Ht) as (b'&->). cbn. by rewrite decide_True. Qed.

(** ** C16: after completion no code of the function runs *)
Theorem C16_no_code p u n k x b e h : respects p u n -> life k b = PDone x -> occurs (hist p u n) e h -> past h b -> ev_ctx e <> Some k.
Proof. apply done_no_code. Qed.
(** Destroying the owner: a value that is left in the slot is destroyed, the rest of the
    coroutine's stack is unwound (the counterpart object goes away), the stack is
    released, the destructor returns.  Only if the coroutine-function has moved another
    coroutine into its counterpart object, that coroutine is destroyed too. *)
Theorem C16_only_releases p u n c x b k y : respects p u n -> den b !! x = Some (Some (Outer k)) -> life k b = PDone y ->
  let h0 := EvCall c (NOp (ODestroy x)) :: b in
  (forall e, occurs (hist p u n) e h0 -> e = EvDel k \/ exists s, e = EvGone k s) /\
  (forall e, occurs (hist p u n) e (EvDel k :: h0) -> exists s, e = EvGone k s) /\
  (forall e s h, h = h0 \/ h = EvDel k :: h0 -> occurs (hist p u n) e (EvGone k s :: h) ->
     (exists j, den h !! s = Some (Some (Outer j))) \/ e = EvDel k \/ e = EvFree k) /\
  (forall e s h, h = h0 \/ h = EvDel k :: h0 -> occurs (hist p u n) e (EvDel k :: EvGone k s :: h) ->
     (exists j, den h !! s = Some (Some (Outer j))) \/ e = EvFree k) /\
  (forall e h, tgt c h = Some (Outer k) -> pend c h = Some (NOp (ODestroy x)) -> hd 0 (tail (cstack h)) = c ->
     occurs (hist p u n) e (EvFree k :: h) -> e = EvRet c (NOp (ODestroy x)) AUnit).
Proof. apply done_releases. Qed.

(** ** C17: stacks *)

(** A stack is allocated by a constructor, directly after the call, for a coroutine that
    did not exist before. *)
Theorem C17_allocated p u n k b : respects p u n -> occurs (hist p u n) (EvAlloc k) b ->
  life k b = PNone /\ exists c sd kd b', b = EvCall c (NNew sd kd) :: b'.
Proof. intros Hr Ho. destruct (history_origin _ _ _ _ _ Hr Ho) as (_&?&?). done. Qed.
(** A constructor that returns has allocated one. *)
Theorem C17_one_per_construction p u n c sd kd r b : respects p u n -> occurs (hist p u n) (EvRet c (NNew sd kd) r) b ->
  exists k b', tgt c b = Some (Outer k) /\ occurs b (EvAlloc k) (EvCall c (NNew sd kd) :: b').
Proof. apply ctor_allocated. Qed.
(** It is released at most once ... *)
Theorem C17_freed_once p u n k b b' : respects p u n -> occurs (hist p u n) (EvFree k) b -> ~ occurs b (EvFree k) b'.
Proof. apply free_once. Qed.
(** ... and only if it was allocated. *)
Theorem C17_freed_allocated p u n k b : respects p u n -> occurs (hist p u n) (EvFree k) b -> exists b', occurs b (EvAlloc k) b'.
Proof. apply free_allocated. Qed.
(** Never while an object owns the coroutine ... *)
Theorem C17_not_while_owned p u n k b : respects p u n -> occurs (hist p u n) (EvFree k) b -> ~ owner k b.
Proof. apply free_not_owned. Qed.
(** ... nor while its function is running or suspended. *)
Theorem C17_not_while_running p u n k b : respects p u n -> occurs (hist p u n) (EvFree k) b -> life k b <> PRun.
Proof. intros Hr Ho. destruct (hist_life _ _ _ _ _ Hr Ho) as [H|[(?&H)|H]]; by rewrite H. Qed.
(** Released when the destructor of the owner returns ... *)
Theorem C17_freed_by_destructor p u n c x r b k : respects p u n -> occurs (hist p u n) (EvRet c (NOp (ODestroy x)) r) b ->
  tgt c b = Some (Outer k) -> exists b', b = EvFree k :: b'.
Proof. apply ret_destroy. Qed.
(** ... when a pull constructor comes back with the function's exception ... *)
Theorem C17_freed_by_throwing_constructor p u n c kd k ex h b x : respects p u n -> occurs (hist p u n) (EvExn c (NNew Pull kd) x) h ->
  tgt c h = Some (Outer k) -> occurs h (EvLeave k (Some (XUser ex))) b -> exists h', h = EvFree k :: h'.
Proof. intros Hr Ho Ht Hl. eapply ctor_throws; [done|exact Ho|eauto|done|done]. Qed.
(** ... or with an object that is not-a-coroutine. *)
Theorem C17_freed_by_empty_constructor p u n c kd x b : respects p u n -> occurs (hist p u n) (EvRet c (NNew Pull kd) (AH x)) b ->
  den b !! x = None -> exists k b', tgt c b = Some (Outer k) /\ b = EvFree k :: b'.
Proof.
  intros Hr Ho Hd. destruct (ret_new_pull _ _ _ _ _ _ _ Hr Ho) as (k&y&b'&[= <-]&Ht&[(->&_)|(->&_)]); [|eauto].
  cbn in Hd. by rewrite lookup_insert in Hd.
Qed.

(** ** C27: completion is permanent *)
Theorem C27_stays_false p u n k r b c x v h : respects p u n -> occurs (hist p u n) (EvRet c (NOp (OBool x)) (AB v)) h ->
  occurs h (EvLeave k r) b -> r <> Some XUnwind -> den h !! x = Some (Some (Outer k)) -> v = false.
Proof. apply done_bool. Qed.
Theorem C27_stays_not p u n k r b c x v h : respects p u n -> occurs (hist p u n) (EvRet c (NOp (ONot x)) (AB v)) h ->
  occurs h (EvLeave k r) b -> r <> Some XUnwind -> den h !! x = Some (Some (Outer k)) -> v = true.
Proof. apply done_not. Qed.

(** ** C37: a constructor that throws *)

(** ... has allocated nothing, or has released the stack, or failed to copy the function
    object. *)
Theorem C37_throwing_constructor p u n c sd kd x b : respects p u n -> occurs (hist p u n) (EvExn c (NNew sd kd) x) b ->
  (exists b', b = EvCall c (NNew sd kd) :: b') \/
  (exists k b', tgt c b = Some (Outer k) /\ b = EvFree k :: b') \/
  (exists k b', b = EvAlloc k :: EvCall c (NNew sd kd) :: b').
Proof.
  intros Hr Ho. destruct (exn_new _ _ _ _ _ _ _ _ Hr Ho) as (ex&->&[H|[H|(_&k&b'&Ht&Hb&_)]]); [by left|by right; right|right; left; eauto].
Qed.
(** If allocating the stack fails, the constructor throws what the allocator threw, and
    nothing is left behind: no stack, no fiber, no object. *)
Theorem C37_allocation_fails s sd kd np fn kk x : c_focus s = FStrat (SNew sd kd np fn kk) -> np_alloc np = Some x ->
  exists m, crun 4 s = CNext (CState m (c_fib s) (c_unw s) (c_cur s) (FStrat (kk (RExn (XUser x)))) (c_stack s)) /\
    m_tr m = EvExn (c_cur s) (NNew sd kd) (XUser x) :: EvCall (c_cur s) (NNew sd kd) :: m_tr (c_mem s) /\
    m_stk m = m_stk (c_mem s) /\ m_cbs m = m_cbs (c_mem s) /\ m_h m = m_h (c_mem s) /\ m_user m = m_user (c_mem s).
Proof.
  destruct s as [m fib unw cur fc K]. cbn [c_focus c_fib c_unw c_cur c_stack c_mem]. intros -> Hx. cbn. destruct sd; cbn; unfold salloc_allocate; rewrite Hx; cbn; by eexists.
Qed.
(** If copying the function object fails, the constructor throws what the copy threw, and
    one stack stays behind: no fiber, no object. *)
Theorem C37_copy_fails s sd kd np fn kk x : c_focus s = FStrat (SNew sd kd np fn kk) -> np_alloc np = None -> np_fn np = Some x ->
  exists m k, crun 5 s = CNext (CState m (c_fib s) (c_unw s) (c_cur s) (FStrat (kk (RExn (XUser x)))) (c_stack s)) /\
    m_tr m = EvExn (c_cur s) (NNew sd kd) (XUser x) :: EvAlloc k :: EvCall (c_cur s) (NNew sd kd) :: m_tr (c_mem s) /\
    m_stk m = {[ k ]} ∪ m_stk (c_mem s) /\ m_cbs m = m_cbs (c_mem s) /\ m_h m = m_h (c_mem s) /\ m_user m = m_user (c_mem s).
Proof.
  destruct s as [m fib unw cur fc K]. cbn [c_focus c_fib c_unw c_cur c_stack c_mem]. intros -> Hx Hy. cbn.
  destruct sd; cbn; unfold salloc_allocate; rewrite Hx; cbn; unfold capture_fn; rewrite Hy; cbn; by do 2 eexists.
Qed.
(** In the last case the stack is never released. *)
Theorem C37_copy_failure_leaks p u n c sd kd x b k h : respects p u n -> past (hist p u n) h ->
  past h (EvExn c (NNew sd kd) x :: EvAlloc k :: EvCall c (NNew sd kd) :: b) -> life k h = PAlloc.
Proof. apply copy_leaks. Qed.

(** ** C43: the function of a pull coroutine returns without yielding *)
Theorem C43_not_a_coroutine p u n c kd k e h b : respects p u n -> occurs (hist p u n) e h ->
  (exists r, e = EvRet c (NNew Pull kd) r) \/ (exists x, e = EvExn c (NNew Pull kd) x) -> tgt c h = Some (Outer k) ->
  occurs h (EvLeave k None) b ->
  exists x h', e = EvRet c (NNew Pull kd) (AH x) /\ h = EvFree k :: h' /\ den h !! x = None /\ den (e :: h) !! x = Some None /\ tests x (e :: h) = Some false.
Proof. apply ctor_empty. Qed.

End life.

(** Refuted: a stack stays allocated when copying the function object throws
    (create_control_block_ctor has allocated it and nothing releases it); the program
    runs to its end and breaks no documented precondition. *)
Theorem C37_copy_failure_refuted : exists p u n m, crun n (cinit p u) = CHalt Finished m /\
  rev (m_tr m) = [EvCall 0 (NNew Push KVal); EvAlloc 1; EvExn 0 (NNew Push KVal) (XUser 71)].
Proof. exists ex_badfn, u0, 300. eexists. split; vm_compute; reflexivity. Qed.

(** * The hypotheses can be met *)
Example C03_pull_eager_example : happens ex_pull (fun e b => e = EvEnter 1 1 /\ b = [EvAlloc 1; EvCall 0 (NNew Pull KVal)]).
Proof. by_run. Qed.
Example C03_pull_entered_example : happens ex_pull (fun e b => e = EvRet 0 (NNew Pull KVal) (AH 0)).
Proof. by_run. Qed.
Example C03_push_lazy_example : happens ex_push (fun e b => e = EvRet 0 (NNew Push KVal) (AH 0)).
Proof. by_run. Qed.
Example C03_push_entered_by_push_example : happens ex_push (fun e b => e = EvEnter 1 1 /\ cls 1 b = Some (Push, KVal) /\ head b = Some (EvSet 1 (PVal 7))).
Proof. by_run. Qed.
Example C03_first_push_enters_example : happens ex_push (fun e b => e = EvSet 1 (PVal 7) /\ head b = Some (EvCall 0 (NOp (OPush 0 (AImm 7)))) /\
  den (tail b) !! 0 = Some (Some (Outer 1)) /\ cls 1 (tail b) = Some (Push, KVal) /\ life 1 (tail b) = PNew).
Proof. by_run. Qed.
Example C03_first_push_enters_example2 : happens ex_badcopy (fun e b => e = EvExn 0 (NOp (OPush 0 (ACopy 9))) (XUser 13) /\ head b = Some (EvCall 0 (NOp (OPush 0 (ACopy 9)))) /\
  den (tail b) !! 0 = Some (Some (Outer 1)) /\ cls 1 (tail b) = Some (Push, KVal) /\ life 1 (tail b) = PNew).
Proof. by_run. Qed.
Example C03_once_example : happens ex_push (fun e b => e = EvEnter 1 1).
Proof. by_run. Qed.
Example C10_constructor_throws_example : happens ex_throw0 (fun e h => e = EvExn 0 (NNew Pull KVal) (XUser 77) /\ tgt 0 h = Some (Outer 1) /\ EvLeave 1 (Some (XUser 77)) ∈ h).
Proof. by_run. Qed.
Example C10_no_object_example : happens ex_throw0 (fun e b => e = EvLeave 1 (Some (XUser 77)) /\ cstack b = [1; 0] /\ pend 0 b = Some (NNew Pull KVal) /\ tgt 0 b = Some (Outer 1)).
Proof. by_run. Qed.
Example C10_other_exceptions_example : happens ex_badalloc (fun e b => e = EvExn 0 (NNew Pull KVal) (XUser 70)).
Proof. by_run. Qed.
Example C11_rethrown_example : happens ex_throw (fun e b => e = EvExn 0 (NOp (OResume 0)) (XUser 77) /\ head b = Some (EvLeave 1 (Some (XUser 77))) /\
  cls 1 (tail b) = Some (Pull, KVal) /\ EvNew 1 0 ∈ tail b).
Proof. by_run. Qed.
Example C11_only_there_example : happens ex_throw (fun e b => e = EvExn 0 (NOp (OResume 0)) (XUser 77)).
Proof. by_run. Qed.
Example C11_complete_afterwards_example : comes ex_throw (fun h => head h = Some (EvCall 0 (NOp (OBool 0))) /\ EvLeave 1 (Some (XUser 77)) ∈ h /\
  den h !! 0 = Some (Some (Outer 1)) /\ tests 0 h = Some false).
Proof. by_run. Qed.
Example C12_rethrown_example : happens ex_throwp (fun e b => e = EvExn 0 (NOp (OPush 0 (AImm 1))) (XUser 77) /\ head b = Some (EvLeave 1 (Some (XUser 77))) /\ cls 1 (tail b) = Some (Push, KVal)).
Proof. by_run. Qed.
Example C12_only_there_example : happens ex_throwp (fun e b => e = EvExn 0 (NOp (OPush 0 (AImm 1))) (XUser 77)).
Proof. by_run. Qed.
Example C12_only_there_example2 : happens ex_badcopy (fun e b => e = EvExn 0 (NOp (OPush 0 (ACopy 9))) (XUser 13)).
Proof. by_run. Qed.
Example C12_constructor_example : happens ex_badfn (fun e b => e = EvExn 0 (NNew Push KVal) (XUser 71)).
Proof. by_run. Qed.
Example C14_unwind_where_example : happens ex_kill (fun e b => e = EvExn 1 (NOp (OPush 1 ANone)) XUnwind).
Proof. by_run. Qed.
Example C14_unwind_leaves_example : happens ex_kill (fun e b => e = EvLeave 1 (Some XUnwind)).
Proof. by_run. Qed.
Example C14_not_rethrown_example : happens ex_kill (fun e b => e = EvGone 1 1 /\ head b = Some (EvLeave 1 (Some XUnwind))).
Proof. by_run. Qed.
Example C14_destructor_returns_example : happens ex_kill (fun e b => e = EvRet 0 (NOp (ODestroy 0)) AUnit /\ tgt 0 b = Some (Outer 1)).
Proof. by_run. Qed.
Example C15_never_runs_example : happens ex_unused (fun e b => e = EvCall 0 (NOp (ODestroy 0)) /\ den b !! 0 = Some (Some (Outer 1)) /\ life 1 b = PNew).
Proof. by_run. Qed.
Example C15_released_example : happens ex_unused (fun e b => e = EvRet 0 (NOp (ODestroy 0)) AUnit /\ tgt 0 b = Some (Outer 1)).
Proof. by_run. Qed.
Example C16_no_code_example : happens ex_throw (fun e h => e = EvRet 0 (NOp (OBool 0)) (AB false) /\ life 1 h = PDone (Some 77)).
Proof. by_run. Qed.
Example C16_only_releases_example : happens ex_pull (fun e h => e = EvDel 1 /\ head h = Some (EvCall 0 (NOp (ODestroy 0))) /\ den (tail h) !! 0 = Some (Some (Outer 1)) /\ life 1 (tail h) = PDone None).
Proof. by_run. Qed.
Example C16_only_releases_example2 : happens ex_throwp (fun e h => e = EvDel 1 /\ head h = Some (EvGone 1 1) /\ head (tail h) = Some (EvCall 0 (NOp (ODestroy 0))) /\ life 1 h = PDone (Some 77)).
Proof. by_run. Qed.
Example C17_allocated_example : happens ex_push (fun e b => e = EvAlloc 1).
Proof. by_run. Qed.
Example C17_one_per_construction_example : happens ex_nested (fun e b => e = EvRet 1 (NNew Pull KVal) (AH 2)).
Proof. by_run. Qed.
Example C17_freed_once_example : happens ex_nested (fun e b => e = EvFree 2 /\ EvAlloc 1 ∈ b).
Proof. by_run. Qed.
Example C17_freed_by_empty_constructor_example : happens ex_empty (fun e b => e = EvRet 0 (NNew Pull KVal) (AH 0) /\ den b !! 0 = None).
Proof. by_run. Qed.
Example C27_stays_false_example : happens ex_throw (fun e h => e = EvRet 0 (NOp (OBool 0)) (AB false) /\ EvLeave 1 (Some (XUser 77)) ∈ h /\ den h !! 0 = Some (Some (Outer 1))).
Proof. by_run. Qed.
Example C27_stays_not_example : happens ex_pull (fun e h => e = EvRet 0 (NOp (ONot 0)) (AB true) /\ EvLeave 1 None ∈ h /\ den h !! 0 = Some (Some (Outer 1))).
Proof. by_run. Qed.
Example C37_throwing_constructor_example : happens ex_badalloc (fun e b => e = EvExn 0 (NNew Pull KVal) (XUser 70)).
Proof. by_run. Qed.
Example C37_copy_failure_leaks_example : comes ex_badfn (fun h => h = [EvExn 0 (NNew Push KVal) (XUser 71); EvAlloc 1; EvCall 0 (NNew Push KVal)]).
Proof. split; [by apply ok_run_respects|]. eexists. split; [exists []; vm_compute; reflexivity|done]. Qed.
Example C43_not_a_coroutine_example : happens ex_empty (fun e h => e = EvRet 0 (NNew Pull KVal) (AH 0) /\ tgt 0 h = Some (Outer 1) /\ EvLeave 1 None ∈ h).
Proof. by_run. Qed.

Print Assumptions C03_pull_eager.
Print Assumptions C03_pull_entered.
Print Assumptions C03_push_lazy.
Print Assumptions C03_push_entered_by_push.
Print Assumptions C03_first_push_enters.
Print Assumptions C03_once.
Print Assumptions C10_constructor_throws.
Print Assumptions C10_no_object.
Print Assumptions C10_other_exceptions.
Print Assumptions C11_rethrown.
Print Assumptions C11_only_there.
Print Assumptions C11_complete_afterwards.
Print Assumptions C12_rethrown.
Print Assumptions C12_only_there.
Print Assumptions C12_constructor.
Print Assumptions C14_destructor_nothrow.
Print Assumptions C14_unwind_where.
Print Assumptions C14_unwind_leaves.
Print Assumptions C14_not_rethrown.
Print Assumptions C14_destructor_returns.
Print Assumptions C15_never_runs.
Print Assumptions C15_only_push.
Print Assumptions C15_released.
Print Assumptions C16_no_code.
Print Assumptions C16_only_releases.
Print Assumptions C17_allocated.
Print Assumptions C17_one_per_construction.
Print Assumptions C17_freed_once.
Print Assumptions C17_freed_allocated.
Print Assumptions C17_not_while_owned.
Print Assumptions C17_not_while_running.
Print Assumptions C17_freed_by_destructor.
Print Assumptions C17_freed_by_throwing_constructor.
Print Assumptions C17_freed_by_empty_constructor.
Print Assumptions C27_stays_false.
Print Assumptions C27_stays_not.
Print Assumptions C37_throwing_constructor.
Print Assumptions C37_allocation_fails.
Print Assumptions C37_copy_fails.
Print Assumptions C37_copy_failure_leaks.
Print Assumptions C43_not_a_coroutine.
Print Assumptions C37_copy_failure_refuted.
