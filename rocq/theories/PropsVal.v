(** PropsVal.v -- properties of the transferred values: C01, C02, C23, C24, C25, C26, C42.

    Vocabulary: Trace.v.  [hist p u n] is the history (newest event first) of the model
    of the code after [n] steps of program [p]; [occurs h e b]: in [h], event [e]
    happened after [b]. *)
From stdpp Require Import prelude gmap.
From Coq Require Import Lia.
From Verif Require Import Base Model Spec InvSpec Main Trace Hist FactsVal Next Rules RulesProof FactsLife FactsSeq Examples.

Section vals.
Context {env : Env} {comp : Compiler}.

(** ** C01: the owner of a pull coroutine receives what its function pushes *)

(** The first get() after a push returns the pushed value. *)
Theorem C01_get_returns_last_push p u n c x v b k : respects p u n ->
  occurs (hist p u n) (EvRet c (NOp (OGet x)) (AV v)) b -> den b !! x = Some (Some (Outer k)) -> ngets k b = 0 ->
  exists rest, pushes k b = PVal v :: rest.
Proof.
  intros Hr Ho Hd Hg. destruct (read_ans _ _ _ _ _ x _ _ Hr Ho eq_refl) as (sd&k'&Hd'&_&Hv).
  rewrite Hd in Hd'. destruct sd; cbn in Hd'; simplify_eq.
  destruct Hv as [(w&rest&_&E&Ev)|(?&?&_&_&?)]; [|done]. injection Ev as ->. rewrite Hg. eauto.
Qed.

(** What is pushed is the argument of a push call of the coroutine-function (for a pull
    coroutine) or of the owner (for a push coroutine), with the value it has at the call. *)
Theorem C01_pushes_are_arguments p u n k v b : respects p u n -> occurs (hist p u n) (EvSet k (PVal v)) b ->
  exists sd c o g b', cls k b = Some (sd, KVal) /\ (b = EvCall c o :: b' \/ b = EvDel k :: EvCall c o :: b') /\
    push_arg o = Some g /\ tgt c b = Some (sender sd k) /\ argval u g b' = Some v.
Proof.
  intros Hr Ho. destruct (set_event _ _ _ _ _ _ Hr Ho) as (c&o&lv&g&sd&kd&b'&Hc&_&Hg&Ht&Hcl&Hb&Hv).
  destruct Hv as [(?&_&?&_)|(v'&->&E&_&Hv)]; [done|]. injection E as <-. exists sd, c, o, g, b'. split; [done|]. split; [done|].
  split; [by destruct o as [[]|]; cbn in Hg |- *; simplify_eq|]. split; [done|]. by destruct Hb as [-> | ->].
Qed.

(** When the owner gets control back from a resumption, either exactly one new value was
    pushed since the owner had control last, or the function has returned. *)
Theorem C01_one_push_per_resumption p u n c o r b k kd : respects p u n -> occurs (hist p u n) (EvRet c o r) b ->
  recv o = true -> tgt c b = Some (Outer k) -> cls k b = Some (Pull, kd) -> kd <> KVoid ->
  (life k b = PRun /\ length (pushes k b) = S (turns Pull k b)) \/ (life k b = PDone None /\ length (pushes k b) = turns Pull k b).
Proof. intros Hr Ho Hv Ht Hcl Hk. destruct (recv_turn p u n c o r b Pull k kd) as [?|(_&?&?)]; auto. Qed.

(** The constructor succeeds with exactly one value pushed. *)
Theorem C01_one_push_at_construction p u n k x b kd : respects p u n -> occurs (hist p u n) (EvNew k x) b ->
  cls k b = Some (Pull, kd) -> kd <> KVoid -> length (pushes k b) = 1 /\ turns Pull k b = 0.
Proof.
  intros Hr Ho Hcl Hk. destruct (new_turn _ _ _ _ _ _ Hr Ho) as [(kd'&Hcl'&_&E)|(kd'&Hcl'&_)]; [|congruence].
  assert (kd' = kd) as -> by congruence. rewrite (E Hk). by rewrite (first_turn _ _ _ _ _ _ _ Hr Ho Hcl).
Qed.

(** Whenever user code (anywhere) makes a call, every pushed value has been delivered:
    none is lost, none is delivered twice. *)
Theorem C01_all_delivered p u n c o b k sd kd : respects p u n -> occurs (hist p u n) (EvCall c o) b ->
  cls k b = Some (sd, kd) -> kd <> KVoid -> life k b <> PAlloc -> life k b <> PFreed -> length (pushes k b) = turns sd k b.
Proof. apply all_delivered. Qed.

(** A consumer that has called get() once in each of its turns has received exactly the
    pushed sequence. *)
Theorem C01_sequence p u n c o b k : respects p u n -> occurs (hist p u n) (EvCall c o) b ->
  cls k b = Some (Pull, KVal) -> life k b <> PAlloc -> life k b <> PFreed -> length (got k b) = turns Pull k b ->
  PVal <$> got k b = pushes k b.
Proof. intros. by eapply got_all. Qed.

(** ** C02: the function of a push coroutine receives what the owner pushes *)
Theorem C02_get_returns_last_push p u n c x v b k : respects p u n ->
  occurs (hist p u n) (EvRet c (NOp (OGet x)) (AV v)) b -> den b !! x = Some (Some (Inner k)) -> ngets k b = 0 ->
  exists rest, pushes k b = PVal v :: rest.
Proof.
  intros Hr Ho Hd Hg. destruct (read_ans _ _ _ _ _ x _ _ Hr Ho eq_refl) as (sd&k'&Hd'&_&Hv).
  rewrite Hd in Hd'. destruct sd; cbn in Hd'; simplify_eq.
  destruct Hv as [(w&rest&_&E&Ev)|(?&?&_&_&?)]; [|done]. injection Ev as ->. rewrite Hg. eauto.
Qed.

(** Every call operator()(v) either fails because the argument cannot be copied (C26) or
    puts the value of its argument into the slot, at once. *)
Theorem C02_push_transfers p u n c x g b k e v : respects p u n ->
  occurs (hist p u n) e (EvCall c (NOp (OPush x g)) :: b) -> den b !! x = Some (Some (Outer k)) -> cls k b = Some (Push, KVal) ->
  argval u g b = Some v -> arg_exn (NOp (OPush x g)) v = None ->
  e = EvSet k (PVal v) \/
  (e = EvDel k /\ forall e', occurs (hist p u n) e' (e :: EvCall c (NOp (OPush x g)) :: b) -> e' = EvSet k (PVal v)).
Proof.
  intros Hr Ho Hd Hcl Hv E. pose proof (push_value _ _ _ _ (NOp (OPush x g)) g x _ _ Push k v Hr Ho ltac:(by left) Hd Hcl Hv) as H.
  rewrite E in H. cbn in H. tauto.
Qed.

(** The function gets control, for the first time or again, with exactly one new value. *)
Theorem C02_one_push_at_entry p u n k x b kd : respects p u n -> occurs (hist p u n) (EvEnter k x) b ->
  cls k b = Some (Push, kd) -> kd <> KVoid -> length (pushes k b) = 1 /\ turns Push k b = 0.
Proof.
  intros Hr Ho Hcl Hk. destruct (enter_turn _ _ _ _ _ _ Hr Ho) as [(kd'&Hcl'&_&E)|(kd'&Hcl'&_)]; [|congruence].
  assert (kd' = kd) as -> by congruence. rewrite (E Hk). by rewrite (entry_turn _ _ _ _ _ _ _ Hr Ho Hcl).
Qed.

Theorem C02_one_push_per_turn p u n c o r b k kd : respects p u n -> occurs (hist p u n) (EvRet c o r) b ->
  recv o = true -> tgt c b = Some (Inner k) -> cls k b = Some (Push, kd) -> kd <> KVoid ->
  life k b = PRun /\ length (pushes k b) = S (turns Push k b).
Proof. intros Hr Ho Hv Ht Hcl Hk. destruct (recv_turn p u n c o r b Push k kd) as [?|(?&_)]; done. Qed.

Theorem C02_sequence p u n c o b k : respects p u n -> occurs (hist p u n) (EvCall c o) b ->
  cls k b = Some (Push, KVal) -> life k b <> PAlloc -> life k b <> PFreed -> length (got k b) = turns Push k b ->
  PVal <$> got k b = pushes k b.
Proof. intros. by eapply got_all. Qed.

(** ** C23 *)
Theorem C23_get_value p u n c x v b : respects p u n -> occurs (hist p u n) (EvRet c (NOp (OGet x)) (AV v)) b ->
  exists sd k w rest, den b !! x = Some (Some (receiver sd k)) /\ pushes k b = PVal w :: rest /\
    v = Nat.iter (ngets k b) moved_from w /\ ngets k (EvRet c (NOp (OGet x)) (AV v) :: b) = S (ngets k b).
Proof.
  intros Hr Ho. destruct (read_ans _ _ _ _ _ x _ _ Hr Ho eq_refl) as (sd&k&Hd&_&Hv).
  destruct Hv as [(w&rest&_&E&Ev)|(?&?&_&_&?)]; simplify_eq. exists sd, k, w, rest. split; [done|]. split; [done|]. split; [done|].
  cbn. rewrite Hd, ep_receiver. by rewrite decide_True.
Qed.

(** get() does not transfer control: it is the next thing that returns, and it never throws. *)
Theorem C23_get_does_not_transfer p u n c x b e : respects p u n -> occurs (hist p u n) e (EvCall c (NOp (OGet x)) :: b) ->
  exists r, e = EvRet c (NOp (OGet x)) r.
Proof. intros Hr Ho. exact (history_follows _ _ _ _ _ Hr Ho). Qed.

(** ** C24 *)
Theorem C24_get_reference p u n c x l b : respects p u n -> occurs (hist p u n) (EvRet c (NOp (OGet x)) (ALoc l)) b ->
  exists sd k rest, den b !! x = Some (Some (receiver sd k)) /\ cls k b = Some (sd, KRef) /\ pushes k b = PRef l :: rest.
Proof.
  intros Hr Ho. destruct (read_ans _ _ _ _ _ x _ _ Hr Ho eq_refl) as (sd&k&Hd&_&Hv).
  destruct Hv as [(?&?&_&_&?)|(l'&rest&Hcl&E&Ev)]; simplify_eq. eauto 10.
Qed.

(** The reference was the argument of the push, and pushing it changed no user object. *)
Theorem C24_pushed_reference p u n k l b : respects p u n -> occurs (hist p u n) (EvSet k (PRef l)) b ->
  exists sd c o b', b = EvCall c o :: b' /\ push_arg o = Some (ARefTo l) /\ tgt c b = Some (sender sd k) /\ cls k b = Some (sd, KRef) /\
    umem u (EvSet k (PRef l) :: b) = umem u b'.
Proof.
  intros Hr Ho. destruct (set_event _ _ _ _ _ _ Hr Ho) as (c&o&lv&g&sd&kd&b'&Hc&_&Hg&Ht&Hcl&Hb&Hv).
  destruct Hv as [(l'&->&E&->)|(?&_&?&_)]; [|done]. injection E as <-. destruct Hb as [-> | ->].
  - exists sd, c, o, b'. repeat split; try done. by destruct o as [[]|]; cbn in Hg |- *; simplify_eq.
  - exfalso. by eapply (del_kind _ _ _ _ _ _ Hr (occurs_tail _ _ _ _ Ho)).
Qed.

(** The library destroys objects in slots of value coroutines only. *)
Theorem C24_nothing_destroyed p u n k sd b : respects p u n -> occurs (hist p u n) (EvDel k) b -> cls k b <> Some (sd, KRef).
Proof. intros Hr Ho. by eapply del_kind. Qed.

(** ** C25 *)
(** [nmade k h], [ndestroyed k h] (FactsSeq.v): number of objects constructed in, destroyed
    from, the slot of [k]. *)
(** At every moment at most one object is alive per coroutine; none is destroyed twice. *)
Theorem C25_at_most_one p u n h k : respects p u n -> past (hist p u n) h ->
  ndestroyed k h <= nmade k h <= S (ndestroyed k h).
Proof. intros Hr Hh. rewrite (made_destroyed _ _ _ _ k Hr Hh). destruct (slotv k h) as [[]|]; cbn; lia. Qed.

(** When the stack of the coroutine is released, and ever after, none is left. *)
Theorem C25_none_leaked p u n h k : respects p u n -> past (hist p u n) h -> life k h = PFreed -> nmade k h = ndestroyed k h.
Proof. apply none_leaked. Qed.

(** ** C26 *)
Theorem C26_failing_push p u n c o g x b e sd k v ex : respects p u n ->
  occurs (hist p u n) e (EvCall c o :: b) -> (o = NOp (OPush x g) \/ o = NOp (OOutAssign (Some x) g)) ->
  den b !! x = Some (Some (sender sd k)) -> cls k b = Some (sd, KVal) -> argval u g b = Some v -> arg_exn o v = Some ex ->
  e = EvExn c o (XUser ex) \/
  (e = EvDel k /\ forall e', occurs (hist p u n) e' (e :: EvCall c o :: b) -> e' = EvExn c o (XUser ex)).
Proof.
  intros Hr Ho Hx Hd Hcl Hv He. pose proof (push_value _ _ _ _ o g x _ _ sd k v Hr Ho Hx Hd Hcl Hv) as H.
  rewrite He in H. cbn in H. tauto.
Qed.

(** ** C42 *)
(** [umem] is what user code finds in its objects. *)
Theorem C42_objects p u n c l r b : respects p u n -> occurs (hist p u n) (EvRet c (NOp (OLoad l)) r) b ->
  exists v, umem u b !! l = Some v /\ r = AV v.
Proof. intros Hr Ho. by destruct (history_answers _ _ _ _ _ _ _ Hr Ho) as [_ ?]. Qed.

Theorem C42_push_argument p u n k v b : respects p u n -> occurs (hist p u n) (EvSet k (PVal v)) b ->
  exists c o g b', push_arg o = Some g /\ (b = EvCall c o :: b' \/ b = EvDel k :: EvCall c o :: b') /\
    match g with
    | ACopy l => umem u b' !! l = Some v /\ umem u (EvSet k (PVal v) :: b) = umem u b'
    | AMove l => umem u b' !! l = Some v /\ umem u (EvSet k (PVal v) :: b) = <[ l := moved_from v ]> (umem u b')
    | AImm w => w = v /\ umem u (EvSet k (PVal v) :: b) = umem u b'
    | _ => False
    end.
Proof. apply push_argument. Qed.

End vals.

(** Refuted for values whose copy throws: set() destroys the old value, the copy throws,
    [bvalid] stays true, and the destructor of the coroutine destroys the value again
    (or, before that, get() or another push uses the destroyed value).  The program
    breaks no documented precondition. *)
Theorem C25_throwing_copy_refuted : exists p u n m, crun n (cinit p u) = CHalt (Undefined UbSlot) m /\
  rev (m_tr m) =
    [EvCall 0 (NNew Push KVal); EvAlloc 1; EvNew 1 0; EvRet 0 (NNew Push KVal) (AH 0);
     EvCall 0 (NOp (OPush 0 (AImm 1))); EvSet 1 (PVal 1); EvEnter 1 1; EvCall 1 (NOp (OGet 1)); EvRet 1 (NOp (OGet 1)) (AV 1);
     EvCall 1 (NOp (OResume 1)); EvRet 0 (NOp (OPush 0 (AImm 1))) AUnit;
     EvCall 0 (NOp (OPush 0 (ACopy 9))); EvDel 1; EvExn 0 (NOp (OPush 0 (ACopy 9))) (XUser 13);
     EvCall 0 (NOp (ODestroy 0)); EvExn 1 (NOp (OResume 1)) XUnwind; EvLeave 1 (Some XUnwind); EvGone 1 1].
Proof.
  exists ex_twice, u0, 300. eexists. split; vm_compute; reflexivity.
Qed.

(** * The hypotheses can be met *)
Example C01_get_returns_last_push_example : happens ex_pull (fun e b => e = EvRet 0 (NOp (OGet 0)) (AV 41) /\ den b !! 0 = Some (Some (Outer 1)) /\ ngets 1 b = 0).
Proof. by_run. Qed.
Example C01_pushes_are_arguments_example : happens ex_pull (fun e b => e = EvSet 1 (PVal 41) /\ cls 1 b = Some (Pull, KVal)).
Proof. by_run. Qed.
Example C01_one_push_per_resumption_example : happens ex_pull (fun e b => e = EvRet 0 (NOp (OResume 0)) AUnit /\ tgt 0 b = Some (Outer 1) /\ cls 1 b = Some (Pull, KVal) /\ life 1 b = PRun).
Proof. by_run. Qed.
Example C01_one_push_per_resumption_example2 : happens ex_pull (fun e b => e = EvRet 0 (NOp (OResume 0)) AUnit /\ tgt 0 b = Some (Outer 1) /\ cls 1 b = Some (Pull, KVal) /\ life 1 b = PDone None).
Proof. by_run. Qed.
Example C01_one_push_at_construction_example : happens ex_pull (fun e b => e = EvNew 1 0 /\ cls 1 b = Some (Pull, KVal)).
Proof. by_run. Qed.
Example C01_all_delivered_example : happens ex_pull (fun e b => e = EvCall 0 (NOp (ODestroy 0)) /\ cls 1 b = Some (Pull, KVal) /\ life 1 b = PDone None /\ turns Pull 1 b = 2).
Proof. by_run. Qed.
Example C01_sequence_example : happens ex_pull (fun e b => e = EvCall 0 (NOp (ODestroy 0)) /\ cls 1 b = Some (Pull, KVal) /\ life 1 b = PDone None /\ turns Pull 1 b = 2 /\ got 1 b = [41; 5]).
Proof. by_run. Qed.
Example C02_get_returns_last_push_example : happens ex_push (fun e b => e = EvRet 1 (NOp (OGet 1)) (AV 42) /\ den b !! 1 = Some (Some (Inner 1)) /\ ngets 1 b = 0).
Proof. by_run. Qed.
Example C02_push_transfers_example : happens ex_push (fun e b => e = EvSet 1 (PVal 7) /\ head b = Some (EvCall 0 (NOp (OPush 0 (AImm 7)))) /\ den b !! 0 = Some (Some (Outer 1)) /\ cls 1 b = Some (Push, KVal)).
Proof. by_run. Qed.
Example C02_push_transfers_example2 : happens ex_push (fun e b => e = EvDel 1 /\ head b = Some (EvCall 0 (NOp (OPush 0 (ACopy 2)))) /\ den b !! 0 = Some (Some (Outer 1)) /\ cls 1 b = Some (Push, KVal) /\ argval u0 (ACopy 2) b = Some 42).
Proof. by_run. Qed.
Example C02_one_push_at_entry_example : happens ex_push (fun e b => e = EvEnter 1 1 /\ cls 1 b = Some (Push, KVal)).
Proof. by_run. Qed.
Example C02_one_push_per_turn_example : happens ex_push (fun e b => e = EvRet 1 (NOp (OResume 1)) AUnit /\ tgt 1 b = Some (Inner 1) /\ cls 1 b = Some (Push, KVal)).
Proof. by_run. Qed.
Example C02_sequence_example : happens ex_push (fun e b => e = EvCall 1 (NOp (OResume 1)) /\ cls 1 b = Some (Push, KVal) /\ life 1 b = PRun /\ turns Push 1 b = 2 /\ got 1 b = [42; 7]).
Proof. by_run. Qed.
Example C23_get_value_example : happens ex_pull (fun e b => e = EvRet 0 (NOp (OGet 0)) (AV 0) /\ ngets 1 b = 1).
Proof. by_run. Qed.
Example C23_get_does_not_transfer_example : happens ex_pull (fun e b => e = EvRet 0 (NOp (OGet 0)) (AV 41) /\ head b = Some (EvCall 0 (NOp (OGet 0)))).
Proof. by_run. Qed.
Example C24_get_reference_example : happens ex_ref (fun e b => e = EvRet 0 (NOp (OGet 0)) (ALoc 2)).
Proof. by_run. Qed.
Example C24_pushed_reference_example : happens ex_ref (fun e b => e = EvSet 1 (PRef 2)).
Proof. by_run. Qed.
Example C24_nothing_destroyed_example : happens ex_pull (fun e b => e = EvDel 1).
Proof. by_run. Qed.
Example C25_at_most_one_example : comes ex_pull (fun h => nmade 1 h = 2 /\ ndestroyed 1 h = 1).
Proof. by_run. Qed.
Example C25_none_leaked_example : comes ex_push (fun h => life 1 h = PFreed /\ nmade 1 h = 2).
Proof. by_run. Qed.
Example C26_failing_push_example : happens ex_badcopy (fun e b => e = EvExn 0 (NOp (OPush 0 (ACopy 9))) (XUser 13) /\ head b = Some (EvCall 0 (NOp (OPush 0 (ACopy 9)))) /\ den b !! 0 = Some (Some (Outer 1)) /\ cls 1 b = Some (Push, KVal) /\ argval u0 (ACopy 9) b = Some 99).
Proof. by_run. Qed.
Example C26_failing_push_example2 : happens ex_badcopy2 (fun e b => e = EvDel 1 /\ head b = Some (EvCall 0 (NOp (OPush 0 (ACopy 9)))) /\ den b !! 0 = Some (Some (Outer 1)) /\ cls 1 b = Some (Push, KVal) /\ argval u0 (ACopy 9) b = Some 99).
Proof. by_run. Qed.
Example C42_objects_example : happens ex_mem (fun e b => e = EvRet 0 (NOp (OLoad 1)) (AV 0)).
Proof. by_run. Qed.
Example C42_push_argument_example : happens ex_mem (fun e b => e = EvSet 1 (PVal 41) /\ umem u0 b !! 1 = Some 41).
Proof. by_run. Qed.
Example C42_push_argument_example2 : happens ex_mem (fun e b => e = EvSet 1 (PVal 42) /\ umem u0 b !! 2 = Some 42).
Proof. by_run. Qed.

Print Assumptions C01_get_returns_last_push.
Print Assumptions C01_pushes_are_arguments.
Print Assumptions C01_one_push_per_resumption.
Print Assumptions C01_one_push_at_construction.
Print Assumptions C01_all_delivered.
Print Assumptions C01_sequence.
Print Assumptions C02_get_returns_last_push.
Print Assumptions C02_push_transfers.
Print Assumptions C02_one_push_at_entry.
Print Assumptions C02_one_push_per_turn.
Print Assumptions C02_sequence.
Print Assumptions C23_get_value.
Print Assumptions C23_get_does_not_transfer.
Print Assumptions C24_get_reference.
Print Assumptions C24_pushed_reference.
Print Assumptions C24_nothing_destroyed.
Print Assumptions C25_at_most_one.
Print Assumptions C25_none_leaked.
Print Assumptions C26_failing_push.
Print Assumptions C42_objects.
Print Assumptions C42_push_argument.
Print Assumptions C25_throwing_copy_refuted.
