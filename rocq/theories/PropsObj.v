(** PropsObj.v -- properties of coroutine objects, observers and iterators: C06, C07, C08,
    C09, C19, C20, C21, C22, C28, C29, C30, C44.

    Vocabulary: Trace.v.  [disposes], [nreads] and [visited] are defined in FactsView.v,
    [went_on] and [older_c] in Blind.v, [after_op] in Code.v. *)
From stdpp Require Import prelude gmap.
From Coq Require Import Lia.
From Verif Require Import Base Model Spec InvSpec Refine Main Micro Trace Life Den Own Hist FactsVal Next Rules RulesProof FactsLife FactsSeq FactsBack FactsObj FactsCall FactsEnd Mono Blind Code FactsView Examples.

Section obj.
Context {env : Env} {comp : Compiler}.
Implicit Types h b : list event.

(** [coros_same h b]: no coroutine differs at [h] from what it was at [b] -- neither the
    phase of its life, nor the value in its slot, the values pushed, the number of
    values delivered, the number of times the current one was taken, nor its type. *)
Definition coros_same h b : Prop :=
  forall k, life k h = life k b /\ slotv k h = slotv k b /\ pushes k h = pushes k b /\ turns Pull k h = turns Pull k b /\
    turns Push k h = turns Push k b /\ ngets k h = ngets k b /\ cls k h = cls k b.

(** ** C06: operator bool *)

(** It is false exactly for not-a-coroutine objects and for owners of coroutines whose
    function has terminated. *)
Theorem C06_bool p u n c x r b : respects p u n -> occurs (hist p u n) (EvRet c (NOp (OBool x)) r) b ->
  exists v, r = AB v /\
  (v = false <-> den b !! x = Some None \/
    exists k r' b', den b !! x = Some (Some (Outer k)) /\ r' <> Some XUnwind /\ occurs b (EvLeave k r') b').
Proof.
  intros Hr Ho. destruct (history_answers _ _ _ _ _ _ _ Hr Ho) as [_ (v&Hv&->)]. exists v. split; [done|].
  assert (Hb : past (hist p u n) b) by (by eapply past_tail, occurs_past).
  unfold tests in Hv. destruct (den b !! x) as [[[k|k]|]|] eqn:Hd; [| | |done]; injection Hv as <-.
  - assert (Hk : owner k b) by (by exists x). pose proof (owner_done _ _ _ _ _ Hr Hb Hk) as Hod. split.
    + intros Hf. right. destruct (life k b) eqn:Hl; try done. destruct (proj1 Hod) as (r'&b'&?&?); [by eauto|]. eauto 6.
    + intros [?|(k'&r'&b'&[= <-]&H1&H2)]; [done|]. destruct (proj2 Hod) as [y ->]; eauto.
  - split; [done|]. intros [?|(?&?&?&?&_)]; done.
  - split; [by left|done].
Qed.

(** Every not-a-coroutine object is one of those: a pull object whose function finished
    inside its constructor; an object that was moved from; an object that took over the
    emptiness of another one by being moved or assigned from it. *)
Theorem C06_empty_origin p u n x h : respects p u n -> past (hist p u n) h -> den h !! x = Some None ->
  exists e b, occurs h e b /\ (forall b', past h b' -> past b' (e :: b) -> den b' !! x = Some None) /\
  ((exists c kd k b0, e = EvRet c (NNew Pull kd) (AH x) /\ b = EvFree k :: b0 /\ tgt c b = Some (Outer k) /\ life k b0 = PDone None) \/
   (exists c y, e = EvRet c (NOp (OMoveCtor x)) (AH y)) \/
   (exists c y, e = EvRet c (NOp (OMoveCtor y)) (AH x) /\ den b !! y = Some None) \/
   (exists c y, (e = EvRet c (NOp (OMoveAssign x y)) AUnit \/ e = EvRet c (NOp (OMoveAssign y x)) AUnit) /\ den b !! y = Some None)).
Proof.
  intros Hr. induction h as [|e h IH]; [done|]. intros Hp Hd.
  destruct (decide (den h !! x = Some None)) as [Hd'|Hd'].
  { destruct (IH (past_tail _ _ _ Hp) Hd') as (e'&b'&H1&H2&H3). exists e', b'. split; [apply occurs_cons; by right|]. split; [|done].
    intros c Hc Hb. apply past_inv in Hc as [->|Hc]; [done|]. by apply H2. }
  exists e, h. split; [apply occurs_cons; by left|]. split.
  { intros b' H1 H2. apply past_len in H2. apply past_inv in H1 as [->|H1]; [done|]. apply past_len in H1. cbn in *. lia. }
  assert (Ho : occurs (hist p u n) e h) by (by apply occurs_past).
  destruct e as [c o|c o a|c o ex|m y|m r|m p0|m|m y|m y|m|m]; cbn in Hd; try done.
  - destruct o as [[]|]; try done. by apply lookup_delete_Some in Hd as [_ ?].
  - destruct (history_answers _ _ _ _ _ _ _ Hr Ho) as [_ Ha].
    destruct o as [[z|z w| | | | | | | | | | | | | | | | | | | ]|sd kd]; try done.
    + destruct Ha as (z'&->&Hz'&Hz). right. destruct (den h !! z) as [q|] eqn:Ez; [|done].
      apply lookup_insert_Some in Hd as [[-> _]|[Hne Hd]]; [left; eauto|].
      apply lookup_insert_Some in Hd as [[-> ->]|[_ Hd]]; [|done]. right; left; eauto.
    + destruct Ha as (->&_). right; right; right. destruct (den h !! z) as [q|] eqn:Ez; [|done]. destruct (den h !! w) as [q'|] eqn:Ew; [|done].
      apply lookup_insert_Some in Hd as [[-> ->]|[Hne Hd]]; [eauto|].
      apply lookup_insert_Some in Hd as [[-> ->]|[_ Hd]]; [eauto|done].
    + left. destruct sd.
      * destruct (ret_new_pull _ _ _ _ _ _ _ Hr Ho) as (k&y&b'&->&Ht&[[-> Hl]|(->&Hl&Hy)]).
        -- cbn in Hd, Hd'. rewrite (lookup_insert (den b')) in Hd. destruct (decide (x = y)) as [->|Hne]; [by rewrite lookup_insert in Hd|by rewrite lookup_insert_ne in Hd, Hd'].
        -- rewrite Hy in Hd. apply lookup_insert_Some in Hd as [[-> _]|[_ ?]]; [|done]. eauto 10.
      * destruct (ret_new_push _ _ _ _ _ _ _ Hr Ho) as (k&y&b'&->&->). cbn in Hd. rewrite lookup_insert in Hd. done.
  - by apply lookup_insert_Some in Hd as [[_ ?]|[_ ?]].
  - by apply lookup_insert_Some in Hd as [[_ ?]|[_ ?]].
  - by apply lookup_delete_Some in Hd as [_ ?].
Qed.

(** ** C07: operator! *)
Theorem C07_bool_not p u n c c' x v w b : respects p u n ->
  occurs (hist p u n) (EvRet c' (NOp (ONot x)) w) (EvCall c' (NOp (ONot x)) :: EvRet c (NOp (OBool x)) (AB v) :: b) -> w = AB (negb v).
Proof.
  intros Hr Ho. destruct (history_answers _ _ _ _ _ _ _ Hr Ho) as [_ (v1&H1&->)].
  destruct (history_answers _ _ _ _ _ _ _ Hr (occurs_tail _ _ _ _ (occurs_tail _ _ _ _ Ho))) as [_ (v2&H2&[= ->])].
  unfold tests in *. cbn in H1. by rewrite H1 in H2; simplify_eq.
Qed.
Theorem C07_not_bool p u n c c' x v w b : respects p u n ->
  occurs (hist p u n) (EvRet c' (NOp (OBool x)) w) (EvCall c' (NOp (OBool x)) :: EvRet c (NOp (ONot x)) (AB v) :: b) -> w = AB (negb v).
Proof.
  intros Hr Ho. destruct (history_answers _ _ _ _ _ _ _ Hr Ho) as [_ (v1&H1&->)].
  destruct (history_answers _ _ _ _ _ _ _ Hr (occurs_tail _ _ _ _ (occurs_tail _ _ _ _ Ho))) as [_ (v2&H2&[= ->])].
  unfold tests in *. cbn in H1. rewrite H1 in H2; simplify_eq. by rewrite negb_involutive.
Qed.
(** In the code, for every object and every memory, without any precondition: the two
    operators return opposite values or fail in the same way. *)
Theorem C07_code o m : coro_not o m =
  match coro_bool o m with MOk v m' => MOk (negb v) m' | MThrow e m' => MThrow e m' | MUB r => MUB r | MTerm m' => MTerm m' end.
Proof. apply not_bool. Qed.

(** ** C08: observers have no side effects *)

(** The next thing that happens after an observer was called is that it returns. *)
Theorem C08_returns_at_once p u n e c o b : respects p u n -> occurs (hist p u n) e (EvCall c (NOp o) :: b) -> observer o = true ->
  exists r, e = EvRet c (NOp o) r.
Proof. intros Hr Ho Hobs. eapply next_local; [done..|]. by destruct o. Qed.

(** It leaves every view of every coroutine as it was. *)
Theorem C08_changes_nothing c o r b : observer o = true ->
  let h := EvRet c (NOp o) r :: EvCall c (NOp o) :: b in
  den h = den b /\ (forall x, tests x h = tests x b) /\ coros_same h b.
Proof. destruct o; try done; cbn; intros _; (split; [done|]; split; [done|]; intros k; done). Qed.

(** In the code, from any state of the machine whatever: an observer either runs into
    undefined behaviour or comes back with the whole state unchanged (memory, control
    blocks, all suspended contexts); only the history gets longer. *)
Theorem C08_code s o k : c_focus s = FStrat (SDo o k) -> observer o = true ->
  (exists n r m, crun n s = CHalt (Undefined r) m) \/
  (exists n a, crun (S n) s = CNext (went_on s (k (ROk a)) [EvRet (c_cur s) (NOp o) a; EvCall (c_cur s) (NOp o)])).
Proof. apply observer_run. Qed.

(** Therefore the whole later behaviour is the one without the call of the observer, and
    with it only the two events of the call appear before: [r] is the same in both runs. *)
Theorem C08_future p u n s o k : crun n (cinit p u) = CNext s -> c_focus s = FStrat (SDo o k) -> observer o = true ->
  (exists n r m, crun n s = CHalt (Undefined r) m) \/
  exists n' a, forall N, exists r,
    crun (S n' + N) s = older_c ([EvRet (c_cur s) (NOp o) a; EvCall (c_cur s) (NOp o)] ++ m_tr (c_mem s)) r /\
    crun N (went_on s (k (ROk a)) []) = older_c (m_tr (c_mem s)) r.
Proof.
  intros Hs Hf Ho. destruct (observer_run s o k Hf Ho) as [?|(n'&a&H)]; [by left|]. right. exists n', a. intros N.
  destruct (same_future p u n s (k (ROk a)) N Hs) as [r Hr]. exists r. split; [|apply Hr].
  rewrite crun_add, H. apply Hr.
Qed.

(** ** C09: inside the function the counterpart tests true *)

(** The object given to the coroutine-function, as long as the function runs and has not
    moved from it, assigned it or destroyed it, denotes the other side of its coroutine. *)
Theorem C09_handed p u n k x b0 h : respects p u n -> past (hist p u n) h -> past h (EvEnter k x :: b0) -> life k h = PRun ->
  (forall e b, occurs h e b -> past b (EvEnter k x :: b0) -> ~ disposes x e) ->
  den h !! x = Some (Some (Inner k)) /\ tests x h = Some true.
Proof.
  intros Hr Hh He Hl Hn. pose proof (handed_kept _ _ _ _ _ _ _ Hr Hh He Hn Hl) as Hd. split; [done|]. unfold tests. by rewrite Hd.
Qed.

(** Every object that denotes the other side of a coroutine tests true. *)
Theorem C09_tests_true p u n k c x r b : respects p u n -> den b !! x = Some (Some (Inner k)) ->
  (occurs (hist p u n) (EvRet c (NOp (OBool x)) r) b -> r = AB true) /\
  (occurs (hist p u n) (EvRet c (NOp (ONot x)) r) b -> r = AB false).
Proof.
  intros Hr Hd. split; intros Ho; destruct (history_answers _ _ _ _ _ _ _ Hr Ho) as [_ (v&Hv&->)];
    unfold tests in Hv; rewrite Hd in Hv; by injection Hv as <-.
Qed.

(** The function of a push coroutine always has a value available, whenever it is about
    to do anything, unless it is being unwound. *)
Theorem C09_value_available p u n k o b kd : respects p u n -> occurs (hist p u n) (EvCall k o) b ->
  cls k b = Some (Push, kd) -> kd <> KVoid -> ~ unw k b -> slotv k b <> None.
Proof. apply running_value. Qed.

(** ** C19: move construction *)
Theorem C19_move_ctor p u n e c y b : respects p u n -> occurs (hist p u n) e (EvCall c (NOp (OMoveCtor y)) :: b) ->
  exists x, e = EvRet c (NOp (OMoveCtor y)) (AH x) /\ x <> y /\ den b !! x = None /\ den b !! y <> None /\
    let h := e :: EvCall c (NOp (OMoveCtor y)) :: b in
    den h !! x = den b !! y /\ tests x h = tests y b /\
    den h !! y = Some None /\ tests y h = Some false /\
    (forall z, z <> x -> z <> y -> den h !! z = den b !! z /\ tests z h = tests z b) /\
    coros_same h b.
Proof.
  intros Hr Ho. destruct (next_local _ _ _ _ _ _ _ Hr Ho eq_refl) as [r ->].
  destruct (history_answers _ _ _ _ _ _ _ Hr Ho) as [_ (x&->&Hx&Hy)]. cbn in Hx, Hy. exists x.
  assert (x <> y) as Hne by congruence.
  split; [done|]. split; [done|]. split; [done|]. split; [done|]. cbv zeta.
  unfold tests. cbn. destruct (den b !! y) as [q|] eqn:Ey; [|done].
  rewrite (lookup_insert_ne _ y x) by done. rewrite !lookup_insert. split; [done|]. split; [done|]. split; [done|]. split; [done|]. split; [|done].
  intros z Hzx Hzy. by rewrite !lookup_insert_ne.
Qed.

(** In the code, from any state of the machine: nothing but the pointers of the two
    objects changes -- no control block, no suspended context, no stack. *)
Theorem C19_code s y k o : c_focus s = FStrat (SDo (OMoveCtor y) k) -> m_h (c_mem s) !! y = Some o ->
  let m := c_mem s in
  crun 4 s = CNext (after_op s (OMoveCtor y)
    (set_nh (S (m_nh m)) (set_h (<[ y := HObj (h_side o) (h_kind o) None ]> (<[ m_nh m := o ]> (m_h m))) m)) (AH (m_nh m)) k).
Proof. apply move_run. Qed.

(** ** C20: move assignment exchanges the coroutines *)
Theorem C20_assign p u n e c x y b : respects p u n -> occurs (hist p u n) e (EvCall c (NOp (OMoveAssign x y)) :: b) ->
  e = EvRet c (NOp (OMoveAssign x y)) AUnit /\
    let h := e :: EvCall c (NOp (OMoveAssign x y)) :: b in
    den b !! x <> None /\ den b !! y <> None /\
    den h !! x = den b !! y /\ tests x h = tests y b /\
    den h !! y = den b !! x /\ tests y h = tests x b /\
    (forall z, z <> x -> z <> y -> den h !! z = den b !! z /\ tests z h = tests z b) /\
    coros_same h b.
Proof.
  intros Hr Ho. destruct (next_local _ _ _ _ _ _ _ Hr Ho eq_refl) as [r ->].
  destruct (history_answers _ _ _ _ _ _ _ Hr Ho) as [_ (->&Hx&Hy)]. cbn in Hx, Hy.
  split; [done|]. cbv zeta. split; [done|]. split; [done|].
  unfold tests. cbn. destruct (den b !! x) as [q|] eqn:Ex; [|done]. destruct (den b !! y) as [q'|] eqn:Ey; [|done].
  rewrite lookup_insert. assert (Hl : <[y:=q]> (<[x:=q']> (den b)) !! x = Some q').
  { destruct (decide (x = y)) as [->|Hne]; [rewrite lookup_insert; congruence|]. by rewrite lookup_insert_ne, lookup_insert. }
  rewrite Hl. split; [done|]. split; [done|]. split; [done|]. split; [done|]. split; [|done].
  intros z Hzx Hzy. by rewrite !lookup_insert_ne.
Qed.

(** Self-assignment leaves every object as it was. *)
Theorem C20_self p u n e c x b : respects p u n -> occurs (hist p u n) e (EvCall c (NOp (OMoveAssign x x)) :: b) ->
  let h := e :: EvCall c (NOp (OMoveAssign x x)) :: b in
  (forall z, den h !! z = den b !! z /\ tests z h = tests z b) /\ coros_same h b.
Proof.
  intros Hr Ho. destruct (C20_assign _ _ _ _ _ _ _ _ Hr Ho) as (He&_&_&H1&H2&_&_&H3&H4). split; [|exact H4].
  intros z. destruct (decide (z = x)) as [->|Hne]; [done|auto].
Qed.

(** In the code: only the pointers of the two objects are exchanged; if they are the same
    object nothing changes at all. *)
Theorem C20_code s x y k o1 o2 : c_focus s = FStrat (SDo (OMoveAssign x y) k) ->
  m_h (c_mem s) !! x = Some o1 -> m_h (c_mem s) !! y = Some o2 -> h_side o1 = h_side o2 -> h_kind o1 = h_kind o2 ->
  let m := c_mem s in
  crun 4 s = CNext (after_op s (OMoveAssign x y) (set_h (<[ y := o1 ]> (<[ x := o2 ]> (m_h m))) m) AUnit k).
Proof. apply assign_run. Qed.
Theorem C20_code_self s x k o : c_focus s = FStrat (SDo (OMoveAssign x x) k) -> m_h (c_mem s) !! x = Some o ->
  crun 4 s = CNext (after_op s (OMoveAssign x x) (c_mem s) AUnit k).
Proof.
  intros Hf Ho. rewrite (assign_run s x x k o o); [|done..]. rewrite insert_insert, insert_id by done. by destruct s as [[] ? ? ? ? ?].
Qed.

(** ** C21: unique ownership *)
Theorem C21_one_owner p u n h x y d : respects p u n -> past (hist p u n) h ->
  den h !! x = Some (Some d) -> den h !! y = Some (Some d) -> x = y.
Proof. apply den_inj. Qed.

(** What an owner denotes has not been destroyed. *)
Theorem C21_owner_alive p u n h x k : respects p u n -> past (hist p u n) h -> den h !! x = Some (Some (Outer k)) ->
  (life k h = PNew \/ life k h = PRun \/ exists y, life k h = PDone y) /\ (forall b, ~ occurs h (EvFree k) b) /\ (exists b, occurs h (EvAlloc k) b).
Proof.
  intros Hr Hh Hx. pose proof (owner_phase p u n h k Hr Hh (ex_intro _ _ Hx)) as Hl. split; [done|]. split.
  - intros b [l ->]. assert (Hb : past (hist p u n) (EvFree k :: b)) by (eapply past_trans; [exact Hh|by exists l]).
    pose proof (life_rank p u n _ (EvFree k :: b) k Hr Hh ltac:(by exists l)) as Hrk. cbn in Hrk. rewrite decide_True in Hrk by done. cbn in Hrk.
    destruct Hl as [E|[E|[y E]]]; rewrite E in Hrk; cbn in Hrk; lia.
  - eapply life_alloc; [done..|]. destruct Hl as [->|[->|[y ->]]]; done.
Qed.

(** A coroutine that was constructed has an owner until its destruction begins. *)
Theorem C21_owned_until_destroyed p u n h k : respects p u n -> past (hist p u n) h -> made k h -> owner k h \/ killed k h.
Proof. apply owner_kept. Qed.

(** The same of the memory of the model, whenever user code is in control: the pointers
    of two objects never lead to the same control block, and the block they lead to is
    alive and lies in a stack that is still allocated. *)
Theorem C21_memory p u n s st : respects p u n -> crun n (cinit p u) = CNext s -> c_focus s = FStrat st ->
  (forall x y o o' e, m_h (c_mem s) !! x = Some o -> m_h (c_mem s) !! y = Some o' -> h_ep o = Some e -> h_ep o' = Some e -> x = y) /\
  (forall x o k, m_h (c_mem s) !! x = Some o -> h_ep o = Some (Outer k) ->
     k ∈ m_stk (c_mem s) /\ exists cb, m_cbs (c_mem s) !! Outer k = Some cb /\ cb_alive cb = true).
Proof.
  intros Hr Hs Hf. destruct (user_state _ _ _ _ _ Hr Hs Hf) as (k0&a&_&Ha&_&HR&_). apply arun_mreach in Ha.
  pose proof (mreach_own _ _ _ Ha) as O. destruct HR as [[Hfl Hcb Hstk _ _] _ _]. destruct Hfl as [Hh _ _ _ _]. rewrite Hh. split.
  - intros x y o o' e H1 H2 H3 H4. by eapply (o_inj _ O).
  - intros x o k H1 H2. destruct (proj1 (o_own _ O k (ex_intro _ x (ex_intro _ o (conj H1 H2))))) as (c&Hc&Hu). cbn in Hc.
    split; [apply Hstk; by eexists|]. specialize (Hcb k). rewrite Hc in Hcb. cbn in Hcb. destruct Hcb as [_ Hcb]. rewrite Hu in Hcb. eexists. split; [exact Hcb|done].
Qed.

(** What [den] says of the history is what the pointers in memory say; the only objects
    the history does not know are the counterparts of push coroutines not yet entered. *)
Theorem C21_history_is_memory p u n s st x : respects p u n -> crun n (cinit p u) = CNext s -> c_focus s = FStrat st ->
  let h := m_tr (c_mem s) in
  den h !! x = h_ep <$> m_h (c_mem s) !! x \/
  (den h !! x = None /\ exists k kd, m_h (c_mem s) !! x = Some (HObj Pull kd (Some (Inner k))) /\ life k h = PNew).
Proof.
  intros Hr Hs Hf. destruct (user_state _ _ _ _ _ Hr Hs Hf) as (k0&a&_&Ha&_&HR&Hfoc). apply arun_mreach in Ha.
  destruct HR as [[Hfl _ _ _ _] _ _]. destruct Hfl as [Hh _ _ _ Htr]. cbv zeta. rewrite Hh, Htr.
  pose proof (mreach_den _ _ _ Ha) as D.
  destruct (decide (map_Exists (fun k c => hst (ac_st c) <> 2 /\ ac_syn c = x) (a_co a))) as [He|Hn].
  - destruct He as (k&c&Hc&Hne&Hsyn). right. split; [apply (d_den1 _ D); by exists k, c|].
    assert (hst (ac_st c) = 0) as H0.
    { destruct (ac_st c) as [| | | |[]] eqn:Est; cbn in *; try done. destruct (d_unw _ D k c Hc) as (_&Hx&_); [by rewrite Est|].
      unfold exitish in Hx. cbn in Hx. by rewrite Hfoc in Hx. }
    exists k, (ac_kind c). split; [rewrite <- Hsyn; by apply (d_new _ D)|].
    pose proof (li_st _ (mreach_life _ _ _ Ha) _ _ Hc) as Hl. cbn in Hl. by destruct (ac_st c) as [| | | |[]].
  - left. apply (d_den2 _ D); [|done]. intros (k&c&Hc&H1&H2). apply Hn. exists k, c. done.
Qed.

(** ** C22: not-a-coroutine objects are inert *)
Theorem C22_tests_false p u n c x r b : respects p u n -> den b !! x = Some None ->
  (occurs (hist p u n) (EvRet c (NOp (OBool x)) r) b -> r = AB false) /\
  (occurs (hist p u n) (EvRet c (NOp (ONot x)) r) b -> r = AB true).
Proof.
  intros Hr Hd. split; intros Ho; destruct (history_answers _ _ _ _ _ _ _ Hr Ho) as [_ (v&Hv&->)];
    unfold tests in Hv; rewrite Hd in Hv; by injection Hv as <-.
Qed.

(** Destroying one: the destructor returns at once; nothing changes but that the object
    is gone. *)
Theorem C22_destroy p u n e c x b : respects p u n -> occurs (hist p u n) e (EvCall c (NOp (ODestroy x)) :: b) -> den b !! x = Some None ->
  e = EvRet c (NOp (ODestroy x)) AUnit /\
    let h := e :: EvCall c (NOp (ODestroy x)) :: b in
    den h = delete x (den b) /\ coros_same h b.
Proof.
  intros Hr Ho Hd. pose proof (history_follows _ _ _ _ _ Hr Ho) as Hf. cbn in Hf. rewrite Hd in Hf. subst e. split; [done|]. by split.
Qed.
(** Moving one: the new object is not-a-coroutine too. *)
Theorem C22_move p u n e c y b : respects p u n -> occurs (hist p u n) e (EvCall c (NOp (OMoveCtor y)) :: b) -> den b !! y = Some None ->
  exists x, e = EvRet c (NOp (OMoveCtor y)) (AH x) /\
    let h := e :: EvCall c (NOp (OMoveCtor y)) :: b in
    den h = <[x := None]> (den b) /\ coros_same h b.
Proof.
  intros Hr Ho Hd. destruct (C19_move_ctor _ _ _ _ _ _ _ Hr Ho) as (x&->&Hne&_&_&_&_&_&_&_&Hc). exists x. split; [done|]. split; [|done].
  cbn. rewrite Hd. rewrite insert_commute by done. by rewrite (insert_id (den b) y).
Qed.
(** In the code, from any state of the machine: destroying one only ends its lifetime. *)
Theorem C22_code s y k sd kd : c_focus s = FStrat (SDo (ODestroy y) k) -> m_h (c_mem s) !! y = Some (HObj sd kd None) ->
  crun 4 s = CNext (after_op s (ODestroy y) (set_h (delete y (m_h (c_mem s))) (c_mem s)) AUnit k).
Proof. apply destroy_empty_run. Qed.

(** ** C28: iterating *)

(** The first dereference (or get()) after a push shows the pushed value or the pushed
    object; dereferencing again shows the same as long as get() is not called. *)
Theorem C28_deref p u n c x r b k : respects p u n -> occurs (hist p u n) (EvRet c (NOp (OItDeref (Some x))) r) b ->
  den b !! x = Some (Some (Outer k)) -> ngets k b = 0 ->
  exists q rest, pushes k b = q :: rest /\ ans_payload r = Some q.
Proof.
  intros Hr Ho Hd Hg. destruct (read_ans _ _ _ _ _ x _ _ Hr Ho eq_refl) as (sd&k'&Hd'&_&Hv).
  rewrite Hd in Hd'. destruct sd; cbn in Hd'; simplify_eq.
  destruct Hv as [(w&rest&_&E&->)|(l&rest&_&E&->)]; eexists _, rest; (split; [exact E|]); cbn; by rewrite ?Hg.
Qed.

(** ++ gives control to the function and comes back either with exactly one more value
    pushed, or with the function ended, and then -- if the object has not been moved or
    assigned meanwhile -- the iterator is the end iterator. *)
Theorem C28_increment p u n c x i b k kd : respects p u n -> occurs (hist p u n) (EvRet c (NOp (OItInc (Some x))) (AIt i)) b ->
  tgt c b = Some (Outer k) -> cls k b = Some (Pull, kd) -> kd <> KVoid ->
  ((life k b = PRun /\ length (pushes k b) = S (turns Pull k b)) \/ (life k b = PDone None /\ length (pushes k b) = turns Pull k b)) /\
  (den b !! x = Some (Some (Outer k)) -> (i = None <-> life k b = PDone None) /\ (i = Some x <-> life k b = PRun)).
Proof.
  intros Hr Ho Ht Hcl Hk. pose proof (recv_turn p u n c _ _ b Pull k kd Hr Ho eq_refl Ht Hcl Hk) as Hl.
  split; [tauto|]. intros Hd. destruct (history_answers _ _ _ _ _ _ _ Hr Ho) as [_ (v&Hv&[= ->])].
  unfold tests in Hv. rewrite Hd in Hv. injection Hv as <-.
  destruct Hl as [[-> _]|(_&->&_)]; done.
Qed.

(** If the function throws, the exception leaves ++, with nothing pushed in between. *)
Theorem C28_increment_throws p u n c x ex b k kd : respects p u n -> occurs (hist p u n) (EvExn c (NOp (OItInc (Some x))) (XUser ex)) b ->
  tgt c b = Some (Outer k) -> cls k b = Some (Pull, kd) -> kd <> KVoid ->
  life k b = PDone (Some ex) /\ length (pushes k b) = turns Pull k b.
Proof. intros Hr Ho Ht Hcl Hk. by eapply recv_exn. Qed.

(** A loop that has dereferenced in each of its turns -- so, as long as it goes on and
    when it is over -- has seen exactly the pushed sequence. *)
Theorem C28_sequence p u n c o b k kd : respects p u n -> occurs (hist p u n) (EvCall c o) b ->
  cls k b = Some (Pull, kd) -> kd <> KVoid -> life k b <> PAlloc -> life k b <> PFreed -> length (visited k b) = turns Pull k b ->
  visited k b = pushes k b.
Proof. apply visited_all. Qed.

(** ** C29: input iterators *)
Theorem C29_end_iff_false p u n c c' o x i w b : respects p u n -> o = OBegin x \/ o = OItInc (Some x) ->
  occurs (hist p u n) (EvRet c' (NOp (OBool x)) (AB w)) (EvCall c' (NOp (OBool x)) :: EvRet c (NOp o) (AIt i) :: b) ->
  (i = None <-> w = false).
Proof.
  intros Hr Hi Ho. destruct (history_answers _ _ _ _ _ _ _ Hr Ho) as [_ (v1&H1&[= ->])].
  destruct (history_answers _ _ _ _ _ _ _ Hr (occurs_tail _ _ _ _ (occurs_tail _ _ _ _ Ho))) as [_ Ha].
  assert (Ha' : exists v, tests x b = Some v /\ AIt i = AIt (if v then Some x else None)) by (destruct Hi as [-> | ->]; exact Ha).
  destruct Ha' as (v&Hv&[= ->]). assert (Ht : tests x (EvCall c' (NOp (OBool x)) :: EvRet c (NOp o) (AIt (if v then Some x else None)) :: b) = tests x b).
  { unfold tests. by destruct Hi as [-> | ->]. }
  rewrite Ht, Hv in H1. injection H1 as <-. by destruct v.
Qed.
(** The comparison with the end iterator says exactly whether the iterator is it, and !=
    the opposite. *)
Theorem C29_compare p u n c i j r b : respects p u n ->
  (occurs (hist p u n) (EvRet c (NOp (OItEq i j)) r) b -> r = AB (bool_decide (i = j))) /\
  (occurs (hist p u n) (EvRet c (NOp (OItNe i j)) r) b -> r = AB (negb (bool_decide (i = j)))) /\
  (occurs (hist p u n) (EvRet c (NOp OEnd) r) b -> r = AIt None).
Proof. intros Hr. split; [|split]; intros Ho; by destruct (history_answers _ _ _ _ _ _ _ Hr Ho) as [_ Ha]. Qed.

(** ** C30: output iterators *)

(** Assigning pushes exactly the assigned value (or throws what copying it throws). *)
Theorem C30_assign_pushes p u n c x g v b e sd k : let o := NOp (OOutAssign (Some x) g) in
  respects p u n -> occurs (hist p u n) e (EvCall c o :: b) ->
  den b !! x = Some (Some (sender sd k)) -> cls k b = Some (sd, KVal) -> argval u g b = Some v ->
  let r := match arg_exn o v with Some ex => EvExn c o (XUser ex) | None => EvSet k (PVal v) end in
  (slotv k b = None /\ e = r) \/
  (slotv k b <> None /\ e = EvDel k /\ forall e', occurs (hist p u n) e' (e :: EvCall c o :: b) -> e' = r).
Proof. intros o Hr Ho Hd Hcl Hv. eapply push_value; eauto. Qed.
Theorem C30_assign_pushes_ref p u n c x g b e sd k : respects p u n -> occurs (hist p u n) e (EvCall c (NOp (OOutAssign (Some x) g)) :: b) ->
  den b !! x = Some (Some (sender sd k)) -> cls k b = Some (sd, KRef) -> exists l, g = ARefTo l /\ e = EvSet k (PRef l).
Proof.
  intros Hr Ho Hd Hcl. destruct (next_push _ _ _ _ _ _ g _ Hr Ho eq_refl) as (sd'&k'&kd'&Ht&Hcl'&Hp).
  cbn in Ht. rewrite decide_True in Ht by done. rewrite Hd in Ht. cbn in Ht. injection Ht as Ht. apply sender_inj in Ht as [-> ->].
  rewrite Hcl in Hcl'. injection Hcl' as <-. cbn in Hp. by rewrite ep_sender in Hp.
Qed.

(** After an assignment the iterator is the end iterator iff the object tests false. *)
Theorem C30_end_iff_false p u n c c' x g i w b : respects p u n ->
  occurs (hist p u n) (EvRet c' (NOp (OBool x)) (AB w)) (EvCall c' (NOp (OBool x)) :: EvRet c (NOp (OOutAssign (Some x) g)) (AIt i) :: b) ->
  (i = None <-> w = false).
Proof.
  intros Hr Ho. destruct (history_answers _ _ _ _ _ _ _ Hr Ho) as [_ (v1&H1&[= ->])].
  destruct (history_answers _ _ _ _ _ _ _ Hr (occurs_tail _ _ _ _ (occurs_tail _ _ _ _ Ho))) as [_ (v&Hv&[= ->])].
  unfold tests in *. cbn in H1. rewrite H1 in Hv. injection Hv as ->. by destruct v.
Qed.
(** That is, iff the coroutine is complete (for the counterpart: never). *)
Theorem C30_reset p u n c x g i b : respects p u n -> occurs (hist p u n) (EvRet c (NOp (OOutAssign (Some x) g)) (AIt i)) b ->
  exists e, den b !! x = Some e /\
    match e with
    | Some (Outer k) => i = (match life k b with PDone _ => None | _ => Some x end)
    | Some (Inner _) => i = Some x
    | None => i = None
    end.
Proof.
  intros Hr Ho. destruct (history_answers _ _ _ _ _ _ _ Hr Ho) as [_ (v&Hv&[= ->])]. unfold tests in Hv.
  destruct (den b !! x) as [e|]; [|done]. exists e. split; [done|]. destruct e as [[k|k]|]; injection Hv as <-; [by destruct (life k b)|done..].
Qed.
(** begin() never returns the end iterator, whatever the object tests. *)
Theorem C30_begin p u n c x r b : respects p u n -> occurs (hist p u n) (EvRet c (NOp (OOutBegin x)) r) b -> r = AIt (Some x).
Proof. intros Hr Ho. by destruct (history_answers _ _ _ _ _ _ _ Hr Ho) as [_ [_ ?]]. Qed.

(** ** C44: the counterpart may be moved or dropped *)

(** Moving it: see C19 (the new object denotes what the old one denoted, nothing else
    changes).  Using the new object is using the coroutine: a push through any object
    that denotes the other side of coroutine [k] does what the rule for pushing to [k]
    says ([push_follows], Rules.v; for values: C01, C26), a resumption hands over to the
    resumer of [k]. *)
Theorem C44_push_through p u n e c t g b k kd : respects p u n -> occurs (hist p u n) e (EvCall c (NOp (OPush t g)) :: b) ->
  den b !! t = Some (Some (Inner k)) -> cls k b = Some (Pull, kd) ->
  push_follows u c (NOp (OPush t g)) g (Inner k) kd (EvCall c (NOp (OPush t g)) :: b) e.
Proof.
  intros Hr Ho Hd Hcl. destruct (next_push _ _ _ _ _ _ g _ Hr Ho eq_refl) as (sd'&k'&kd'&Ht&Hcl'&Hp).
  cbn in Ht. rewrite decide_True in Ht by done. rewrite Hd in Ht. cbn in Ht. destruct sd'; cbn in Ht; [|done]. injection Ht as <-.
  rewrite Hcl in Hcl'. by injection Hcl' as <-.
Qed.
Theorem C44_resume_through p u n e c t b k : respects p u n -> occurs (hist p u n) e (EvCall c (NOp (OResume t)) :: b) ->
  den b !! t = Some (Some (Inner k)) -> handover (Inner k) (EvCall c (NOp (OResume t)) :: b) e.
Proof.
  intros Hr Ho Hd. pose proof (history_follows _ _ _ _ _ Hr Ho) as (sd&k'&kd&Hd'&_&Hh). rewrite Hd in Hd'. injection Hd' as Hd'.
  by rewrite <- Hd' in Hh.
Qed.

(** Destroying it: the destructor returns at once and no coroutine changes. *)
Theorem C44_destroy p u n e c x b k : respects p u n -> occurs (hist p u n) e (EvCall c (NOp (ODestroy x)) :: b) -> den b !! x = Some (Some (Inner k)) ->
  e = EvRet c (NOp (ODestroy x)) AUnit /\
    let h := e :: EvCall c (NOp (ODestroy x)) :: b in
    den h = delete x (den b) /\ coros_same h b.
Proof.
  intros Hr Ho Hd. pose proof (history_follows _ _ _ _ _ Hr Ho) as Hf. cbn in Hf. rewrite Hd in Hf. subst e. split; [done|]. by split.
Qed.
(** In the memory of the model: nothing but the lifetime of the object changes. *)
Theorem C44_code p u n s y k sd kd i : respects p u n -> crun n (cinit p u) = CNext s -> c_focus s = FStrat (SDo (ODestroy y) k) ->
  m_h (c_mem s) !! y = Some (HObj sd kd (Some (Inner i))) -> is_Some (m_cbs (c_mem s) !! Inner i) ->
  crun 5 s = CNext (after_op s (ODestroy y) (set_h (delete y (m_h (c_mem s))) (c_mem s)) AUnit k).
Proof.
  intros Hr Hs Hf Hy [b Hb]. destruct (user_state _ _ _ _ _ Hr Hs Hf) as (k0&a&_&Ha&_&HR&_).
  destruct HR as [[_ Hcb _ _ _] _ _]. specialize (Hcb i). destruct (a_co a !! i) as [c|]; cbn in Hcb.
  - destruct Hcb as [Hi _]. rewrite Hb in Hi. injection Hi as ->. by eapply destroy_inner_run.
  - destruct Hcb. congruence.
Qed.

End obj.

(** ** What is documented otherwise *)

(** C06: an object that took over the counterpart of a coroutine tests true even after the
    function of that coroutine has returned. *)
Theorem C06_escaped_counterpart_refuted :
  happens ex_escape (fun e b => e = EvRet 0 (NOp (OBool 0)) (AB true) /\ den b !! 0 = Some (Some (Inner 2)) /\ EvLeave 2 None ∈ b).
Proof. by_run. Qed.
(** C20: after x = std::move(y), y is not empty and the coroutine of x is not destroyed;
    both objects can still be read. *)
Theorem C20_documented_refuted :
  happens ex_assign (fun e b => e = EvRet 0 (NOp (OBool 2)) (AB true) /\ EvRet 0 (NOp (OMoveAssign 0 2)) AUnit ∈ b /\
    EvFree 1 ∉ b /\ EvCall 0 (NOp (OMoveCtor 0)) ∉ b) /\
  happens ex_assign (fun e b => e = EvRet 0 (NOp (OGet 2)) (AV 5) /\ EvRet 0 (NOp (OMoveAssign 0 2)) AUnit ∈ b) /\
  happens ex_assign (fun e b => e = EvRet 0 (NOp (OGet 0)) (AV 6) /\ EvRet 0 (NOp (OMoveAssign 0 2)) AUnit ∈ b).
Proof. split; [by_run|]. split; by_run. Qed.
(** C30: an iterator from begin() of a complete push object does not equal end(). *)
Theorem C30_documented_refuted :
  happens ex_out (fun e b => e = EvRet 0 (NOp (OItEq (Some 0) None)) (AB false) /\
    EvRet 0 (NOp (OBool 0)) (AB false) ∈ b /\ EvLeave 1 None ∈ b /\ head (tail b) = Some (EvRet 0 (NOp (OOutBegin 0)) (AIt (Some 0)))).
Proof. by_run. Qed.

(** ** Cases meeting the hypotheses *)
Example C06_bool_false : happens ex_pull (fun e b => e = EvRet 0 (NOp (OBool 0)) (AB false) /\ den b !! 0 = Some (Some (Outer 1)) /\ EvLeave 1 None ∈ b).
Proof. by_run. Qed.
Example C06_bool_true : happens ex_pull (fun e b => e = EvRet 0 (NOp (OBool 0)) (AB true) /\ den b !! 0 = Some (Some (Outer 1))).
Proof. by_run. Qed.
Example C06_bool_empty : happens ex_move (fun e b => e = EvRet 0 (NOp (OBool 0)) (AB false) /\ den b !! 0 = Some None).
Proof. by_run. Qed.
Example C06_empty_origin_example : comes ex_empty (fun h => den h !! 0 = Some None) /\ comes ex_move (fun h => den h !! 0 = Some None).
Proof. split; by_run. Qed.
Example C07_not_bool_example : happens ex_pull (fun e b => e = EvRet 0 (NOp (ONot 0)) (AB true) /\ head (tail b) = Some (EvRet 0 (NOp (OBool 0)) (AB false))).
Proof. by_run. Qed.
Example C07_not_bool_true : happens ex_outref (fun e b => e = EvRet 1 (NOp (ONot 1)) (AB false) /\ head (tail b) = Some (EvRet 1 (NOp (OBool 1)) (AB true))).
Proof. by_run. Qed.
Example C08_observer_example : observer (OItDeref (Some 0)) = true /\ happens ex_iter (fun e b => e = EvRet 0 (NOp (OItDeref (Some 0))) (AV 5) /\ head b = Some (EvCall 0 (NOp (OItDeref (Some 0))))).
Proof. split; [done|]. by_run. Qed.
(** States of the machine of the code at which user code calls an observer, moves, destroys. *)
Example C08_state_example : exists n s k, crun n (cinit ex_pull u0) = CNext s /\ c_focus s = FStrat (SDo (OBool 0) k).
Proof. exists 32. by apply user_op_state. Qed.
Example C19_state_example : exists n s k, crun n (cinit ex_move u0) = CNext s /\ c_focus s = FStrat (SDo (OMoveCtor 0) k).
Proof. exists 32. by apply user_op_state. Qed.
Example C20_state_example : exists n s k, crun n (cinit ex_move u0) = CNext s /\ c_focus s = FStrat (SDo (OMoveAssign 3 2) k).
Proof. exists 80. by apply user_op_state. Qed.
Example C22_state_example : exists n s k, crun n (cinit ex_move u0) = CNext s /\ c_focus s = FStrat (SDo (ODestroy 0) k).
Proof. exists 115. by apply user_op_state. Qed.
Example C44_state_example : exists n s k, crun n (cinit ex_inner u0) = CNext s /\ c_focus s = FStrat (SDo (ODestroy 2) k).
Proof. exists 57. by apply user_op_state. Qed.
Example C44_state_example2 : match crun 57 (cinit ex_inner u0) with
  | CNext s => m_h (c_mem s) !! 2 = Some (HObj Push KVal (Some (Inner 1))) /\ is_Some (m_cbs (c_mem s) !! Inner 1) | _ => False end.
Proof. vm_compute. split; [done|by eexists]. Qed.
Example C09_handed_example : comes ex_push (fun h => EvEnter 1 1 ∈ h /\ life 1 h = PRun /\ den h !! 1 = Some (Some (Inner 1)) /\ EvCall 1 (NOp (OResume 1)) ∈ h).
Proof. by_run. Qed.
Example C09_tests_true_example : happens ex_push (fun e b => e = EvRet 1 (NOp (OBool 1)) (AB true) /\ den b !! 1 = Some (Some (Inner 1))).
Proof. by_run. Qed.
Example C09_value_available_example : happens ex_push (fun e b => e = EvCall 1 (NOp (OResume 1)) /\ cls 1 b = Some (Push, KVal) /\ slotv 1 b <> None).
Proof. by_run. Qed.
Example C19_move_ctor_example : happens ex_move (fun e b => e = EvRet 0 (NOp (OMoveCtor 0)) (AH 2) /\ head b = Some (EvCall 0 (NOp (OMoveCtor 0))) /\
  den b !! 0 = Some (Some (Outer 1)) /\ slotv 1 b = Some (PVal 5)).
Proof. by_run. Qed.
Example C20_assign_example : happens ex_assign (fun e b => e = EvRet 0 (NOp (OMoveAssign 0 2)) AUnit /\ den b !! 0 = Some (Some (Outer 1)) /\ den b !! 2 = Some (Some (Outer 2))).
Proof. by_run. Qed.
Example C20_self_example : happens ex_move (fun e b => e = EvRet 0 (NOp (OMoveAssign 3 3)) AUnit /\ den b !! 3 <> Some None).
Proof. by_run. Qed.
Example C21_owner_example : comes ex_assign (fun h => den h !! 0 = Some (Some (Outer 2)) /\ den h !! 2 = Some (Some (Outer 1)) /\ EvAlloc 1 ∈ h /\ EvAlloc 2 ∈ h).
Proof. by_run. Qed.
Example C21_owned_until_destroyed_example : comes ex_kill (fun h => den h !! 0 = None /\ EvNew 1 0 ∈ h /\ EvFree 1 ∉ h).
Proof. by_run. Qed.
Example C22_inert_example : happens ex_move (fun e b => e = EvRet 0 (NOp (ODestroy 0)) AUnit /\ head b = Some (EvCall 0 (NOp (ODestroy 0))) /\ den (tail b) !! 0 = Some None).
Proof. by_run. Qed.
Example C28_deref_example : happens ex_iter (fun e b => e = EvRet 0 (NOp (OItDeref (Some 0))) (AV 6) /\ den b !! 0 = Some (Some (Outer 1)) /\ ngets 1 b = 0 /\ pushes 1 b = [PVal 6; PVal 5]).
Proof. by_run. Qed.
Example C28_increment_example : happens ex_iter (fun e b => e = EvRet 0 (NOp (OItInc (Some 0))) (AIt (Some 0)) /\ tgt 0 b = Some (Outer 1) /\ cls 1 b = Some (Pull, KVal) /\ life 1 b = PRun).
Proof. by_run. Qed.
Example C28_increment_end : happens ex_iter (fun e b => e = EvRet 0 (NOp (OItInc (Some 0))) (AIt None) /\ tgt 0 b = Some (Outer 1) /\ cls 1 b = Some (Pull, KVal) /\ life 1 b = PDone None /\ den b !! 0 = Some (Some (Outer 1))).
Proof. by_run. Qed.
Example C28_increment_throws_example : happens ex_iter_throw (fun e b => e = EvExn 0 (NOp (OItInc (Some 0))) (XUser 77) /\ tgt 0 b = Some (Outer 1) /\ cls 1 b = Some (Pull, KVal)).
Proof. by_run. Qed.
Example C28_sequence_example : happens ex_iter (fun e b => e = EvCall 0 (NOp OEnd) /\ cls 1 b = Some (Pull, KVal) /\ life 1 b = PDone None /\
  length (visited 1 b) = turns Pull 1 b /\ visited 1 b = [PVal 6; PVal 5]).
Proof. by_run. Qed.
Example C29_end_iff_false_example : happens ex_iter (fun e b => e = EvRet 0 (NOp (OItEq None None)) (AB true)).
Proof. by_run. Qed.
Example C30_assign_example : happens ex_out (fun e b => e = EvDel 1 /\ head b = Some (EvCall 0 (NOp (OOutAssign (Some 0) (AImm 6)))) /\ den b !! 0 = Some (Some (Outer 1)) /\ cls 1 b = Some (Push, KVal)).
Proof. by_run. Qed.
Example C30_assign_ref_example : happens ex_outref (fun e b => e = EvSet 1 (PRef 1) /\ head b = Some (EvCall 0 (NOp (OOutAssign (Some 0) (ARefTo 1)))) /\ cls 1 b = Some (Push, KRef)).
Proof. by_run. Qed.
Example C30_end_iff_false_example : happens ex_out (fun e b => e = EvRet 0 (NOp (OItEq None None)) (AB true) /\ EvRet 0 (NOp (OOutAssign (Some 0) (AImm 6))) (AIt None) ∈ b).
Proof. by_run. Qed.
Example C44_push_through_example : happens ex_inner (fun e b => e = EvSet 1 (PVal 5) /\ head b = Some (EvCall 1 (NOp (OPush 2 (AImm 5)))) /\ den b !! 2 = Some (Some (Inner 1)) /\ den b !! 1 = Some None).
Proof. by_run. Qed.
Example C44_destroy_example : happens ex_inner (fun e b => e = EvRet 1 (NOp (ODestroy 2)) AUnit /\ den (tail b) !! 2 = Some (Some (Inner 1)) /\ life 1 b = PRun).
Proof. by_run. Qed.

Print Assumptions C06_bool.
Print Assumptions C06_empty_origin.
Print Assumptions C07_bool_not.
Print Assumptions C07_not_bool.
Print Assumptions C07_code.
Print Assumptions C08_returns_at_once.
Print Assumptions C08_changes_nothing.
Print Assumptions C08_code.
Print Assumptions C08_future.
Print Assumptions C09_handed.
Print Assumptions C09_tests_true.
Print Assumptions C09_value_available.
Print Assumptions C19_move_ctor.
Print Assumptions C19_code.
Print Assumptions C20_assign.
Print Assumptions C20_self.
Print Assumptions C20_code.
Print Assumptions C20_code_self.
Print Assumptions C21_one_owner.
Print Assumptions C21_owner_alive.
Print Assumptions C21_owned_until_destroyed.
Print Assumptions C21_memory.
Print Assumptions C21_history_is_memory.
Print Assumptions C22_tests_false.
Print Assumptions C22_destroy.
Print Assumptions C22_move.
Print Assumptions C22_code.
Print Assumptions C28_deref.
Print Assumptions C28_increment.
Print Assumptions C28_increment_throws.
Print Assumptions C28_sequence.
Print Assumptions C29_end_iff_false.
Print Assumptions C29_compare.
Print Assumptions C30_assign_pushes.
Print Assumptions C30_assign_pushes_ref.
Print Assumptions C30_end_iff_false.
Print Assumptions C30_reset.
Print Assumptions C30_begin.
Print Assumptions C44_push_through.
Print Assumptions C44_resume_through.
Print Assumptions C44_destroy.
Print Assumptions C44_code.
Print Assumptions C06_escaped_counterpart_refuted.
Print Assumptions C20_documented_refuted.
Print Assumptions C30_documented_refuted.
