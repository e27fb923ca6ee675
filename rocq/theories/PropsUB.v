(** PropsUB.v -- what happens when the preconditions are not respected: C31, C32.

    [undefined p u]: the machine of the code, running program [p] in the user memory [u],
    comes to an undefined operation.  [about p u n st c h]: the program has obeyed the
    contract (Contract.v) for [n] steps, after which context [c] is about to do [st], and [h]
    is the history so far.  The theorems say in terms of [h] which actions are fatal.
    [den], [life], [cstack], [unw]: Trace.v. *)
From stdpp Require Import prelude gmap.
From Coq Require Import Lia.
From Verif Require Import Base Model Spec InvSpec Refine Sim Mono Main Micro Trace Life Den Stack Own Slot Hist FactsLife FactsSeq FactsObj FactsCall FactsView Examples Misuse.

Section ub.
Context {env : Env} {comp : Compiler}.
Implicit Types h b : list event.

Definition undefined (p : strat) (u : gmap nat T) : Prop := exists n r m, crun n (cinit p u) = CHalt (Undefined r) m.

Definition about (p : strat) (u : gmap nat T) (n : nat) (st : strat) (c : nat) h : Prop :=
  respects p u n /\ exists s, crun n (cinit p u) = CNext s /\ c_focus s = FStrat st /\ c_cur s = c /\ hist p u n = h.

(** The calls that resume a coroutine ([resumes], Misuse.v): operator() of both classes,
    ++ of the input iterator, assignment through the output iterator.  Constructing the
    argument must not throw (if it does, the coroutine is not resumed). *)
Definition arg_fine (u : gmap nat T) (o : op) h : Prop :=
  forall g v, push_arg (NOp o) = Some g -> argval u g h = Some v -> arg_exn (NOp o) v = None.

Lemma about_ref p u n st c h : about p u n st c h -> exists k a, arun k (ainit p u) = ANext a /\ a_foc a = AUser st /\ a_cur a = c /\ a_tr a = h.
Proof.
  intros (Hr&s&Hc&Hf&<-&<-). destruct (user_state _ _ _ _ _ Hr Hc Hf) as (k&a&_&Ha&_&HR&Hfoc). exists k, a. split; [done|]. split; [done|].
  destruct HR as [[[_ _ _ _ Ht] _ _ _ _] Hcur _]. split; [done|]. unfold hist. rewrite Hc. cbn. by rewrite Ht.
Qed.

Lemma reached p u k a : arun k (ainit p u) = ANext a -> exists s, (goes_ub s -> undefined p u) /\ R a s /\ Inv a /\ mreach p u (a, MFoc).
Proof.
  intros H. destruct (sim_run _ _ _ _ H) as (I&N&s&_&Hc&HR). exists s. split; [|split; [done|split; [done|by eapply arun_mreach]]].
  intros (n&r&m&Hn). exists (N + n), r, m. by rewrite crun_add, Hc.
Qed.

Lemma arg_no_throw p u a o : mreach p u (a, MFoc) -> arg_fine u o (a_tr a) -> no_throw (a_user a) o.
Proof.
  intros Hx Hf. pose proof (sl_user _ _ (mreach_slot _ _ _ Hx)) as U. cbn in U. unfold arg_fine in Hf. unfold no_throw.
  destruct o as [| | | |x g| | | | | | | | | | | |[x|] g| | | |]; try done; destruct g; cbn in *; try done.
  - intros v Hv. eapply Hf; [done|]. cbn. by rewrite <- U.
  - intros v Hv. eapply Hf; [done|]. cbn. by rewrite <- U.
  - by eapply Hf.
  - by eapply Hf.
  - by eapply Hf.
Qed.

(** ** C31 *)

(** Through an object that is not-a-coroutine. *)
Theorem C31_empty p u n c h o kk x : about p u n (SDo o kk) c h ->
  resumes o = Some x \/ o = OGet x \/ o = OItDeref (Some x) -> den h !! x = Some None -> undefined p u.
Proof.
  intros Hab Ho Hd. destruct (about_ref _ _ _ _ _ _ Hab) as (k0&a&Hk&Hf&Hc0&Eh0). subst h. destruct (reached _ _ _ _ Hk) as (s&Hs&HR&_&Hx). apply Hs.
  destruct (den_h _ _ _ _ _ Hx Hd) as (ob&Hob&He). cbn in Hob. destruct HR as [[[Eh _ _ _ _] _ _ _ _] _ HF]. unfold foc_ok in HF. rewrite Hf in HF.
  destruct HF as [HF _]. rewrite <- Eh in Hob. by eapply ub_null.
Qed.

(** Through the end iterator. *)
Theorem C31_end_iterator p u n c h o kk : about p u n (SDo o kk) c h ->
  o = OItInc None \/ o = OItDeref None \/ (exists g, o = OOutAssign None g) -> undefined p u.
Proof.
  intros Hab Ho. destruct (about_ref _ _ _ _ _ _ Hab) as (k0&a&Hk&Hf&Hc0&Eh0). destruct (reached _ _ _ _ Hk) as (s&Hs&HR&_&Hx). apply Hs. destruct HR as [_ _ HF]. unfold foc_ok in HF. rewrite Hf in HF.
  destruct HF as [HF _]. destruct s as [m fib uw cur fc K]. cbn in HF. subst fc.
  eapply ub_step; [reflexivity|]. by destruct Ho as [-> |[-> |[g ->]]]; eapply ub_do_ub.
Qed.

(** Through the owner of a coroutine that is running, or that has resumed, directly or
    not, the code that calls. *)
Theorem C31_active p u n c0 h o kk x k : about p u n (SDo o kk) c0 h ->
  resumes o = Some x -> arg_fine u o h -> den h !! x = Some (Some (Outer k)) -> k ∈ cstack h -> undefined p u.
Proof.
  intros Hab Ho Hg Hd Hin. destruct (about_ref _ _ _ _ _ _ Hab) as (k0&a&Hk&Hf&Hc0&Eh0). subst h. destruct (reached _ _ _ _ Hk) as (s&Hs&HR&I&Hx). apply Hs.
  destruct (den_h _ _ _ _ _ Hx Hd) as (ob&Hob&He). cbn in Hob.
  destruct (o_own _ (mreach_own _ _ _ Hx) k) as [(c&Hc&Hu) _]; [by exists x, ob|]. cbn in Hc.
  destruct (st_chain _ (mreach_stack _ _ _ Hx)) as (l&Hl&Hsame). cbn in Hsame, Hl. rewrite Hf in Hsame. unfold same in Hsame.
  assert (El : cstack (a_tr a) = l) by done.
  rewrite El in Hin. destruct (chain_active _ _ _ _ Hl Hin) as [->|(c'&Hc'&Hact)].
  { destruct I as [[Hdom _ _ _ _ _ _ _ _ _] _]. apply Hdom in Hc. lia. }
  assert (c' = c) as -> by congruence.
  assert (Est : ac_st c = ARun) by (destruct (ac_st c); done).
  destruct HR as [Hcore Hcur HF]. unfold foc_ok in HF. rewrite Hf in HF. destruct HF as [HF _].
  pose proof (core_outer _ _ _ _ _ _ Hcore Hc Hu) as Hcb.
  destruct Hcore as [[Eh Eu _ _ _] _ _ _ _].
  rewrite <- Eh in Hob. eapply (ub_call s); try done.
  - rewrite Eu. by eapply arg_no_throw.
  - intros m' k' K' (_&Hsm&_). eapply ub_resume_empty; [rewrite Hsm; [exact Hcb|done]|done|]. unfold outer_cb. by rewrite Est.
Qed.

(** In particular: the owner of a coroutine is called from its own function. *)
Theorem C31_self p u n c h o kk x : about p u n (SDo o kk) c h ->
  resumes o = Some x -> arg_fine u o h -> den h !! x = Some (Some (Outer c)) -> undefined p u.
Proof.
  intros Hab Ho Hg Hd. eapply C31_active; try done. destruct (about_ref _ _ _ _ _ _ Hab) as (k0&a&Hk&Hf&Hc0&Eh0). subst h c. pose proof (arun_mreach _ _ _ _ Hk) as Hx.
  destruct (st_chain _ (mreach_stack _ _ _ Hx)) as (l&Hl&Hsame). cbn in Hsame, Hl. rewrite Hf in Hsame. unfold same in Hsame.
  assert (El : cstack (a_tr a) = l) by done. rewrite El. destruct (chain_head _ _ _ Hl) as [l' ->]. left.
Qed.

(** Through the owner of a coroutine whose function has terminated.  (The object handed to
    the function must not own another coroutine at that moment: its destructor, which
    runs first, would have to destroy that one.) *)
Theorem C31_complete p u n c0 h o kk x k y : about p u n (SDo o kk) c0 h ->
  resumes o = Some x -> arg_fine u o h -> den h !! x = Some (Some (Outer k)) -> life k h = PDone y ->
  (forall s b j, occurs h (EvEnter k s) b -> den h !! s <> Some (Some (Outer j))) ->
  undefined p u.
Proof.
  intros Hab Ho Hg Hd Hl Hsyn. destruct (about_ref _ _ _ _ _ _ Hab) as (k0&a&Hk&Hf&Hc0&Eh0). subst h. destruct (reached _ _ _ _ Hk) as (s&Hs&HR&I&Hx). apply Hs.
  destruct (den_h _ _ _ _ _ Hx Hd) as (ob&Hob&He). cbn in Hob.
  destruct (o_own _ (mreach_own _ _ _ Hx) k) as [(c&Hc&Hu) _]; [by exists x, ob|]. cbn in Hc.
  pose proof (li_st _ (mreach_life _ _ _ Hx) _ _ Hc) as Hst. cbn in Hst. rewrite Hl in Hst.
  assert (Est : ac_st c = ADone y) by (destruct (ac_st c) as [| | | |[]]; cbn in *; try done; by injection Hst as ->).
  destruct I as [I _]. destruct (inactive_not_cur _ _ _ _ _ _ _ I Hc) as [Hne Hw]; [by rewrite Est|].
  destruct HR as [Hcore Hcur HF]. unfold foc_ok in HF. rewrite Hf in HF. destruct HF as [HF _].
  pose proof (core_outer _ _ _ _ _ _ Hcore Hc Hu) as Hcb. pose proof (core_inner _ _ _ _ _ _ Hcore Hc) as Hicb.
  pose proof (r_fib _ _ _ _ Hcore k Hne) as Hfib. unfold fib_ok in Hfib. rewrite Hw, Hc, Est in Hfib.
  assert (Hin : forall j (b : cblock), m_cbs (c_mem s) !! Inner j = Some b -> cb_state b = st_none).
  { intros j b Hj. pose proof (r_cb _ _ _ _ Hcore j) as Q. destruct (a_co a !! j); cbn in Q; [|destruct Q; congruence].
    destruct Q as [Q _]. rewrite Hj in Q. by injection Q as ->. }
  destruct Hcore as [[Eh Eu _ _ _] _ _ _ _].
  assert (Hpl : plain_obj (c_mem s) (ac_syn c)).
  { intros o' j Ho' Hj. rewrite Eh in Ho'.
    destruct (mreach_entered _ _ _ Hx k) as (sn&b&Hen); [cbn; eauto|]. cbn in Hen.
    pose proof (sy _ (mreach_syn _ _ _ Hx) _ _ _ _ Hen Hc) as Esn. cbn in Esn.
    apply (Hsyn sn b j Hen). rewrite <- Esn. pose proof (mreach_den _ _ _ Hx) as D.
    rewrite (d_den2 _ D); cbn; [by rewrite Ho'; cbn; rewrite Hj| |done].
    intros (k'&c'&Hc'&Hn'&Hh). assert (k' = k) as -> by (by eapply (d_inj _ D)). cbn in Hc'. rewrite Hc in Hc'. injection Hc' as <-. by rewrite Est in Hn'. }
  rewrite <- Eh in Hob. eapply (ub_call s); try done.
  - rewrite Eu. by eapply arg_no_throw.
  - intros m' k' K' (Hmh&Hsm&Hi). destruct Hi as [Hi|(b&b'&Hb&Hb'&Hal&Hcc&Hss)].
    + eapply (ub_resume_done (ac_side c) (ac_kind c) k (ac_syn c) m' _ _ _ _ _ (inner_cb k c) (outer_cb k c)); try done.
      * by rewrite Hcur.
      * by rewrite Hsm.
      * unfold outer_cb. by rewrite Est.
      * by rewrite Hi.
      * unfold inner_cb. by rewrite Est.
      * intros j bb. destruct (decide (j = k)) as [->|]; [rewrite Hi|rewrite Hsm by congruence]; apply Hin.
      * unfold plain_obj. by rewrite Hmh.
    + rewrite Hb in Hicb. injection Hicb as ->.
      eapply (ub_resume_done (ac_side c) (ac_kind c) k (ac_syn c) m' _ _ _ _ _ b' (outer_cb k c)); try done.
      * by rewrite Hcur.
      * by rewrite Hsm.
      * unfold outer_cb. by rewrite Est.
      * rewrite Hcc. unfold inner_cb. by rewrite Est.
      * intros j bb. destruct (decide (j = k)) as [->|]; [rewrite Hb'; intros [= <-]; rewrite Hss; by eapply Hin|rewrite Hsm by congruence; apply Hin].
      * unfold plain_obj. by rewrite Hmh.
Qed.

(** Through the object handed to a coroutine-function, from outside: the coroutine is not
    running (it may not even exist any more). *)
Theorem C31_counterpart p u n c0 h o kk x k : about p u n (SDo o kk) c0 h ->
  resumes o = Some x -> arg_fine u o h -> den h !! x = Some (Some (Inner k)) -> k ∉ cstack h -> undefined p u.
Proof.
  intros Hab Ho Hg Hd Hin. destruct (about_ref _ _ _ _ _ _ Hab) as (k0&a&Hk&Hf&Hc0&Eh0). subst h. destruct (reached _ _ _ _ Hk) as (s&Hs&HR&I&Hx). apply Hs.
  destruct (den_h _ _ _ _ _ Hx Hd) as (ob&Hob&He). cbn in Hob.
  destruct (st_chain _ (mreach_stack _ _ _ Hx)) as (l&Hl&Hsame). cbn in Hsame, Hl. rewrite Hf in Hsame. unfold same in Hsame.
  assert (El : cstack (a_tr a) = l) by done. rewrite El in Hin.
  destruct HR as [Hcore Hcur HF]. unfold foc_ok in HF. rewrite Hf in HF. destruct HF as [HF _].
  pose proof (r_flat _ _ _ _ Hcore) as [Eh Eu _ _ _]. rewrite <- Eh in Hob.
  destruct (a_co a !! k) as [c|] eqn:Hc.
  2:{ eapply (ub_gone s); try done. intros cb Hcb. pose proof (r_cb _ _ _ _ Hcore k) as Q. rewrite Hc in Q. destruct Q. congruence. }
  pose proof (core_inner _ _ _ _ _ _ Hcore Hc) as Hicb.
  assert (Hact : active (ac_st c) = false).
  { destruct (active (ac_st c)) eqn:E; [|done]. exfalso. apply Hin. by eapply (mreach_cov _ _ _ Hx _ Hl). }
  eapply (ub_call s); try done.
  - rewrite Eu. by eapply arg_no_throw.
  - intros m' k' K' (_&Hsm&_). eapply ub_resume_empty; [rewrite Hsm; [exact Hicb|done]|done|].
    unfold inner_cb. by destruct (ac_st c).
Qed.

(** ** C32 *)

Lemma unwinding p u a k : mreach p u (a, MFoc) -> a_cur a = k -> unw k (a_tr a) -> life k (a_tr a) = PRun ->
  exists c, a_co a !! k = Some c /\ ac_st c = AUnw true.
Proof. intros Hx Hc Hu Hl. by destruct (un_st _ (mreach_unw _ _ _ Hx) k Hu Hl) as (c&?&?); eauto. Qed.

(** A coroutine-function that is being unwound terminates in another way than by
    forced_unwind: it returns, or it throws. *)
Theorem C32_swallow p u n st k h : about p u n st k h -> k <> 0 -> unw k h ->
  st = SRet \/ (exists e, st = SThrow (XUser e)) -> undefined p u.
Proof.
  intros Hab Hk0 Hu Hst0. destruct (about_ref _ _ _ _ _ _ Hab) as (k0&a&Hk&Hf0&Hc&Eh0). subst h.
  assert (Hf : a_foc a = AUser SRet \/ exists e, a_foc a = AUser (SThrow (XUser e))) by (destruct Hst0 as [-> |[e ->]]; eauto). destruct (reached _ _ _ _ Hk) as (s&Hs&HR&I&Hx). apply Hs.
  assert (Hl : life k (a_tr a) = PRun).
  { subst k. apply (li_cur _ (mreach_life _ _ _ Hx)); [done|]. cbn. by destruct Hf as [-> |[e ->]]. }
  destruct (unwinding _ _ _ _ Hx Hc Hu Hl) as (c&Hco&Hst).
  destruct HR as [Hcore Hcur HF]. pose proof (r_cb _ _ _ _ Hcore k) as Q. rewrite Hco in Q. destruct Q as [_ Q]. rewrite Hst in Q. cbn in Q.
  destruct Q as (b&Hb&Ha). rewrite Hc in Hcur. unfold foc_ok, ctxbase in HF. rewrite Hc, Hco in HF.
  destruct s as [m fib uw cur fc K]. cbn in *. subst cur.
  assert (Hg : forall m', m_cbs m' = m_cbs m -> get_cb (Outer k) m' = MUB UbDangling).
  { intros m' E. unfold get_cb. by rewrite E, Hb, Ha. }
  assert (Ht : forall m', m_cbs m' = m_cbs m -> goes_ub (CState m' fib uw k (FCode (tail_of (ac_side c) (ac_kind c) k)) (scopes (ac_side c) (ac_kind c) (ac_syn c) k))).
  { intros m' E. unfold tail_of, pull_tail, push_tail.
    destruct (ac_side c); [|destruct (ac_kind c); [destruct cxx11_lambdas|..]]; (eapply ub_do_ub; unfold or_state, mb; by rewrite Hg). }
  destruct Hf as [Hf|[e Hf]]; rewrite Hf in HF; destruct HF as [-> ->].
  - eapply ub_step; [reflexivity|]. eapply ub_step; [reflexivity|]. by apply Ht.
  - eapply ub_step; [reflexivity|]. eapply ub_step; [reflexivity|]. eapply ub_do_ub. unfold mb. by rewrite Hg.
Qed.

(** ... or tries to suspend itself again. *)
Theorem C32_yield p u n o kk x k h : about p u n (SDo o kk) k h -> unw k h ->
  resumes o = Some x -> arg_fine u o h -> den h !! x = Some (Some (Inner k)) -> undefined p u.
Proof.
  intros Hab Hu Ho Hg Hd. destruct (about_ref _ _ _ _ _ _ Hab) as (k0&a&Hk&Hf&Hcu&Eh0). subst h. destruct (reached _ _ _ _ Hk) as (s&Hs&HR&I&Hx). apply Hs.
  assert (Hk0 : k <> 0).
  { intros ->. pose proof (un_rk _ (mreach_unw _ _ _ Hx) _ Hu) as Q. rewrite (li_none _ (mreach_life _ _ _ Hx)) in Q; [cbn in Q; lia|by left]. }
  assert (Hl : life k (a_tr a) = PRun).
  { subst k. apply (li_cur _ (mreach_life _ _ _ Hx)); [done|]. cbn. by rewrite Hf. }
  destruct (unwinding _ _ _ _ Hx Hcu Hu Hl) as (c&Hco&Hst).
  destruct (den_h _ _ _ _ _ Hx Hd) as (ob&Hob&He). cbn in Hob.
  destruct HR as [Hcore Hcur HF]. unfold foc_ok in HF. rewrite Hf in HF. destruct HF as [HF _].
  pose proof (r_flat _ _ _ _ Hcore) as [Eh Eu _ _ _]. rewrite <- Eh in Hob.
  pose proof (core_inner _ _ _ _ _ _ Hcore Hco) as Hicb.
  eapply (ub_call s); try done.
  - rewrite Eu. by eapply arg_no_throw.
  - intros m' k' K' (_&Hsm&_). eapply ub_resume_empty; [rewrite Hsm; [exact Hicb|done]|done|].
    unfold inner_cb. by rewrite Hst.
Qed.

End ub.

(** ** Cases meeting the hypotheses *)

(** A moment in the first 100 steps at which user code is [about] to do something such that
    [f] holds. *)
Definition moment {comp : Compiler} (p : strat) (f : strat -> nat -> list event -> bool) : bool :=
  existsb (fun n => match crun n (cinit p u0) with
    | CNext s => match c_focus s with FStrat st => ok_run p u0 n && f st (c_cur s) (hist p u0 n) | _ => false end
    | _ => false end) (seq 0 100).
Lemma moment_about {comp : Compiler} p f : moment p f = true -> exists n st c h, about p u0 n st c h /\ f st c h = true.
Proof.
  intros (n&_&H)%existsb_exists. destruct (crun n (cinit p u0)) as [s|] eqn:E; [|done]. destruct (c_focus s) as [st| | |] eqn:F; try done.
  apply andb_true_iff in H as [H1 H2]. exists n, st, (c_cur s), (hist p u0 n). split; [|done]. split; [by apply ok_run_respects|eauto].
Qed.

(** The owner of a terminated pull coroutine is called. *)
Definition bad_again : strat :=
  new Pull KVal (fun s => do1 (OPush s (AImm 5)) SRet) (fun x => do1 (OResume x) (do1 (OBool x) (do1 (OResume x) SRet))).
(** The same with a push coroutine, through the output iterator. *)
Definition bad_again2 : strat :=
  new Push KVal (fun s => do1 (OGet s) SRet) (fun x => act (OOutBegin x) (fun a => match a with AIt i =>
    do1 (OOutAssign i (AImm 5)) (do1 (OOutAssign i (AImm 6)) SRet) | _ => SRet end)).
(** A coroutine calls its own owner (handle 0), from inside a coroutine it has resumed. *)
Definition bad_self : strat :=
  new Push KVoid (fun s => do1 (OPush 0 ANone) SRet) (fun x => do1 (OPush x ANone) SRet).
Definition bad_cycle : strat :=
  new Push KVoid (fun s => new Push KVoid (fun t => do1 (OPush 0 ANone) SRet) (fun y => do1 (OPush y ANone) SRet)) (fun x => do1 (OPush x ANone) SRet).
(** A moved-from object. *)
Definition bad_moved : strat :=
  new Push KVoid (fun s => SRet) (fun x => act (OMoveCtor x) (fun _ => do1 (OPush x ANone) SRet)).
(** The iterator of a finished sequence is incremented. *)
Definition bad_iter : strat :=
  new Pull KVal (fun s => do1 (OPush s (AImm 5)) SRet) (fun x => act (OBegin x) (fun a => match a with AIt i =>
    act (OItInc i) (fun a => match a with AIt j => do1 (OItInc j) SRet | _ => SRet end) | _ => SRet end)).
(** The counterpart is used from outside while the coroutine is suspended. *)
Definition bad_outside : strat :=
  new Push KVal (fun t => SRet) (fun z =>
  new Pull KVal (fun s => do1 (OMoveAssign z s) (do1 (OPush z (AImm 5)) SRet)) (fun x => do1 (OPush z (AImm 6)) SRet)).
(** forced_unwind is swallowed: the function returns, throws, or yields again. *)
Definition swallow (k : nat -> strat) : strat :=
  new Pull KVal (fun s => SDo (OPush s (AImm 5)) (fun r => match r with RExn XUnwind => k s | _ => SRet end)) (fun x => do1 (ODestroy x) SRet).
Definition bad_swallow1 : strat := swallow (fun _ => SRet).
Definition bad_swallow2 : strat := swallow (fun _ => SThrow (XUser 3)).
Definition bad_swallow3 : strat := swallow (fun s => do1 (OPush s (AImm 6)) SRet).

Definition is_resume (s : strat) (x : nat) : bool := match s with SDo o _ => bool_decide (resumes o = Some x) | _ => false end.
Example C31_cases {comp : Compiler} :
  moment bad_again (fun s c h => is_resume s 0 && bool_decide (den h !! 0 = Some (Some (Outer 1)) /\ life 1 h = PDone None)) = true /\
  moment bad_again2 (fun s c h => is_resume s 0 && bool_decide (den h !! 0 = Some (Some (Outer 1)) /\ life 1 h = PDone None)) = true /\
  moment bad_self (fun s c h => is_resume s 0 && bool_decide (den h !! 0 = Some (Some (Outer c)))) = true /\
  moment bad_cycle (fun s c h => is_resume s 0 && bool_decide (den h !! 0 = Some (Some (Outer 1)) /\ c = 2 /\ 1 ∈ cstack h)) = true /\
  moment bad_moved (fun s c h => is_resume s 0 && bool_decide (den h !! 0 = Some None)) = true /\
  moment bad_outside (fun s c h => is_resume s 0 && bool_decide (den h !! 0 = Some (Some (Inner 2)) /\ 2 ∉ cstack h)) = true /\
  moment bad_iter (fun s c h => match s with SDo (OItInc None) _ => true | _ => false end) = true.
Proof. destruct comp as [[]]; by repeat split; vm_compute. Qed.
Definition unwb (k : nat) (h : list event) : bool := existsb (fun e => match e with EvExn c _ XUnwind => bool_decide (c = k) | _ => false end) h.
Example C32_cases {comp : Compiler} :
  moment bad_swallow1 (fun s c h => match s with SRet => bool_decide (c = 1) && unwb 1 h | _ => false end) = true /\
  moment bad_swallow2 (fun s c h => match s with SThrow (XUser _) => bool_decide (c = 1) && unwb 1 h | _ => false end) = true /\
  moment bad_swallow3 (fun s c h => is_resume s 1 && bool_decide (c = 1 /\ den h !! 1 = Some (Some (Inner 1))) && unwb 1 h) = true.
Proof. destruct comp as [[]]; by repeat split; vm_compute. Qed.

(** What the machine of the code does with them, under both selections of the C++11/14
    branches. *)
Definition end_of {comp : Compiler} (p : strat) : option outcome := match crun 300 (cinit p u0) with CHalt o _ => Some o | _ => None end.
Example C31_ends {comp : Compiler} :
  end_of bad_again = Some (Undefined UbDangling) /\ end_of bad_again2 = Some (Undefined UbDangling) /\
  end_of bad_self = Some (Undefined UbEmptyFiber) /\ end_of bad_cycle = Some (Undefined UbEmptyFiber) /\
  end_of bad_moved = Some (Undefined UbNull) /\ end_of bad_outside = Some (Undefined UbEmptyFiber) /\
  end_of bad_iter = Some (Undefined UbAssert) /\ end_of bad_swallow1 = Some (Undefined UbDangling) /\ end_of bad_swallow2 = Some (Undefined UbDangling) /\
  end_of bad_swallow3 = Some (Undefined UbDangling).
Proof. destruct comp as [[]]; by vm_compute. Qed.

Print Assumptions C31_empty.
Print Assumptions C31_end_iterator.
Print Assumptions C31_active.
Print Assumptions C31_self.
Print Assumptions C31_complete.
Print Assumptions C31_counterpart.
Print Assumptions C32_swallow.
Print Assumptions C32_yield.
