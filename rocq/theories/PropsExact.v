(** PropsExact.v -- C53: the contract is not stricter than it has to be.

    [well_used p u] (Contract.v) is the hypothesis of most theorems: program [p], started with
    user memory [u], respects the contract for ever.  [spec_used p u] (Spec.v) says that the
    reference semantics gives [p] a meaning.  The contract implies the latter
    (ContractProof.v); here is the converse. *)
From stdpp Require Import prelude gmap.
From Coq Require Import Lia.
From Verif Require Import Base Model Spec InvSpec Main Trace Contract ContractProof Uses Exact Cpp PropsCore Examples PropsUB.
From Verif Require Steps.

Section exact.
Context {env : Env} {comp : Compiler}.

(** If no push is left by an exception of its argument's copy or move constructor, ... *)
Theorem C53_exact p u : (forall n, push_failed (hist p u n) = false) -> (well_used p u <-> spec_used p u).
Proof. apply contract_exact. Qed.
(** ... in particular if a program only pushes values whose constructors do not throw
    ([pushes_safe], Uses.v), it respects the contract exactly if the reference semantics gives
    it a meaning; ... *)
Theorem C53_safe p u : pushes_safe p -> (well_used p u <-> spec_used p u).
Proof. apply contract_exact_safe. Qed.
(** ... this is every program if no constructor throws. *)
Theorem C53_nothrow p u : (forall v, copy_exn v = None) -> (forall v, move_exn v = None) -> (well_used p u <-> spec_used p u).
Proof. intros Hc Hm. by apply contract_exact_safe, nothrow_safe. Qed.
End exact.

(** ** The condition is needed *)
(** A coroutine-function that never ends once it is unwound, in a coroutine whose slot has been
    spoiled (C25): its destruction would be undefined behaviour, but does not get there. *)
CoFixpoint forever : strat := STau forever.
Definition ex_stuck : strat :=
  new Push KVal (fun s => SDo (OResume s) (fun r => match r with ROk _ => SRet | RExn _ => forever end)) (fun x =>
  do1 (OPush x (AImm 1)) (try1 (OPush x (ACopy 9)) (do1 (ODestroy x) SRet))).

Lemma forever_astep a : a_foc a = AUser forever -> exists b, astep a = ANext b /\ a_foc b = AUser forever.
Proof. intros H. unfold astep. rewrite H. cbn. eexists. done. Qed.
Lemma forever_arun n : forall a, a_foc a = AUser forever -> arun n a <> AViol.
Proof.
  induction n as [|n IH]; intros a H; [done|]. destruct (forever_astep a H) as (b&E&Hb). cbn. rewrite E. by apply IH.
Qed.

Theorem C53_failed_push_refuted : exists p u, spec_used p u /\ forall comp : Compiler, ~ well_used p u.
Proof.
  exists ex_stuck, u0. split.
  - intros n H.
    assert (G : match arun 6 (ainit ex_stuck u0) with ANext a => a_foc a = AUser forever | _ => False end) by (vm_compute; reflexivity).
    destruct (arun 6 (ainit ex_stuck u0)) as [a| |] eqn:E; [|done..].
    assert (V : forall k b, arun k b = AViol -> arun (k + 6) b = AViol).
    { induction k as [|k IH]; intros b; [done|]. cbn. destruct (astep b); try done. apply IH. }
    apply V in H. rewrite Nat.add_comm, (Steps.arun_add _ _ _ _ E) in H. by apply (forever_arun n a).
  - intros comp H. assert (obeys u0 (hist ex_stuck u0 100) = false) as E by (destruct comp as [[]]; vm_compute; reflexivity).
    destruct (H 100) as [H1 _]. congruence.
Qed.

(** ** The code allows more *)
(** The reference semantics (and the contract) is stricter than the code of the library: there
    are programs it gives no meaning to that do not reach undefined behaviour in the code.
    Here the function of the coroutine of [x] starts a second coroutine and waits in it; that one pushes
    through the counterpart of the first, which therefore yields - with two stacks suspended, the
    inner one where only its own owner should wake it up.  main never resumes [x]. *)
Definition ex_across : strat :=
  new Pull KVal (fun s => new Push KVal (fun s2 => do1 (OPush s (AImm 7)) SRet) (fun y => do1 (OPush y (AImm 1)) SRet)) (fun x => do1 (OGet x) SRet).
Theorem C53_code_refuted : exists p u, ~ spec_used p u /\ forall comp : Compiler, ~ well_used p u /\ exists n m, crun n (cinit p u) = CHalt Finished m.
Proof.
  exists ex_across, u0. split.
  - intros H. apply (H 100). vm_compute. reflexivity.
  - intros comp. split.
    + intros H. assert (obeys u0 (hist ex_across u0 100) = false) as E by (destruct comp as [[]]; vm_compute; reflexivity). destruct (H 100) as [H1 _]. congruence.
    + exists 100. destruct comp as [[]]; eexists; vm_compute; reflexivity.
Qed.

(** ** Cases *)
(** Once a program has ended, its whole history is known. *)
Lemma no_push_fails `{env : Env} {comp : Compiler} p u N o m : crun N (cinit p u) = CHalt o m -> push_failed (m_tr m) = false -> forall n, push_failed (hist p u n) = false.
Proof.
  intros H Hf n. destruct (C38_histories_agree p u n (Nat.max n N)) as [l Hl]; [lia|]. unfold hist in Hl at 1.
  rewrite (crun_halt_le _ _ _ _ _ H) in Hl by lia. cbn in Hl. rewrite Hl in Hf. by eapply push_failed_app.
Qed.
Definition no_fail {comp : Compiler} (p : strat) : bool := match crun 300 (cinit p u0) with CHalt _ m => negb (push_failed (m_tr m)) | _ => false end.
Lemma no_fail_ok {comp : Compiler} p : no_fail p = true -> forall n, push_failed (hist p u0 n) = false.
Proof. unfold no_fail. destruct (crun 300 (cinit p u0)) as [|o m] eqn:E; [done|]. intros H%negb_true_iff. by eapply no_push_fails. Qed.

(** Programs that meet the condition: those that end well (here the values pushed are not 99) ... *)
Example C53_case_fine {comp : Compiler} :
  forallb no_fail [ex_pull; ex_push; ex_ref; ex_kill; ex_throw; ex_empty; ex_nested; ex_move; ex_inner; ex_iter; ex_out; ex_assign; ex_escape] = true.
Proof. destruct comp as [[]]; vm_compute; reflexivity. Qed.
Example C53_case_nested {comp : Compiler} : well_used ex_nested u0 <-> spec_used ex_nested u0.
Proof. apply C53_exact, no_fail_ok. destruct comp as [[]]; vm_compute; reflexivity. Qed.
(** A program that pushes for ever, in a type with a value (99) that cannot be copied: it pushes
    another one. *)
CoFixpoint pour (x : nat) : strat := SDo (OPush x (AImm 5)) (fun _ => pour x).
CoFixpoint sip (s : nat) : strat := SDo (OResume s) (fun _ => sip s).
Definition ex_pour : strat := new Push KVal sip pour.
Lemma pour_safe x : pushes_safe (pour x).
Proof. cofix IH. rewrite (strat_eta (pour x)). cbn. apply on_do; [done|]. intros _. exact IH. Qed.
Lemma sip_safe s : pushes_safe (sip s).
Proof. cofix IH. rewrite (strat_eta (sip s)). cbn. apply on_do; [done|]. intros _. exact IH. Qed.
Example C53_case_pour {comp : Compiler} : well_used ex_pour u0 <-> spec_used ex_pour u0.
Proof. apply C53_safe. apply on_new; [intros; apply sip_safe|]. intros [[]|]; try apply on_throw; try apply on_ret. apply pour_safe. Qed.
(** ... and those that do not: rejected by the contract, hence without meaning. *)
Example C53_case_rejected {comp : Compiler} :
  Forall (fun p => (forall n, push_failed (hist p u0 n) = false) /\ ~ spec_used p u0) [bad_again; bad_self; bad_cycle; bad_moved; bad_outside; bad_iter; bad_swallow1; bad_swallow3].
Proof.
  assert (G : forallb (fun p => no_fail p && negb (obeys u0 (hist p u0 300))) [bad_again; bad_self; bad_cycle; bad_moved; bad_outside; bad_iter; bad_swallow1; bad_swallow3] = true)
    by (destruct comp as [[]]; vm_compute; reflexivity).
  apply List.Forall_forall. intros p Hp. apply forallb_forall with (x := p) in G; [|done]. apply andb_true_iff in G as [G1 G2%negb_true_iff].
  pose proof (no_fail_ok _ G1) as Hn. split; [done|]. intros Hs. apply (C53_exact _ _ Hn) in Hs. destruct (Hs 300) as [Ho _]. congruence.
Qed.

Print Assumptions C53_exact.
Print Assumptions C53_safe.
Print Assumptions C53_nothrow.
Print Assumptions C53_failed_push_refuted.
Print Assumptions C53_code_refuted.
