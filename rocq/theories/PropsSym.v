(** PropsSym.v -- C57: the symmetry of the API.

    The functions of a chain (Sym.v: [stage g], a loop over a source that passes values on to a
    sink) can be used with pull coroutines, where each pulls from the function before, or
    with push coroutines, where each is pushed to by the function before. *)
From stdpp Require Import prelude gmap.
From Coq Require Import Lia.
From Verif Require Import Base Model Spec InvSpec Main Hist Trace Contract ContractProof Uses Exact Cpp Progs Gens Sym FactsSym FactsMix SafeCpp FactsSeq PropsCore PropsProg PropsDisc PropsBlock PropsGen.
From Verif Require Steps.

Section sym.
Context {env : Env} {comp : Compiler}.
(** Values are moved without exceptions. *)
Context (nothrow : forall v, move_exn v = None).

Definition way (x : option E) : outcome := match x with None => Finished | Some _ => Terminated end.

(** The chain of pull coroutines is a program of Gens.v, in which the functions have the same text: a coroutine
    for what is before, and [stage g] on it. *)
Theorem C57_text gs g src yield :
  code (gstages (gs ++ [g]) src) yield = LocalCo Pull KVal plain_new (generator (gstages gs src)) (fun x => stage g x yield) Skip.
Proof. unfold gstages. by rewrite foldl_app. Qed.

(** With push coroutines, what the source writes and yields goes through the functions;
    main ends as the source does, or with the exception of one of the functions. *)
Theorem C57_push gs l x u : exists n m, crun n (cinit (smain gs l x) u) = CHalt (way (flows gs l x).2) m /\ output (m_tr m) = written (flows gs l x).1.
Proof.
  destruct (smain_run nothrow gs l x u) as (k&a&H1&H2&_). rewrite runx_flows in H1, H2. destruct (sim_run_halt _ _ _ _ _ H1) as (N&m&Hm&Et). exists N, m. by rewrite Et.
Qed.
(** With pull coroutines likewise. *)
Theorem C57_pull gs l x u : exists n m, crun n (cinit (gmain (gstages gs (source_of l x))) u) = CHalt (way (flows gs l x).2) m /\ output (m_tr m) = written (flows gs l x).1.
Proof.
  pose proof (gstages_means 0 gs _ _ _ (source_means 0 l x)) as E. destruct (flows gs l x) as [k [e|]]; cbn [fst snd stop_of way] in *.
  - destruct (C50_throws nothrow 0 (gstages gs (source_of l x)) u e) as (N&m&H1&H2); [by rewrite E|]. exists N, m. by rewrite H2, E.
  - destruct (C50_ends nothrow 0 (gstages gs (source_of l x)) u) as (N&m&H1&H2); [left; by rewrite E|]. exists N, m. by rewrite H2, E.
Qed.
(** There is no other end (in particular no undefined behaviour), and at any time the beginning of
    it has been written. *)
Theorem C57_push_exactly gs l x u n o m : crun n (cinit (smain gs l x) u) = CHalt o m -> o = way (flows gs l x).2 /\ output (m_tr m) = written (flows gs l x).1.
Proof. intros H. destruct (C57_push gs l x u) as (N&m'&H'&Ho). by destruct (C38_one_outcome _ _ _ _ _ _ _ _ H H') as [-> ->]. Qed.
Theorem C57_push_so_far gs l x u n : output (hist (smain gs l x) u n) `prefix_of` written (flows gs l x).1.
Proof.
  destruct (C57_push gs l x u) as (N&m'&H'&Ho). rewrite <- Ho. destruct (C38_histories_agree (smain gs l x) u n (Nat.max n N)) as [k Hk]; [lia|].
  unfold hist in Hk at 1. rewrite (crun_halt_le _ _ _ _ _ H') in Hk by lia. cbn in Hk. rewrite Hk, output_app. by eexists.
Qed.

(** Hence the two chains do the same. *)
Lemma does_as_ends p q u o l : (exists n m, crun n (cinit p u) = CHalt o m /\ output (m_tr m) = l) -> (exists n m, crun n (cinit q u) = CHalt o m /\ output (m_tr m) = l) -> does_as p q u.
Proof.
  intros (n&m&H1&O1) (n'&m'&H2&O2). split.
  - intros N o' m1 H. destruct (C38_one_outcome _ _ _ _ _ _ _ _ H H1) as [-> ->]. exists n', m'. by rewrite O1, O2.
  - intros N. exists n'. unfold hist at 2. rewrite H2. cbn. rewrite O2, <- O1. destruct (C38_histories_agree p u N (Nat.max n N)) as [k Hk]; [lia|].
    unfold hist in Hk at 1. rewrite (crun_halt_le _ _ _ _ _ H1) in Hk by lia. cbn in Hk. rewrite Hk, output_app. by eexists.
Qed.
Theorem C57_symmetry gs l x u :
  does_as (smain gs l x) (gmain (gstages gs (source_of l x))) u /\ does_as (gmain (gstages gs (source_of l x))) (smain gs l x) u.
Proof. split; eapply does_as_ends; [apply C57_push|apply C57_pull|apply C57_pull|apply C57_push]. Qed.

Lemma halt_no_viol p u n k o a : arun k (ainit p u) = AHalt o a -> arun n (ainit p u) = AViol -> False.
Proof.
  intros H1 Hv. pose proof (Steps.arun_halt_le _ (Nat.max n k) _ _ _ H1 ltac:(lia)) as H2. assert (V : forall i j b, arun i b = AViol -> i <= j -> arun j b = AViol).
  { induction i as [|i IH]; intros j b Hb Hj; [done|]. destruct j as [|j]; [lia|]. cbn in Hb |- *. destruct (astep b); try done. apply IH; [done|lia]. }
  by rewrite (V _ _ _ Hv) in H2 by lia.
Qed.
(** The chain of push coroutines respects the contract and leaves nothing behind, although its
    functions never return: those that have not thrown are unwound. *)
Theorem C57_contract gs l x u : well_used (smain gs l x) u.
Proof.
  apply contract_exact_safe; [by apply smain_safe|]. intros n Hv. destruct (smain_run nothrow gs l x u) as (k&a&H1&_).
  by eapply halt_no_viol.
Qed.
Theorem C57_clean gs l x u n m : crun n (cinit (smain gs l x) u) = CHalt Finished m -> owns_none (m_tr m) /\ nothing_left (m_tr m).
Proof. apply C56_no_moves; [exact (C57_contract gs l x u n)|by apply smain_still]. Qed.

(** A chain of pull coroutines may be joined to a chain of push coroutines by a loop of main
    (doc/motivation.qbk:553-566): wherever the join is, all of it does what either chain does. *)
Theorem C57_mixed gs g hs l x u :
  exists n m, crun n (cinit (mixed gs g hs l x) u) = CHalt (way (flows (gs ++ g :: hs) l x).2) m /\ output (m_tr m) = written (flows (gs ++ g :: hs) l x).1.
Proof.
  destruct (mixed_run nothrow gs g hs l x u) as (k&a&H1&H2&_). rewrite runx_flows in H1, H2. destruct (sim_run_halt _ _ _ _ _ H1) as (N&m&Hm&Et). exists N, m. by rewrite Et.
Qed.
(** In particular main may just pass the values on, as in the documentation. *)
Theorem C57_mixed_passes gs hs l x u :
  exists n m, crun n (cinit (mixed gs (fun v => ([inr v], None)) hs l x) u) = CHalt (way (flows (gs ++ hs) l x).2) m /\ output (m_tr m) = written (flows (gs ++ hs) l x).1.
Proof.
  assert (F : forall l x, flow (fun v => ([inr v], None)) l x = (l, x)) by (induction l0 as [|[w|v] l0 IH]; intros x0; cbn; rewrite ?IH; done).
  destruct (C57_mixed gs (fun v => ([inr v], None)) hs l x u) as (n&m&H). exists n, m. unfold flows in *. rewrite foldl_app in *. cbn [foldl] in H. by rewrite F, <- surjective_pairing in H.
Qed.
Theorem C57_mixed_exactly gs g hs l x u n o m : crun n (cinit (mixed gs g hs l x) u) = CHalt o m -> o = way (flows (gs ++ g :: hs) l x).2 /\ output (m_tr m) = written (flows (gs ++ g :: hs) l x).1.
Proof. intros H. destruct (C57_mixed gs g hs l x u) as (N&m'&H'&Ho). by destruct (C38_one_outcome _ _ _ _ _ _ _ _ H H') as [-> ->]. Qed.
(** At any time the beginning of it has been written. *)
Theorem C57_mixed_so_far gs g hs l x u n : output (hist (mixed gs g hs l x) u n) `prefix_of` written (flows (gs ++ g :: hs) l x).1.
Proof.
  destruct (C57_mixed gs g hs l x u) as (N&m'&H'&Ho). rewrite <- Ho. destruct (C38_histories_agree (mixed gs g hs l x) u n (Nat.max n N)) as [k Hk]; [lia|].
  unfold hist in Hk at 1. rewrite (crun_halt_le _ _ _ _ _ H') in Hk by lia. cbn in Hk. rewrite Hk, output_app. by eexists.
Qed.
Theorem C57_mixed_symmetry gs g hs l x u :
  does_as (mixed gs g hs l x) (smain (gs ++ g :: hs) l x) u /\ does_as (smain (gs ++ g :: hs) l x) (mixed gs g hs l x) u /\
  does_as (mixed gs g hs l x) (gmain (gstages (gs ++ g :: hs) (source_of l x))) u /\ does_as (gmain (gstages (gs ++ g :: hs) (source_of l x))) (mixed gs g hs l x) u.
Proof.
  split; [|split; [|split]]; eapply does_as_ends; [apply C57_mixed|apply C57_push|apply C57_push|apply C57_mixed|apply C57_mixed|apply C57_pull|apply C57_pull|apply C57_mixed].
Qed.
Theorem C57_mixed_contract gs g hs l x u : well_used (mixed gs g hs l x) u.
Proof.
  apply contract_exact_safe; [by apply mixed_safe|]. intros n Hv. destruct (mixed_run nothrow gs g hs l x u) as (k&a&H1&_).
  by eapply halt_no_viol.
Qed.
Theorem C57_mixed_clean gs g hs l x u n m : crun n (cinit (mixed gs g hs l x) u) = CHalt Finished m -> owns_none (m_tr m) /\ nothing_left (m_tr m).
Proof. apply C56_no_moves; [exact (C57_mixed_contract gs g hs l x u n)|by apply mixed_still]. Qed.
End sym.

(** ** Cases *)
Local Instance sym_env : Env := {| T := nat; E := nat; moved_from := fun _ => 0; copy_exn := fun _ => None; move_exn := fun _ => None |}.
(** Lines (numbers) are split into tokens (the last digit and what is before it), only words (above 2)
    are passed on, each is announced (doc/motivation.qbk:452-494); 9 is not expected. *)
Definition split_ : fn := fun line => ([inr (Nat.div line 10); inr (Nat.modulo line 10)], None).
Definition words_ : fn := fun w => (if Nat.ltb 2 w then [inr w] else [], None).
Definition tell_ : fn := fun w => if Nat.eqb w 9 then ([inl 1900], Some 77) else ([inl (1000 + w); inr w], None).
Definition in_ : list (nat + nat) := [inl 500; inr 71; inl 501; inr 23; inr 11; inl 502].
Example C57_case {comp : Compiler} : exists n m, crun n (cinit (smain [split_; words_; tell_] in_ None) ∅) = CHalt Finished m /\ output (m_tr m) = [500; 1007; 7; 501; 1003; 3; 502].
Proof. exact (C57_push (env := sym_env) (fun _ => eq_refl) [split_; words_; tell_] in_ None ∅). Qed.
Example C57_case_throws {comp : Compiler} : exists n m, crun n (cinit (smain [split_; words_; tell_] in_ (Some 9)) ∅) = CHalt Terminated m /\ output (m_tr m) = [500; 1007; 7; 501; 1003; 3; 502].
Proof. exact (C57_push (env := sym_env) (fun _ => eq_refl) [split_; words_; tell_] in_ (Some 9) ∅). Qed.
Example C57_case_fails {comp : Compiler} : exists n m, crun n (cinit (smain [split_; words_; tell_; fun v => ([inr (2 * v)], None)] (inr 35 :: inr 94 :: in_) None) ∅) = CHalt Terminated m /\ output (m_tr m) = [1003; 6; 1005; 10; 1900].
Proof. exact (C57_push (env := sym_env) (fun _ => eq_refl) [split_; words_; tell_; fun v => ([inr (2 * v)], None)] (inr 35 :: inr 94 :: in_) None ∅). Qed.
(** Both by running the code: what is written, how the functions are left. *)
Definition shows (p : strat) : list nat * list (nat * option exn) :=
  let comp := {| cxx11_lambdas := true |} in
  match crun 4000 (cinit p ∅) with CHalt Finished m => (output (m_tr m), rev (omap (fun e => match e with EvLeave k r => Some (k, r) | _ => None end) (m_tr m))) | _ => ([], []) end.
Example C57_case_runs : shows (smain [split_; words_; tell_] in_ None) = ([500; 1007; 7; 501; 1003; 3; 502], [(3, Some XUnwind); (2, Some XUnwind); (1, Some XUnwind)]) /\
  shows (gmain (gstages [split_; words_; tell_] (source_of in_ None))) = ([500; 1007; 7; 501; 1003; 3; 502], [(3, None); (2, None); (1, None)]).
Proof. split; vm_compute; reflexivity. Qed.

(** The join in the middle: the functions of the pull coroutines have returned, those of the push
    coroutines are unwound. *)
Example C57_mixed_case {comp : Compiler} : exists n m, crun n (cinit (mixed [split_] words_ [tell_; fun v => ([inr (2 * v)], None)] in_ None) ∅) = CHalt Finished m /\ output (m_tr m) = [500; 1007; 14; 501; 1003; 6; 502].
Proof. exact (C57_mixed (env := sym_env) (fun _ => eq_refl) [split_] words_ [tell_; fun v => ([inr (2 * v)], None)] in_ None ∅). Qed.
Example C57_mixed_case_fails {comp : Compiler} : exists n m, crun n (cinit (mixed [split_; words_; tell_] (fun v => ([inr (2 * v)], None)) [] (inr 35 :: inr 94 :: in_) None) ∅) = CHalt Terminated m /\ output (m_tr m) = [1003; 6; 1005; 10; 1900].
Proof. exact (C57_mixed (env := sym_env) (fun _ => eq_refl) [split_; words_; tell_] (fun v => ([inr (2 * v)], None)) [] (inr 35 :: inr 94 :: in_) None ∅). Qed.
Example C57_mixed_case_runs : shows (mixed [split_] words_ [tell_; fun v => ([inr (2 * v)], None)] in_ None) = ([500; 1007; 14; 501; 1003; 6; 502], [(1, None); (2, None); (4, Some XUnwind); (3, Some XUnwind)]).
Proof. vm_compute; reflexivity. Qed.

(** The symmetry has limits.  The function of a pull coroutine gets to the end of its loop; that of a
    push coroutine is unwound there, and what follows the loop is not executed.  (Therefore the
    documentation finishes the last line in a destructor, "by whatever means":
    doc/motivation.qbk:496-504.) *)
Definition ended (g : fn) (w : T) (x : nat) (yield : T -> stm) : stm := Block (stage g x yield) (emit w Skip).
(** [l] is pulled through the function [f] by main, or pushed through it. *)
Definition pulled (f : nat -> (T -> stm) -> stm) (l : list (T + T)) : strat :=
  cxx (LocalCo Pull KVal plain_new (generator (source_of l None)) (fun x =>
       LocalCo Pull KVal plain_new (fun s => f x (fun v => push s (AImm v) Skip)) (fun y => stage (fun v => ([inr v], None)) y (fun v => emit v Skip)) Skip) Skip).
Definition pushed (f : nat -> (T -> stm) -> stm) (l : list (T + T)) : strat :=
  cxx (LocalCo Push KVal plain_new (fun s => f s (fun v => emit v Skip)) (fun x => code (source_of l None) (fun v => push x (AImm v) Skip)) Skip).
Theorem C57_after_loop_refuted : exists g w l, (shows (pulled (ended g w) l)).1 = [1; 2; 99] /\ (shows (pushed (ended g w) l)).1 = [1; 2].
Proof. exists (fun v => ([inr v], None)), 99, [inr 1; inr 2]. split; vm_compute; reflexivity. Qed.
(** A function that returns early ends a chain of pull coroutines; whoever pushes has to test the
    object, or the behaviour is undefined. *)
Definition first_only (x : nat) (yield : T -> stm) : stm :=
  Do (OBegin x) eq_refl (fun i => Do OEnd eq_refl (fun e =>
  match i, e with AIt i, AIt e => for_loop None (fun v => Block (yield v) Return) i e | _, _ => Skip end)).
Theorem C57_early_return_refuted : let comp := {| cxx11_lambdas := true |} in
  exists f l, (shows (pulled f l)).1 = [1] /\ exists n r m, crun n (cinit (pushed f l) ∅) = CHalt (Undefined r) m /\ output (m_tr m) = [1].
Proof.
  exists first_only, [inr 1; inr 2]. split; [vm_compute; reflexivity|]. exists 4000. set (comp := {| cxx11_lambdas := true |}).
  assert (H : forall c, match c with CHalt (Undefined r) m => output (m_tr m) | _ => [] end = [1] -> exists r m, c = CHalt (Undefined r) m /\ output (m_tr m) = [1]).
  { intros [|[| |r] m] E; try done. by exists r, m. }
  apply H. vm_compute. reflexivity.
Qed.

Print Assumptions C57_text.
Print Assumptions C57_push.
Print Assumptions C57_pull.
Print Assumptions C57_push_exactly.
Print Assumptions C57_push_so_far.
Print Assumptions C57_symmetry.
Print Assumptions C57_contract.
Print Assumptions C57_clean.
Print Assumptions C57_mixed.
Print Assumptions C57_mixed_passes.
Print Assumptions C57_mixed_exactly.
Print Assumptions C57_mixed_so_far.
Print Assumptions C57_mixed_symmetry.
Print Assumptions C57_mixed_contract.
Print Assumptions C57_mixed_clean.
Print Assumptions C57_after_loop_refuted.
Print Assumptions C57_early_return_refuted.
