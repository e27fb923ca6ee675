(** PropsDisc.v -- C48: a way of writing programs that guarantees the contract;
    C49: what such programs leave behind (nothing).

    The other theorems assume that a program respects the contract ([respects], on its
    history).  Here the contract follows from rules for the program text: [tidy_main] (Tidy.v,
    for code with blocks) and [disciplined] (Discipline.v, for any code). *)
From stdpp Require Import prelude gmap.
From Verif Require Import Base Model Contract Main Phase Trace Discipline DiscProof Tidy Cpp Progs TidyProg Hist FactsSeq FactsFin.

Section disc.
Context {env : Env} {comp : Compiler}.
(** All [cells] the program reads exist. *)
Definition exist_in (cells : nat -> Prop) (u : gmap nat T) : Prop := forall l, cells l -> is_Some (u !! l).

(** ** C48 *)
Theorem C48_disciplined cells p u : exist_in cells u -> disciplined cells p -> well_used p u.
Proof. intros H3 H4. by apply (disc_used cells p u). Qed.

Theorem C48_tidy cells s u : exist_in cells u -> tidy_main cells s -> well_used (cxx s) u.
Proof. intros H2 H3. by eapply C48_disciplined, tidy_disciplined. Qed.

(** In particular such programs have no undefined behaviour. *)
Theorem C48_no_undefined_behaviour cells s u n r m : exist_in cells u -> tidy_main cells s ->
  crun n (cinit (cxx s) u) <> CHalt (Undefined r) m.
Proof. intros H2 H3. apply no_ub. by eapply C48_tidy. Qed.

(** Range-for over any generator that is tidy, ... *)
Theorem C48_range_for cells fn fin caught u : exist_in cells u ->
  (forall x, tidy cells (fun _ => True) (fun _ => True) (v_start Pull KVal x) (fn x)) -> well_used (range_main fn fin caught) u.
Proof. intros H2 H3. by eapply C48_disciplined, range_tidy. Qed.
(** ... and over pipelines of generators of any length. *)
Theorem C48_pipeline cells fs fn fin caught u : (forall v, move_exn v = None) -> exist_in cells u ->
  (forall x, tidy cells (fun _ => True) (fun _ => True) (v_start Pull KVal x) (fn x)) -> well_used (range_main (pipeline fs fn) fin caught) u.
Proof. intros H1 H2 H3. by eapply C48_disciplined, pipeline_disc. Qed.
(** A generator without end whose consumer stops; a consumer fed as long as it takes values. *)
Theorem C48_stopping note val n fin u : (forall v, move_exn v = None) -> well_used (take_main note val n fin) u.
Proof. intros H. apply (C48_disciplined (fun _ => False)); [by intros ?|by apply take_disc]. Qed.
Theorem C48_feeding nl fin num words u : (forall v, move_exn v = None) -> well_used (feed_main nl fin num words) u.
Proof. intros H. apply (C48_disciplined (fun _ => False)); [by intros ?|by apply feed_disc]. Qed.

(** ** C49 *)
(** In any program that respects the contract: a coroutine that is still there when main has
    returned ([life]: constructed, not deallocated) is owned by an object that has not been
    destroyed.  The library itself drops nothing. *)
Theorem C49_owned p u n m k : respects p u n -> crun n (cinit p u) = CHalt Finished m ->
  life k (m_tr m) <> PNone -> life k (m_tr m) <> PAlloc -> life k (m_tr m) <> PFreed -> exists x, den (m_tr m) !! x = Some (Some (Outer k)).
Proof. exact (left_has_owner p u n m k). Qed.

(** So a program that has destroyed the objects that owned coroutines leaves nothing: every
    stack that was allocated has been freed, unless the constructor threw right after
    allocating it (see C37); every coroutine-function that was entered has been left (its
    automatic variables are gone); every value constructed in a slot has been destroyed. *)
Definition owns_none (h : list event) : Prop := forall x k, den h !! x <> Some (Some (Outer k)).
Definition nothing_left (h : list event) : Prop := forall k,
  (forall b, occurs h (EvAlloc k) b -> (exists b', occurs h (EvFree k) b') \/ exists c sd kd x, occurs h (EvExn c (NNew sd kd) x) (EvAlloc k :: b)) /\
  (forall x b, occurs h (EvEnter k x) b -> exists r b', occurs h (EvLeave k r) b') /\
  nmade k h = ndestroyed k h.
Theorem C49_nothing_left p u n m : respects p u n -> crun n (cinit p u) = CHalt Finished m -> owns_none (m_tr m) -> nothing_left (m_tr m).
Proof.
  intros Hr Hc Hw k. split; [|split].
  - intros b. by apply (unowned_stacks p u n).
  - intros x b. by apply (unowned_left p u n).
  - by apply (unowned_values p u n).
Qed.

(** Programs that follow the rules are such programs. *)
Theorem C49_clean cells p u n m : exist_in cells u -> disciplined cells p -> crun n (cinit p u) = CHalt Finished m ->
  owns_none (m_tr m) /\ nothing_left (m_tr m).
Proof.
  intros H2 H3 Hc. assert (Hr : respects p u n) by (by apply (C48_disciplined cells)).
  assert (Hw : owns_none (m_tr m)) by (by apply (disc_unowned cells p u n)). split; [done|]. by eapply C49_nothing_left.
Qed.
Theorem C49_stacks cells p u n m k b : exist_in cells u -> disciplined cells p -> crun n (cinit p u) = CHalt Finished m ->
  occurs (m_tr m) (EvAlloc k) b ->
  (exists b', occurs (m_tr m) (EvFree k) b') \/ exists c sd kd x, occurs (m_tr m) (EvExn c (NNew sd kd) x) (EvAlloc k :: b).
Proof. intros H2 H3 Hc. by apply (C49_clean cells p u n m H2 H3 Hc). Qed.
Theorem C49_functions cells p u n m k x b : exist_in cells u -> disciplined cells p -> crun n (cinit p u) = CHalt Finished m ->
  occurs (m_tr m) (EvEnter k x) b -> exists r b', occurs (m_tr m) (EvLeave k r) b'.
Proof. intros H2 H3 Hc. by apply (C49_clean cells p u n m H2 H3 Hc). Qed.
Theorem C49_values cells p u n m k : exist_in cells u -> disciplined cells p -> crun n (cinit p u) = CHalt Finished m ->
  nmade k (m_tr m) = ndestroyed k (m_tr m).
Proof. intros H2 H3 Hc. by apply (C49_clean cells p u n m H2 H3 Hc). Qed.
End disc.

(** ** Cases *)
Local Instance calm_env : Env := {| T := nat; E := nat; moved_from := fun _ => 0; copy_exn := fun _ => None; move_exn := fun _ => None |}.
Definition mem : gmap nat nat := {[ 3 := 30; 4 := 40 ]}.
Example mem_exists : exist_in (fun l => l = 3 \/ l = 4) mem.
Proof. intros l [-> | ->]; by eexists. Qed.
(** Trees with values in memory, and a pipeline over them. *)
Definition tree2 : tree := Node (Node Null 3 30 Null) 4 40 Null.
Example C48_case {comp : Compiler} : well_used (range_main (pipeline [S; S] (fun out => traverse tree2 out Skip)) 0 (fun e => e)) mem.
Proof.
  apply (C48_pipeline (fun l => l = 3 \/ l = 4)); [done|apply mem_exists|]. intros x. apply traverse_tidy; [done|apply lookup_singleton|done| |by apply td_skip].
  cbn. auto.
Qed.
Example C48_runs : let comp := {| cxx11_lambdas := true |} in
  exists m, crun 600 (cinit (range_main (pipeline [S; S] (fun out => traverse tree2 out Skip)) 0 (fun e => e)) mem) = CHalt Finished m /\ output (m_tr m) = [32; 42; 0].
Proof. eexists. split; vm_compute; reflexivity. Qed.

(** A type whose copies always throw, and whose moves throw for odd values: *)
Definition wild : Env := {| T := nat; E := nat; moved_from := fun _ => 0; copy_exn := fun v => Some v; move_exn := fun v => if Nat.even v then None else Some v |}.
(** even temporaries can be pushed; *)
Example C48_careful {comp : Compiler} : well_used (env := wild) (range_main (env := wild) (fun out => produce out [AImm (env := wild) 2; AImm (env := wild) 4] Skip) 0 (fun e => e)) ∅.
Proof.
  apply (C48_range_for (env := wild) (fun _ => False)); [by intros ?|]. intros x. apply produce_tidy; [apply lookup_singleton|done| |by apply td_skip].
  repeat constructor.
Qed.
(** references can always be pushed. *)
Definition by_reference : stm (env := wild) := LocalCo (env := wild) Pull KRef plain_new (fun out => push (env := wild) out (ARefTo (env := wild) 3) Skip)
  (fun y => Do (OBool y) eq_refl (fun b => match b with AB true => Do (OGet y) eq_refl (fun _ => Do (OResume y) eq_refl (fun _ => Skip)) | _ => Skip end)) Skip.
Example C48_by_reference {comp : Compiler} : well_used (env := wild) (cxx (env := wild) by_reference) mem.
Proof.
  apply (C48_tidy (env := wild) (fun l => l = 3)); [intros l ->; by eexists|]. apply co_tidy.
  - intros x. eapply push_tidy; [apply lookup_singleton|done|done|done|done|done|]. intros. by apply td_skip.
  - intros h Hh. assert (Hy : v_in (made Pull KRef h (View false ∅ ∅)) !! h = Some (Entry Pull KRef false)) by apply lookup_insert.
    apply do_tidy; [by eexists|]. intros ? w (b&E&n&Hn&H). injection E as ->. rewrite Hy in Hn. injection Hn as <-. destruct H as [_ ->]. destruct b; [|by apply td_skip].
    apply do_tidy; [eexists; split; [exact Hy|]; split; [done|]; split; [done|]; cbn; set_solver|].
    intros r w [_ ->]. apply do_tidy; [eexists; split; [exact Hy|]; split; [done|]; cbn; set_solver|]. intros ? w _. by apply td_skip.
  - intros. by apply td_skip.
Qed.
(** The rules exclude what the contract excludes: resuming without asking. *)
Definition blind : stm := LocalCo Pull KVal plain_new (fun out => push out (AImm 1) Skip) (fun x =>
  Do (OResume x) eq_refl (fun _ => Do (OResume x) eq_refl (fun _ => Skip))) Skip.
Example C48_excludes cells : ~ tidy_main cells blind.
Proof.
  intros H. inversion H as [| | | | |Q0 X0 Q1 X1 w0 sd0 kd0 np0 fn0 body0 k0 H1 HX H2 HX1 H3| | | |]; subst. specialize (H2 0 (lookup_empty 0)).
  inversion H2 as [| | |? ? ? ? ? ? M _ _| | | | | |]; subst. destruct M as (n&Hn&_&Hr). cbn in Hn. rewrite lookup_insert in Hn. injection Hn as <-. cbn in Hr. set_solver.
Qed.
Example C48_undefined : let comp := {| cxx11_lambdas := true |} in
  exists n r m, crun n (cinit (cxx blind) ∅) = CHalt (Undefined r) m.
Proof. exists 300. eexists _, _. vm_compute. reflexivity. Qed.

(** A generator without end, abandoned in its third push: one stack, one value at a time. *)
Example C49_case : let comp := {| cxx11_lambdas := true |} in
  exists n m, crun n (cinit (take_main (fun i => i) (fun i => 10 * i) 3 7) ∅) = CHalt Finished m /\
  EvAlloc 1 ∈ m_tr m /\ EvFree 1 ∈ m_tr m /\ EvEnter 1 1 ∈ m_tr m /\ EvLeave 1 (Some XUnwind) ∈ m_tr m /\
  nmade 1 (m_tr m) = 3 /\ ndestroyed 1 (m_tr m) = 3.
Proof. 
  exists 400. eexists. split; [vm_compute; reflexivity|]. cbn [m_tr]. split_and!; try reflexivity; repeat constructor.
 Qed.
(** Without the rules: an object that is never destroyed keeps its coroutine. *)
Definition forgetful : strat := SNew Pull KVal plain_new (fun out => SDo (OPush out (AImm 1)) (fun _ => SRet)) (fun _ => SRet).
Example C49_forgotten : let comp := {| cxx11_lambdas := true |} in
  exists m, crun 300 (cinit forgetful ∅) = CHalt Finished m /\ life 1 (m_tr m) = PRun /\ den (m_tr m) !! 0 = Some (Some (Outer 1)) /\
  nmade 1 (m_tr m) = 1 /\ ndestroyed 1 (m_tr m) = 0.
Proof. eexists. split; [vm_compute; reflexivity|]. split_and!; vm_compute; reflexivity. Qed.

Print Assumptions C49_owned.
Print Assumptions C49_nothing_left.
Print Assumptions C49_clean.
Print Assumptions C49_stacks.
Print Assumptions C49_functions.
Print Assumptions C49_values.
Print Assumptions C48_disciplined.
Print Assumptions C48_tidy.
Print Assumptions C48_no_undefined_behaviour.
Print Assumptions C48_range_for.
Print Assumptions C48_pipeline.
Print Assumptions C48_stopping.
Print Assumptions C48_feeding.
