(** PropsPipe.v -- C52: consumers compose.

    [pipe_main c ins cs] (Pipes.v) is a program in which main passes values on to a chain of
    push coroutines, each of which reads, writes and passes values on to the next;
    [piped c ins cs] says what it does without mentioning coroutines. *)
From stdpp Require Import prelude gmap.
From Coq Require Import Lia.
From Verif Require Import Base Model Spec InvSpec Main Hist Trace Contract ContractProof Micro Exact Phase Cpp Progs Pipes SafeCpp FactsPipe FactsSeq FactsFin PropsCore PropsProg PropsDisc PropsGen.
From Verif Require Steps.

Section pipe.
Context {env : Env} {comp : Compiler}.
(** Values are moved without exceptions. *)
Context (nothrow : forall v, move_exn v = None).

Definition way (x : option E) : outcome := match x with None => Finished | Some _ => Terminated end.

(** The program ends, having written what [piped] says, normally or with the uncaught exception; ... *)
Theorem C52_ends c ins cs u : exists n m, crun n (cinit (pipe_main c ins cs) u) = CHalt (way (piped c ins cs).2) m /\ output (m_tr m) = (piped c ins cs).1.
Proof.
  destruct (pipe_run nothrow c ins cs u) as (k&a&H1&H2&_). destruct (sim_run_halt _ _ _ _ _ H1) as (N&m&Hm&Et). exists N, m. by rewrite Et.
Qed.
(** ... it has no other end (in particular no undefined behaviour); ... *)
Theorem C52_exactly c ins cs u n o m : crun n (cinit (pipe_main c ins cs) u) = CHalt o m ->
  o = way (piped c ins cs).2 /\ output (m_tr m) = (piped c ins cs).1.
Proof.
  intros H. destruct (C52_ends c ins cs u) as (N&m'&H'&Ho). by destruct (C38_one_outcome _ _ _ _ _ _ _ _ H H') as [-> ->].
Qed.
(** ... and at any time it has written the beginning of it. *)
Theorem C52_so_far c ins cs u n : output (hist (pipe_main c ins cs) u n) `prefix_of` (piped c ins cs).1.
Proof.
  destruct (C52_ends c ins cs u) as (N&m'&H'&Ho). rewrite <- Ho. destruct (C38_histories_agree (pipe_main c ins cs) u n (Nat.max n N)) as [k Hk]; [lia|].
  unfold hist in Hk at 1. rewrite (crun_halt_le _ _ _ _ _ H') in Hk by lia. cbn in Hk. rewrite Hk, output_app. by eexists.
Qed.

(** It respects the contract, so that all other theorems apply to it, ... *)
Theorem C52_contract c ins cs u : well_used (pipe_main c ins cs) u.
Proof.
  apply contract_exact_safe; [by apply pipe_safe|]. intros n Hv. destruct (pipe_run nothrow c ins cs u) as (k&a&H1&_).
  pose proof (Steps.arun_halt_le _ (Nat.max n k) _ _ _ H1 ltac:(lia)) as H2. assert (V : forall i j b, arun i b = AViol -> i <= j -> arun j b = AViol).
  { induction i as [|i IH]; intros j b Hb Hj; [done|]. destruct j as [|j]; [lia|]. cbn in Hb |- *. destruct (astep b); try done. apply IH; [done|lia]. }
  by rewrite (V _ _ _ Hv) in H2 by lia.
Qed.
(** ... and leaves nothing behind, whichever of the consumers have returned, have thrown or are
    still waiting for values when main comes to its end (C49). *)
Theorem C52_clean c ins cs u n m : crun n (cinit (pipe_main c ins cs) u) = CHalt Finished m ->
  owns_none (m_tr m) /\ nothing_left (m_tr m).
Proof.
  intros Hm. assert (Hw : owns_none (m_tr m)).
  - destruct (pipe_run nothrow c ins cs u) as (k&a&H1&_&Ho). destruct (sim_run_halt _ _ _ _ _ H1) as (N&m'&Hm'&Et).
    destruct (C38_one_outcome _ _ _ _ _ _ _ _ Hm Hm') as [Eo ->]. rewrite <- Eo in H1. rewrite Et. destruct (finish_run _ _ _ _ H1) as (Hf&_).
    intros x j Hd. destruct (uc_den _ _ _ Hf _ _ Hd) as (sd&kd&Ha&_&_). by apply (Ho x sd kd j).
  - split; [done|]. apply (C49_nothing_left (pipe_main c ins cs) u n); [apply C52_contract|done|done].
Qed.

(** ** As functions on lists *)
(** main, passing on what it gets. *)
CoFixpoint source : consumer := Consumer (fun v => [inr v]) (fun _ => Again source) (fun _ e => ([], Fails e)).
(** A consumer with state: [f s v] is what is passed on for [v] in state [s], and the next state,
    if the function does not return.  It has no handlers. *)
CoFixpoint machine {S : Type} (f : S -> T -> list T * option S) (s : S) : consumer :=
  Consumer (fun v => inr <$> (f s v).1) (fun v => match (f s v).2 with Some s' => Again (machine f s') | None => Done end) (fun _ e => ([], Fails e)).
(** The same as a function on lists. *)
Fixpoint through {S : Type} (f : S -> T -> list T * option S) (s : S) (l : list T) : list T :=
  match l with
  | [] => []
  | v :: l => (f s v).1 ++ match (f s v).2 with Some s' => through f s' l | None => [] end
  end.

Lemma round_source n v p : round (feed n) source v p = match feed n p v with (o, p', None) => (o, p', Again source) | (o, p', Some e) => (o, p', Fails e) end.
Proof. unfold round. cbn. destruct (feed n p v) as [[o p'] [e|]]; by rewrite app_nil_r. Qed.
Lemma driven_app n l r : forall p, driven n source (l ++ r) p =
  match does (feed n) (inr <$> l) p with (o, p', None) => (o ++ (driven n source r p').1, (driven n source r p').2) | (o, _, Some e) => (o, Some e) end.
Proof.
  induction l as [|v l IH]; intros p; [cbn; by destruct (driven n source r p)|]. cbn [app driven]. rewrite round_source. cbn. destruct (feed n p v) as [[o p'] [e|]]; [done|].
  rewrite IH. destruct (does (feed n) (inr <$> l) p') as [[o' p''] [e|]]; cbn; [done|]. by rewrite app_assoc.
Qed.
Lemma driven_none n ins p : driven (S n) source ins (None :: p) = ([], None).
Proof. induction ins as [|v ins IH]; [done|]. cbn [driven]. rewrite round_source. cbn. by rewrite IH. Qed.
Lemma driven_machine {S0 : Type} (f : S0 -> T -> list T * option S0) n ins : forall s p, driven (S n) source ins (Some (machine f s) :: p) = driven n source (through f s ins) p.
Proof.
  induction ins as [|v ins IH]; intros s p; [done|]. cbn [driven through]. rewrite round_source, driven_app. cbn [feed]. unfold round. cbn [react machine next rescue].
  destruct (does (feed n) (inr <$> (f s v).1) p) as [[o p'] [e|]]; cbn; [by rewrite app_nil_r|].
  destruct ((f s v).2) as [s'|]; [by rewrite IH|]. by rewrite driven_none.
Qed.

(** The first consumer can be replaced by the list it makes of what it gets - however the
    following ones behave, and also if they throw. *)
Theorem C52_machine {S0 : Type} (f : S0 -> T -> list T * option S0) s ins cs : piped source ins (machine f s :: cs) = piped source (through f s ins) cs.
Proof. unfold piped. cbn. apply driven_machine. Qed.
(** So a pipeline of such consumers writes what the composition of their functions makes of the input. *)
Record stage := Stage { st_state : Type; st_step : st_state -> T -> list T * option st_state; st_init : st_state }.
Definition stage_co (s : stage) : consumer := machine (st_step s) (st_init s).
Definition stage_fn (s : stage) : list T -> list T := through (st_step s) (st_init s).
Theorem C52_composition (ss : list stage) ins u :
  ends (pipe_main source ins (stage_co <$> ss)) u (fun h => output h = foldl (fun l s => stage_fn s l) ins ss).
Proof.
  assert (E : piped source ins (stage_co <$> ss) = (foldl (fun l s => stage_fn s l) ins ss, None)).
  { revert ins. induction ss as [|s ss IH]; intros ins; cbn.
    - unfold piped. cbn. induction ins as [|v ins IHi]; [done|]. cbn [driven]. rewrite round_source. cbn. by rewrite IHi.
    - unfold stage_co at 1. rewrite C52_machine. apply IH. }
  destruct (C52_ends source ins (stage_co <$> ss) u) as (n&m&H1&H2). rewrite E in H1, H2. by exists n, m.
Qed.

(** Mapping, filtering, taking the first n values and then returning: what is passed on to a
    consumer that has returned is ignored (its object is tested first). *)
Definition st_map (f : T -> T) : stage := Stage unit (fun _ v => ([f v], Some tt)) tt.
Definition st_filter (p : T -> bool) : stage := Stage unit (fun _ v => (if p v then [v] else [], Some tt)) tt.
Definition st_take (n : nat) : stage := Stage nat (fun n v => match n with O => ([], None) | S O => ([v], None) | S n => ([v], Some n) end) n.
Theorem C52_map f l : stage_fn (st_map f) l = f <$> l.
Proof. unfold stage_fn. cbn. induction l as [|v l IH]; [done|]. cbn. by rewrite IH. Qed.
Theorem C52_filter p l : stage_fn (st_filter p) l = filter (fun v => p v = true) l.
Proof. unfold stage_fn. cbn. induction l as [|v l IH]; [done|]. rewrite filter_cons. cbn. rewrite IH. destruct (p v) eqn:E; by case_decide. Qed.
Theorem C52_take n l : stage_fn (st_take n) l = take n l.
Proof. unfold stage_fn. cbn. revert n. induction l as [|v l IH]; intros n; [by destruct n|]. destruct n as [|[|n]]; cbn; [done|done|]. by rewrite IH. Qed.

End pipe.

(** ** Cases *)
Local Instance pipe_env : Env := {| T := nat; E := nat; moved_from := fun _ => 0; copy_exn := fun _ => None; move_exn := fun _ => None |}.
(** Pairs are added up; a rest is not passed on. *)
Definition pairs : stage := Stage (option nat) (fun s v => match s with None => ([], Some (Some v)) | Some w => ([w + v], Some None) end) None.
Definition three : list stage := [st_filter Nat.odd; pairs; st_take 2].
Definition run_three : strat := pipe_main source [1; 2; 3; 4; 5; 7; 9; 11; 13] (stage_co <$> three).
Example C52_case {comp : Compiler} : ends run_three ∅ (fun h => output h = [4; 12]).
Proof. exact (C52_composition (env := pipe_env) (fun _ => eq_refl) three [1; 2; 3; 4; 5; 7; 9; 11; 13] ∅). Qed.
Example C52_case_runs : let comp := {| cxx11_lambdas := true |} in exists m, crun 3000 (cinit run_three ∅) = CHalt Finished m /\ output (m_tr m) = [4; 12].
Proof. eexists. split; vm_compute; reflexivity. Qed.

(** A consumer that writes, then passes on twice what it gets, throws at 6 and gives up at 9; it
    handles exceptions of the next by writing them. *)
CoFixpoint picky : consumer :=
  Consumer (fun v => if Nat.eqb v 6 then [inl 60] else [inl (10 * v); inr v; inr (S v)])
    (fun v => if Nat.eqb v 6 then Fails 66 else if Nat.eqb v 9 then Done else Again picky)
    (fun v e => ([100 + e], Again picky)).
(** One that throws at 3, once, having written it. *)
Definition writer : consumer := machine (fun (_ : unit) v => ([v], Some tt)) tt.
CoFixpoint once : consumer := Consumer (fun v => [inl v]) (fun v => if Nat.eqb v 3 then Fails 33 else Again once) (fun v e => ([], Fails e)).
(** main writes the exceptions it gets and goes on. *)
CoFixpoint patient : consumer := Consumer (fun v => [inr v]) (fun _ => Again patient) (fun _ e => ([1000 + e], Again patient)).
Definition run_picky : strat := pipe_main patient [1; 2; 4; 6; 7] [picky; once].
(* 1 is passed on as 1, 2; 2 as 2, 3, where [once] throws 33, which [picky] handles; 4 is passed on to
   [once], which is over; at 6 [picky] throws 66, which main handles; 7 is ignored. *)
Example C52_case_exceptions {comp : Compiler} : exists n m, crun n (cinit run_picky ∅) = CHalt Finished m /\ output (m_tr m) = [10; 1; 2; 20; 2; 3; 133; 40; 60; 1066].
Proof. exact (C52_ends (env := pipe_env) (fun _ => eq_refl) patient [1; 2; 4; 6; 7] [picky; once] ∅). Qed.
Example C52_case_exceptions_runs : let comp := {| cxx11_lambdas := true |} in exists m, crun 3000 (cinit run_picky ∅) = CHalt Finished m /\ output (m_tr m) = [10; 1; 2; 20; 2; 3; 133; 40; 60; 1066].
Proof. eexists. split; vm_compute; reflexivity. Qed.
(** Nobody handles it. *)
Example C52_case_uncaught {comp : Compiler} : exists n m, crun n (cinit (pipe_main source [2; 3; 4] [writer; once]) ∅) = CHalt Terminated m /\ output (m_tr m) = [2; 3].
Proof. exact (C52_ends (env := pipe_env) (fun _ => eq_refl) source [2; 3; 4] [writer; once] ∅). Qed.

(** In the first case three stacks are allocated and freed; the last consumer returns, the
    others are unwound; the first is sent nine values. *)
Definition stack_events (h : list event) : list (nat * bool) := omap (fun e => match e with EvAlloc k => Some (k, true) | EvFree k => Some (k, false) | _ => None end) (rev h).
Definition left_events (h : list event) : list (nat * option exn) := omap (fun e => match e with EvLeave k r => Some (k, r) | _ => None end) (rev h).
Example C52_case_clean : let comp := {| cxx11_lambdas := true |} in
  match crun 3000 (cinit run_three ∅) with
  | CHalt Finished m => stack_events (m_tr m) = [(1, true); (2, true); (3, true); (3, false); (2, false); (1, false)] /\
      left_events (m_tr m) = [(1, None); (3, Some XUnwind); (2, Some XUnwind)] /\ nmade 3 (m_tr m) = 9 /\ ndestroyed 3 (m_tr m) = 9
  | _ => False
  end.
Proof. vm_compute. split_and!; reflexivity. Qed.

Print Assumptions C52_ends.
Print Assumptions C52_contract.
Print Assumptions C52_clean.
Print Assumptions C52_exactly.
Print Assumptions C52_so_far.
Print Assumptions C52_machine.
Print Assumptions C52_composition.
Print Assumptions C52_map.
Print Assumptions C52_filter.
Print Assumptions C52_take.
