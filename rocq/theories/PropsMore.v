(** PropsMore.v -- C45 (control always comes back to user code), C46 (the library computes
    the reference semantics of Spec.v). *)
From stdpp Require Import prelude gmap.
From Coq Require Import Lia.
From Verif Require Import Base Model Trace Contract Spec Main Hist Progress Examples.

Section more.
Context {env : Env} {comp : Compiler}.

(** ** C45 *)

(** Wherever the execution stands, after finitely many more steps user code is in control,
    or the program has ended: no call of the library blocks, loops or gets stuck by itself. *)
Theorem C45_comes_back p u n s : respects p u n -> crun n (cinit p u) = CNext s ->
  (exists m s' st, crun m s = CNext s' /\ c_focus s' = FStrat st) \/
  (exists m o mm, crun m s = CHalt o mm /\ (o = Finished \/ o = Terminated)).
Proof. apply progress. Qed.

(** Hence a program that does not end lets user code act again and again. *)
Theorem C45_forever p u n : (forall N, respects p u N) -> (forall N o m, crun N (cinit p u) <> CHalt o m) ->
  exists N s st, n <= N /\ crun N (cinit p u) = CNext s /\ c_focus s = FStrat st.
Proof.
  intros Hr Hn. destruct (crun n (cinit p u)) as [s|o m] eqn:E; [|by destruct (Hn n o m)].
  destruct (progress _ _ _ _ (Hr n) E) as [(m&s'&st&Hm&Hf)|(m&o&mm&Hm&_)].
  - exists (n + m), s', st. split; [lia|]. split; [|done]. by rewrite Mono.crun_add, E.
  - destruct (Hn (n + m) o mm). by rewrite Mono.crun_add, E.
Qed.

(** ** C46 *)

(** What has happened after any number of steps is the beginning of what happens in the
    reference semantics; ... *)
Theorem C46_sound p u n : respects p u n -> exists k l, arun k (ainit p u) <> AViol /\ ares_tr (arun k (ainit p u)) = l ++ hist p u n.
Proof. intros Hr. destruct (follows_spec _ _ _ Hr) as (k&l&H1&H2&_). by exists k, l. Qed.
(** ... everything that happens there happens; ... *)
Theorem C46_complete p u k : well_used p u -> exists n, hist p u n = ares_tr (arun k (ainit p u)).
Proof. intros Hw. exact (hist_complete _ _ _ (respects_spec _ _ Hw k)). Qed.
(** ... and the program ends in one exactly as in the other. *)
Theorem C46_ends p u o : well_used p u ->
  (exists n m, crun n (cinit p u) = CHalt o m) <-> (exists k a, arun k (ainit p u) = AHalt o a).
Proof.
  intros Hw. split.
  - intros (n&m&Hc). destruct (follows_spec _ _ _ (Hw n)) as (k&l&_&_&Hh). destruct (Hh _ _ Hc) as [_ [a Ha]]. by exists k, a.
  - intros (k&a&Ha). destruct (sim_run_halt _ _ _ _ _ Ha) as (N&m&Hm&_). by exists N, m.
Qed.
End more.

(** ** Cases meeting the hypotheses *)

(** A coroutine inside a coroutine destroyed while suspended: the destructor call is in the
    library when the first coroutine's frame is being unwound. *)
Example C45_case {comp : Compiler} : exists n s, respects ex_kill u0 n /\ crun n (cinit ex_kill u0) = CNext s /\
  (forall st, c_focus s <> FStrat st) /\ head (hist ex_kill u0 n) = Some (EvLeave 1 (Some XUnwind)).
Proof.
  assert (exists n, (ok_run ex_kill u0 n && match crun n (cinit ex_kill u0) with CNext s => match c_focus s with FStrat _ => false | _ => true end | _ => false end &&
     bool_decide (head (hist ex_kill u0 n) = Some (EvLeave 1 (Some XUnwind)))) = true) as [n H].
  { assert (existsb (fun n => ok_run ex_kill u0 n && match crun n (cinit ex_kill u0) with CNext s => match c_focus s with FStrat _ => false | _ => true end | _ => false end &&
     bool_decide (head (hist ex_kill u0 n) = Some (EvLeave 1 (Some XUnwind)))) (seq 0 200) = true) as (n&_&H)%existsb_exists; [|by exists n].
    destruct comp as [[]]; vm_compute; reflexivity. }
  exists n. apply andb_true_iff in H as [[H1 H2]%andb_true_iff H3]. destruct (crun n (cinit ex_kill u0)) as [s|] eqn:E; [|done]. exists s.
  split; [by apply ok_run_respects|]. split; [done|]. split; [|by apply bool_decide_eq_true in H3]. intros st Hs. by rewrite Hs in H2.
Qed.

(** A program that never ends: main resumes for ever a coroutine that yields for ever. *)
CoFixpoint yields (s : nat) : strat := SDo (OPush s (AImm 7)) (fun r => match r with ROk _ => yields s | RExn x => SThrow x end).
CoFixpoint resumes_ever (x : nat) : strat := SDo (OResume x) (fun r => match r with ROk _ => resumes_ever x | RExn x => SThrow x end).
Definition ex_ever : strat := SNew Pull KVal (NewP None None) yields (fun r => match r with ROk (AH x) => resumes_ever x | _ => SRet end).
Example C45_ever_case {comp : Compiler} : ok_run ex_ever u0 300 && match crun 300 (cinit ex_ever u0) with CNext _ => true | _ => false end = true.
Proof. destruct comp as [[]]; vm_compute; reflexivity. Qed.

(** All examples of Examples.v run to their end under the contract. *)
Example C46_case {comp : Compiler} : forallb (fun p => ok_run p u0 300 && finishes p) [ex_pull; ex_push; ex_nested; ex_kill; ex_throw; ex_move; ex_assign; ex_escape; ex_iter; ex_out] = true.
Proof. destruct comp as [[]]; vm_compute; reflexivity. Qed.

Print Assumptions C45_comes_back.
Print Assumptions C45_forever.
Print Assumptions C46_sound.
Print Assumptions C46_complete.
Print Assumptions C46_ends.
