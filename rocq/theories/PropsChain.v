(** PropsChain.v -- C55: generators that read from generators declared outside of them.

    [cmain up p] (Chain.v) is the program [p] of Many.v, with the declarations that [up] selects
    moved out of the function that begins with them, into the scope in which the coroutine with
    that function is declared: the function then uses objects of another context by reference. *)
From stdpp Require Import prelude gmap.
From Coq Require Import Lia.
From Verif Require Import Base Model Spec InvSpec Main Contract ContractProof Hist Trace Uses Exact Cpp Progs Gens FactsGen FactsLaws Many FactsMany LawsMany Chain FactsChain LawsChain SafeCpp FactsSeq PropsCore PropsProg PropsDisc PropsBlock PropsGen PropsMany.
From Verif Require Steps.

Section chain.
Context {env : Env} {comp : Compiler}.
(** Values are moved without exceptions. *)
Context (nothrow : forall v, move_exn v = None).

(** Whichever declarations are moved, the program does what [pdoes] says of [p]: it ends normally, ... *)
Theorem C55_ends n up p u : (pdoes n p).2 = Ends \/ (pdoes n p).2 = Returns ->
  ends (cmain up p) u (fun h => output h = written (pdoes n p).1).
Proof.
  intros H. apply to_code. destruct (cmain_ends nothrow n up p u) as (k&a&H1&H2); [by destruct H as [-> | ->]|]. by exists k, a.
Qed.
(** ... with an uncaught exception, ... *)
Theorem C55_throws n up p u e : (pdoes n p).2 = Raises e ->
  exists N m, crun N (cinit (cmain up p) u) = CHalt Terminated m /\ output (m_tr m) = written (pdoes n p).1.
Proof.
  intros H. destruct (cmain_raises nothrow n up p u e H) as (k&a&H1&H2). destruct (sim_run_halt _ _ _ _ _ H1) as (N&m&Hm&Et). exists N, m. by rewrite Et.
Qed.
(** ... or never, having done everything it should, ... *)
Theorem C55_reaches n up p u : exists N, output (hist (cmain up p) u N) = written (pdoes n p).1.
Proof.
  destruct (cmain_reaches nothrow n up p u) as (k&a&H1&H2). destruct (hist_complete (cmain up p) u k) as [N HN]; [unfold arespects; by rewrite H1|]. exists N. by rewrite HN, H1.
Qed.
(** ... and nothing else; in particular there is no undefined behaviour. *)
Theorem C55_exactly N up p u o m : crun N (cinit (cmain up p) u) = CHalt o m ->
  exists n, match (pdoes n p).2 with Ends | Returns => o = Finished | Raises _ => o = Terminated | Cut => False end /\ output (m_tr m) = written (pdoes n p).1.
Proof.
  intros H. exists (S N). assert (Hcases : forall o' m', (exists N', crun N' (cinit (cmain up p) u) = CHalt o' m') -> o = o' /\ m = m').
  { intros o' m' [N' H']. destruct (C38_one_outcome _ _ _ _ _ _ _ _ H H'). done. }
  destruct (pdoes (S N) p).2 as [| |e|] eqn:E.
  - destruct (C55_ends (S N) up p u) as (N'&m'&H'&Ho); [by left|]. by destruct (Hcases _ _ (ex_intro _ _ H')) as [-> ->].
  - destruct (C55_ends (S N) up p u) as (N'&m'&H'&Ho); [by right|]. by destruct (Hcases _ _ (ex_intro _ _ H')) as [-> ->].
  - destruct (C55_throws (S N) up p u e E) as (N'&m'&H'&Ho). by destruct (Hcases _ _ (ex_intro _ _ H')) as [-> ->].
  - exfalso. destruct (cmain_long nothrow (S N) up p u E) as (k&a&Hk&Ha&_). destruct (sim_run _ _ _ _ Ha) as (_&N'&m'&Hle&Hm&_).
    assert (N <= N') by lia. rewrite (crun_halt_le _ _ _ _ _ H) in Hm by done. done.
Qed.
Theorem C55_so_far N up p u : exists n, output (hist (cmain up p) u N) `prefix_of` written (pdoes n p).1.
Proof.
  exists N. assert (Hp : forall k h1 h2, h2 = k ++ h1 -> output h1 `prefix_of` output h2).
  { intros k h1 h2 ->. exists (output k). by rewrite output_app. }
  assert (Hend : forall o m', (exists N', crun N' (cinit (cmain up p) u) = CHalt o m') -> output (hist (cmain up p) u N) `prefix_of` output (m_tr m')).
  { intros o m' [N' H]. destruct (C38_histories_agree (cmain up p) u N (Nat.max N N')) as [k Hk]; [lia|]. eapply Hp. rewrite <- Hk. unfold hist.
    rewrite (crun_halt_le _ _ _ _ _ H) by lia. done. }
  destruct (pdoes N p).2 as [| |e|] eqn:E.
  - destruct (C55_ends N up p u) as (N'&m'&H'&Ho); [by left|]. rewrite <- Ho. eapply Hend. by eexists.
  - destruct (C55_ends N up p u) as (N'&m'&H'&Ho); [by right|]. rewrite <- Ho. eapply Hend. by eexists.
  - destruct (C55_throws N up p u e E) as (N'&m'&H'&Ho). rewrite <- Ho. eapply Hend. by eexists.
  - destruct (cmain_long nothrow N up p u E) as (k&a&Hk&Ha&O). rewrite <- O. destruct (hist_prefix (cmain up p) u k) as [l Hl]; [unfold arespects; by rewrite Ha|].
    rewrite Ha in Hl. cbn in Hl. destruct (C38_histories_agree (cmain up p) u N k Hk) as [l' Hl']. rewrite Hl' in Hl. rewrite app_assoc in Hl. by eapply Hp.
Qed.

(** Hence it makes no difference where the generators are declared. *)
Theorem C55_same up up' p u : does_as (cmain up p) (cmain up' p) u.
Proof.
  split.
  - intros N o m Hm. destruct (C55_exactly _ _ _ _ _ _ Hm) as (n&Ho&Hout). rewrite Hout. destruct (pdoes n p).2 as [| |e|] eqn:Es; subst; [..|done].
    + destruct (C55_ends n up' p u) as (N'&m'&H1&H2); [by auto|]. by exists N', m'.
    + destruct (C55_ends n up' p u) as (N'&m'&H1&H2); [by auto|]. by exists N', m'.
    + destruct (C55_throws n up' p u e) as (N'&m'&H1&H2); [done|]. by exists N', m'.
  - intros N. destruct (C55_so_far N up p u) as [n Hn]. destruct (C55_reaches n up' p u) as [N' HN']. exists N'. by rewrite HN'.
Qed.
Theorem C55_as_inside up p u : does_as (cmain up p) (pmain p) u /\ does_as (pmain p) (cmain up p) u.
Proof.
  split; split.
  - intros N o m Hm. destruct (C55_exactly _ _ _ _ _ _ Hm) as (n&Ho&Hout). rewrite Hout. destruct (pdoes n p).2 as [| |e|] eqn:Es; subst; [..|done].
    + destruct (C54_ends nothrow n p u) as (N'&m'&H1&H2); [by auto|]. by exists N', m'.
    + destruct (C54_ends nothrow n p u) as (N'&m'&H1&H2); [by auto|]. by exists N', m'.
    + destruct (C54_throws nothrow n p u e) as (N'&m'&H1&H2); [done|]. by exists N', m'.
  - intros N. destruct (C55_so_far N up p u) as [n Hn]. destruct (C54_reaches nothrow n p u) as [N' HN']. exists N'. by rewrite HN'.
  - intros N o m Hm. destruct (C54_exactly nothrow _ _ _ _ _ Hm) as (n&Ho&Hout). rewrite Hout. destruct (pdoes n p).2 as [| |e|] eqn:Es; subst; [..|done].
    + destruct (C55_ends n up p u) as (N'&m'&H1&H2); [by auto|]. by exists N', m'.
    + destruct (C55_ends n up p u) as (N'&m'&H1&H2); [by auto|]. by exists N', m'.
    + destruct (C55_throws n up p u e) as (N'&m'&H1&H2); [done|]. by exists N', m'.
  - intros N. destruct (C54_so_far nothrow N p u) as [n Hn]. destruct (C55_reaches n up p u) as [N' HN']. exists N'. by rewrite HN'.
Qed.

(** These programs respect the contract, so that everything proved about such programs holds
    for them. *)
Theorem C55_contract up p u : well_used (cmain up p) u.
Proof.
  apply contract_exact_safe; [by apply cmain_safe|]. intros n Hv.
  assert (V : forall i j b, arun i b = AViol -> i <= j -> arun j b = AViol).
  { induction i as [|i IH]; intros j b Hb Hj; [done|]. destruct j as [|j]; [lia|]. cbn in Hb |- *. destruct (astep b); try done. apply IH; [done|lia]. }
  assert (Hend : forall k o a, arun k (ainit (cmain up p) u) = AHalt o a -> False).
  { intros k o a H1. pose proof (Steps.arun_halt_le _ (Nat.max n k) _ _ _ H1 ltac:(lia)) as H2. by rewrite (V _ _ _ Hv) in H2 by lia. }
  destruct (pdoes n p).2 as [| |e|] eqn:E.
  - destruct (cmain_ends nothrow n up p u) as (k&a&H1&_); [by rewrite E|]. by eapply Hend.
  - destruct (cmain_ends nothrow n up p u) as (k&a&H1&_); [by rewrite E|]. by eapply Hend.
  - destruct (cmain_raises nothrow n up p u e E) as (k&a&H1&_). by eapply Hend.
  - destruct (cmain_long nothrow n up p u E) as (k&a&Hk&Ha&_). by rewrite (V _ _ _ Hv Hk) in Ha.
Qed.
(** They leave nothing behind: a generator that is abandoned does not destroy those that it
    reads from, but the block in which they are declared does. *)
Theorem C55_clean up p u n m : crun n (cinit (cmain up p) u) = CHalt Finished m -> owns_none (m_tr m) /\ nothing_left (m_tr m).
Proof. apply C56_no_moves; [exact (C55_contract up p u n)|apply (cmain_still nothrow)]. Qed.

(** ** The chain of the documentation *)
(** [pstages gs src]: a generator [src] and a chain of functions that each loop over the one
    before.  Output is in the order in which the values go through the chain: each value gets
    to the end of the chain before the next one is made. *)
Theorem C55_chain up gs src l u : pacts src l None ->
  ends (cmain up (pstages gs src)) u (fun h => output h = written (flows gs l)).
Proof.
  intros H. destruct (pacts_stages gs _ _ _ H) as [n Hn]. destruct (Hn n) as (st&E&Hx); [done|].
  destruct (C55_ends n up (pstages gs src) u) as (N&m&H1&H2); [unfold pdoes; rewrite E; destruct st; auto; done|].
  exists N, m. split; [done|]. rewrite H2. unfold pdoes. by rewrite E.
Qed.
(** An exception of the first generator passes through the whole chain, after what has been
    made before has got to its end. *)
Theorem C55_chain_throws up gs src l e u : pacts src l (Some e) ->
  exists N m, crun N (cinit (cmain up (pstages gs src)) u) = CHalt Terminated m /\ output (m_tr m) = written (flows gs l).
Proof.
  intros H. destruct (pacts_stages gs _ _ _ H) as [n Hn]. destruct (Hn n) as (st&E&Hx); [done|].
  destruct (C55_throws n up (pstages gs src) u e) as (N&m&H1&H2); [unfold pdoes; rewrite E; by destruct st; simplify_eq|].
  exists N, m. split; [done|]. rewrite H2. unfold pdoes. by rewrite E.
Qed.
End chain.

(** ** Cases *)
Local Instance chain_env : Env := {| T := nat; E := nat; moved_from := fun _ => 0; copy_exn := fun _ => None; move_exn := fun _ => None |}.
(** The chain of doc/motivation.qbk:533-543: lines are split into tokens, those that are no
    words are left out, the others are written.  A line is a number here, its tokens its last
    digit and what is before it; words are numbers above 2. *)
Definition tokenize (line : nat) : list (nat + nat) := [inr (Nat.div line 10); inr (Nat.modulo line 10)].
Definition only_words (w : nat) : list (nat + nat) := if Nat.ltb 2 w then [inr w] else [].
Definition trace_ (w : nat) : list (nat + nat) := [inl (1000 + w); inr w].
Definition nothing (w : nat) : list (nat + nat) := [].
(** readlines() says when it reads. *)
Definition lines : list (nat + nat) := [inl 500; inr 71; inl 501; inr 23; inl 502; inr 11; inl 503; inr 54; inl 504].
Definition documented : P := pstages [tokenize; only_words; trace_; nothing] (pwork lines).
Definition everywhere : P -> bool := fun _ => true.
Example C55_case {comp : Compiler} : ends (cmain everywhere documented) ∅ (fun h => output h = [500; 1007; 501; 1003; 502; 503; 1005; 1004; 504]).
Proof. apply (C55_chain (env := chain_env) (fun v => eq_refl) everywhere [tokenize; only_words; trace_; nothing] (pwork (env := chain_env) lines) lines ∅). apply (pacts_work (env := chain_env)). Qed.
(** The same by running the code, with all generators in the scope of main, and with each in
    the function that uses it; the first one has one context that makes the others. *)
Definition runs_with (up : P -> bool) (p : P) : list nat :=
  let comp := {| cxx11_lambdas := true |} in
  match crun 4000 (cinit (cmain up p) ∅) with CHalt Finished m => output (m_tr m) | _ => [] end.
Definition makers (up : P -> bool) (p : P) : list nat :=
  let comp := {| cxx11_lambdas := true |} in
  match crun 4000 (cinit (cmain up p) ∅) with CHalt Finished m => rev (omap (fun e => match e with EvCall c (NNew _ _) => Some c | _ => None end) (m_tr m)) | _ => [] end.
Example C55_case_runs : (runs_with everywhere documented, makers everywhere documented, makers (fun _ => false) documented) =
  ([500; 1007; 501; 1003; 502; 503; 1005; 1004; 504], [0; 0; 0; 0], [0; 1; 2; 3]).
Proof. vm_compute. reflexivity. Qed.
(** readlines() throws in the middle. *)
Definition torn : P := PSeq (pwork [inr 71; inr 23]) (PFail 9).
Example C55_case_throws {comp : Compiler} : exists N m, crun N (cinit (cmain everywhere (pstages [tokenize; only_words; trace_; nothing] torn)) ∅) = CHalt Terminated m /\ output (m_tr m) = [1007; 1003].
Proof.
  apply (C55_chain_throws (env := chain_env) (fun v => eq_refl) everywhere [tokenize; only_words; trace_; nothing] torn [inr 71; inr 23] 9 ∅). exists 0. intros n _. by exists (Raises (env := chain_env) 9).
Qed.
(** Two generators zipped, one of them by a function with its own source; the chain is left after three
    of infinitely many values. *)
Definition zipped : P := PLet (pzip Nat.add (pstage (fun v => [inl (100 + v); inr v]) (pcount (fun i => i))) (pcount (fun i => 10 * i)))
  (PLoop (fun j => if Nat.ltb j 3 then PSeq (PPeek 0 PYield PNil) (PNext 0) else PQuit)).
Example C55_case_zip {comp : Compiler} : ends (cmain everywhere zipped) ∅ (fun h => output h = [100; 0; 101; 11; 102; 22; 103]).
Proof. pose proof (C55_ends (env := chain_env) (fun v => eq_refl) 5 everywhere zipped ∅) as H. apply H. right. reflexivity. Qed.
Example C55_case_zip_runs : (runs_with everywhere zipped, makers everywhere zipped) = ([100; 0; 101; 11; 102; 22; 103], [0; 0; 0; 0]).
Proof. vm_compute. reflexivity. Qed.
(** Both coroutines of main with its sources, and their sources, are freed in the opposite order; all
    functions are unwound. *)
Example C55_case_clean : let comp := {| cxx11_lambdas := true |} in
  match crun 4000 (cinit (cmain everywhere zipped) ∅) with
  | CHalt Finished m => (rev (omap (fun e => match e with EvFree k => Some k | _ => None end) (m_tr m)), rev (omap (fun e => match e with EvLeave k r => Some (k, r) | _ => None end) (m_tr m)))
  | _ => ([], [])
  end = ([4; 3; 2; 1], [(4, Some XUnwind); (3, Some XUnwind); (2, Some XUnwind); (1, Some XUnwind)]).
Proof. vm_compute. reflexivity. Qed.

Print Assumptions C55_ends.
Print Assumptions C55_throws.
Print Assumptions C55_reaches.
Print Assumptions C55_exactly.
Print Assumptions C55_so_far.
Print Assumptions C55_same.
Print Assumptions C55_as_inside.
Print Assumptions C55_contract.
Print Assumptions C55_clean.
Print Assumptions C55_chain.
Print Assumptions C55_chain_throws.
