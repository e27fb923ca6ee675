(** PropsBlock.v -- C56: programs whose objects live in blocks leave nothing behind.

    [cxx f] is a program in the structured language of Cpp.v: every coroutine object is an
    automatic object of the block it is declared in.  [held c x h] (Blocks.v): [x] is one of
    context [c] and is not being destroyed; [moved_out h]: ownership of coroutines was moved to
    objects of main or of coroutines made earlier only.  Contexts are numbered in the order in
    which they are made; main is 0. *)
From stdpp Require Import prelude gmap.
From Coq Require Import Lia.
From Verif Require Import Base Model Spec InvSpec Main Hist Trace Contract ContractProof Uses Cpp Blocks Progs FactsCpp FactsFin FactsSeq FactsBlock Examples PropsCore PropsDisc.

Section block.
Context {env : Env} {comp : Compiler}.

(** At any time: the owner of a coroutine is an automatic object of main or of a coroutine that
    was made earlier (or its constructor is just coming back). *)
Theorem C56_owner f u n h x k : respects (cxx f) u n -> past (hist (cxx f) u n) h -> moved_out h -> den h !! x = Some (Some (Outer k)) ->
  (exists c, c < k /\ held c x h) \/ exists h', h = EvNew k x :: h'.
Proof. intros Hr. exact (owner_held f u n Hr x k h). Qed.
(** A function that has been left, by whatever means, has no objects; so when main returns
    nothing is owned and nothing is left, whichever coroutines were suspended, with whatever
    coroutines inside them. *)
Theorem C56_clean f u n m : respects (cxx f) u n -> crun n (cinit (cxx f) u) = CHalt Finished m -> moved_out (m_tr m) ->
  owns_none (m_tr m) /\ nothing_left (m_tr m).
Proof.
  intros Hr Hc Hm. assert (Hw : owns_none (m_tr m)) by exact (block_unowned f u n Hr m Hc Hm). split; [done|]. by apply (C49_nothing_left (cxx f) u n).
Qed.
(** In particular if the program moves no coroutine objects. *)
Theorem C56_no_moves f u n m : respects (cxx f) u n -> only moves_no (cxx f) -> crun n (cinit (cxx f) u) = CHalt Finished m ->
  owns_none (m_tr m) /\ nothing_left (m_tr m).
Proof.
  intros Hr Hs Hc. apply (C56_clean f u n m Hr Hc). apply (only_moved_out (cxx f) u n); [done..|].
  unfold hist. rewrite Hc. by exists [].
Qed.
End block.

(** ** Cases *)
(** A check for [moved_out]. *)
Fixpoint moves_ok (h : list event) : bool :=
  match h with
  | [] => true
  | EvRet c (NOp (OMoveCtor y)) _ :: h => match den h !! y with Some (Some (Outer k)) => Nat.ltb c k | _ => true end && moves_ok h
  | EvRet c (NOp (OMoveAssign _ _)) _ :: _ => false
  | _ :: h => moves_ok h
  end.
Lemma moves_ok_out h : moves_ok h = true -> moved_out h.
Proof.
  induction h as [|e h IH]; intros H c o r b Ho k; [by destruct Ho as [[] ?]|].
  apply Phase.occurs_cons in Ho as [[<- ->]|Ho].
  - destruct o; try done. cbn in H. intros E. rewrite E in H. apply andb_true_iff in H as [H%Nat.ltb_lt _]. done.
  - apply (IH ltac:(destruct e as [| ? [[]|] ?| | | | | | | | |]; cbn in H; try done; by apply andb_true_iff in H as [_ H]) c o r b Ho k).
Qed.

(** Coroutine 1 makes coroutine 2, moves it to another object of its own, reads from it and
    yields; main moves coroutine 1, and leaves its block while both are suspended. *)
Definition ex_boxes : stm :=
  LocalCo Pull KVal np0
    (fun s => Local 1 (LocalCo Pull KVal np0 (fun t => Local 2 (Do (OPush t (AImm 5)) eq_refl (fun _ => Do (OPush t (AImm 6)) eq_refl (fun _ => Skip))) Skip)
      (fun y => LocalMove y (fun z => Do (OGet z) eq_refl (fun a => match a with AV v => Do (OPush s (AImm v)) eq_refl (fun _ => Do (OResume z) eq_refl (fun _ => Skip)) | _ => Skip end)) Skip) Skip) Skip)
    (fun x => LocalMove x (fun w => Do (OGet w) eq_refl (fun a => match a with AV v => Do (OEmit v) eq_refl (fun _ => Skip) | _ => Skip end)) Skip) Skip.
Example C56_case : let comp := {| cxx11_lambdas := true |} in
  match crun 400 (cinit (cxx ex_boxes) u0) with
  | CHalt Finished m => (output (m_tr m), moves_ok (m_tr m), ok_run (cxx ex_boxes) u0 400, omap (fun e => match e with EvFree k => Some k | _ => None end) (m_tr m), omap (fun e => match e with EvLeave k (Some XUnwind) => Some k | _ => None end) (m_tr m))
  | _ => ([], false, false, [], [])
  end = ([5], true, true, [1; 2], [1; 2]).
Proof. vm_compute. reflexivity. Qed.

Example C56_case_applies {comp : Compiler} m : respects (cxx ex_boxes) u0 400 -> crun 400 (cinit (cxx ex_boxes) u0) = CHalt Finished m -> moves_ok (m_tr m) = true -> owns_none (m_tr m) /\ nothing_left (m_tr m).
Proof. intros Hr Hc Hm. apply (C56_clean ex_boxes u0 400); [done..|]. by apply moves_ok_out. Qed.

(** The condition is needed: a coroutine that moves the object that owns it into its own frame
    is never destroyed, although every object is destroyed at the end of its block if that
    is reached, and no rule of the library is broken. *)
Definition ex_own : stm :=
  LocalCo Push KVal np0 (fun s => LocalMove 0 (fun y => Do (OResume s) eq_refl (fun _ => Skip)) Skip)
    (fun x => Do (OPush x (AImm 1)) eq_refl (fun _ => Skip)) Skip.
Theorem C56_unconditional_refuted : let comp := {| cxx11_lambdas := true |} in
  exists f u n, respects (cxx f) u n /\
  match crun n (cinit (cxx f) u) with CHalt Finished m => ~ nothing_left (m_tr m) | _ => False end.
Proof.
  exists ex_own, u0, 400. split; [apply ok_run_respects; by vm_compute|].
  assert (E : match crun (comp := {| cxx11_lambdas := true |}) 400 (cinit (cxx ex_own) u0) with CHalt Finished m => (nmade 1 (m_tr m), ndestroyed 1 (m_tr m)) | _ => (0, 0) end = (1, 0)) by (vm_compute; reflexivity).
  destruct (crun _ _) as [|[] m]; try done. intros H. destruct (H 1) as (_&_&Hn). congruence.
Qed.

Print Assumptions C56_owner.
Print Assumptions C56_clean.
Print Assumptions C56_no_moves.
Print Assumptions C56_unconditional_refuted.
