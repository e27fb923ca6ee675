(** Examples.v -- concrete programs, used to show that the hypotheses of the theorems
    can be met. *)
From stdpp Require Import prelude gmap.
From Coq Require Import Lia.
From Verif Require Import Base Model Spec InvSpec Main Hist Trace FactsLife.

(** T = E = nat; a moved-from object holds 0; copying 99 throws 13. *)
Global Instance nat_env : Env := {|
  T := nat; E := nat; moved_from := fun _ => 0;
  copy_exn := fun v => if Nat.eqb v 99 then Some 13 else None; move_exn := fun _ => None |}.
Global Instance cxx14 : Compiler := {| cxx11_lambdas := false |}.

Global Instance T_eq : EqDecision T | 100 := Nat.eq_dec.
Global Instance E_eq : EqDecision E | 100 := Nat.eq_dec.
Global Instance exn_eq : EqDecision exn. Proof. solve_decision. Defined.
Global Instance payload_eq : EqDecision payload. Proof. solve_decision. Defined.
Global Instance arg_eq : EqDecision arg. Proof. solve_decision. Defined.
Global Instance op_eq : EqDecision op. Proof. solve_decision. Defined.
Global Instance opn_eq : EqDecision opn. Proof. solve_decision. Defined.
Global Instance ans_eq : EqDecision ans. Proof. solve_decision. Defined.
Global Instance event_eq : EqDecision event. Proof. solve_decision. Defined.
Global Instance phase_eq : EqDecision phase. Proof. solve_decision. Defined.

(** Straight-line user code: an exception ends the function (or main). *)
Definition act (o : op) (k : ans -> strat) : strat :=
  SDo o (fun r => match r with ROk a => k a | RExn x => SThrow x end).
Definition do1 (o : op) (k : strat) : strat := act o (fun _ => k).
Definition np0 : newp := NewP None None.
Definition new (sd : side) (kd : kind) (fn : nat -> strat) (k : nat -> strat) : strat :=
  SNew sd kd np0 fn (fun r => match r with ROk (AH h) => k h | ROk _ => SRet | RExn x => SThrow x end).
(** try { o; } catch (E const&) {} : forced unwinding is not caught. *)
Definition try1 (o : op) (k : strat) : strat :=
  SDo o (fun r => match r with RExn XUnwind => SThrow XUnwind | _ => k end).

Definition u0 : gmap nat nat := {[ 1 := 41; 2 := 42; 9 := 99 ]}.

(** A producer of 5, 6 and the consumer that reads everything. *)
Definition ex_pull : strat :=
  new Pull KVal (fun s => do1 (OPush s (AImm 5)) (do1 (OPush s (AMove 1)) SRet)) (fun x =>
  do1 (OBool x) (do1 (OGet x) (do1 (OGet x) (do1 (OResume x) (do1 (OGet x) (do1 (OResume x) (do1 (OBool x) (do1 (ONot x) (do1 (ODestroy x) SRet))))))))).

(** A consumer coroutine, and an owner that pushes 7, 8. *)
Definition ex_push : strat :=
  new Push KVal (fun s => act (OGet s) (fun _ => do1 (OBool s) (do1 (OResume s) (act (OGet s) (fun _ => do1 (OResume s) SRet))))) (fun x =>
  do1 (OBool x) (do1 (OPush x (AImm 7)) (do1 (OPush x (ACopy 2)) (do1 (OBool x) (do1 (ODestroy x) SRet))))).

(** References. *)
Definition ex_ref : strat :=
  new Pull KRef (fun s => do1 (OPush s (ARefTo 1)) (do1 (OPush s (ARefTo 2)) SRet)) (fun x =>
  do1 (OGet x) (do1 (OGet x) (do1 (OResume x) (do1 (OGet x) (do1 (OResume x) (do1 (OBool x) (do1 (ODestroy x) SRet))))))).

(** void, and destruction of a suspended coroutine whose function cleans up. *)
Definition ex_kill : strat :=
  new Pull KVoid (fun s => SDo (OPush s ANone) (fun r => match r with ROk _ => SRet | RExn x => do1 (OLog 3) (SThrow x) end)) (fun x =>
  do1 (OBool x) (do1 (ODestroy x) SRet)).

(** The function throws after its first yield; the resumer catches. *)
Definition ex_throw : strat :=
  new Pull KVal (fun s => do1 (OPush s (AImm 5)) (SThrow (XUser 77))) (fun x =>
  do1 (OGet x) (try1 (OResume x) (do1 (OBool x) (do1 (ODestroy x) SRet)))).
(** ... before it; main catches the exception of the constructor. *)
Definition ex_throw0 : strat :=
  SNew Pull KVal np0 (fun _ => SThrow (XUser 77)) (fun _ => SRet).
(** ... in a push coroutine. *)
Definition ex_throwp : strat :=
  new Push KVal (fun s => do1 (OGet s) (SThrow (XUser 77))) (fun x =>
  try1 (OPush x (AImm 1)) (do1 (OBool x) (do1 (ODestroy x) SRet))).
(** The allocator fails; copying the function object fails. *)
Definition ex_badalloc : strat :=
  SNew Pull KVal (NewP (Some 70) None) (fun _ => SRet) (fun _ => SRet).
Definition ex_badfn : strat :=
  SNew Push KVal (NewP None (Some 71)) (fun _ => SRet) (fun _ => SRet).
(** The function returns at once. *)
Definition ex_empty : strat :=
  new Pull KVal (fun _ => SRet) (fun x => do1 (OBool x) (do1 (ODestroy x) SRet)).
(** A push coroutine that is destroyed unused. *)
Definition ex_unused : strat :=
  new Push KVal (fun s => do1 (OGet s) SRet) (fun x => do1 (OBool x) (do1 (ODestroy x) SRet)).

(** Coroutine 1 (outer) pulls from coroutine 2 (inner), which it made. *)
Definition ex_nested : strat :=
  new Pull KVal (fun s =>
    new Pull KVal (fun t => do1 (OPush t (AImm 1)) (do1 (OPush t (AImm 2)) SRet)) (fun y =>
    act (OGet y) (fun a => match a with AV v => do1 (OPush s (AImm v)) (do1 (OResume y) (act (OGet y) (fun a => match a with
      AV w => do1 (OPush s (AImm w)) (do1 (OResume y) (do1 (ODestroy y) SRet)) | _ => SRet end))) | _ => SRet end))) (fun x =>
  do1 (OGet x) (do1 (OResume x) (do1 (OGet x) (do1 (OResume x) (do1 (OBool x) (do1 (ODestroy x) SRet)))))).

(** Coroutine 1 is resumed by main, then by coroutine 2, then by main. *)
Definition ex_resumers : strat :=
  new Pull KVoid (fun s => do1 (OPush s ANone) (do1 (OPush s ANone) (do1 (OPush s ANone) (do1 (OPush s ANone) SRet)))) (fun x =>
  do1 (OResume x)
  (new Pull KVoid (fun t => do1 (OResume x) (do1 (OPush t ANone) SRet)) (fun y =>
   do1 (OResume x) (do1 (OBool x) (do1 (ODestroy y) (do1 (ODestroy x) SRet)))))).

(** Moves. *)
Definition ex_move : strat :=
  new Pull KVal (fun s => do1 (OPush s (AImm 5)) (do1 (OPush s (AImm 6)) SRet)) (fun x =>
  act (OMoveCtor x) (fun a => match a with AH y =>
    do1 (OBool x) (do1 (OBool y) (do1 (OGet y) (
    new Pull KVal (fun s => do1 (OPush s (AImm 8)) SRet) (fun z =>
    do1 (OMoveAssign z y) (do1 (OResume z) (do1 (OGet z) (do1 (OGet y) (do1 (OMoveAssign z z) (do1 (ODestroy x) (do1 (ODestroy y) (do1 (ODestroy z) SRet))))))))))) | _ => SRet end)).

(** The counterpart is moved inside the function. *)
Definition ex_inner : strat :=
  new Pull KVal (fun s => act (OMoveCtor s) (fun a => match a with AH t =>
    do1 (OBool s) (do1 (OBool t) (do1 (OPush t (AImm 5)) (do1 (ODestroy t) SRet))) | _ => SRet end)) (fun x =>
  do1 (OGet x) (do1 (OResume x) (do1 (OBool x) (do1 (ODestroy x) SRet)))).

(** Pushing an object whose copy throws (99), catching, pushing another one. *)
Definition ex_badcopy : strat :=
  new Push KVal (fun s => act (OGet s) (fun _ => do1 (OResume s) SRet)) (fun x =>
  try1 (OPush x (ACopy 9)) (do1 (OBool x) (do1 (OPush x (AImm 1)) (do1 (OPush x (AImm 2)) (do1 (OBool x) (do1 (ODestroy x) SRet)))))).

(** ... while the slot holds a value: the value is lost (C25_throwing_copy_refuted is
    about what happens next). *)
Definition ex_badcopy2 : strat :=
  new Push KVal (fun s => act (OGet s) (fun _ => do1 (OResume s) SRet)) (fun x =>
  do1 (OPush x (AImm 1)) (try1 (OPush x (ACopy 9)) (do1 (OBool x) SRet))).

Definition ex_twice : strat :=
  new Push KVal (fun s => act (OGet s) (fun _ => do1 (OResume s) SRet)) (fun x =>
  do1 (OPush x (AImm 1)) (try1 (OPush x (ACopy 9)) (do1 (ODestroy x) SRet))).

(** User objects after pushing them as lvalues and rvalues. *)
Definition ex_mem : strat :=
  new Push KVal (fun s => act (OGet s) (fun _ => do1 (OResume s) SRet)) (fun x =>
  do1 (OPush x (AMove 1)) (do1 (OLoad 1) (do1 (OPush x (ACopy 2)) (do1 (OLoad 2) (do1 (ODestroy x) SRet))))).

(** Iterators. *)
Definition ex_iter : strat :=
  new Pull KVal (fun s => do1 (OPush s (AImm 5)) (do1 (OPush s (AImm 6)) SRet)) (fun x =>
  act (OBegin x) (fun a => match a with AIt i =>
    do1 (OItDeref i) (act (OItInc i) (fun a => match a with AIt i =>
    do1 (OItDeref i) (act (OItInc i) (fun a => match a with AIt i =>
    act OEnd (fun a => match a with AIt j => do1 (OItEq i j) (do1 (OBool x) (do1 (ODestroy x) SRet)) | _ => SRet end)
    | _ => SRet end)) | _ => SRet end)) | _ => SRet end)).
Definition ex_out : strat :=
  new Push KVal (fun s => act (OGet s) (fun _ => do1 (OResume s) (act (OGet s) (fun _ => SRet)))) (fun x =>
  act (OOutBegin x) (fun a => match a with AIt i =>
    act (OOutAssign i (AImm 5)) (fun a => match a with AIt i =>
    act (OOutAssign i (AImm 6)) (fun a => match a with AIt i =>
    act OOutEnd (fun a => match a with AIt j => do1 (OItEq i j) (do1 (OBool x) (act (OOutBegin x) (fun a => match a with AIt i => do1 (OItEq i j) (do1 (ODestroy x) SRet) | _ => SRet end))) | _ => SRet end)
    | _ => SRet end) | _ => SRet end) | _ => SRet end)).

(** Documented move assignment: two coroutines, one assigned to the other. *)
Definition ex_assign : strat :=
  new Pull KVal (fun s => do1 (OPush s (AImm 5)) SRet) (fun x =>
  new Pull KVal (fun s => do1 (OPush s (AImm 6)) SRet) (fun y =>
  do1 (OMoveAssign x y) (do1 (OBool y) (do1 (OGet y) (do1 (OGet x) (do1 (ODestroy y) (do1 (ODestroy x) SRet))))))).

(** The function of coroutine 2 exchanges its counterpart with an object outside, which
    outlives it. *)
Definition ex_escape : strat :=
  new Push KVal (fun t => do1 (OGet t) SRet) (fun z =>
  new Pull KVal (fun s => do1 (OMoveAssign z s) (do1 (OPush z (AImm 5)) SRet)) (fun x =>
  do1 (OResume x) (do1 (OBool x) (do1 (OBool z) (do1 (ODestroy z) (do1 (ODestroy x) SRet)))))).

(** The function throws in the middle of an iteration. *)
Definition ex_iter_throw : strat :=
  new Pull KVal (fun s => do1 (OPush s (AImm 5)) (SThrow (XUser 77))) (fun x =>
  act (OBegin x) (fun a => match a with AIt i =>
    do1 (OItDeref i) (try1 (OItInc i) (do1 (ONot x) (do1 (ODestroy x) SRet))) | _ => SRet end)).

(** An output iterator of references. *)
Definition ex_outref : strat :=
  new Push KRef (fun s => act (OGet s) (fun _ => do1 (OBool s) (do1 (ONot s) (do1 (OResume s) SRet)))) (fun x =>
  act (OOutBegin x) (fun a => match a with AIt i =>
    do1 (OOutAssign i (ARefTo 1)) (do1 (ODestroy x) SRet) | _ => SRet end)).

(** ** Checking them *)
(** Main is not left by the unwinding exception. *)
Fixpoint main_ok {comp : Compiler} (n : nat) (s : cstate) : bool :=
  match n with
  | O => true
  | S n' => match c_cur s, c_focus s with 0, FStrat (SThrow XUnwind) => false | _, _ => true end &&
            match step s with CNext s' => main_ok n' s' | CHalt _ _ => true end
  end.
Lemma main_ok_spec {comp : Compiler} p u n : main_ok n (cinit p u) = true -> ~ main_unwinds p u n.
Proof.
  unfold main_unwinds. intros H (m&s&Hlt&Hc&H0&Hf). revert H m Hlt Hc. generalize (cinit p u). induction n as [|n IH]; intros s0 H m Hlt Hc; [lia|].
  cbn in H. apply andb_true_iff in H as [H1 H2]. destruct m as [|m].
  - cbn in Hc. injection Hc as ->. by rewrite H0, Hf in H1.
  - cbn in Hc. destruct (step s0) as [s1|]; [|done]. apply (IH s1 H2 m); [lia|done].
Qed.
Definition ok_run {comp : Compiler} (p : strat) (u : gmap nat nat) (n : nat) : bool := obeys u (hist p u n) && main_ok n (cinit p u).
Lemma ok_run_respects {comp : Compiler} p u n : ok_run p u n = true -> respects p u n.
Proof. intros [H1 H2%main_ok_spec]%andb_true_iff. by split. Qed.

(** The first moment, reading backwards, at which [f] holds of an event and the
    history before it. *)
Fixpoint seen (f : event -> list event -> bool) (h : list event) : bool :=
  match h with [] => false | e :: b => f e b || seen f b end.
Lemma seen_occurs f h : seen f h = true -> exists e b, occurs h e b /\ f e b = true.
Proof.
  induction h as [|e b IH]; [done|]. cbn. intros [H|H]%orb_true_iff.
  - exists e, b. split; [by exists []|done].
  - destruct (IH H) as (e'&b'&[l ->]&?). exists e', b'. split; [by exists (e :: l)|done].
Qed.

(** [happens p Φ]: program [p] respects the preconditions and shows an event, after
    some history, of which [Φ] holds. *)
Definition happens (p : strat) (Φ : event -> list event -> Prop) : Prop :=
  respects p u0 300 /\ exists e b, occurs (hist p u0 300) e b /\ Φ e b.
Lemma happens_by p Φ `{forall e b, Decision (Φ e b)} :
  ok_run p u0 300 && seen (fun e b => bool_decide (Φ e b)) (hist p u0 300) = true -> happens p Φ.
Proof.
  intros [H1 (e&b&Ho&Hf)%seen_occurs]%andb_true_iff. split; [by apply ok_run_respects|]. exists e, b. split; [done|].
  by apply bool_decide_eq_true in Hf.
Qed.

(** [comes p Φ]: ... a moment at which [Φ] holds. *)
Definition comes (p : strat) (Φ : list event -> Prop) : Prop :=
  respects p u0 300 /\ exists h, past (hist p u0 300) h /\ Φ h.
Lemma comes_by p Φ `{forall h, Decision (Φ h)} :
  ok_run p u0 300 && seen (fun _ b => bool_decide (Φ b)) (hist p u0 300) = true -> comes p Φ.
Proof.
  intros [H1 (e&b&Ho&Hf)%seen_occurs]%andb_true_iff. split; [by apply ok_run_respects|].
  exists b. split; [by apply occurs_past, past_tail in Ho|]. by apply bool_decide_eq_true in Hf.
Qed.

(** Prove them by running the program. *)
Ltac by_run :=
  first [simple notypeclasses refine (@happens_by _ _ _ _) | simple notypeclasses refine (@comes_by _ _ _ _)];
  [intros; cbv beta; apply _|vm_compute; reflexivity].

(** The operation user code is about to perform in the machine of the code. *)
Definition user_op {comp : Compiler} (p : strat) (n : nat) : option op :=
  match crun n (cinit p u0) with CNext s => match c_focus s with FStrat (SDo o _) => Some o | _ => None end | _ => None end.
Lemma user_op_state {comp : Compiler} p n o : user_op p n = Some o -> exists s k, crun n (cinit p u0) = CNext s /\ c_focus s = FStrat (SDo o k).
Proof.
  unfold user_op. destruct (crun n (cinit p u0)) as [s|]; [|done]. destruct (c_focus s) as [[| |o' k| |]| | |] eqn:E; try done.
  intros [= ->]. eauto.
Qed.

(** All of them run to the end of main. *)
Definition finishes {comp : Compiler} (p : strat) : bool := match crun 300 (cinit p u0) with CHalt Finished _ => true | _ => false end.
Example all_finish :
  forallb finishes [ex_badalloc; ex_badfn; ex_pull; ex_push; ex_ref; ex_kill; ex_throw; ex_throw0; ex_throwp; ex_empty; ex_unused; ex_nested; ex_resumers; ex_move; ex_inner; ex_badcopy; ex_badcopy2; ex_mem; ex_iter; ex_out;
    ex_assign; ex_escape; ex_iter_throw; ex_outref] = true.
Proof. vm_compute. reflexivity. Qed.
