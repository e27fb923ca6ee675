(** PropsProg.v -- iteration and the example programs: C28, C39, C40, C41, C47.

    The programs are in Progs.v, written in the language of Cpp.v.  [ends p u out]: program
    [p], started with user memory [u], runs without undefined behaviour to the normal end of
    main, and [out] holds of the history. *)
From stdpp Require Import prelude gmap.
From Coq Require Import Lia.
From Verif Require Import Base Model Spec InvSpec Main Hist Trace Cpp Progs Steps FactsProg FactsLayout FactsLazy Examples.

Section prog.
Context {env : Env} {comp : Compiler}.

Definition ends (p : strat) (u : gmap nat T) (out : list event -> Prop) : Prop :=
  exists n m, crun n (cinit p u) = CHalt Finished m /\ out (m_tr m).
Lemma to_code p u out : (exists n a, arun n (ainit p u) = AHalt Finished a /\ out (a_tr a)) -> ends p u out.
Proof.
  intros (n&a&H&Ho). destruct (sim_run_halt _ _ _ _ _ H) as (N&m&Hm&Et). exists N, m. by rewrite Et.
Qed.

(** ** C28: range-for *)
(** What a push yields: a temporary, or a copy of an object in user memory. *)
Definition gives (u : gmap nat T) (g : arg) (v : T) : Prop :=
  match g with
  | AImm w => w = v /\ move_exn v = None
  | ACopy a => u !! a = Some v /\ copy_exn v = None
  | _ => False
  end.
Lemma gives_carries u g v : gives u g v -> carries u g v.
Proof.
  unfold carries. destruct g as [l|l|w|l|]; intros H; cbn in H; try done; (split; [done|]); unfold aconstruct.
  - destruct H as [E1 E2]. rewrite E1. cbn. by rewrite E2.
  - destruct H as [-> E2]. by rewrite E2.
Qed.

(** The loop sees exactly the pushed values in order.  It ends when the function returns, ... *)
Theorem C28_range_for gs vs fin caught u : Forall2 (gives u) gs vs ->
  ends (range_main (fun yield => produce yield gs Skip) fin caught) u (fun h => output h = vs ++ [fin]).
Proof.
  intros H. apply to_code. refine (range_run _ fin caught u vs None _). apply gen_produce; [|apply gen_skip].
  eapply Forall2_impl; [exact H|]. apply gives_carries.
Qed.
(** ... and if the function throws, the exception leaves the loop after these values. *)
Theorem C28_range_for_throws gs vs e fin caught u : Forall2 (gives u) gs vs ->
  ends (range_main (fun yield => produce yield gs (Throw e)) fin caught) u (fun h => output h = vs ++ [caught e]).
Proof.
  intros H. apply to_code. refine (range_run _ fin caught u vs (Some e) _). apply gen_produce; [|apply gen_throws].
  eapply Forall2_impl; [exact H|]. apply gives_carries.
Qed.

(** ** C39: same fringe *)
(** Trees whose nodes are in memory and whose values can be copied. *)
Definition good (u : gmap nat T) (t : tree) : Prop := stored u t /\ Forall (fun v => copy_exn v = None) (inorder t).

(** Readers yield the fringes of their trees; comparing readers of equally many values tells
    whether the fringes are equal. *)
Theorem C39_same_fringe `{EqDecision T} yes no fin ts ps u : Forall (good u) ts -> Forall (fun p => good u p.1 /\ good u p.2) ps ->
  Forall (fun p => length (inorder p.1) = length (inorder p.2)) ps ->
  ends (same_fringe yes no fin ts ps) u (fun h =>
    output h = concat (inorder <$> ts) ++ ((fun p => if decide (inorder p.1 = inorder p.2) then yes else no) <$> ps) ++ [fin]).
Proof.
  intros Ht Hp Hl. apply to_code.
  destruct (same_fringe_run yes no fin ts ps ((fun p => bool_decide (inorder p.1 = inorder p.2)) <$> ps) u Ht Hp) as (n&a&H1&H2).
  { apply Forall2_fmap_r, Forall_Forall2_diag. eapply Forall_impl; [exact Hl|]. intros p E. by apply std_equal_same. }
  exists n, a. split; [done|]. rewrite H2. f_equal. f_equal. rewrite <- list_fmap_compose. apply list_fmap_ext. intros ? p _. unfold compose. case_decide; [by rewrite bool_decide_true|by rewrite bool_decide_false].
Qed.
(** If the second reader yields more values the answer is whether the first fringe is a
    prefix of the second: the loop stops at the end of the first. *)
Theorem C39_prefix `{EqDecision T} yes no fin ts ps u : Forall (good u) ts -> Forall (fun p => good u p.1 /\ good u p.2) ps ->
  Forall (fun p => length (inorder p.1) <= length (inorder p.2)) ps ->
  ends (same_fringe yes no fin ts ps) u (fun h =>
    output h = concat (inorder <$> ts) ++ ((fun p => if decide (inorder p.1 `prefix_of` inorder p.2) then yes else no) <$> ps) ++ [fin]).
Proof.
  intros Ht Hp Hl. apply to_code.
  destruct (same_fringe_run yes no fin ts ps ((fun p => bool_decide (inorder p.1 `prefix_of` inorder p.2)) <$> ps) u Ht Hp) as (n&a&H1&H2).
  { apply Forall2_fmap_r, Forall_Forall2_diag. eapply Forall_impl; [exact Hl|]. intros p E. by apply std_equal_prefix. }
  exists n, a. split; [done|]. rewrite H2. f_equal. f_equal. rewrite <- list_fmap_compose. apply list_fmap_ext. intros ? p _. unfold compose. case_decide; [by rewrite bool_decide_true|by rewrite bool_decide_false].
Qed.
(** If the second fringe is a proper prefix of the first, the program dereferences the end
    iterator of the second reader: undefined behaviour.  This is why C39 is restricted to
    equally long fringes. *)
Theorem C39_longer `{EqDecision T} yes no fin t1 t2 ps u : good u t1 -> good u t2 -> (exists v l, inorder t1 = inorder t2 ++ v :: l) ->
  ~ well_used (same_fringe yes no fin [] ((t1, t2) :: ps)) u.
Proof.
  intros H1 H2 E%std_equal_short Hw. pose proof (compare_run yes no t1 t2 (ainit (same_fringe yes no fin [] ((t1, t2) :: ps)) u) [] _ (calm_init _ _) H1 H2 eq_refl) as H.
  rewrite E in H. destruct H as [n H]. exact (respects_spec _ _ Hw n H).
Qed.

(** ** C40: the parser *)
(** [cls] classifies characters; moving a character cannot throw.  The loop of main puts out
    what the parser reports when its callback is an ordinary function ([reports]), then
    [fin] if the parser returned, [failed] if it threw. *)
Theorem C40_parser cls perr fin failed text u : (forall v, move_exn v = None) -> exists o r,
  reports cls NE (scan cls text) o r /\
  ends (parser_main cls perr fin failed text) u (fun h => output h = o ++ [match r with Some _ => fin | None => failed end]).
Proof.
  intros Hm. destruct (parser_run cls perr fin failed text u Hm) as (o&r&R&n&a&H1&H2). exists o, r. split; [done|]. apply to_code. exists n, a. split; [done|]. rewrite H2. by destruct r.
Qed.
(** Whatever the parser reports, it reports always. *)
Theorem C40_function cls nt st o1 r1 o2 r2 : reports cls nt st o1 r1 -> reports cls nt st o2 r2 -> o1 = o2 /\ r1 = r2.
Proof. intros H1 H2. destruct (reports_det _ _ _ _ _ H1 _ _ H2) as [-> ->]. done. Qed.

(** What follows an expression in the text, white space left out: not an operator. *)
Definition closed (cls : T -> ckind) (rest : list T) : Prop := match rest with [] => True | c :: _ => cls c <> CAdd /\ cls c <> CMul end.

(** In terms of the grammar: the program puts out an initial part of the text, white space
    left out.  If it ends with [fin] this part is an expression, as long as possible. *)
Theorem C40_sound cls perr fin failed text u : (forall v, move_exn v = None) -> exists o rest (ok : bool), nonspace cls text = o ++ rest /\
  ends (parser_main cls perr fin failed text) u (fun h => output h = o ++ [if ok then fin else failed]) /\
  (ok = true -> derives cls NE o /\ closed cls rest).
Proof.
  intros Hm. destruct (C40_parser cls perr fin failed text u Hm) as (o&r&R&H). destruct (scan_tokens cls text) as [Et Hw].
  destruct (reports_sound _ _ _ _ _ R Hw) as [[l El] H2]. rewrite Et in *. destruct r as [st'|].
  - destruct (H2 _ eq_refl) as (W'&T'&D). exists o, (tokens cls st'), true. split; [done|]. split; [done|]. intros _. split; [done|].
    pose proof (reports_stops _ _ _ _ _ R Hw _ eq_refl ltac:(done)) as Hst. unfold closed. unfold stops in Hst. by destruct (tokens cls st').
  - by exists o, l, false.
Qed.
(** Conversely a text that starts with an expression that cannot be continued is accepted,
    and the expression put out.  (The parser does not check that the text ends there.) *)
Theorem C40_complete cls perr fin failed text u o rest : (forall v, move_exn v = None) -> nonspace cls text = o ++ rest -> derives cls NE o -> closed cls rest ->
  ends (parser_main cls perr fin failed text) u (fun h => output h = o ++ [fin]).
Proof.
  intros Hm Et D Hc. destruct (C40_parser cls perr fin failed text u Hm) as (o'&r&R&H). destruct (scan_tokens cls text) as [Et' Hw]. rewrite Et in Et'.
  destruct (derives_reports cls NE o D (scan cls text) rest Hw Et') as (st'&_&_&R'); [by destruct rest|].
  destruct (reports_det _ _ _ _ _ R' _ _ R) as [-> ->]. done.
Qed.
(** Hence what is rejected does not start with such an expression. *)
Theorem C40_rejected cls perr fin failed text u o : (forall v, move_exn v = None) -> fin <> failed ->
  ends (parser_main cls perr fin failed text) u (fun h => output h = o ++ [failed]) ->
  forall o' rest, nonspace cls text = o' ++ rest -> derives cls NE o' -> ~ closed cls rest.
Proof.
  intros Hm Hne (n&m&H&Ho) o' rest Et D Hc. destruct (C40_complete cls perr fin failed text u o' rest Hm Et D Hc) as (n'&m'&H'&Ho').
  assert (m = m'); [|subst; rewrite Ho in Ho'; by apply app_inj_2 in Ho' as [_ [= ->]]].
  destruct (Nat.le_ge_cases n n') as [Hl|Hl].
  - pose proof (crun_halt_le n n' _ _ _ H Hl). congruence.
  - pose proof (crun_halt_le n' n _ _ _ H' Hl). congruence.
Qed.

(** ** C41: layout *)
(** The words appear in order, in rows; [fin] is printed by main while the writer is
    suspended; when the writer is destroyed the last line is closed.  Nothing is printed by
    the coroutine if there are no words: its function never starts. *)
Theorem C41_layout nl fin num words u : 0 < num -> Forall (fun v => copy_exn v = None /\ move_exn v = None) words ->
  ends (layout_main nl fin num words) u (fun h => screen nl h = rows nl num 0 words ++ [fin] ++ match words with [] => [] | _ => [nl] end).
Proof. intros Hn Hw. apply to_code. by apply layout_run. Qed.
(** Rows are full lines of [num] words, separated by line breaks, and a last line of at most
    [num] words. *)
Theorem C41_last_row nl num words : length words <= num -> rows nl num 0 words = words.
Proof.
  assert (H : forall words i, i + length words <= num -> rows nl num i words = words); [|by intros ?; apply H].
  clear words. intros words. induction words as [|w words IH]; intros i Hi; [done|]. cbn in *. rewrite decide_False by lia. f_equal. apply IH. lia.
Qed.
Theorem C41_full_row nl num line w words : 0 < num -> length line = num -> rows nl num 0 (line ++ w :: words) = line ++ nl :: rows nl num 0 (w :: words).
Proof.
  intros Hn. assert (H : forall line i, i + length line = num -> rows nl num i (line ++ w :: words) = line ++ nl :: rows nl num 0 (w :: words)); [|by intros ?; apply H].
  clear line. intros line. induction line as [|v line IH]; intros i Hi; cbn in *.
  - rewrite decide_True by lia. by rewrite decide_False by lia.
  - rewrite decide_False by lia. f_equal. apply IH. lia.
Qed.

(** ** C47: generators *)
(** example/fibonacci.cpp prints the first n + 2 Fibonacci numbers. *)
Theorem C47_fibonacci (int : nat -> T) n fin u : (forall v, move_exn v = None) ->
  ends (fib_main int n fin) u (fun h => output h = ((fun i => int (fib i)) <$> seq 1 (n + 2)) ++ [fin]).
Proof.
  intros Hm. apply to_code. refine (range_run _ fin (fun _ => fin) u _ None _). rewrite fib_fn_produce. apply gen_produce; [|apply gen_skip].
  replace (n + 2) with (S (S n)) by lia. apply Forall2_fmap. apply Forall_Forall2_diag, Forall_forall. intros i _. split; [done|]. cbn. by rewrite Hm.
Qed.
(** A consumer takes n values of a generator that never returns, and leaves.  The program
    ends; step i of the generator ran just before its value was shown, and no step ran for a
    value that was not taken ... *)
Theorem C47_lazy (note val : nat -> T) n fin u : (forall v, move_exn v = None) -> 0 < n ->
  ends (take_main note val n fin) u (fun h => output h = concat ((fun i => [note i; val i]) <$> seq 0 n) ++ [fin]).
Proof.
  intros Hm Hn. destruct n as [|n]; [lia|]. destruct (take_run note val Hm fin u (S n)) as (N&a&H&Ho). apply to_code. exists N, a. split; [done|].
  rewrite Ho, <- shown_concat. done.
Qed.
(** ... except the first: the constructor of a pull_type runs the function to its first push. *)
Theorem C47_first (note val : nat -> T) fin u : (forall v, move_exn v = None) ->
  ends (take_main note val 0 fin) u (fun h => output h = [note 0; fin]).
Proof. intros Hm. destruct (take_run note val Hm fin u 0) as (N&a&H&Ho). apply to_code. by exists N, a. Qed.

End prog.

(** ** Examples *)
Definition puts_out (p : strat) (u : gmap nat T) (l : list T) : Prop := exists n m, crun n (cinit p u) = CHalt Finished m /\ output (m_tr m) = l.

(** for (v : source) with a source that yields 41 (a copy of a variable) and 7. *)
Example C28_range_for_example : Forall2 (gives u0) [ACopy 1; AImm 7] [41; 7].
Proof. by repeat constructor. Qed.

(** The trees of the example, with names replaced by numbers: two shapes with the same fringe
    and one with another. *)
Definition u1 : gmap nat nat := {[ 1 := 11; 2 := 12; 3 := 13; 4 := 14; 5 := 11; 6 := 12; 7 := 13; 8 := 11; 9 := 12; 10 := 15 ]}.
Definition t1 : tree := Node (Node (Node Null 1 11 Null) 2 12 Null) 3 13 Null.
Definition t2 : tree := Node Null 5 11 (Node Null 6 12 (Node Null 7 13 Null)).
Definition t3 : tree := Node (Node Null 8 11 Null) 9 12 (Node Null 10 15 Null).
Example C39_example : Forall (good u1) [t1; t2; t3] /\ inorder t1 = inorder t2 /\ t1 <> t2 /\ inorder t1 <> inorder t3 /\
  Forall (fun p => length (inorder p.1) = length (inorder p.2)) [(t1, t2); (t1, t3)].
Proof. by repeat split; repeat constructor. Qed.
Example C39_output : puts_out (same_fringe (env := nat_env) 1 0 9 [t1; t3] [(t1, t2); (t1, t3)]) u1 ([11; 12; 13] ++ [11; 12; 15] ++ [1; 0; 9]).
Proof.
  destruct (C39_same_fringe (env := nat_env) 1 0 9 [t1; t3] [(t1, t2); (t1, t3)] u1) as (n&m&H&Ho); [by repeat constructor..|]. exists n, m. by split.
Qed.
Example C39_prefix_example : inorder (Node Null 1 11 Null) `prefix_of` inorder t1.
Proof. by exists [12; 13]. Qed.
Example C39_longer_example : good u1 Null /\ good u1 t1 /\ inorder t1 = inorder Null ++ 11 :: [12; 13].
Proof. by repeat split; repeat constructor. Qed.

(** 0 blank, 1 plus, 2 times, 3 open, 4 close, 5 a letter, others digits. *)
Definition cls0 (c : nat) : ckind :=
  match c with 0 => CSpace | 1 => CAdd | 2 => CMul | 3 => COpen | 4 => CClose | 5 => COther | _ => CDigit end.
(** "6 + ( 7 * 8 )" *)
Definition text0 : list nat := [6; 0; 1; 0; 3; 0; 7; 0; 2; 8; 0; 4].
Example C40_example : derives cls0 NE [6; 1; 3; 7; 2; 8; 4] /\ nonspace cls0 text0 = [6; 1; 3; 7; 2; 8; 4] ++ [] /\ closed cls0 [].
Proof.
  split; [|done]. refine (dv_E _ [6] [1; 3; 7; 2; 8; 4] _ _); [exact (dv_T _ [6] [] (dv_Sd _ 6 eq_refl) (dv_Ts0 _))|].
  refine (dv_Es _ 1 [3; 7; 2; 8; 4] [] eq_refl _ (dv_Es0 _)). refine (dv_T _ [3; 7; 2; 8; 4] [] _ (dv_Ts0 _)).
  refine (dv_Sp _ 3 [7; 2; 8] 4 eq_refl _ eq_refl). refine (dv_E _ [7; 2; 8] [] _ (dv_Es0 _)).
  refine (dv_T _ [7] [2; 8] (dv_Sd _ 7 eq_refl) _). exact (dv_Ts _ 2 [8] [] eq_refl (dv_Sd _ 8 eq_refl) (dv_Ts0 _)).
Qed.
Example C40_output : puts_out (parser_main (env := nat_env) cls0 77 100 200 text0) ∅ [6; 1; 3; 7; 2; 8; 4; 100].
Proof.
  destruct C40_example as (H1&H2&H3). destruct (C40_complete (env := nat_env) cls0 77 100 200 text0 ∅ _ _ (fun _ => eq_refl) H2 H1 H3) as (n&m&H&Ho). by exists n, m.
Qed.
(** "6 + )": rejected after the plus. *)
Example C40_rejects : puts_out (parser_main (env := nat_env) cls0 77 100 200 [6; 0; 1; 4]) ∅ [6; 1; 200].
Proof.
  destruct (C40_parser (env := nat_env) cls0 77 100 200 [6; 0; 1; 4] ∅ (fun _ => eq_refl)) as (o&r&R&n&m&H&Ho). exists n, m. split; [done|]. rewrite Ho.
  assert (R' : reports cls0 NE (scan cls0 [6; 0; 1; 4]) ([6] ++ [1]) None).
  { refine (rp_E (env := nat_env) cls0 _ [6] (Some 1, [4]) [1] None _ _).
    - refine (rp_T (env := nat_env) cls0 _ [6] (Some 1, [4]) [] _ _ _); [exact (rp_Sd (env := nat_env) cls0 (Some 6, [0; 1; 4]) 6 eq_refl)|exact (rp_Ts0 (env := nat_env) cls0 (Some 1, [4]) eq_refl)].
    - refine (rp_Esx (env := nat_env) cls0 (Some 1, [4]) 1 [] eq_refl _). apply rp_Tx. exact (rp_S0 (env := nat_env) cls0 (Some 4, []) eq_refl eq_refl). }
  by destruct (C40_function (env := nat_env) _ _ _ _ _ _ _ R R') as [-> ->].
Qed.
(** "6 x" is accepted, though the grammar in the comment demands the end of the text: run()
    does not look at what follows (parser.cpp:51-54). *)
Example C40_trailing : puts_out (parser_main (env := nat_env) cls0 77 100 200 [6; 5]) ∅ [6; 100].
Proof.
  destruct (C40_complete (env := nat_env) cls0 77 100 200 [6; 5] ∅ [6] [5]) as (n&m&H&Ho); [done|done| |done|by exists n, m].
  exact (dv_E _ [6] [] (dv_T _ [6] [] (dv_Sd _ 6 eq_refl) (dv_Ts0 _)) (dv_Es0 _)).
Qed.

Example C41_example : rows (env := nat_env) 0 2 0 [11; 12; 13; 14; 15] = [11; 12; 0; 13; 14; 0; 15].
Proof. done. Qed.
Example C41_full : rows (env := nat_env) 0 2 0 [11; 12; 13; 14] = [11; 12; 0; 13; 14].
Proof. done. Qed.
Example C41_output : exists n m, crun n (cinit (layout_main (env := nat_env) 0 9 2 [11; 12; 13]) ∅) = CHalt Finished m /\ screen 0 (m_tr m) = [11; 12; 0; 13; 9; 0].
Proof.
  destruct (C41_layout (env := nat_env) 0 9 2 [11; 12; 13] ∅) as (n&m&H&Ho); [lia|by repeat constructor|by exists n, m].
Qed.

Example C47_example : fib <$> seq 1 (8 + 2) = [1; 1; 2; 3; 5; 8; 13; 21; 34; 55].
Proof. done. Qed.
Example C47_output : puts_out (fib_main (env := nat_env) (fun i => i) 8 0) ∅ [1; 1; 2; 3; 5; 8; 13; 21; 34; 55; 0].
Proof. destruct (C47_fibonacci (env := nat_env) (fun i => i) 8 0 ∅) as (n&m&H&Ho); [done|]. by exists n, m. Qed.
Example C47_squares : puts_out (take_main (env := nat_env) (fun i => 100 + i) (fun i => i * i) 4 7) ∅ [100; 0; 101; 1; 102; 4; 103; 9; 7].
Proof. destruct (C47_lazy (env := nat_env) (fun i => 100 + i) (fun i => i * i) 4 7 ∅) as (n&m&H&Ho); [done|lia|]. by exists n, m. Qed.

Print Assumptions C28_range_for.
Print Assumptions C28_range_for_throws.
Print Assumptions C39_same_fringe.
Print Assumptions C39_prefix.
Print Assumptions C39_longer.
Print Assumptions C40_parser.
Print Assumptions C40_function.
Print Assumptions C40_sound.
Print Assumptions C40_complete.
Print Assumptions C40_rejected.
Print Assumptions C41_layout.
Print Assumptions C41_last_row.
Print Assumptions C41_full_row.
Print Assumptions C47_fibonacci.
Print Assumptions C47_lazy.
Print Assumptions C47_first.
