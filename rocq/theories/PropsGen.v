(** PropsGen.v -- C50: generators compose; C51: laws of generators.

    [gmain g] (Gens.v) is a program of the language of Cpp.v in which every loop runs over a
    coroutine of its own; [means n g] says what it does without mentioning coroutines, loops
    without end being followed for n rounds. *)
From stdpp Require Import prelude gmap.
From Coq Require Import Lia.
From Verif Require Import Base Model Spec InvSpec Main Contract Hist Trace Cpp Progs Gens FactsGen FactsLaws TidyGen FactsSeq PropsCore PropsProg PropsDisc.

Lemma output_app {env : Env} l h : output (l ++ h) = output h ++ output l.
Proof.
  induction l as [|e l IH]; cbn; [by rewrite app_nil_r|]. destruct e as [c o| | | | | | | | | |]; try done. destruct o as [|o]; try done.
  destruct o; try done. by rewrite IH, app_assoc.
Qed.

Section gen.
Context {env : Env} {comp : Compiler}.
(** Values are moved without exceptions. *)
Context (nothrow : forall v, move_exn v = None).

(** If [means] says so the program ends normally, ... *)
Theorem C50_ends n g u : (means n g).2 = Ends \/ (means n g).2 = Returns ->
  ends (gmain g) u (fun h => output h = written (means n g).1).
Proof.
  intros H. apply to_code. destruct (main_ends nothrow n g u) as (k&a&H1&H2); [by destruct H as [-> | ->]|]. by exists k, a.
Qed.
(** ... or with an uncaught exception. *)
Theorem C50_throws n g u e : (means n g).2 = Raises e ->
  exists N m, crun N (cinit (gmain g) u) = CHalt Terminated m /\ output (m_tr m) = written (means n g).1.
Proof.
  intros H. destruct (main_raises nothrow n g u e H) as (k&a&H1&H2). destruct (sim_run_halt _ _ _ _ _ H1) as (N&m&Hm&Et). exists N, m. by rewrite Et.
Qed.
(** A program that does not end does everything it should. *)
Theorem C50_reaches n g u : exists N, output (hist (gmain g) u N) = written (means n g).1.
Proof.
  destruct (main_reaches nothrow n g u) as (k&a&H1&H2). destruct (hist_complete (gmain g) u k) as [N HN]; [unfold arespects; by rewrite H1|]. exists N. by rewrite HN, H1.
Qed.
(** Whenever the program ends, it is as [means] says; there is no undefined behaviour. *)
Theorem C50_exactly N g u o m : crun N (cinit (gmain g) u) = CHalt o m ->
  exists n, match (means n g).2 with Ends | Returns => o = Finished | Raises _ => o = Terminated | Cut => False end /\ output (m_tr m) = written (means n g).1.
Proof.
  intros H. exists (S N). assert (Hcases : forall o' m', (exists N', crun N' (cinit (gmain g) u) = CHalt o' m') -> o = o' /\ m = m').
  { intros o' m' [N' H']. destruct (C38_one_outcome _ _ _ _ _ _ _ _ H H'). done. }
  destruct (means (S N) g).2 as [| |e|] eqn:E.
  - destruct (C50_ends (S N) g u) as (N'&m'&H'&Ho); [by left|]. by destruct (Hcases _ _ (ex_intro _ _ H')) as [-> ->].
  - destruct (C50_ends (S N) g u) as (N'&m'&H'&Ho); [by right|]. by destruct (Hcases _ _ (ex_intro _ _ H')) as [-> ->].
  - destruct (C50_throws (S N) g u e E) as (N'&m'&H'&Ho). by destruct (Hcases _ _ (ex_intro _ _ H')) as [-> ->].
  - exfalso. destruct (main_long nothrow (S N) g u E) as (k&a&Hk&Ha&_). destruct (sim_run _ _ _ _ Ha) as (_&N'&m'&Hle&Hm&_).
    assert (N <= N') by lia. rewrite (crun_halt_le _ _ _ _ _ H) in Hm by done. done.
Qed.

(** At any time: what has been written so far is the beginning of what [means] says, if its
    loops are followed far enough; following them further only adds to it. *)
Theorem C50_so_far N g u : exists n, output (hist (gmain g) u N) `prefix_of` written (means n g).1.
Proof.
  exists N. assert (Hp : forall k h1 h2, h2 = k ++ h1 -> output h1 `prefix_of` output h2).
  { intros k h1 h2 ->. exists (output k). by rewrite output_app. }
  assert (Hend : forall o m', (exists N', crun N' (cinit (gmain g) u) = CHalt o m') -> output (hist (gmain g) u N) `prefix_of` output (m_tr m')).
  { intros o m' [N' H]. destruct (C38_histories_agree (gmain g) u N (Nat.max N N')) as [k Hk]; [lia|]. eapply Hp. rewrite <- Hk. unfold hist.
    rewrite (crun_halt_le _ _ _ _ _ H) by lia. done. }
  destruct (means N g).2 as [| |e|] eqn:E.
  - destruct (C50_ends N g u) as (N'&m'&H'&Ho); [by left|]. rewrite <- Ho. eapply Hend. by eexists.
  - destruct (C50_ends N g u) as (N'&m'&H'&Ho); [by right|]. rewrite <- Ho. eapply Hend. by eexists.
  - destruct (C50_throws N g u e E) as (N'&m'&H'&Ho). rewrite <- Ho. eapply Hend. by eexists.
  - destruct (main_long nothrow N g u E) as (k&a&Hk&Ha&O). rewrite <- O. destruct (hist_prefix (gmain g) u k) as [l Hl]; [unfold arespects; by rewrite Ha|].
    rewrite Ha in Hl. cbn in Hl. destruct (C38_histories_agree (gmain g) u N k Hk) as [l' Hl']. rewrite Hl' in Hl. rewrite app_assoc in Hl. by eapply Hp.
Qed.
Theorem C50_further g n n' : n <= n' -> means n g = means n' g \/ (means n g).2 = Cut /\ (means n g).1 `prefix_of` (means n' g).1.
Proof. exact (means_less g n n'). Qed.

(** These programs respect the contract, so that everything proved about such programs holds
    for them, and leave nothing behind. *)
Theorem C50_contract g u : well_used (gmain g) u.
Proof. apply (C48_disciplined (fun _ => False)); [by intros ?|apply gmain_disc, nothrow]. Qed.
Theorem C50_clean g u n m : crun n (cinit (gmain g) u) = CHalt Finished m -> owns_none (m_tr m) /\ nothing_left (m_tr m).
Proof. intros H. apply (C49_clean (fun _ => False) (gmain g) u n); [by intros ?|apply gmain_disc, nothrow|done]. Qed.

(** ** As lists *)
(** [lists g l]: [g] yields the values [l], then ends.  A program that writes them: *)
Theorem C50_lists g l u : lists g l -> ends (gmain g) u (fun h => output h = l).
Proof.
  intros H. destruct (C50_ends 0 g u) as (N&m&H1&H2); [left; by rewrite H|]. exists N, m. split; [done|]. rewrite H2, H. cbn.
  unfold written. rewrite <- list_fmap_compose. apply list_fmap_id.
Qed.
(** Mapping, filtering, concatenation, taking the first values, and nesting of generators are
    the same operations on lists. *)
Theorem C50_map f g l : lists g l -> lists (gmap_ f g) (f <$> l).
Proof. apply lists_map. Qed.
Theorem C50_filter p g l : lists g l -> lists (gfilter p g) (filter (fun v => p v = true) l).
Proof. apply lists_filter. Qed.
Theorem C50_append g1 g2 l1 l2 : lists g1 l1 -> lists g2 l2 -> lists (gappend g1 g2) (l1 ++ l2).
Proof. apply lists_append. Qed.
Theorem C50_take n g l : lists g l -> lists (gtake n g) (take n l).
Proof. apply lists_take. Qed.
Theorem C50_bind g l h f : lists g l -> (forall v, lists (h v) (f v)) -> lists (gbind g h) (l ≫= f).
Proof. apply lists_bind. Qed.
(** A generator that calls itself for the subtrees, so that as many coroutines are active as
    the tree is high. *)
Theorem C50_walk t u : ends (gmain (walk t)) u (fun h => output h = inorder t).
Proof. apply C50_lists, lists_walk. Qed.
(** The first n of infinitely many values. *)
Theorem C50_infinite n f u : ends (gmain (gtake n (count_up f))) u (fun h => output h = f <$> seq 0 n).
Proof.
  assert (E : means (S n) (gtake n (count_up f)) = (inr <$> (f <$> seq 0 n), Ends)).
  { apply take_count; [|lia|lia]. intros k. apply rounds_yield. }
  destruct (C50_ends (S n) (gtake n (count_up f)) u) as (N&m&H1&H2); [left; by rewrite E|]. exists N, m. split; [done|]. rewrite H2, E. cbn [fst].
  unfold written. rewrite <- list_fmap_compose. apply list_fmap_id.
Qed.

(** ** C51: laws *)
(** [q] does what [p] does: it ends in the same way with the same output; whatever [p] writes,
    ending or not, [q] writes. *)
Definition does_as (p q : strat) (u : gmap nat T) : Prop :=
  (forall N o m, crun N (cinit p u) = CHalt o m -> exists N' m', crun N' (cinit q u) = CHalt o m' /\ output (m_tr m') = output (m_tr m)) /\
  (forall N, exists N', output (hist p u N) `prefix_of` output (hist q u N')).
Definition same (g1 g2 : G) : Prop := forall u, does_as (gmain g1) (gmain g2) u /\ does_as (gmain g2) (gmain g1) u.

Lemma does_by_meaning g1 g2 u : (forall n, exists n', (means n g1).2 = Cut /\ (means n g1).1 `prefix_of` (means n' g2).1 \/
  (means n g1).1 = (means n' g2).1 /\ norm (means n g1).2 = norm (means n' g2).2) -> does_as (gmain g1) (gmain g2) u.
Proof.
  intros H. split.
  - intros N o m Hm. destruct (C50_exactly _ _ _ _ _ Hm) as (n&Ho&Hout). destruct (H n) as (n'&[[E _]|[E1 E2]]); [by rewrite E in Ho|].
    rewrite Hout, E1. destruct (means n g1).2 as [| |e|]; cbn in E2; subst; [..|done].
    + destruct (C50_ends n' g2 u) as (N'&m'&H1&H2); [by destruct (means n' g2).2; auto|]. by exists N', m'.
    + destruct (C50_ends n' g2 u) as (N'&m'&H1&H2); [by destruct (means n' g2).2; auto|]. by exists N', m'.
    + destruct (C50_throws n' g2 u e) as (N'&m'&H1&H2); [by destruct (means n' g2).2|]. by exists N', m'.
  - intros N. destruct (C50_so_far N g1 u) as [n Hn]. destruct (H n) as (n'&Hn'). destruct (C50_reaches n' g2 u) as [N' HN']. exists N'. rewrite HN'.
    etrans; [exact Hn|]. destruct Hn' as [[_ [l ->]]|[-> _]]; [|done]. unfold written. rewrite fmap_app. by eexists.
Qed.
(** In any program [g1] can be replaced by [g2], in any number of places. *)
Definition interchangeable (g1 g2 : G) : Prop := forall p q, swaps g1 g2 p q -> same p q.
Lemma inter_less c g1 g2 : (forall n, less (means n g1) (means (c + n) g2)) -> (forall n, less (means n g2) (means (c + n) g1)) -> interchangeable g1 g2.
Proof.
  intros H1 H2 p q Hs u. split; apply does_by_meaning; intros n; exists (c + n).
  - destruct (swaps_less c _ _ _ _ H1 Hs n) as [-> |[? ?]]; [by right|by left].
  - destruct (swaps_less c _ _ _ _ H2 (swaps_sym _ _ _ _ Hs) n) as [-> |[? ?]]; [by right|by left].
Qed.
Lemma inter_eq g1 g2 : (forall n, means n g1 = means n g2) -> interchangeable g1 g2.
Proof. intros H. apply (inter_less 0); intros n; left; by rewrite H. Qed.

(** Only the meaning matters. *)
Theorem C51_same_meaning g1 g2 : (forall n, means n g1 = means n g2) -> interchangeable g1 g2.
Proof. apply inter_eq. Qed.
(** A loop over one value; a generator that passes everything on. *)
Theorem C51_unit v b : interchangeable (For None (Yield v) b) (b v).
Proof. apply inter_eq. intros n. apply law_unit. Qed.
Theorem C51_pass_on m g b : interchangeable (For m (For None g Yield) b) (For m g b).
Proof. apply inter_eq. intros n. apply (law_map n m (fun v => v)). Qed.
(** Stages of a pipeline can be merged into the loop that consumes them: no difference can be
    seen in the output, in the order in which the stages write, or in exceptions. *)
Theorem C51_map m f g b : interchangeable (For m (gmap_ f g) b) (For m g (fun v => b (f v))).
Proof. apply inter_eq. intros n. apply law_map. Qed.
Theorem C51_filter p g b : interchangeable (For None (gfilter p g) b) (For None g (fun v => if p v then b v else Nil)).
Proof. apply inter_eq. intros n. apply law_filter. Qed.
Theorem C51_bind g h b : interchangeable (For None (gbind g h) b) (For None g (fun v => For None (h v) b)).
Proof. apply inter_eq. intros n. apply law_bind. Qed.
Theorem C51_append g1 g2 b : interchangeable (For None (gappend g1 g2) b) (Seq (For None g1 b) (For None g2 b)).
Proof. apply inter_eq. intros n. apply law_append. Qed.
Theorem C51_take m k g b : interchangeable (For (Some m) (gtake k g) b) (For (Some (Nat.min m k)) g b).
Proof. apply inter_eq. intros n. apply law_take. Qed.
Theorem C51_take_all k g b : interchangeable (For None (gtake k g) b) (For (Some k) g b).
Proof. apply inter_eq. intros n. apply law_take_all. Qed.
(** The first round of a loop without end. *)
Theorem C51_unroll f : interchangeable (Loop f) (Seq (f 0) (Loop (fun i => f (S i)))).
Proof.
  apply (inter_less 1); intros n.
  - destruct (law_unroll (S n) f) as [H _]. pose proof (means_less (Loop f) n (S n)) as Hl. eapply less_trans; [apply Hl; lia|exact H].
  - by destruct (law_unroll n f) as [_ H].
Qed.
End gen.

(** ** Cases *)
Local Instance gen_env : Env := {| T := nat; E := nat; moved_from := fun _ => 0; copy_exn := fun _ => None; move_exn := fun _ => None |}.
(** Two generators in each other, the inner one throws in the third round; notes are written in
    between; the handler writes; after the return nothing follows. *)
Definition noisy : G := Seq (Note 100) (Seq (Yield 1) (Seq (Note 101) (Seq (Yield 2) (Seq (Note 102) (Seq (Yield 3) (Note 103)))))).
Definition picky (v : nat) : G := if Nat.eqb v 3 then Fail 7 else Seq (Yield (10 * v)) (Yield (10 * v + 1)).
Definition case : G :=
  Seq (Catch (For None (For None noisy picky) (fun v => Seq (Note 5) (Yield v))) (fun e => Note (200 + e)))
  (Seq (For (Some 2) (count_up (fun i => i * i)) Yield) (Seq Quit (Note 999))).
Example C50_case_means : means 3 case = ([inl 100; inl 5; inr 10; inl 5; inr 11; inl 101; inl 5; inr 20; inl 5; inr 21; inl 102; inl 207; inr 0; inr 1], Returns).
Proof. vm_compute. reflexivity. Qed.
Example C50_case {comp : Compiler} : ends (gmain case) ∅ (fun h => output h = [100; 5; 10; 5; 11; 101; 5; 20; 5; 21; 102; 207; 0; 1]).
Proof. pose proof (C50_ends (fun v => eq_refl) 3 case ∅) as H. rewrite C50_case_means in H. apply H. by right. Qed.
(** The same by running the code. *)
Example C50_case_runs : let comp := {| cxx11_lambdas := true |} in
  exists m, crun 3000 (cinit (gmain case) ∅) = CHalt Finished m /\ output (m_tr m) = [100; 5; 10; 5; 11; 101; 5; 20; 5; 21; 102; 207; 0; 1].
Proof. eexists. split; vm_compute; reflexivity. Qed.
(** Laziness: the first value is computed even if none is taken. *)
Example C50_take_none : means 1 (For (Some 0) noisy Yield) = ([inl 100], Ends) /\ means 1 (gtake 0 (Loop (fun _ => Nil))) = ([], Cut).
Proof. done. Qed.

(** A pipeline with notes and an exception in it, and the same without its stages. *)
Definition cautious (v : nat) : G := Seq (Yield v) (if Nat.eqb v 20 then Fail 1 else Nil).
Definition staged : G := Catch (For None (gmap_ (fun v => 10 * v) (gfilter Nat.even noisy)) cautious) (fun e => Note e).
Definition merged : G := Catch (For None noisy (fun v => if Nat.even v then cautious (10 * v) else Nil)) (fun e => Note e).
Example C51_case {comp : Compiler} : same staged merged.
Proof.
  intros u. split; apply (does_by_meaning (env := gen_env) (fun v => eq_refl)); intros n; exists n; right; done.
Qed.
Example C51_case_swaps {comp : Compiler} : same staged (Catch (For None (gfilter Nat.even noisy) (fun v => cautious (10 * v))) (fun e => Note e)).
Proof. eapply (C51_map (env := gen_env) (fun v => eq_refl) None (fun v => 10 * v) (@gfilter gen_env Nat.even noisy) cautious). apply sw_catch; [apply sw_here|intros; apply sw_same]. Qed.
Example C51_case_runs : let comp := {| cxx11_lambdas := true |} in
  (exists m, crun 3000 (cinit (gmain staged) ∅) = CHalt Finished m /\ output (m_tr m) = [100; 101; 20; 1]) /\
  (exists m, crun 3000 (cinit (gmain merged) ∅) = CHalt Finished m /\ output (m_tr m) = [100; 101; 20; 1]).
Proof. split; eexists; split; vm_compute; reflexivity. Qed.
(** Not a law: the stage returns, the loop around it goes on. *)
Definition after (g : G) : G := Seq g (Note 1).
Example C51_not_a_law {comp : Compiler} : ~ interchangeable (For None Quit Yield) Quit.
Proof.
  intros H. destruct (H (after (For None Quit Yield)) (after Quit) (sw_seq _ _ _ _ _ _ (sw_here _ _) (sw_same _ _ _)) ∅) as [[H1 _] _].
  destruct (C50_ends (env := gen_env) (fun v => eq_refl) 0 (after (For None Quit Yield)) ∅) as (N&m&Hm&Ho); [by left|].
  destruct (H1 N _ m Hm) as (N'&m'&Hm'&Ho'). destruct (C50_exactly (env := gen_env) (fun v => eq_refl) _ _ _ _ _ Hm') as (n&_&E). rewrite Ho', Ho in E. done.
Qed.

Print Assumptions C50_ends.
Print Assumptions C50_throws.
Print Assumptions C50_reaches.
Print Assumptions C50_exactly.
Print Assumptions C50_lists.
Print Assumptions C50_map.
Print Assumptions C50_filter.
Print Assumptions C50_append.
Print Assumptions C50_take.
Print Assumptions C50_bind.
Print Assumptions C50_walk.
Print Assumptions C50_infinite.
Print Assumptions C50_so_far.
Print Assumptions C50_further.
Print Assumptions C50_contract.
Print Assumptions C50_clean.
Print Assumptions C51_same_meaning.
Print Assumptions C51_unit.
Print Assumptions C51_pass_on.
Print Assumptions C51_map.
Print Assumptions C51_filter.
Print Assumptions C51_bind.
Print Assumptions C51_append.
Print Assumptions C51_take.
Print Assumptions C51_take_all.
Print Assumptions C51_unroll.
