(** PropsMany.v -- C54: programs that drive several generators at once.

    [pmain p] (Many.v) is a program of the language of Cpp.v in which every generator is a
    coroutine that can be tested, read and advanced; [pdoes n p] says what it does without
    mentioning coroutines, loops being followed for n rounds. *)
From stdpp Require Import prelude gmap sorting.
From Coq Require Import Lia.
From Verif Require Import Base Model Spec InvSpec Main Contract Hist Trace Cpp Progs Gens FactsGen FactsLaws Many FactsMany TidyMany LawsMany FactsSeq PropsCore PropsProg PropsDisc PropsGen.

Section many.
Context {env : Env} {comp : Compiler}.
(** Values are moved without exceptions. *)
Context (nothrow : forall v, move_exn v = None).

(** If [pdoes] says so the program ends normally, ... *)
Theorem C54_ends n p u : (pdoes n p).2 = Ends \/ (pdoes n p).2 = Returns ->
  ends (pmain p) u (fun h => output h = written (pdoes n p).1).
Proof.
  intros H. apply to_code. destruct (pmain_ends nothrow n p u) as (k&a&H1&H2); [by destruct H as [-> | ->]|]. by exists k, a.
Qed.
(** ... or with an uncaught exception. *)
Theorem C54_throws n p u e : (pdoes n p).2 = Raises e ->
  exists N m, crun N (cinit (pmain p) u) = CHalt Terminated m /\ output (m_tr m) = written (pdoes n p).1.
Proof.
  intros H. destruct (pmain_raises nothrow n p u e H) as (k&a&H1&H2). destruct (sim_run_halt _ _ _ _ _ H1) as (N&m&Hm&Et). exists N, m. by rewrite Et.
Qed.
(** A program that does not end does everything it should. *)
Theorem C54_reaches n p u : exists N, output (hist (pmain p) u N) = written (pdoes n p).1.
Proof.
  destruct (pmain_reaches nothrow n p u) as (k&a&H1&H2). destruct (hist_complete (pmain p) u k) as [N HN]; [unfold arespects; by rewrite H1|]. exists N. by rewrite HN, H1.
Qed.
(** Whenever the program ends, it is as [pdoes] says; there is no undefined behaviour. *)
Theorem C54_exactly N p u o m : crun N (cinit (pmain p) u) = CHalt o m ->
  exists n, match (pdoes n p).2 with Ends | Returns => o = Finished | Raises _ => o = Terminated | Cut => False end /\ output (m_tr m) = written (pdoes n p).1.
Proof.
  intros H. exists (S N). assert (Hcases : forall o' m', (exists N', crun N' (cinit (pmain p) u) = CHalt o' m') -> o = o' /\ m = m').
  { intros o' m' [N' H']. destruct (C38_one_outcome _ _ _ _ _ _ _ _ H H'). done. }
  destruct (pdoes (S N) p).2 as [| |e|] eqn:E.
  - destruct (C54_ends (S N) p u) as (N'&m'&H'&Ho); [by left|]. by destruct (Hcases _ _ (ex_intro _ _ H')) as [-> ->].
  - destruct (C54_ends (S N) p u) as (N'&m'&H'&Ho); [by right|]. by destruct (Hcases _ _ (ex_intro _ _ H')) as [-> ->].
  - destruct (C54_throws (S N) p u e E) as (N'&m'&H'&Ho). by destruct (Hcases _ _ (ex_intro _ _ H')) as [-> ->].
  - exfalso. destruct (pmain_long nothrow (S N) p u E) as (k&a&Hk&Ha&_). destruct (sim_run _ _ _ _ Ha) as (_&N'&m'&Hle&Hm&_).
    assert (N <= N') by lia. rewrite (crun_halt_le _ _ _ _ _ H) in Hm by done. done.
Qed.
(** At any time: what has been written so far is the beginning of what [pdoes] says, if its
    loops are followed far enough; following them further only adds to it. *)
Theorem C54_so_far N p u : exists n, output (hist (pmain p) u N) `prefix_of` written (pdoes n p).1.
Proof.
  exists N. assert (Hp : forall k h1 h2, h2 = k ++ h1 -> output h1 `prefix_of` output h2).
  { intros k h1 h2 ->. exists (output k). by rewrite output_app. }
  assert (Hend : forall o m', (exists N', crun N' (cinit (pmain p) u) = CHalt o m') -> output (hist (pmain p) u N) `prefix_of` output (m_tr m')).
  { intros o m' [N' H]. destruct (C38_histories_agree (pmain p) u N (Nat.max N N')) as [k Hk]; [lia|]. eapply Hp. rewrite <- Hk. unfold hist.
    rewrite (crun_halt_le _ _ _ _ _ H) by lia. done. }
  destruct (pdoes N p).2 as [| |e|] eqn:E.
  - destruct (C54_ends N p u) as (N'&m'&H'&Ho); [by left|]. rewrite <- Ho. eapply Hend. by eexists.
  - destruct (C54_ends N p u) as (N'&m'&H'&Ho); [by right|]. rewrite <- Ho. eapply Hend. by eexists.
  - destruct (C54_throws N p u e E) as (N'&m'&H'&Ho). rewrite <- Ho. eapply Hend. by eexists.
  - destruct (pmain_long nothrow N p u E) as (k&a&Hk&Ha&O). rewrite <- O. destruct (hist_prefix (pmain p) u k) as [l Hl]; [unfold arespects; by rewrite Ha|].
    rewrite Ha in Hl. cbn in Hl. destruct (C38_histories_agree (pmain p) u N k Hk) as [l' Hl']. rewrite Hl' in Hl. rewrite app_assoc in Hl. by eapply Hp.
Qed.
Theorem C54_further p n n' : n <= n' -> pdoes n p = pdoes n' p \/ (pdoes n p).2 = Cut /\ (pdoes n p).1 `prefix_of` (pdoes n' p).1.
Proof. exact (pdoes_less p n n'). Qed.

(** These programs respect the contract, so that everything proved about such programs holds
    for them, and leave nothing behind, however many generators are left in the middle. *)
Theorem C54_contract p u : well_used (pmain p) u.
Proof. apply (C48_disciplined (fun _ => False)); [by intros ?|apply pmain_disc, nothrow]. Qed.
Theorem C54_clean p u n m : crun n (cinit (pmain p) u) = CHalt Finished m -> owns_none (m_tr m) /\ nothing_left (m_tr m).
Proof. intros H. apply (C49_clean (fun _ => False) (pmain p) u n); [by intros ?|apply pmain_disc, nothrow|done]. Qed.

(** ** As lists *)
(** [pgives p l]: [p] yields the values [l], then ends or returns.  A program that writes them: *)
Theorem C54_gives p l u : pgives p l -> ends (pmain p) u (fun h => output h = l).
Proof.
  intros [n H]. destruct (H n) as (st&Hst&E); [done|]. destruct (C54_ends n p u) as (N&m&H1&H2); [unfold pdoes; by rewrite E|]. exists N, m. split; [done|].
  rewrite H2. unfold pdoes. rewrite E. cbn. unfold written. rewrite <- list_fmap_compose. apply list_fmap_id.
Qed.
(** Two generators in step: as many rounds as the shorter one has values; infinitely many
    values can be given by the other one. *)
Theorem C54_zip f p q l1 l2 : pgives p l1 -> pgives q l2 -> pgives (pzip f p q) (zip_with f l1 l2).
Proof. apply gives_zip. Qed.
Theorem C54_number f g p l : pgives p l -> pgives (pzip f p (pcount g)) (zip_with f l (g <$> seq 0 (length l))).
Proof. apply gives_number. Qed.
(** Merging: nothing is lost, and the result is sorted if both generators are. *)
Theorem C54_merge le p q l1 l2 : pgives p l1 -> pgives q l2 -> exists l, pgives (pmerge le p q) l /\ l ≡ₚ l1 ++ l2 /\
  ((forall a b, le a b = true \/ le b a = true) -> Sorted (fun a b => le a b = true) l1 -> Sorted (fun a b => le a b = true) l2 -> Sorted (fun a b => le a b = true) l).
Proof.
  intros H1 H2. exists (pmerged le l1 l2). split; [by apply gives_merge|]. unfold pmerged. split.
  - apply merge_Permutation.
  - intros Ht S1 S2. assert (Total (below le)) by exact Ht. by apply (Sorted_list_merge (below le)).
Qed.
(** Comparing two generators (example/same_fringe.cpp): the program says whether they have the same values. *)
Theorem C54_same eq yes no p q l1 l2 u : (forall a b, eq a b = true <-> a = b) -> pgives p l1 -> pgives q l2 ->
  (l1 = l2 -> ends (pmain (psame eq yes no p q)) u (fun h => output h = [yes])) /\ (l1 <> l2 -> ends (pmain (psame eq yes no p q)) u (fun h => output h = [no])).
Proof.
  intros Heq H1 H2. destruct (same_means eq Heq yes no p q l1 l2 H1 H2) as (n&w&E&Hw).
  destruct (C54_ends n (psame eq yes no p q) u) as (N&m&H3&H4); [right; by rewrite E|]. rewrite E in H4. cbn in H4.
  split; intros Hl; exists N, m; rewrite H4; (split; [done|]); destruct Hw as [[? ->]|[? ->]]; done.
Qed.
(** If they differ early, it is said even if they have infinitely many values, never end, or
    throw later. *)
Theorem C54_same_early eq yes no p q l a b u : (forall a b, eq a b = true <-> a = b) -> pstarts p (l ++ [a]) -> pstarts q (l ++ [b]) -> a <> b ->
  ends (pmain (psame eq yes no p q)) u (fun h => output h = [no]).
Proof.
  intros Heq H1 H2 Hab. destruct (differ_means eq Heq yes no p q l a b H1 H2 Hab) as (n&E).
  destruct (C54_ends n (psame eq yes no p q) u) as (N&m&H3&H4); [right; by rewrite E|]. rewrite E in H4. by exists N, m.
Qed.
(** Two trees of different shape. *)
Theorem C54_same_fringe eq yes no t1 t2 u : (forall a b, eq a b = true <-> a = b) ->
  (inorder t1 = inorder t2 -> ends (pmain (psame eq yes no (pwalk t1) (pwalk t2))) u (fun h => output h = [yes])) /\
  (inorder t1 <> inorder t2 -> ends (pmain (psame eq yes no (pwalk t1) (pwalk t2))) u (fun h => output h = [no])).
Proof. intros Heq. apply C54_same; [done|apply gives_walk..]. Qed.

(** ** Exchanging generators *)
(** Two generators that give the same values can be exchanged in every program, in any number
    of places, whatever is done with them. *)
Theorem C54_exchange s1 s2 l p q u : pgives s1 l -> pgives s2 l -> pswaps s1 s2 p q -> does_as (pmain p) (pmain q) u /\ does_as (pmain q) (pmain p) u.
Proof.
  assert (Hd : forall c p q, (forall n, less (pdoes n p) (pdoes (c + n) q)) -> does_as (pmain p) (pmain q) u).
  { intros c p0 q0 H. split.
    - intros N o m Hm. destruct (C54_exactly _ _ _ _ _ Hm) as (n&Ho&Hout). destruct (H n) as [E|[E _]]; [|by rewrite E in Ho]. rewrite Hout, E. rewrite E in Ho.
      destruct (pdoes (c + n) q0).2 as [| |e|] eqn:Es; subst; [..|done].
      + destruct (C54_ends (c + n) q0 u) as (N'&m'&H1&H2); [by auto|]. by exists N', m'.
      + destruct (C54_ends (c + n) q0 u) as (N'&m'&H1&H2); [by auto|]. by exists N', m'.
      + destruct (C54_throws (c + n) q0 u e) as (N'&m'&H1&H2); [done|]. by exists N', m'.
    - intros N. destruct (C54_so_far N p0 u) as [n Hn]. destruct (C54_reaches (c + n) q0 u) as [N' HN']. exists N'. rewrite HN'.
      etrans; [exact Hn|]. destruct (H n) as [-> |[_ [l' ->]]]; [done|]. unfold written. rewrite fmap_app. by eexists. }
  intros H1 H2 Hs. split.
  - destruct (nless_gives _ _ _ H1 H2) as [c Hc]. apply (Hd c). by apply (pswaps_less c s1 s2).
  - destruct (nless_gives _ _ _ H2 H1) as [c Hc]. apply (Hd c). apply (pswaps_less c s2 s1); [done|by apply pswaps_sym].
Qed.
End many.

(** ** Cases *)
Local Instance many_env : Env := {| T := nat; E := nat; moved_from := fun _ => 0; copy_exn := fun _ => None; move_exn := fun _ => None |}.
(** Three generators, one of them made of two others and writing in between, one that throws
    when it is advanced for the second time; they are read and advanced in turn. *)
Definition loud : P := PSeq (PNote 100) (PSeq (PYield 1) (PSeq (PNote 101) (PSeq (PYield 2) (PNote 102)))).
Definition brittle : P := PSeq (PYield 7) (PSeq (PYield 8) (PFail 9)).
Definition sums : P := pzip Nat.add (pfrom [10; 20; 30]) loud.
Definition turns : P :=
  PLet sums (PLet brittle (PLet (pcount (fun i => i * i))
    (PCatch (PWhile 1 (fun j => PSeq (PPeek 2 PYield (PNote 50)) (PSeq (PNext 2) (PSeq (PNext 0) (PSeq (PGet 0 PYield PNil) (PNext 1))))))
       (fun e => PSeq (PNote (200 + e)) (PPeek 0 (fun v => PSeq (PYield v) PQuit) (PNote 51)))))).
Example C54_case_means : pdoes 5 turns = ([inl 100; inr 11; inl 101; inr 1; inr 22; inl 102; inr 4; inl 209; inr 0], Returns).
Proof. vm_compute. reflexivity. Qed.
Example C54_case {comp : Compiler} : ends (pmain turns) ∅ (fun h => output h = [100; 11; 101; 1; 22; 102; 4; 209; 0]).
Proof. pose proof (C54_ends (fun v => eq_refl) 5 turns ∅) as H. rewrite C54_case_means in H. apply H. by right. Qed.
(** The same by running the code. *)
Example C54_case_runs : let comp := {| cxx11_lambdas := true |} in
  match crun 6000 (cinit (pmain turns) ∅) with CHalt Finished m => output (m_tr m) | _ => [] end = [100; 11; 101; 1; 22; 102; 4; 209; 0].
Proof. vm_compute. reflexivity. Qed.
(** get() for the second time, and after reading through an iterator. *)
Example C54_get_twice : pdoes 0 (PLet (pfrom [5]) (PSeq (PGet 0 PNote PNil) (PGet 0 PNote PNil))) = ([inl 5; inl 0], Ends) /\
  pdoes 0 (PLet (pfrom [5]) (PSeq (PPeek 0 PNote PNil) (PGet 0 PNote PNil))) = ([inl 5; inl 5], Ends).
Proof. done. Qed.
Example C54_get_twice_runs : let comp := {| cxx11_lambdas := true |} in
  match crun 2000 (cinit (pmain (PLet (pfrom [5]) (PSeq (PGet 0 PNote PNil) (PGet 0 PNote PNil)))) ∅) with CHalt Finished m => output (m_tr m) | _ => [] end = [5; 0].
Proof. vm_compute. reflexivity. Qed.
(** Lists. *)
Definition two_three : tree := Node Null (0 : T) (2 : T) (Node Null (0 : T) (3 : T) Null).
Example C54_case_gives : pgives (pzip Nat.add (pmerge Nat.leb (pfrom [1; 4; 5]) (pwalk two_three)) (pcount (fun i => 10 * i))) [1; 12; 23; 34; 45].
Proof.
  apply (C54_number (env := many_env) Nat.add (fun i => 10 * i) _ [1; 2; 3; 4; 5]). apply (gives_merge (env := many_env) Nat.leb _ _ [1; 4; 5] [2; 3]).
  - apply (gives_from (env := many_env)).
  - apply (gives_walk (env := many_env) two_three).
Qed.
(** Comparing: the same values from trees of different shape; a difference before the end of
    infinitely many values. *)
Example C54_case_same {comp : Compiler} : ends (pmain (psame Nat.eqb 1 0 (pwalk (Node (Node Null 0 2 Null) 0 3 Null)) (pwalk two_three))) ∅ (fun h => output h = [1]).
Proof. apply (C54_same_fringe (env := many_env) (fun v => eq_refl) Nat.eqb 1 0); [apply Nat.eqb_eq|done]. Qed.
Example C54_case_early {comp : Compiler} : ends (pmain (psame Nat.eqb 1 0 (pcount (fun i => i)) (PSeq (PYield 0) (PSeq (PYield 1) (PSeq (PYield 7) (PLoop (fun _ => PNil))))))) ∅ (fun h => output h = [0]).
Proof.
  apply (C54_same_early (env := many_env) (fun v => eq_refl) Nat.eqb 1 0 _ _ [0; 1] 2 7); [apply Nat.eqb_eq| | |done].
  - exists 3. intros n Hn. rewrite (count_means (env := many_env) n (fun i => i)). destruct n as [|[|[|n]]]; [lia..|]. by eexists.
  - exists 0. intros n _. by eexists.
Qed.
(** The sorted list instead of merging generators. *)
Example C54_case_exchange {comp : Compiler} u : let p s := PLet s (PLet (pfrom [3]) (PSeq (PNext 1) (PPeek 1 PYield (PNote 1)))) in
  does_as (pmain (p (pmerge Nat.leb (pfrom [1; 4]) (pfrom [2])))) (pmain (p (pfrom [1; 2; 4]))) u.
Proof.
  intros p. refine (proj1 (C54_exchange (env := many_env) (fun v => eq_refl) (pmerge Nat.leb (pfrom [1; 4]) (pfrom [2])) (pfrom [1; 2; 4]) [1; 2; 4] _ _ u _ _ _)).
  - apply (gives_merge (env := many_env) Nat.leb _ _ [1; 4] [2]); apply (gives_from (env := many_env)).
  - apply (gives_from (env := many_env)).
  - apply ps_here, ps_same.
Qed.

Print Assumptions C54_ends.
Print Assumptions C54_throws.
Print Assumptions C54_reaches.
Print Assumptions C54_exactly.
Print Assumptions C54_so_far.
Print Assumptions C54_further.
Print Assumptions C54_contract.
Print Assumptions C54_clean.
Print Assumptions C54_gives.
Print Assumptions C54_zip.
Print Assumptions C54_number.
Print Assumptions C54_merge.
Print Assumptions C54_same.
Print Assumptions C54_same_early.
Print Assumptions C54_same_fringe.
Print Assumptions C54_exchange.
