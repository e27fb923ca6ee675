(** LawsMany.v -- the meaning of programs with several generators (Many.v): following loops
    further, replacing generators, and some programs as functions on lists. *)
From stdpp Require Import prelude sorting.
From Coq Require Import Lia.
From Verif Require Import Base Cpp Progs Gens FactsLaws Many.

Section laws.
Context {env : Env}.

(** ** Following loops further *)
(** For the one who drives a generator it makes no difference whether it ends or returns. *)
Definition nless (t t' : trace) : Prop := t.1 = t'.1 /\ norm t.2 = norm t'.2 \/ t.2 = Cut /\ t.1 `prefix_of` t'.1.
Lemma less_nless t t' : less t t' -> nless t t'.
Proof. intros [-> |?]; [by left|by right]. Qed.
Definition rle (r r' : rest) : Prop :=
  match r, r' with None, None => True | Some (v, t), Some (v', t') => v = v' /\ nless t t' | _, _ => False end.
Definition ole (a b : outcome_) : Prop := a.1 = b.1 /\ Forall2 rle a.2 b.2 \/ a.1.2 = Cut /\ a.1.1 `prefix_of` b.1.1.
Lemma rle_refl r : rle r r.
Proof. destruct r as [[v t]|]; cbn; [split; [done|by left]|done]. Qed.
Lemma Rle_refl R : Forall2 rle R R.
Proof. induction R; constructor; [apply rle_refl|done]. Qed.
Lemma turn_le l st l' st' : nless (l, st) (l', st') -> (turn l st).1 = (turn l' st').1 /\ rle (turn l st).2 (turn l' st').2 \/
  (turn l st).1.2 = Cut /\ (turn l st).1.1 `prefix_of` (turn l' st').1.1.
Proof.
  intros [[H1 H2]|[H1 [k H2]]]; cbn in H1, H2; subst.
  - left. induction l' as [|[w|v] l IH]; cbn.
    + split; [|done]. by destruct st, st'; cbn in *; simplify_eq.
    + destruct IH as [E ?]. by rewrite E.
    + split; [done|]. split; [done|]. by left.
  - induction l as [|[w|v] l IH]; cbn.
    + right. split; [done|]. apply prefix_nil.
    + destruct IH as [[H1 H2]|[H1 H2]]; [left; by rewrite H1|right]. split; [done|]. by apply prefix_cons.
    + left. split; [done|]. split; [done|]. right. split; [done|]. by eexists.
Qed.
Lemma rest_of_le R R' i : Forall2 rle R R' -> rle (rest_of R i) (rest_of R' i).
Proof. intros H. revert i. induction H as [|r r' R R' Hr HR IH]; intros [|i]; cbn; try done. apply IH. Qed.
Lemma and_then_le a b k k' : ole a b -> (forall R R', Forall2 rle R R' -> ole (k R) (k' R')) -> ole (and_then a k) (and_then b k').
Proof.
  intros Hab Hk. destruct a as [[l st] R], b as [[l' st'] R']. destruct Hab as [[[= <- <-] HR]|[H1 [m H2]]]; cbn in *.
  - destruct st; cbn; [|by left..]. destruct (Hk R R' HR) as [[H1 H2]|[H1 H2]]; [left; cbn; by rewrite H1|right; cbn]. split; [done|]. by apply prefix_app.
  - subst. right. split; [done|]. cbn. destruct st'; cbn; try by eexists. rewrite <- app_assoc. by eexists.
Qed.
Lemma or_else_le a b k k' : ole a b -> (forall e R R', Forall2 rle R R' -> ole (k e R) (k' e R')) -> ole (or_else a k) (or_else b k').
Proof.
  intros Hab Hk. destruct a as [[l st] R], b as [[l' st'] R']. destruct Hab as [[[= <- <-] HR]|[H1 [m H2]]]; cbn in *.
  - destruct st as [| |e|]; cbn; [by left..| |by left]. destruct (Hk e R R' HR) as [[H1 H2]|[H1 H2]]; [left; cbn; by rewrite H1|right; cbn]. split; [done|]. by apply prefix_app.
  - subst. right. split; [done|]. cbn. destruct st' as [| |e|]; cbn; try by eexists. rewrite <- app_assoc. by eexists.
Qed.
Lemma ploops_le f f' : (forall j R R', Forall2 rle R R' -> ole (f j R) (f' j R')) -> forall n n' j R R', n <= n' -> Forall2 rle R R' -> ole (ploops f j n R) (ploops f' j n' R').
Proof.
  intros Hf n. induction n as [|n IH]; intros n' j R R' Hn HR; [right; split; [done|apply prefix_nil]|]. destruct n' as [|n']; [lia|].
  cbn. apply and_then_le; [by apply Hf|]. intros R1 R1' H1. apply IH; [lia|done].
Qed.
Lemma whiles_eq' (f : nat -> list rest -> outcome_) i j m R : whiles f i j m R = match rest_of R i with
  | Some _ => match m with O => (([], Cut), R) | S m => and_then (f j R) (whiles f i (S j) m) end
  | _ => (([], Ends), R)
  end.
Proof. by destruct m. Qed.
Lemma whiles_le f f' i : (forall j R R', Forall2 rle R R' -> ole (f j R) (f' j R')) -> forall n n' j R R', n <= n' -> Forall2 rle R R' -> ole (whiles f i j n R) (whiles f' i j n' R').
Proof.
  intros Hf n. induction n as [|n IH]; intros n' j R R' Hn HR; rewrite !whiles_eq'; pose proof (rest_of_le _ _ i HR) as Hr;
    destruct (rest_of R i) as [[v t]|], (rest_of R' i) as [[v' t']|]; try done; try by left.
  - right. split; [done|apply prefix_nil].
  - destruct n' as [|n']; [lia|]. apply and_then_le; [by apply Hf|]. intros R1 R1' H1. apply IH; [lia|done].
Qed.
Lemma let_le n n' src src' body body' R R' : nless (pmeans n src []).1 (pmeans n' src' []).1 ->
  (forall r r', rle r r' -> ole (pmeans n body (r :: R)) (pmeans n' body' (r' :: R'))) -> Forall2 rle R R' -> ole (pmeans n (PLet src body) R) (pmeans n' (PLet src' body') R').
Proof.
  intros Hs Hb HR. cbn. destruct (pmeans n src []).1 as [l st], (pmeans n' src' []).1 as [l' st']. cbn [fst snd]. pose proof (turn_le _ _ _ _ Hs) as Ht.
  destruct (turn l st) as [[ns s] r], (turn l' st') as [[ns' s'] r']. cbn in Ht. destruct Ht as [[[= <- <-] Hr]|[-> [m ->]]].
  - destruct s; cbn; try by left. destruct (Hb _ _ Hr) as [[H1 H2]|[H1 H2]]; [left|right]; cbn.
    + rewrite H1. split; [done|]. by apply Forall2_tail.
    + split; [done|]. by apply prefix_app.
  - right. cbn. split; [done|]. rewrite fmap_app. destruct s'; cbn; try by eexists. rewrite <- app_assoc. by eexists.
Qed.
Lemma get_le n n' i f f' q q' R R' : (forall v R R', Forall2 rle R R' -> ole (pmeans n (f v) R) (pmeans n' (f' v) R')) ->
  (forall R R', Forall2 rle R R' -> ole (pmeans n q R) (pmeans n' q' R')) -> Forall2 rle R R' -> ole (pmeans n (PGet i f q) R) (pmeans n' (PGet i f' q') R').
Proof.
  intros Hf Hq HR. cbn. pose proof (rest_of_le _ _ i HR) as Hr. destruct (rest_of R i) as [[v t]|], (rest_of R' i) as [[v' t']|]; try done; [|by apply Hq].
  destruct Hr as [<- Ht]. apply Hf. by apply Forall2_insert.
Qed.
Lemma peek_le n n' i f f' q q' R R' : (forall v R R', Forall2 rle R R' -> ole (pmeans n (f v) R) (pmeans n' (f' v) R')) ->
  (forall R R', Forall2 rle R R' -> ole (pmeans n q R) (pmeans n' q' R')) -> Forall2 rle R R' -> ole (pmeans n (PPeek i f q) R) (pmeans n' (PPeek i f' q') R').
Proof.
  intros Hf Hq HR. cbn. pose proof (rest_of_le _ _ i HR) as Hr. destruct (rest_of R i) as [[v t]|], (rest_of R' i) as [[v' t']|]; try done; [|by apply Hq].
  destruct Hr as [<- Ht]. by apply Hf.
Qed.
Theorem pmeans_le p : forall n n' R R', n <= n' -> Forall2 rle R R' -> ole (pmeans n p R) (pmeans n' p R').
Proof.
  induction p as [|v|v|e| |p1 IH1 p2 IH2|p IH hd IHh|src IHs body IHb|i f IHf q IHq|i f IHf q IHq|i|i f IHf|f IHf]; intros n n' R R' Hn HR; try by left.
  - apply and_then_le; [by apply IH1|]. intros. by apply IH2.
  - apply or_else_le; [by apply IH|]. intros. by apply IHh.
  - apply let_le; [|intros; apply IHb; [done|by constructor]|done].
    destruct (IHs n n' [] [] Hn (List.Forall2_nil _)) as [[E _]|?]; [left; by rewrite E|by right].
  - apply get_le; [intros; by apply IHf|intros; by apply IHq|done].
  - apply peek_le; [intros; by apply IHf|intros; by apply IHq|done].
  - cbn. pose proof (rest_of_le _ _ i HR) as Hr. destruct (rest_of R i) as [[v [l st]]|], (rest_of R' i) as [[v' [l' st']]|]; try done; [|by left].
    destruct Hr as [_ Ht]. destruct (turn_le _ _ _ _ Ht) as [[H1 H2]|[H1 [m H2]]]; [left|right]; cbn.
    + rewrite H1. split; [done|]. by apply Forall2_insert.
    + split; [done|]. rewrite H2, fmap_app. by eexists.
  - apply whiles_le; [|done|done]. intros. by apply IHf.
  - apply ploops_le; [|done|done]. intros. by apply IHf.
Qed.
Lemma pdoes_less p n n' : n <= n' -> less (pdoes n p) (pdoes n' p).
Proof. intros Hn. destruct (pmeans_le p n n' [] [] Hn (List.Forall2_nil _)) as [[? _]|?]; [by left|by right]. Qed.

(** ** Exchanging generators *)
Lemma pswaps_le c s1 s2 p q : (forall n, nless (pdoes n s1) (pdoes (c + n) s2)) -> pswaps s1 s2 p q ->
  forall n R R', Forall2 rle R R' -> ole (pmeans n p R) (pmeans (c + n) q R').
Proof.
  intros H Hs n. induction Hs as [p|body body' _ IH|p1 q1 p2 q2 _ IH1 _ IH2|p q h k _ IH1 _ IH2|p q body body' _ IH1 _ IH2|i f g p q _ IH1 _ IH2|i f g p q _ IH1 _ IH2|i f g _ IH|f g _ IH]; intros R R' HR.
  - apply pmeans_le; [lia|done].
  - apply let_le; [apply H|intros; apply IH; by constructor|done].
  - apply and_then_le; [by apply IH1|]. intros. by apply IH2.
  - apply or_else_le; [by apply IH1|]. intros. by apply IH2.
  - apply let_le; [|intros; apply IH2; by constructor|done].
    destruct (IH1 [] [] (List.Forall2_nil _)) as [[E _]|?]; [left; by rewrite E|by right].
  - apply get_le; [intros; by apply IH1|intros; by apply IH2|done].
  - apply peek_le; [intros; by apply IH1|intros; by apply IH2|done].
  - apply whiles_le; [|lia|done]. intros. by apply IH.
  - apply ploops_le; [|lia|done]. intros. by apply IH.
Qed.
Lemma pswaps_less c s1 s2 p q : (forall n, nless (pdoes n s1) (pdoes (c + n) s2)) -> pswaps s1 s2 p q -> forall n, less (pdoes n p) (pdoes (c + n) q).
Proof. intros H Hs n. destruct (pswaps_le c s1 s2 p q H Hs n [] [] (List.Forall2_nil _)) as [[? _]|?]; [by left|by right]. Qed.
Lemma pswaps_sym s1 s2 p q : pswaps s1 s2 p q -> pswaps s2 s1 q p.
Proof. induction 1; by constructor. Qed.
Lemma nless_gives s1 s2 l : pgives s1 l -> pgives s2 l -> exists c, forall n, nless (pdoes n s1) (pdoes (c + n) s2).
Proof.
  intros [n1 H1] [n2 H2]. exists (n1 + n2). intros n. destruct (H1 (n1 + n2 + n)) as (st1&O1&E1); [lia|]. destruct (H2 (n1 + n2 + n)) as (st2&O2&E2); [lia|].
  destruct (pdoes_less s1 n (n1 + n2 + n)) as [E|[Ec Ep]]; [lia|left|right].
  - rewrite E. unfold pdoes. rewrite E1, E2. cbn. split; [done|]. by destruct O1 as [-> | ->], O2 as [-> | ->].
  - split; [done|]. unfold pdoes in Ep |- *. rewrite E1 in Ep. by rewrite E2.
Qed.

(** ** Lists *)
Definition ok (st : stop) : Prop := st = Ends \/ st = Returns.
(** What is left of a generator that gives [l]. *)
Definition at_list (l : list T) (st : stop) : rest := match l with [] => None | v :: l => Some (v, (inr <$> l, st)) end.
Lemma turn_list l st : ok st \/ l <> [] -> turn (inr <$> l) st = ([], Ends, at_list l st).
Proof. intros H. destruct l as [|v l]; cbn; [|done]. destruct H as [[-> | ->]|?]; done. Qed.
Lemma let_list n p q l st R : (pmeans n p []).1 = (inr <$> l, st) -> ok st \/ l <> [] ->
  (pmeans n (PLet p q) R).1 = (pmeans n q (at_list l st :: R)).1.
Proof. intros E H. cbn. rewrite E. cbn [fst snd]. rewrite turn_list by done. cbn. by destruct (pmeans n q _).1. Qed.

Lemma from_means n l R : pmeans n (pfrom l) R = ((inr <$> l, Ends), R).
Proof. revert R. induction l as [|v l IH]; intros R; [done|]. cbn. fold (pfrom l). by rewrite IH. Qed.
Lemma gives_from l : pgives (pfrom l) l.
Proof. exists 0. intros n _. exists Ends. split; [by left|]. by rewrite from_means. Qed.
Lemma walk_means n t R : pmeans n (pwalk t) R = ((inr <$> inorder t, Ends), R).
Proof. revert R. induction t as [|l IHl a v r IHr]; intros R; [done|]. cbn. rewrite IHl. cbn. rewrite IHr. cbn. by rewrite fmap_app. Qed.
Lemma gives_walk t : pgives (pwalk t) (inorder t).
Proof. exists 0. intros n _. exists Ends. split; [by left|]. by rewrite walk_means. Qed.
Lemma count_means n f : (pmeans n (pcount f) []).1 = (inr <$> (f <$> seq 0 n), Cut).
Proof.
  cbn. generalize 0 as j. induction n as [|n IH]; intros j; [done|]. cbn. by rewrite IH.
Qed.

(** The loop of [pzip], from two generators. *)
Lemma zip_loop n f m : forall l1 st1 l2 st2 j, ok st1 -> ok st2 \/ length l1 < length l2 -> length l1 < m ->
  (ploops (fun _ => pmeans n (PPeek 1 (fun a => PPeek 0 (fun b => PSeq (PYield (f a b)) (PSeq (PNext 1) (PNext 0))) PQuit) PQuit)) j m [at_list l2 st2; at_list l1 st1]).1 =
  (inr <$> zip_with f l1 l2, Returns).
Proof.
  induction m as [|m IH]; intros l1 st1 l2 st2 j H1 H2 Hm; [lia|]. destruct l1 as [|a l1]; [done|]. destruct l2 as [|b l2]; [done|].
  cbn [ploops]. cbn. rewrite !turn_list; [|destruct H2 as [?|H2]; [by left|]; right; intros ->; cbn in H2; lia|by left].
  cbn. rewrite IH; [done|done| |cbn in Hm; lia]. destruct H2 as [?|H2]; [by left|right]. cbn in H2. lia.
Qed.
Lemma zip_means n f p q l1 st1 l2 st2 : (pmeans n p []).1 = (inr <$> l1, st1) -> ok st1 -> (pmeans n q []).1 = (inr <$> l2, st2) -> ok st2 \/ length l1 < length l2 -> length l1 < n ->
  (pmeans n (pzip f p q) []).1 = (inr <$> zip_with f l1 l2, Returns).
Proof.
  intros H1 O1 H2 O2 Hn. unfold pzip. rewrite (let_list _ _ _ _ _ _ H1) by (by left). rewrite (let_list _ _ _ _ _ _ H2).
  - cbn [pmeans]. apply (zip_loop n); done.
  - destruct O2 as [?|?]; [by left|right]. intros ->. cbn in *. lia.
Qed.
Lemma gives_zip f p q l1 l2 : pgives p l1 -> pgives q l2 -> pgives (pzip f p q) (zip_with f l1 l2).
Proof.
  intros [n1 H1] [n2 H2]. exists (n1 + n2 + S (length l1)). intros n Hn. exists Returns. split; [by right|].
  destruct (H1 n) as (s1&O1&E1); [lia|]. destruct (H2 n) as (s2&O2&E2); [lia|]. eapply zip_means; [done|done|done|by left|lia].
Qed.
Lemma gives_number f g p l : pgives p l -> pgives (pzip f p (pcount g)) (zip_with f l (g <$> seq 0 (length l))).
Proof.
  intros [n1 H1]. exists (n1 + S (length l)). intros n Hn. exists Returns. split; [by right|].
  destruct (H1 n) as (s1&O1&E1); [lia|]. rewrite (zip_means n f p _ l s1 (g <$> seq 0 n) Cut E1 O1 (count_means n g)); [|right; rewrite fmap_length, seq_length; lia|lia].
  f_equal. f_equal. assert (Hs : forall (l : list T) j m, length l <= m -> zip_with f l (g <$> seq j m) = zip_with f l (g <$> seq j (length l))).
  { clear. intros l. induction l as [|v l IH]; intros j m Hm; [done|]. destruct m as [|m]; [cbn in Hm; lia|]. cbn. rewrite IH; [done|cbn in Hm; lia]. }
  apply Hs. lia.
Qed.

(** The loop of [pmerge]. *)
Section merge.
Context (le : T -> T -> bool).
Definition below (a b : T) : Prop := le a b = true.
Global Instance below_dec a b : Decision (below a b).
Proof. unfold below. apply _. Defined.
Definition pmerged : list T -> list T -> list T := list_merge below.
Lemma pmerged_nil_l l : pmerged [] l = l.
Proof. by destruct l. Qed.
Lemma pmerged_nil_r l : pmerged l [] = l.
Proof. by destruct l. Qed.
Lemma pmerged_cons a b l1 l2 : pmerged (a :: l1) (b :: l2) = if le a b then a :: pmerged l1 (b :: l2) else b :: pmerged (a :: l1) l2.
Proof. unfold pmerged. rewrite list_merge_cons. destruct (le a b) eqn:E; case_decide as Hb; unfold below in Hb; congruence. Qed.
Local Opaque pmerged.
Lemma merge_loop n m : forall l1 st1 l2 st2 j, ok st1 -> ok st2 -> length l1 + length l2 < m ->
  (ploops (fun _ => pmeans n (PPeek 1 (fun a => PPeek 0 (fun b => if le a b then PSeq (PYield a) (PNext 1) else PSeq (PYield b) (PNext 0)) (PSeq (PYield a) (PNext 1)))
            (PPeek 0 (fun b => PSeq (PYield b) (PNext 0)) PQuit))) j m [at_list l2 st2; at_list l1 st1]).1 = (inr <$> pmerged l1 l2, Returns).
Proof.
  induction m as [|m IH]; intros l1 st1 l2 st2 j H1 H2 Hm; [lia|]. cbn [ploops]. destruct l1 as [|a l1], l2 as [|b l2]; cbn.
  - done.
  - rewrite turn_list by (by left). cbn. rewrite (IH [] st1) by (done || cbn in *; lia). by rewrite !pmerged_nil_l.
  - rewrite turn_list by (by left). cbn. rewrite (IH _ _ [] st2) by (done || cbn in *; lia). by rewrite !pmerged_nil_r.
  - rewrite pmerged_cons. destruct (le a b) eqn:E; cbn; rewrite turn_list by (by left); cbn.
    + by rewrite (IH l1 st1 (b :: l2) st2) by (done || cbn in *; lia).
    + by rewrite (IH (a :: l1) st1 l2 st2) by (done || cbn in *; lia).
Qed.
Lemma gives_merge p q l1 l2 : pgives p l1 -> pgives q l2 -> pgives (pmerge le p q) (pmerged l1 l2).
Proof.
  intros [n1 H1] [n2 H2]. exists (n1 + n2 + S (length l1 + length l2)). intros n Hn. exists Returns. split; [by right|].
  destruct (H1 n) as (s1&O1&E1); [lia|]. destruct (H2 n) as (s2&O2&E2); [lia|]. unfold pmerge. rewrite (let_list _ _ _ _ _ _ E1) by (by left). rewrite (let_list _ _ _ _ _ _ E2) by (by left).
  cbn [pmeans]. apply (merge_loop _ n); [done|done|lia].
Qed.
End merge.

(** The loop of [psame]. *)
Section same.
Context (eq : T -> T -> bool) (Heq : forall a b, eq a b = true <-> a = b) (yes no : T).
Notation body n := (fun _ : nat => pmeans n (PPeek 1 (fun a => PPeek 0 (fun b => if eq a b then PSeq (PNext 1) (PNext 0) else PSeq (PNote no) PQuit) (PSeq (PNote no) PQuit))
            (PPeek 0 (fun _ => PSeq (PNote no) PQuit) (PSeq (PNote yes) PQuit)))).
Lemma same_loop n m : forall l1 st1 l2 st2 j, ok st1 -> ok st2 -> length l1 < m ->
  exists w, (ploops (body n) j m [at_list l2 st2; at_list l1 st1]).1 = ([inl w], Returns) /\ (l1 = l2 /\ w = yes \/ l1 <> l2 /\ w = no).
Proof.
  induction m as [|m IH]; intros l1 st1 l2 st2 j H1 H2 Hm; [lia|]. cbn [ploops]. destruct l1 as [|a l1], l2 as [|b l2]; cbn.
  - exists yes. auto.
  - exists no. split; [done|]. by right.
  - exists no. split; [done|]. by right.
  - destruct (eq a b) eqn:E.
    + apply Heq in E as ->. cbn. rewrite !turn_list by (by left). cbn.
      destruct (IH l1 st1 l2 st2 (S j)) as (w&Ew&Hw); [done|done|cbn in Hm; lia|]. exists w. cbn in Ew. rewrite Ew. split; [done|].
      destruct Hw as [[-> ->]|[Hn ->]]; [by left|right]. split; [|done]. by intros [= ->].
    + exists no. split; [done|]. right. split; [|done]. intros [= -> ->]. assert (eq b b = true) by (by apply Heq). congruence.
Qed.
Lemma same_means p q l1 l2 : pgives p l1 -> pgives q l2 ->
  exists n w, pdoes n (psame eq yes no p q) = ([inl w], Returns) /\ (l1 = l2 /\ w = yes \/ l1 <> l2 /\ w = no).
Proof.
  intros [n1 H1] [n2 H2]. exists (n1 + n2 + S (length l1)). destruct (H1 (n1 + n2 + S (length l1))) as (s1&O1&E1); [lia|].
  destruct (H2 (n1 + n2 + S (length l1))) as (s2&O2&E2); [lia|]. unfold pdoes, psame. rewrite (let_list _ _ _ _ _ _ E1) by (by left). rewrite (let_list _ _ _ _ _ _ E2) by (by left).
  cbn [pmeans]. apply (same_loop (n1 + n2 + S (length l1))); [done|done|lia].
Qed.
(** They differ early; what follows does not matter. *)
Lemma differ_loop n m : forall l a b k1 k2 st1 st2 j, a <> b -> length l < m ->
  (ploops (body n) j m [(turn ((inr <$> l ++ [b]) ++ k2) st2).2; (turn ((inr <$> l ++ [a]) ++ k1) st1).2]).1 = ([inl no], Returns).
Proof.
  induction m as [|m IH]; intros l a b k1 k2 st1 st2 j Hab Hm; [lia|]. cbn [ploops]. destruct l as [|c l]; cbn.
  - destruct (eq a b) eqn:E; [by apply Heq in E|done].
  - destruct (eq c c) eqn:E; [|assert (eq c c = true) by (by apply Heq); congruence]. cbn.
    assert (Ht : forall b k st, (turn ((inr <$> l ++ [b]) ++ k) st).1 = ([], Ends)) by (intros; by destruct l). rewrite !Ht. cbn. rewrite ?Ht. cbn. cbn in IH. rewrite IH; [done|done|cbn in Hm; lia].
Qed.
Lemma differ_means p q l a b : pstarts p (l ++ [a]) -> pstarts q (l ++ [b]) -> a <> b -> exists n, pdoes n (psame eq yes no p q) = ([inl no], Returns).
Proof.
  intros [n1 H1] [n2 H2] Hab. set (n := n1 + n2 + S (length l)). exists n. destruct (H1 n) as (k1&E1); [subst n; lia|]. destruct (H2 n) as (k2&E2); [subst n; lia|].
  unfold pdoes, psame. cbn [pmeans]. rewrite E1, E2. destruct (pmeans n p []).1 as [l1 st1], (pmeans n q []).1 as [l2 st2]. cbn [snd].
  assert (Ht : forall b k st, (turn ((inr <$> l ++ [b]) ++ k) st) = ([], Ends, (turn ((inr <$> l ++ [b]) ++ k) st).2)) by (intros; by destruct l).
  rewrite (Ht a), (Ht b). cbn [fst snd fmap list_fmap app]. assert (Hn : length l < n) by (subst n; lia).
  pose proof (differ_loop n n l a b k1 k2 st1 st2 0 Hab Hn) as Hd. cbn [pmeans] in Hd. by rewrite Hd.
Qed.
End same.
End laws.
