(** LawsChain.v -- the meaning of the chains of Chain.v. *)
From stdpp Require Import prelude.
From Coq Require Import Lia.
From Verif Require Import Base Cpp Progs Gens FactsLaws Many LawsMany Chain.

Section chain.
Context {env : Env}.

Lemma work_means n l R : pmeans n (pwork l) R = ((l, Ends), R).
Proof.
  induction l as [|x l IH]; [done|].
  change (pwork (x :: l)) with (PSeq (match x with inl w => PNote w | inr v => PYield v end) (pwork l)).
  destruct x; cbn [pmeans and_then]; by rewrite IH.
Qed.

Section stage.
Context (g : T -> list (T + T)) (n : nat).
Definition round (_ : nat) : list rest -> outcome_ := pmeans n (PSeq (PPeek 0 (fun v => pwork (g v)) PNil) (PNext 0)).
Lemma round_means j v l st : round j [Some (v, (l, st))] = ((g v ++ (inl <$> (turn l st).1.1), (turn l st).1.2), [(turn l st).2]).
Proof. unfold round. cbn [pmeans rest_of lookup list_lookup]. by rewrite work_means. Qed.
Lemma stage_means l st : st <> Cut -> forall m j, length l <= m ->
  (and_then ((inl <$> (turn l st).1.1, (turn l st).1.2), [(turn l st).2]) (whiles round 0 j m)).1 = (flow g l, norm st).
Proof.
  intros Hst. induction l as [|[w|v] l IH]; intros m j Hm; cbn in Hm.
  - cbn. destruct st; cbn; try done; by destruct m.
  - specialize (IH m j ltac:(lia)). cbn. cbn in IH. destruct (turn l st) as [[ns s] r]. cbn in *. destruct s; cbn in *; injection IH as E1 E2; by rewrite E1, E2.
  - destruct m as [|m]; [lia|]. specialize (IH m (S j) ltac:(lia)). cbn [turn fst snd fmap list_fmap and_then app].
    rewrite whiles_eq'. cbn [rest_of lookup list_lookup]. rewrite round_means. change (flow g (inr v :: l)) with (g v ++ flow g l).
    destruct (turn l st) as [[ns s] r]. cbn [fst snd] in *. destruct s; cbn [and_then fst snd] in *; injection IH as E1 E2; rewrite <- E1, E2; by rewrite <- ?app_assoc.
Qed.
End stage.

Lemma pacts_stage g src l x : pacts src l x -> pacts (pstage g src) (flow g l) x.
Proof.
  intros [n0 H]. exists (n0 + length l). intros n Hn. destruct (H n) as (st&E&Hx); [lia|]. exists (norm st). split; [|by destruct st].
  assert (Hc : st <> Cut) by (by intros ->). pose proof (stage_means g n l st Hc n 0 ltac:(lia)) as Hs.
  unfold pstage. cbn [pmeans]. rewrite E. cbn [fst snd]. destruct (turn l st) as [[ns s] r]. cbn [fst snd] in Hs |- *. destruct s; cbn in Hs |- *; exact Hs.
Qed.
Lemma pacts_stages gs : forall src l x, pacts src l x -> pacts (pstages gs src) (flows gs l) x.
Proof. induction gs as [|g gs IH]; intros src l x H; [done|]. apply IH. by apply pacts_stage. Qed.
Lemma pacts_work l : pacts (pwork l) l None.
Proof. exists 0. intros n _. exists Ends. by rewrite work_means. Qed.
End chain.
