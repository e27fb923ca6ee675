(** FactsLaws.v -- laws of the meaning of generators (Gens.v). *)
From stdpp Require Import prelude.
From Coq Require Import Lia.
From Verif Require Import Base Cpp Progs Gens.

Section laws.
Context {env : Env}.
Implicit Types (t : trace) (B H : T -> trace) (l : list (T + T)) (st : stop).

Definition norm (st : stop) : stop := match st with Returns => Ends | _ => st end.

Global Instance norm_dec st : Decision (norm st = Ends).
Proof. destruct st; first [by left|by right]. Defined.

Lemma then_ends l1 t2 : then_ (l1, Ends) t2 = (l1 ++ t2.1, t2.2).
Proof. done. Qed.
Lemma then_stops l1 st t2 : st <> Ends -> then_ (l1, st) t2 = (l1, st).
Proof. by destruct st. Qed.
Lemma then_nil t : then_ t ([], Ends) = t.
Proof. destruct t as [l [| | |]]; try done. cbn. by rewrite app_nil_r. Qed.
Lemma then_assoc t1 t2 t3 : then_ (then_ t1 t2) t3 = then_ t1 (then_ t2 t3).
Proof. destruct t1 as [l1 [| | |]]; try done. destruct t2 as [l2 [| | |]]; try done. cbn. by rewrite app_assoc. Qed.

Lemma over_norm B n l st : over B n l (norm st) = over B n l st.
Proof. revert n. induction l as [|[w|v] l IH]; intros n; cbn; [by destruct st|by rewrite IH|]. destruct n as [[|[|n]]|]; try done; cbn; by rewrite IH. Qed.
Lemma over_app B l1 t2 : over B None (l1 ++ t2.1) t2.2 = then_ (over B None l1 Ends) (over B None t2.1 t2.2).
Proof.
  induction l1 as [|[w|v] l1 IH]; cbn; [by destruct (over B None t2.1 t2.2)|..].
  - rewrite IH. by destruct (over B None l1 Ends) as [l [| | |]].
  - rewrite IH. by rewrite then_assoc.
Qed.
Lemma over_stops B l st : norm st <> Ends -> (over B None l st).2 <> Ends.
Proof.
  intros Hst. induction l as [|[w|v] l IH]; cbn; [by destruct st|done|]. destruct (B v) as [l' [| | |]]; try done.
Qed.
Lemma over_over B H l st : (forall v, (H v).2 <> Returns) ->
  over B None (over H None l st).1 (over H None l st).2 = over (fun v => over B None (H v).1 (H v).2) None l st.
Proof.
  intros HH. induction l as [|[w|v] l IH]; cbn.
  - by destruct st.
  - by rewrite IH.
  - specialize (HH v). destruct (H v) as [l' st'] eqn:E. cbn in HH. cbn [fst snd]. destruct (decide (norm st' = Ends)) as [Es|Es].
    + assert (st' = Ends) as -> by (by destruct st'). rewrite then_ends. cbn [fst snd]. by rewrite over_app, IH.
    + rewrite then_stops by (by intros ->). cbn [fst snd]. pose proof (over_stops B l' st' Es) as Hs. destruct (over B None l' st') as [l2 st2]. by rewrite then_stops.
Qed.
Lemma over_map B f m l st : over B m (over (fun v => ([inr (f v)], Ends)) None l st).1 (over (fun v => ([inr (f v)], Ends)) None l st).2 = over (fun v => B (f v)) m l st.
Proof.
  revert m. induction l as [|[w|v] l IH]; intros m; cbn; [by destruct st|by rewrite IH|]. destruct m as [[|[|m]]|]; try done; cbn; by rewrite IH.
Qed.
Lemma over_yield l st : over (fun v => ([inr v], Ends)) None l st = (l, norm st).
Proof. induction l as [|[w|v] l IH]; cbn; [done|by rewrite IH..]. Qed.
Lemma over_take B n m l st : over B (Some n) (over (fun v => ([inr v], Ends)) (Some m) l st).1 (over (fun v => ([inr v], Ends)) (Some m) l st).2 = over B (Some (Nat.min n m)) l st.
Proof.
  revert n m. induction l as [|[w|v] l IH]; intros n m; cbn [over]; [by destruct st|cbn; by rewrite IH|].
  destruct m as [|[|m]]; cbn [fst snd over].
  - by rewrite Nat.min_0_r.
  - destruct n as [|[|n]]; [done|done|]. cbn. by rewrite then_nil.
  - cbn [pred option_map fmap option_fmap]. rewrite then_ends. cbn [fst snd app]. destruct n as [|[|n]]; cbn [over Nat.min]; [done|done|].
    cbn [fmap option_fmap option_map pred]. rewrite (IH (S n) (S m)). done.
Qed.
Lemma over_take_all B m l st : over B None (over (fun v => ([inr v], Ends)) (Some m) l st).1 (over (fun v => ([inr v], Ends)) (Some m) l st).2 = over B (Some m) l st.
Proof.
  revert m. induction l as [|[w|v] l IH]; intros m; cbn [over]; [by destruct st|cbn; by rewrite IH|].
  destruct m as [|[|m]]; cbn [fst snd over]; [done|cbn; by rewrite then_nil|].
  cbn [pred option_map fmap option_fmap]. rewrite then_ends. cbn [fst snd app over]. cbn [fmap option_fmap option_map pred]. by rewrite IH.
Qed.

(** ** Following loops further *)
Definition less t1 t2 : Prop := t1 = t2 \/ t1.2 = Cut /\ t1.1 `prefix_of` t2.1.
Lemma less_refl t : less t t.
Proof. by left. Qed.
Lemma less_trans t1 t2 t3 : less t1 t2 -> less t2 t3 -> less t1 t3.
Proof. intros [<-|[H1 H2]]; [done|]. intros [<-|[_ H4]]; right; [done|]. split; [done|]. by etrans. Qed.
Lemma less_cut t : less ([], Cut) t.
Proof. right. split; [done|]. apply prefix_nil. Qed.
Lemma less_pre l t1 t2 : less t1 t2 -> less (l ++ t1.1, t1.2) (l ++ t2.1, t2.2).
Proof. intros [->|[H1 H2]]; [by left|right]. split; [done|]. by apply prefix_app. Qed.
Lemma then_less t1 t1' t2 t2' : less t1 t1' -> less t2 t2' -> less (then_ t1 t2) (then_ t1' t2').
Proof.
  intros [<-|[H1 H2]] H.
  - destruct t1 as [l [| | |]]; [by apply less_pre|by left..].
  - right. destruct t1 as [l st]. cbn in H1, H2. subst st. split; [done|]. cbn. destruct t1' as [l' [| | |]]; try done. cbn in *. by apply prefix_app_r.
Qed.
Lemma catch_less t1 t1' (h h' : E -> trace) : less t1 t1' -> (forall e, less (h e) (h' e)) -> less (or_catch t1 h) (or_catch t1' h').
Proof.
  intros [<-|[H1 H2]] H.
  - destruct t1 as [l [| |e|]]; [by left|by left|by apply (less_pre l)|by left].
  - right. destruct t1 as [l st]. cbn in H1, H2. subst st. split; [done|]. cbn. destruct t1' as [l' [| | |]]; try done. cbn in *. by apply prefix_app_r.
Qed.
Lemma over_less B B' m l st l' st' : (forall v, less (B v) (B' v)) -> less (l, st) (l', st') -> less (over B m l st) (over B' m l' st').
Proof.
  intros HB Hl. assert (H : l = l' /\ st = st' \/ st = Cut /\ l `prefix_of` l') by (destruct Hl as [E|[E ?]]; [injection E as -> ->; auto|cbn in E; subst st; auto]). clear Hl.
  revert l' m H. induction l as [|x l IH]; intros l' m H.
  - destruct H as [[<- <-]|[-> _]]; [by left|apply less_cut].
  - assert (exists l2, l' = x :: l2 /\ (l = l2 /\ st = st' \/ st = Cut /\ l `prefix_of` l2)) as (l2&->&H2).
    { destruct H as [[<- <-]|[-> Hp]]; [by eauto|]. destruct l' as [|y l2]; [by apply prefix_nil_not in Hp|]. apply prefix_cons_inv_1 in Hp as Ex. apply prefix_cons_inv_2 in Hp. subst y. eauto. }
    destruct x as [w|v]; cbn; [by apply (less_pre [inl w]), IH|]. destruct m as [[|[|m]]|]; [by left|by apply HB|apply then_less; [done|by apply IH]..].
Qed.
Lemma rounds_less (f f' : nat -> trace) i n n' : (forall i, less (f i) (f' i)) -> n <= n' -> less (rounds f i n) (rounds f' i n').
Proof.
  intros Hf. revert i n'. induction n as [|n IH]; intros i n' Hn; [apply less_cut|]. destruct n' as [|n']; [lia|]. cbn. apply then_less; [done|]. apply IH. lia.
Qed.
Lemma means_less g n n' : n <= n' -> less (means n g) (means n' g).
Proof.
  intros Hn. induction g as [|v|v|e| |g1 IH1 g2 IH2|g IH hd IHh|m src IHs body IHb|f IHf]; cbn; try by left.
  - by apply then_less.
  - by apply catch_less.
  - apply over_less; [done|]. by destruct (means n src), (means n' src).
  - by apply rounds_less.
Qed.

(** ** Exchanging parts *)
Lemma swaps_less c g1 g2 p q : (forall n, less (means n g1) (means (c + n) g2)) -> swaps g1 g2 p q -> forall n, less (means n p) (means (c + n) q).
Proof.
  intros H Hs n. induction Hs as [|g|p1 q1 p2 q2 _ IH1 _ IH2|p q h k _ IH1 _ IH2|m p q b d _ IH1 _ IH2|f h _ IH].
  - apply H.
  - apply means_less. lia.
  - by apply then_less.
  - by apply catch_less.
  - cbn. apply over_less; [done|]. by rewrite <- !surjective_pairing.
  - apply rounds_less; [done|lia].
Qed.
Lemma swaps_sym g1 g2 p q : swaps g1 g2 p q -> swaps g2 g1 q p.
Proof. induction 1; by constructor. Qed.

(** ** Laws *)
Lemma law_unit n v b : means n (For None (Yield v) b) = means n (b v).
Proof. cbn. apply then_nil. Qed.
Lemma law_same n g : means n (For None g Yield) = ((means n g).1, norm (means n g).2).
Proof. cbn. apply over_yield. Qed.
Lemma law_map n m f g b : means n (For m (gmap_ f g) b) = means n (For m g (fun v => b (f v))).
Proof. cbn. apply (over_map (fun v => means n (b v))). Qed.
Lemma law_filter n p g b : means n (For None (gfilter p g) b) = means n (For None g (fun v => if p v then b v else Nil)).
Proof.
  cbn. rewrite over_over by (intros v; by destruct (p v)). induction (means n g).1 as [|[w|v] l IH]; cbn; [done|by rewrite IH|].
  rewrite IH. destruct (p v); cbn; [|done]. by rewrite then_nil.
Qed.
Lemma law_bind n g h b : means n (For None (gbind g h) b) = means n (For None g (fun v => For None (h v) b)).
Proof.
  cbn. rewrite over_over.
  - induction (means n g).1 as [|[w|v] l IH]; cbn; [done|by rewrite IH|]. rewrite IH. rewrite over_yield. cbn. by rewrite over_norm.
  - intros v. rewrite over_yield. cbn. by destruct (means n (h v)).2.
Qed.
Lemma law_append n g1 g2 b : means n (For None (gappend g1 g2) b) = means n (Seq (For None g1 b) (For None g2 b)).
Proof.
  cbn. rewrite !over_yield. destruct (means n g1) as [l1 st1]. destruct (means n g2) as [l2 st2]. cbn [fst snd].
  destruct (decide (norm st1 = Ends)) as [E|E].
  - rewrite E, then_ends. cbn [fst snd]. rewrite (over_app _ _ (l2, norm st2)). cbn [fst snd]. by rewrite over_norm, <- (over_norm _ _ l1 st1), E.
  - rewrite then_stops by done. cbn [fst snd]. rewrite over_norm. pose proof (over_stops (fun v => means n (b v)) l1 st1 E) as Hs.
    destruct (over _ None l1 st1) as [l st]. by rewrite then_stops.
Qed.
Lemma law_take n m k g b : means n (For (Some m) (gtake k g) b) = means n (For (Some (Nat.min m k)) g b).
Proof. cbn. apply over_take. Qed.
Lemma law_take_all n k g b : means n (For None (gtake k g) b) = means n (For (Some k) g b).
Proof. cbn. apply over_take_all. Qed.
Lemma law_unroll n f : less (means n (Loop f)) (means n (Seq (f 0) (Loop (fun i => f (S i))))) /\
  less (means n (Seq (f 0) (Loop (fun i => f (S i))))) (means (S n) (Loop f)).
Proof.
  assert (E : forall (h : nat -> trace) i n, rounds (fun i => h (S i)) i n = rounds h (S i) n).
  { intros h i m. revert i. induction m as [|m IH]; intros i; [done|]. cbn. by rewrite IH. }
  cbn [means]. rewrite (E (fun i => means n (f i))). split.
  - change (then_ (means n (f 0)) (rounds (fun i => means n (f i)) 1 n)) with (rounds (fun i => means n (f i)) 0 (S n)). apply rounds_less; [intros; apply less_refl|lia].
  - cbn [rounds]. apply then_less; [by apply means_less; lia|]. apply rounds_less; [|done]. intros i. apply means_less. lia.
Qed.
End laws.
