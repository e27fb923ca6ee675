(** TidyMany.v -- programs that drive several generators (Many.v) follow the rules of Tidy.v. *)
From stdpp Require Import prelude gmap.
From Verif Require Import Base Discipline Tidy Cpp Progs Gens Many FactsProg TidyProg TidyGen.

Section tm.
Context {env : Env}.
Context (cells : nat -> Prop) (nomove : forall v, move_exn v = None).
Notation tidy := (Tidy.tidy cells).
Local Opaque gmap_lookup map_insert map_delete gmap_partial_alter.

(** The objects are as before; they may be at another value, or at their end. *)
Definition stays (w w' : view) : Prop := v_unw w' = v_unw w /\ v_in w' = v_in w.
Lemma stays_trans w1 w2 w3 : stays w1 w2 -> stays w2 w3 -> stays w1 w3.
Proof. intros [A1 A2] [B1 B2]. split; congruence. Qed.
Lemma stays_learn b x w w' : stays w w' -> stays w (v_learn b x w').
Proof. by intros [H1 H2]. Qed.
Definition owns (xs : list nat) (w : view) : Prop := forall x, x ∈ xs -> v_in w !! x = Some (Entry Pull KVal false).
Lemma owns_stays xs w w' : owns xs w -> stays w w' -> owns xs w'.
Proof. intros H [_ E] x Hx. rewrite E. by apply H. Qed.
Lemma knows_stays N w w' : knows N w -> stays w w' -> knows N w'.
Proof. intros H [_ E] x n Hx. rewrite E. by apply H. Qed.

Lemma pcode_tidy p : forall N xs y w (Q X : view -> Prop), yields cells N y -> v_unw w = false -> knows N w -> owns xs w ->
  (forall w', stays w w' -> Q w') -> (forall w', stays w w' -> X w') -> tidy Q X w (pcode p xs y).
Proof.
  induction p as [|v|v|e| |p1 IH1 p2 IH2|p IH hd IHh|src IHs body IHb|i f IHf q IHq|i f IHf q IHq|i|i f IHf|f IHf]; intros N xs y w Q X Hy Hu HN Hxs HQ HX; cbn [pcode].
  - by apply td_skip, HQ.
  - apply Hy; [done|done|by apply HQ].
  - apply td_do; [done|by intros ? ? [? _]|]. intros r w' [_ ->]. by apply td_skip, HQ.
  - by apply td_throw, HX.
  - apply td_return.
  - apply (td_block _ _ _ (stays w)); [by apply (IH1 N)|]. intros w' K _. apply (IH2 N); [done|by destruct K; congruence|by eapply knows_stays|by eapply owns_stays| |].
    + intros w'' K'. apply HQ. by eapply stays_trans.
    + intros w'' K'. apply HX. by eapply stays_trans.
  - apply (td_try _ _ _ (stays w) (stays w)); [by apply (IH N)| |].
    + intros e w' K _ _. apply (IHh e N); [done|by destruct K; congruence|by eapply knows_stays|by eapply owns_stays| |].
      * intros w'' K'. by eapply stays_trans.
      * intros w'' K'. apply HX. by eapply stays_trans.
    + intros w' K _. by apply td_skip, HQ.
  - apply (td_co _ _ _ (fun _ w' => v_unw w' = v_unw w) (fun _ w' => v_unw w' = v_unw w)).
    + intros x. apply (IHs {[ x := Entry Push KVal true ]}); [|done|by intros ???|by intros ? ?%elem_of_nil|done|done].
      intros v w' Q' X' Hu' Hk' HQ'. specialize (Hk' x _ (lookup_singleton _ _)).
      apply td_do; [exists (Entry Push KVal true); cbn; by rewrite nomove| |].
      * intros e w'' (n'&Hn'&H). assert (n' = Entry Push KVal true) as -> by congruence. cbn in H. by destruct H as [[? _]|[? _]].
      * intros r w'' (n'&Hn'&H). assert (n' = Entry Push KVal true) as -> by congruence. cbn in H. destruct H as [[_ ->]|[? _]]; [|done]. by apply td_skip.
    + by apply HX.
    + intros h Hh. assert (Hin : v_in (made Pull KVal h w) = <[ h := Entry Pull KVal false ]> (v_in w)) by done.
      apply (IHb N); [done|done| | |by intros w' [? _]|by intros w' [? _]].
      * intros x n Hx. rewrite Hin, lookup_insert_ne; [by apply HN|]. intros <-. apply HN in Hx. congruence.
      * intros x [-> |Hx]%elem_of_cons; rewrite Hin; [by rewrite lookup_insert|]. apply Hxs in Hx. rewrite lookup_insert_ne; [done|]. intros <-. congruence.
    + intros h w' Hh K E. apply HX. by split.
    + intros h w' Hh K E. apply td_skip, HQ. by split.
  - destruct (xs !! i) as [x|] eqn:Ex; [|by apply (IHq N)]. pose proof (Hxs x (elem_of_list_lookup_2 _ _ _ Ex)) as Hx.
    apply td_do; [eexists; done|by intros ? ? (?&?&_)|]. intros ? w' (b&E&n0&Hn&H). injection E as ->. rewrite Hx in Hn. injection Hn as <-. cbn in H. destruct H as [_ ->].
    destruct b; [|apply (IHq N); done].
    apply td_do.
    { exists (Entry Pull KVal false). cbn. split; [done|split; [done|]]. split; [done|]. cbn. set_solver. }
    { intros e w' [(m&Hm&Hv) _]. cbn in Hm. assert (m = Entry Pull KVal false) as -> by congruence. by destruct Hv. }
    intros ? w' [(m&Hm&Hv) ->]. cbn in Hm. assert (m = Entry Pull KVal false) as -> by congruence. destruct Hv as [v E]. injection E as ->.
    apply (IHf v N); done.
  - destruct (xs !! i) as [x|] eqn:Ex; [|by apply (IHq N)]. pose proof (Hxs x (elem_of_list_lookup_2 _ _ _ Ex)) as Hx.
    apply td_do; [eexists; done|by intros ? ? (?&?&_)|]. intros ? w' (b&E&n0&Hn&H). injection E as ->. rewrite Hx in Hn. injection Hn as <-. cbn in H. destruct H as [_ ->].
    apply td_do; [done|by intros ? ? [? _]|]. intros ? w' [E ->]. injection E as ->.
    apply td_do; [by destruct b; split; [by eexists| | |]|by intros ? ? [? _]|]. intros ? w' [E ->]. injection E as ->.
    destruct b; [|rewrite bool_decide_eq_false_2 by (by intros []); apply (IHq N); done]. rewrite bool_decide_eq_true_2 by done.
    apply td_do.
    { exists (Entry Pull KVal false). cbn. split; [done|split; [done|]]. split; [done|]. cbn. set_solver. }
    { intros e w' [(m&Hm&Hv) _]. cbn in Hm. assert (m = Entry Pull KVal false) as -> by congruence. by destruct Hv. }
    intros ? w' [(m&Hm&Hv) ->]. cbn in Hm. assert (m = Entry Pull KVal false) as -> by congruence. destruct Hv as [v E]. injection E as ->.
    apply (IHf v N); done.
  - destruct (xs !! i) as [x|] eqn:Ex; [|by apply td_skip, HQ]. pose proof (Hxs x (elem_of_list_lookup_2 _ _ _ Ex)) as Hx.
    apply td_do; [eexists; done|by intros ? ? (?&?&_)|]. intros ? w' (b&E&n0&Hn&H). injection E as ->. rewrite Hx in Hn. injection Hn as <-. cbn in H. destruct H as [_ ->].
    destruct b; [|apply td_skip, HQ; done].
    apply td_do.
    { exists (Entry Pull KVal false). cbn. split; [done|split; [done|]]. unfold ready. cbn. set_solver. }
    { intros e w' (m&Hm&Hr). cbn in Hm. assert (m = Entry Pull KVal false) as -> by congruence. cbn in Hr. destruct Hr as [_ ->]. by apply HX. }
    intros r w' (m&Hm&Hr). cbn in Hm. assert (m = Entry Pull KVal false) as -> by congruence. cbn in Hr. destruct Hr as [_ ->]. by apply td_skip, HQ.
  - destruct (xs !! i) as [x|] eqn:Ex; [|by apply td_skip, HQ].
    apply goes_tidy with (R := fun w' s => stays w w' /\ exists j, s = while_do x (fun j => pcode (f j) xs y) j); [|split; [done|by eexists]].
    intros w' s [K [j ->]]. rewrite (stm_eta (while_do _ _ _)). cbn.
    pose proof (owns_stays _ _ _ Hxs K x (elem_of_list_lookup_2 _ _ _ Ex)) as Hx.
    apply hd_do; [eexists; done|by intros ? ? (?&?&_)|]. intros ? w1 (b&E&n0&Hn&H). injection E as ->. rewrite Hx in Hn. injection Hn as <-. cbn in H. destruct H as [_ ->].
    pose proof (stays_learn b x _ _ K) as K1.
    destruct b; [|apply go_on, hd_exit, td_skip, HQ; done].
    apply go_on, (hd_block _ _ _ _ (stays w)).
    + apply (IHf j N); [done|by destruct K1; congruence|by eapply knows_stays|by eapply owns_stays| |].
      * intros w'' K'. by eapply stays_trans.
      * intros w'' K'. apply HX. by eapply stays_trans.
    + intros w'' K' _. apply go_again. split; [done|]. by eexists.
  - apply goes_tidy with (R := fun w' s => stays w w' /\ exists i, s = forever_do (fun i => pcode (f i) xs y) i); [|split; [done|by eexists]].
    intros w' s [K [i ->]]. rewrite (stm_eta (forever_do _ _)). cbn. apply (hd_block _ _ _ _ (stays w)).
    + apply (IHf i N); [done|by destruct K; congruence|by eapply knows_stays|by eapply owns_stays| |].
      * intros w'' K'. by eapply stays_trans.
      * intros w'' K'. apply HX. by eapply stays_trans.
    + intros w'' K' _. apply go_again. split; [done|]. by eexists.
Qed.

Lemma pmain_disc p : disciplined cells (pmain p).
Proof.
  apply tidy_disciplined. apply (pcode_tidy p ∅ []); [|done|by intros ???|by intros ? ?%elem_of_nil|done|done].
  intros v w Q X _ _ HQ. apply td_do; [done|by intros ? ? [? _]|]. intros r w' [_ ->]. by apply td_skip.
Qed.
End tm.
