(** FactsLazy.v -- executing the generator without end and example/fibonacci.cpp
    (Progs.v): proofs. *)
From stdpp Require Import prelude gmap relations.
From Coq Require Import Lia.
From Verif Require Import Base Model Spec InvSpec Main Hist Trace Cpp FactsReplay Progs Steps FactsProg.

Local Opaque gmap_lookup map_insert map_delete gmap_partial_alter.

Section lazy.
Context {env : Env}.

(** ** Fibonacci *)
Lemma fib_step n : fib (S (S n)) = fib (S n) + fib n.
Proof. done. Qed.
Lemma fib_loop_produce int sink n : forall i, fib_loop int sink n (fib i) (fib (S i)) =
  produce sink ((fun j => AImm (int (fib j))) <$> seq (S (S i)) n) Skip.
Proof.
  induction n as [|n IH]; intros i; [done|]. cbn [fib_loop seq fmap list_fmap produce].
  replace (fib i + fib (S i)) with (fib (S (S i))) by (rewrite fib_step; lia). by rewrite IH.
Qed.
Lemma fib_fn_produce int n sink : fib_fn int n sink = produce sink ((fun j => AImm (int (fib j))) <$> seq 1 (S (S n))) Skip.
Proof.
  unfold fib_fn. pose proof (fib_loop_produce int sink n 1) as E. change (fib 1) with 1 in E. change (fib 2) with 1 in E. rewrite E. done.
Qed.

(** ** Code that puts out [l] and then goes on *)
Inductive works : list T -> strat -> strat -> Prop :=
| wk_refl s : works [] s s
| wk_emit v l k s : works l (k (ROk AUnit)) s -> works (v :: l) (SDo (OEmit v) k) s.

Definition w_tr h (a : astate) := ASt (a_co a) (a_wait a) (a_h a) (a_user a) (a_nh a) (a_nk a) (a_cur a) (a_foc a) h.

Lemma goes_works l s s' : works l s s' -> forall a, nonew a -> a_foc a = AUser s ->
  exists h, goes a (w_foc (AUser s') (w_tr h a)) /\ output h = output (a_tr a) ++ l.
Proof.
  induction 1 as [s|v l k s _ IH]; intros a Hn Hf.
  - exists (a_tr a). rewrite app_nil_r. split; [|done]. destruct a; cbn in *. subst. apply goes_refl.
  - pose proof (astep_do _ _ _ Hf Hn) as E. cbn in E. unfold ret_to in E. apply goes_step in E.
    match type of E with goes _ ?b => destruct (IH b) as (h&G&Ho); [exact Hn|reflexivity|] end.
    exists h. split; [eapply goes_trans; [exact E|exact G]|].
    rewrite Ho. cbn. by rewrite <- app_assoc.
Qed.

(** As [inc_yield] and [new_yield] in Steps.v, with output. *)
Lemma inc_works a x k s v K D kk g kp v' l : reader a x k s v K D -> nonew a -> a_foc a = AUser (SDo (OItInc (Some x)) kk) ->
  a_wait a !! a_cur a = None -> a_cur a <> k -> works l K (SDo (OPush s g) kp) ->
  aarg_ok KVal g = true -> aconstruct false g (a_user a) = Some (inr (v', a_user a)) ->
  exists a', goes a a' /\ a_foc a' = AUser (kk (ROk (AIt (Some x)))) /\ reader a' x k s v' (kp (ROk AUnit)) (kp (RExn XUnwind)) /\ nonew a' /\
    same [k] [] a a' /\ a_nh a' = a_nh a /\ a_nk a' = a_nk a /\ output (a_tr a') = output (a_tr a) ++ l.
Proof.
  intros (Hx&Hs&Hxs&o&kp0&b&Hc&HK&HD) Hn Hf Hw Hcur Ht Hok Hg.
  set (c := ACo Pull KVal (ASusp o PoUnit kp0) (SlFull (PVal v)) s b) in *.
  set (a1 := alog (EvCall (a_cur a) (NOp (OItInc (Some x)))) a).
  set (a2 := w_foc (AUser K) (alog (EvRet k o AUnit) (w_cur k (w_wait (<[a_cur a := WOp k (NOp (OItInc (Some x))) (PoInc x) kk]> (a_wait a)) (put_co k (c_by (a_cur a) (c_st ARun c)) a1))))).
  assert (G1 : goes a a2).
  { apply goes_step. rewrite (astep_do _ _ _ Hf Hn). cbn. rewrite Hx. cbn. unfold resumable. cbn. rewrite Hc. cbn.
    unfold transfer. cbn. rewrite Hc. cbn. unfold deliver, ret_to. cbn. by rewrite HK. }
  assert (Hn2 : nonew a2). { intros k' c' fn. cbn. intros [[_ <-]|[_ Hl]]%lookup_insert_Some; [done|by eapply Hn]. }
  destruct (goes_works _ _ _ Ht a2 Hn2 eq_refl) as (h&G2&Ho). cbn in Ho.
  remember (w_foc (AUser (SDo (OPush s g) kp)) (w_tr h a2)) as a3 eqn:E3.
  assert (Hn3 : nonew a3). { rewrite E3. exact Hn2. }
  eexists. split; [|split; [|split; [|split; [|split]]]].
  - eapply goes_trans; [exact G1|]. eapply goes_trans; [exact G2|]. apply goes_step. rewrite (astep_do a3 (OPush s g) kp); [|by rewrite E3|done].
    rewrite E3. cbn. rewrite Hs. rewrite Hok. unfold push_op, resumable. cbn. rewrite bool_decide_eq_true_2 by done. cbn. rewrite ?lookup_insert. cbn. rewrite Hg.
    unfold transfer, give_back. cbn. rewrite ?lookup_insert. cbn. rewrite ?lookup_insert. cbn. unfold deliver. cbn. rewrite Hx. cbn. rewrite ?lookup_insert. cbn.
    unfold ret_to. cbn. reflexivity.
  - done.
  - split; [done|]. split; [done|]. split; [done|]. cbn. rewrite !lookup_insert. by eexists _, _, _.
  - intros k' c' fn. cbn. rewrite !insert_insert. intros [[_ <-]|[_ Hl]]%lookup_insert_Some; [done|by eapply Hn].
  - split; cbn; try done.
    + by rewrite delete_insert.
    + intros k' [Hk _]%not_elem_of_cons. by rewrite !lookup_insert_ne.
  - split; [done|]. split; [done|]. cbn. by rewrite Ho.
Qed.
Lemma new_works a fn kk g kp v' l : nonew a -> a_foc a = AUser (SNew Pull KVal (NewP None None) fn kk) ->
  a_wait a !! a_cur a = None -> works l (fn (S (a_nh a))) (SDo (OPush (S (a_nh a)) g) kp) ->
  aarg_ok KVal g = true -> aconstruct false g (a_user a) = Some (inr (v', a_user a)) ->
  exists a', goes a a' /\ a_foc a' = AUser (kk (ROk (AH (a_nh a)))) /\ reader a' (a_nh a) (a_nk a) (S (a_nh a)) v' (kp (ROk AUnit)) (kp (RExn XUnwind)) /\ nonew a' /\
    same [a_nk a] [a_nh a; S (a_nh a)] a a' /\ a_nh a' = S (S (a_nh a)) /\ a_nk a' = S (a_nk a) /\ output (a_tr a') = output (a_tr a) ++ l.
Proof.
  intros Hn Hf Hw Ht Hok Hg. destruct (new_enter a fn kk Hf) as (a1&G1&E1).
  assert (Hf1 : a_foc a1 = AUser (fn (S (a_nh a)))) by (by rewrite E1).
  assert (Hn1 : nonew a1). { rewrite E1. intros k' c' fn'. cbn. intros [[_ <-]|[_ Hl]]%lookup_insert_Some; [done|by eapply Hn]. }
  destruct (goes_works _ _ _ Ht a1 Hn1 Hf1) as (h&G2&Ho). rewrite E1 in Ho. cbn in Ho.
  remember (w_foc (AUser (SDo (OPush (S (a_nh a)) g) kp)) (w_tr h a1)) as a3 eqn:E3.
  assert (Hn3 : nonew a3). { rewrite E3. exact Hn1. }
  eexists. split; [|split; [|split; [|split; [|split]]]].
  - eapply goes_trans; [exact G1|]. eapply goes_trans; [exact G2|]. apply goes_step. rewrite (astep_do a3 (OPush (S (a_nh a)) g) kp); [|by rewrite E3|done].
    rewrite E3, E1. cbn. rewrite ?lookup_insert. rewrite Hok. unfold push_op, resumable. cbn. rewrite bool_decide_eq_true_2 by done. cbn. rewrite ?lookup_insert. cbn. rewrite Hg.
    unfold transfer, give_back. cbn. rewrite ?lookup_insert. cbn. rewrite ?lookup_insert. cbn. unfold deliver. cbn. rewrite ?lookup_insert. cbn.
    unfold ret_to. cbn. reflexivity.
  - done.
  - split; [cbn; by rewrite lookup_insert|]. split; [cbn; rewrite lookup_insert_ne by lia; by rewrite lookup_insert|]. split; [lia|]. cbn. rewrite ?lookup_insert. by eexists _, _, _.
  - intros k' c' fn'. cbn. rewrite !insert_insert. intros [[_ <-]|[_ Hl]]%lookup_insert_Some; [done|by eapply Hn].
  - split; cbn; try done.
    + intros y Hy. rewrite !not_elem_of_cons in Hy. by rewrite !lookup_insert_ne by naive_solver.
    + by rewrite delete_insert.
    + intros k' [Hk _]%not_elem_of_cons. by rewrite !lookup_insert_ne.
  - split; [done|]. split; [done|]. cbn. by rewrite Ho.
Qed.

(** ** The generator *)
Context (note val : nat -> T) (nothrow : forall v, move_exn v = None).

Definition push_k (i s : nat) : resp -> strat :=
  fun r => match r with ROk a => exec (Go (forever note val i s)) [] | RExn x => exec (Exn x) [] end.
Lemma forever_works i s : works [note i] (exec (Go (forever note val i s)) []) (SDo (OPush s (AImm (val i))) (push_k (S i) s)).
Proof.
  rewrite (stm_eta (forever _ _ _ _)). cbn [stm_id forever]. rewrite exec_do. constructor. cbn beta iota. rewrite exec_do. constructor.
Qed.

(** Object [x] denotes the generator, which has just yielded number [i]. *)
Definition open (a : astate) (x k s i : nat) : Prop :=
  reader a x k s (val i) (exec (Go (forever note val (S i) s)) []) (exec (Exn XUnwind) []) /\ a_cur a <> k /\ k <> 0.
Lemma open_same a a' x k s i J X : open a x k s i -> same J X a a' -> k ∉ J -> x ∉ X -> s ∉ X -> open a' x k s i.
Proof. intros (H1&H2&H3) Hs Hj Hx Hss. split; [by eapply reader_same|]. by rewrite (sm_cur _ _ _ _ Hs). Qed.
Lemma open_moves a J X l st b x k s i : open a x k s i -> moves a J X l st b -> k ∉ J -> x ∉ X -> s ∉ X -> open b x k s i.
Proof. intros Ho Hm. eapply open_same; [done|]. by eapply moves_same. Qed.

Lemma open_inc a x k s i ok kk fs : calm a -> open a x k s i -> a_foc a = AUser (exec (Go (Do (OItInc (Some x)) ok kk)) fs) ->
  exists a', moves a [k] [] [note (S i)] (exec (Go (kk (AIt (Some x)))) fs) a' /\ fixed a a' /\ open a' x k s (S i).
Proof.
  intros Hc (H1&H2&H3) Hf. pose proof Hc as (Hn&Hw&_). rewrite exec_do in Hf.
  destruct (inc_works _ _ _ _ _ _ _ _ _ _ (val (S i)) _ H1 Hn Hf Hw H2 (forever_works _ _)) as (a'&G1&G2&G3&G4&G5&G6&G7&G8); [done|cbn; by rewrite nothrow|].
  exists a'. split; [|split; [done|]].
  - split; [done|]. split; [done|]. split; [eapply calm_same; try done; lia|]. done.
  - split; [exact G3|]. by rewrite (sm_cur _ _ _ _ G5).
Qed.
Lemma open_deref a x k s i ok kk fs : calm a -> open a x k s i -> a_foc a = AUser (exec (Go (Do (OItDeref (Some x)) ok kk)) fs) ->
  exists a', moves a [] [] [] (exec (Go (kk (AV (val i)))) fs) a' /\ fixed a a'.
Proof.
  intros Hc ((Hx&Hs&Hxs&o&kp&b&Hco&_)&H2&H3) Hf. eapply do_look; [done|exact Hf| |done]. intros k0. cbn. rewrite Hx. cbn. by rewrite Hco.
Qed.
Lemma open_begin a x k s i ok kk fs : calm a -> open a x k s i -> a_foc a = AUser (exec (Go (Do (OBegin x) ok kk)) fs) ->
  exists a', moves a [] [] [] (exec (Go (kk (AIt (Some x)))) fs) a' /\ fixed a a'.
Proof.
  intros Hc ((Hx&Hs&Hxs&o&kp&b&Hco&_)&H2&H3) Hf. eapply do_look; [done|exact Hf| |done]. intros k0. cbn. rewrite Hx. cbn. by rewrite Hco.
Qed.

(** What the consumer sees of the generator from number [i] on, which is already there. *)
Fixpoint shown_n (n i : nat) : list T :=
  match n with
  | O => []
  | S n => val i :: match n with O => [] | S _ => note (S i) :: shown_n n (S i) end
  end.

Lemma each_n_run n : forall a x k s i fs kk, calm a -> open a x k s i -> a_foc a = AUser (exec (Go (each_n n (Some x) None kk)) fs) ->
  exists a' i', moves a [k] [] (shown_n n i) (exec (Go kk) fs) a' /\ fixed a a' /\ open a' x k s i'.
Proof.
  induction n as [|n IH]; intros a x k s i fs kk Hc Ho Hf.
  - exists a, i. split; [by apply moves_refl|]. done.
  - cbn [each_n] in Hf.
    destruct (do_look _ _ _ _ _ (AB true) [] Hc Hf) as (b1&M1&F1); [done|done|].
    assert (Hs1 : open b1 x k s i) by (eapply open_moves; try done; set_solver).
    destruct (open_deref _ _ _ _ _ _ _ _ (moves_calm _ _ _ _ _ _ M1) Hs1 (moves_foc _ _ _ _ _ _ M1)) as (b2&M2&F2).
    assert (Hs2 : open b2 x k s i) by (eapply open_moves; try done; set_solver).
    destruct (do_look _ _ _ _ _ AUnit [val i] (moves_calm _ _ _ _ _ _ M2) (moves_foc _ _ _ _ _ _ M2)) as (b3&M3&F3); [done|done|].
    assert (Hs3 : open b3 x k s i) by (eapply open_moves; try done; set_solver).
    assert (M13 : moves a [] [] ([] ++ [] ++ [val i]) (exec (Go (match n with O => kk | S _ => Do (OItInc (Some x)) eq_refl (fun j => match j with AIt j => each_n n j None kk | _ => Skip end) end)) fs) b3).
    { eapply moves_trans; [exact M1| |set_solver..]. eapply moves_trans; [exact M2|exact M3|set_solver..]. }
    cbn [app] in M13. assert (F13 : fixed a b3) by eauto using fixed_trans.
    destruct n as [|n].
    + exists b3, i. split; [|done]. eapply moves_weaken; [exact M13|set_solver..].
    + destruct (open_inc _ _ _ _ _ _ _ _ (moves_calm _ _ _ _ _ _ M13) Hs3 (moves_foc _ _ _ _ _ _ M13)) as (b4&M4&F4&Hs4).
      destruct (IH b4 x k s (S i) fs kk) as (c&i'&M5&F5&Hs5); [by eapply moves_calm|done|by eapply moves_foc|].
      exists c, i'. split; [|split; [by eauto using fixed_trans|done]].
      change (shown_n (S (S n)) i) with ([val i] ++ [note (S i)] ++ shown_n (S n) (S i)).
      eapply moves_trans; [eapply moves_weaken; [exact M13|set_solver..]| |set_solver..].
      eapply moves_trans; [exact M4|exact M5|set_solver..].
Qed.

Lemma shown_concat n : note 0 :: shown_n (S n) 0 = concat ((fun i => [note i; val i]) <$> seq 0 (S n)).
Proof.
  enough (H : forall n i, note i :: shown_n (S n) i = concat ((fun i => [note i; val i]) <$> seq i (S n))) by apply H.
  clear n. induction n as [|n IH]; intros i; [done|].
  change (shown_n (S (S n)) i) with (val i :: note (S i) :: shown_n (S n) (S i)). rewrite IH. done.
Qed.

Lemma take_run fin u n : exists N a, arun N (ainit (take_main note val n fin) u) = AHalt Finished a /\
  output (a_tr a) = note 0 :: shown_n n 0 ++ [fin].
Proof.
  set (a0 := ainit (take_main note val n fin) u). pose proof (calm_init (take_main note val n fin) u) as Hc. pose proof Hc as (Hn&Hw&Hk0&Hk1).
  assert (Hf : a_foc a0 = AUser (take_main note val n fin)) by done. unfold take_main, cxx in Hf. rewrite exec_new in Hf.
  destruct (new_works a0 _ _ _ _ (val 0) _ Hn Hf Hw (forever_works _ _)) as (b&G1&G2&G3&G4&G5&G6&G7&G8); [done|cbn; by rewrite nothrow|].
  cbn beta iota in G2. match type of G2 with _ = AUser ?st => assert (M0 : moves a0 [a_nk a0] [a_nh a0; S (a_nh a0)] [note 0] st b) end.
  { split; [done|]. split; [exact G2|]. split; [eapply calm_same; try done; rewrite G7; unfold a0; lia|]. done. }
  assert (Ho : open b (a_nh a0) (a_nk a0) (S (a_nh a0)) 0). { split; [exact G3|]. rewrite (sm_cur _ _ _ _ G5). cbn. lia. }
  destruct (open_begin _ _ _ _ _ _ _ _ (moves_calm _ _ _ _ _ _ M0) Ho (moves_foc _ _ _ _ _ _ M0)) as (c&M1&F1).
  assert (Ho1 : open c (a_nh a0) (a_nk a0) (S (a_nh a0)) 0) by (eapply open_moves; try done; set_solver).
  destruct (do_look _ _ _ _ _ (AIt None) [] (moves_calm _ _ _ _ _ _ M1) (moves_foc _ _ _ _ _ _ M1)) as (d&M2&F2); [done|done|].
  assert (Ho2 : open d (a_nh a0) (a_nk a0) (S (a_nh a0)) 0) by (eapply open_moves; try done; set_solver).
  destruct (each_n_run n _ _ _ _ _ _ _ (moves_calm _ _ _ _ _ _ M2) Ho2 (moves_foc _ _ _ _ _ _ M2)) as (e&i&M3&F3&Ho3).
  destruct (do_look _ _ _ _ _ AUnit [fin] (moves_calm _ _ _ _ _ _ M3) (moves_foc _ _ _ _ _ _ M3)) as (f&M4&F4); [done|done|].
  assert (Ho4 : open f (a_nh a0) (a_nk a0) (S (a_nh a0)) i) by (eapply open_moves; try done; set_solver).
  pose proof (moves_foc _ _ _ _ _ _ M4) as Hf4. cbn beta iota in Hf4. rewrite exec_skip in Hf4.
  pose proof (moves_calm _ _ _ _ _ _ M4) as (Hn4&Hw4&_). destruct Ho4 as (R4&C4&K4).
  destruct (destroy_susp _ _ _ _ _ _ _ _ R4 Hn4 Hf4 Hw4 C4 K4) as (g&D1&D2&D3&D4&D5&D6&D7).
  { rewrite exec_exn0. apply rtc_refl. }
  rewrite exec_skip0 in D2.
  assert (Hcur : a_cur g = 0).
  { rewrite (sm_cur _ _ _ _ D4), (sm_cur _ _ _ _ (moves_same _ _ _ _ _ _ M4)), (sm_cur _ _ _ _ (moves_same _ _ _ _ _ _ M3)),
      (sm_cur _ _ _ _ (moves_same _ _ _ _ _ _ M2)), (sm_cur _ _ _ _ (moves_same _ _ _ _ _ _ M1)), (sm_cur _ _ _ _ G5). done. }
  destruct (goes_halt a0 g Finished g) as [N HN].
  - eapply goes_trans; [exact (proj1 M0)|]. eapply goes_trans; [exact (proj1 M1)|]. eapply goes_trans; [exact (proj1 M2)|].
    eapply goes_trans; [exact (proj1 M3)|]. eapply goes_trans; [exact (proj1 M4)|exact D1].
  - unfold astep. rewrite D2. unfold do_leave. by rewrite Hcur.
  - exists N, g. split; [exact HN|]. rewrite D7. destruct M1 as (_&_&_&_&O1), M2 as (_&_&_&_&O2), M3 as (_&_&_&_&O3), M4 as (_&_&_&_&O4).
    rewrite O4, O3, O2, O1, G8. unfold a0. cbn [ainit a_tr output app]. by rewrite ?app_nil_r, ?app_nil_l, <- ?app_assoc.
Qed.
End lazy.
