(** FactsProg.v -- executing the programs of Progs.v: proofs. *)
From stdpp Require Import prelude gmap relations.
From Coq Require Import Lia.
From Verif Require Import Base Model Spec InvSpec Main Hist Trace Cpp FactsReplay Progs Steps.

Section factsprog.
Context {env : Env}.

(** ** Unfolding *)
Definition stm_id (s : stm) : stm :=
  match s with
  | Skip => Skip | Return => Return | Throw e => Throw e | Do o ok k => Do o ok k | Local n b k => Local n b k
  | LocalCo sd kd np fn b k => LocalCo sd kd np fn b k | LocalMove h b k => LocalMove h b k | Try b h k => Try b h k | OnExn b n k => OnExn b n k | Block b k => Block b k
  end.
Lemma stm_eta s : s = stm_id s.
Proof. by destruct s. Qed.

Lemma exec_do o ok k fs : exec (Go (Do o ok k)) fs = SDo o (fun r => match r with ROk a => exec (Go (k a)) fs | RExn x => exec (Exn x) fs end).
Proof. by rewrite (strat_eta (exec _ _)). Qed.
Lemma exec_new sd kd np fn body k fs : exec (Go (LocalCo sd kd np fn body k)) fs =
  SNew sd kd np (fun s => exec (Go (fn s)) []) (fun r =>
    match r with ROk (AH h) => exec (Go (body h)) (FLocal (ODestroy h) k :: fs) | ROk _ => exec Ret fs | RExn x => exec (Exn x) fs end).
Proof. by rewrite (strat_eta (exec _ _)). Qed.
Lemma exec_skip d k fs : exec (Go Skip) (FLocal d k :: fs) = SDo d (fun r => match r with ROk _ => exec (Go k) fs | RExn x => exec (Exn x) fs end).
Proof. by rewrite (strat_eta (exec _ _)). Qed.
Lemma exec_skip0 : exec (Go Skip) [] = SRet.
Proof. by rewrite (strat_eta (exec _ _)). Qed.
Lemma exec_ret0 : exec Ret [] = SRet.
Proof. by rewrite (strat_eta (exec _ _)). Qed.
Lemma exec_exn0 x : exec (Exn x) [] = SThrow x.
Proof. by rewrite (strat_eta (exec _ _)). Qed.
Lemma exec_throw e fs : exec (Go (Throw e)) fs = STau (exec (Exn (XUser e)) fs).
Proof. by rewrite (strat_eta (exec _ _)). Qed.
Lemma exec_try b h k fs : exec (Go (Try b h k)) fs = STau (exec (Go b) (FTry h k :: fs)).
Proof. by rewrite (strat_eta (exec _ _)). Qed.
Lemma exec_return fs : exec (Go Return) fs = STau (exec Ret fs).
Proof. by rewrite (strat_eta (exec _ _)). Qed.

(** ** Moving on *)
Lemma same_weaken J X J' X' a b : same J X a b -> J ⊆ J' -> X ⊆ X' -> same J' X' a b.
Proof. intros [E1 E2 E3 E4 E5] HJ HX. split; try done; [intros y Hy; apply E1; set_solver|intros k Hk; apply E5; set_solver]. Qed.
Lemma same_trans J X a b c : same J X a b -> same J X b c -> same J X a c.
Proof.
  intros [E1 E2 E3 E4 E5] [F1 F2 F3 F4 F5]. split; try congruence.
  - intros y Hy. by rewrite F1, E1.
  - intros k Hk. by rewrite F5, E5.
Qed.
Lemma same_refl J X a : same J X a a.
Proof. by split. Qed.

Lemma moves_trans J X a l1 s1 b J2 X2 l2 s2 c : moves a J X l1 s1 b -> moves b J2 X2 l2 s2 c -> J2 ⊆ J -> X2 ⊆ X -> moves a J X (l1 ++ l2) s2 c.
Proof.
  intros (G1&_&_&S1&O1) (G2&F2&C2&S2&O2) HJ HX. split; [by eapply goes_trans|]. split; [done|]. split; [done|].
  split; [by eapply same_trans; [|eapply same_weaken]|]. by rewrite O2, O1, app_assoc.
Qed.
Lemma moves_weaken J X a l s b J' X' : moves a J X l s b -> J ⊆ J' -> X ⊆ X' -> moves a J' X' l s b.
Proof. intros (G1&G2&G3&G4&G5) HJ HX. split; [done|]. split; [done|]. split; [done|]. split; [by eapply same_weaken|done]. Qed.
Lemma moves_refl J X a s : calm a -> a_foc a = AUser s -> moves a J X [] s a.
Proof. intros Hc Hf. split; [apply goes_refl|]. split; [done|]. split; [done|]. split; [apply same_refl|]. by rewrite app_nil_r. Qed.
Lemma moves_calm a J X l s b : moves a J X l s b -> calm b.
Proof. by intros (_&_&H&_). Qed.
Lemma moves_foc a J X l s b : moves a J X l s b -> a_foc b = AUser s.
Proof. by intros (_&H&_). Qed.
Lemma moves_same a J X l s b : moves a J X l s b -> same J X a b.
Proof. by intros (_&_&_&H&_). Qed.
Lemma fixed_trans a b c : fixed a b -> fixed b c -> fixed a c.
Proof. intros [H1 H2] [H3 H4]. split; congruence. Qed.
Lemma moves_tau a J X l s s' b : moves a J X l s b -> rtc tau s s' -> exists c, moves a J X l s' c /\ fixed b c.
Proof.
  intros (G1&F1&C1&S1&O1) Ht. destruct (goes_tau _ _ _ F1 Ht) as (c&G2&->). exists (w_foc (AUser s') b). split; [|done].
  split; [by eapply goes_trans|]. split; [done|]. split; [done|]. split; [|done]. destruct S1 as [E1 E2 E3 E4 E5]. by split.
Qed.

(** One operation of the language. *)
Lemma do_look a o ok k fs r l : calm a -> a_foc a = AUser (exec (Go (Do o ok k)) fs) ->
  (forall kk, do_op o kk (alog (EvCall (a_cur a) (NOp o)) a) = ret_to (NOp o) r kk (alog (EvCall (a_cur a) (NOp o)) a)) ->
  output [EvCall (a_cur a) (NOp o)] = l -> exists a', moves a [] [] l (exec (Go (k r)) fs) a' /\ fixed a a'.
Proof. intros Hc Hf E El. rewrite exec_do in Hf. exact (look _ _ _ _ _ Hc Hf (E _) El). Qed.
Lemma do_begin a x k s vs f ok kk fs : calm a -> source a x k s vs f -> a_foc a = AUser (exec (Go (Do (OBegin x) ok kk)) fs) ->
  exists a', moves a [] [] [] (exec (Go (kk (AIt (pos x vs)))) fs) a' /\ fixed a a'.
Proof. intros Hc Hs Hf. rewrite exec_do in Hf. exact (src_begin _ _ _ _ _ _ _ Hc Hs Hf). Qed.
Lemma do_deref a x k s v vs f ok kk fs : calm a -> source a x k s (v :: vs) f -> a_foc a = AUser (exec (Go (Do (OItDeref (Some x)) ok kk)) fs) ->
  exists a', moves a [] [] [] (exec (Go (kk (AV v))) fs) a' /\ fixed a a'.
Proof. intros Hc Hs Hf. rewrite exec_do in Hf. exact (src_deref _ _ _ _ _ _ _ _ Hc Hs Hf). Qed.
Lemma do_inc a x k s v vs f ok kk fs : calm a -> source a x k s (v :: vs) f -> a_foc a = AUser (exec (Go (Do (OItInc (Some x)) ok kk)) fs) ->
  exists a', moves a [k] [] [] (match vs, f with [], Some e => exec (Exn (XUser e)) fs | _, _ => exec (Go (kk (AIt (pos x vs)))) fs end) a' /\ fixed a a' /\ source a' x k s vs f.
Proof.
  intros Hc Hs Hf. rewrite exec_do in Hf. destruct (src_inc _ _ _ _ _ _ _ _ Hc Hs Hf) as (a'&H1&H2&H3). exists a'. split; [|done]. by destruct vs; destruct f.
Qed.

(** Sources are not disturbed. *)
Lemma src_moves a J X l st b x k s vs f : source a x k s vs f -> moves a J X l st b -> k ∉ J -> x ∉ X -> s ∉ X -> source b x k s vs f.
Proof. intros Hs Hm. eapply source_same; [done|]. by eapply moves_same. Qed.

(** ** Loops *)
Lemma each_unfold i e k : each i e k = Do (OItNe i e) eq_refl (fun b =>
  match b with
  | AB true => Do (OItDeref i) eq_refl (fun v =>
      match v with
      | AV v => Do (OEmit v) eq_refl (fun _ => Do (OItInc i) eq_refl (fun j => match j with AIt j => each j e k | _ => Skip end))
      | _ => Skip
      end)
  | _ => k
  end).
Proof. by rewrite (stm_eta (each _ _ _)). Qed.

Definition leave_by (f : option E) (k : stm) : ctl := match f with None => Go k | Some e => Exn (XUser e) end.

Lemma each_run vs : forall a x k s f fs kk, calm a -> source a x k s vs f -> a_foc a = AUser (exec (Go (each (pos x vs) None kk)) fs) -> vs <> [] \/ f = None ->
  exists a', moves a [k] [] vs (exec (leave_by f kk) fs) a' /\ fixed a a' /\ source a' x k s [] f.
Proof.
  induction vs as [|v vs IH]; intros a x k s f fs kk Hc Hs Hf Hv.
  - destruct Hv as [?| ->]; [done|]. rewrite each_unfold in Hf. destruct (do_look _ _ _ _ _ (AB false) [] Hc Hf) as (b&M1&F1); [done|done|].
    exists b. split; [|split; [done|by eapply src_moves; try done; set_solver]]. eapply moves_weaken; [exact M1|set_solver..].
  - cbn [pos] in Hf. rewrite each_unfold in Hf.
    destruct (do_look _ _ _ _ _ (AB true) [] Hc Hf) as (b1&M1&F1); [done|done|].
    assert (Hs1 : source b1 x k s (v :: vs) f) by (eapply src_moves; try done; set_solver).
    destruct (do_deref _ _ _ _ _ _ _ _ _ _ (moves_calm _ _ _ _ _ _ M1) Hs1 (moves_foc _ _ _ _ _ _ M1)) as (b2&M2&F2).
    assert (Hs2 : source b2 x k s (v :: vs) f) by (eapply src_moves; try done; set_solver).
    destruct (do_look _ _ _ _ _ AUnit [v] (moves_calm _ _ _ _ _ _ M2) (moves_foc _ _ _ _ _ _ M2)) as (b3&M3&F3); [done|done|].
    assert (Hs3 : source b3 x k s (v :: vs) f) by (eapply src_moves; try done; set_solver).
    destruct (do_inc _ _ _ _ _ _ _ _ _ _ (moves_calm _ _ _ _ _ _ M3) Hs3 (moves_foc _ _ _ _ _ _ M3)) as (b4&M4&F4&Hs4).
    assert (M : moves a [k] [] [v] (match vs, f with [], Some e => exec (Exn (XUser e)) fs | _, _ => exec (Go (each (pos x vs) None kk)) fs end) b4).
    { change [v] with (([] ++ [] ++ [v]) ++ []). eapply moves_trans; [|exact M4|set_solver..]. eapply moves_weaken with (J := []) (X := []); [|set_solver..].
      eapply moves_trans; [exact M1| |set_solver..]. eapply moves_trans; [exact M2|exact M3|set_solver..]. }
    assert (F : fixed a b4) by eauto using fixed_trans.
    destruct (decide (vs <> [] \/ f = None)) as [Hv'|Hv'].
    + destruct (IH b4 x k s f fs kk) as (c&M5&F5&Hs5); [by eapply moves_calm|done| |done|].
      { rewrite (moves_foc _ _ _ _ _ _ M). destruct vs; [|done]. destruct Hv' as [?| ->]; done. }
      exists c. split; [|split; [by eapply fixed_trans|done]]. change (v :: vs) with ([v] ++ vs). by eapply moves_trans.
    + destruct vs as [|v' vs]; [|by destruct Hv'; left]. destruct f as [e|]; [|by destruct Hv'; right]. by exists b4.
Qed.

Lemma each_of_run vs a x k s f fs kk : calm a -> source a x k s vs f -> a_foc a = AUser (exec (Go (each_of x kk)) fs) -> vs <> [] \/ f = None ->
  exists a', moves a [k] [] vs (exec (leave_by f kk) fs) a' /\ fixed a a' /\ source a' x k s [] f.
Proof.
  intros Hc Hs Hf Hv. destruct (do_begin _ _ _ _ _ _ _ _ _ Hc Hs Hf) as (b1&M1&F1).
  assert (Hs1 : source b1 x k s vs f) by (eapply src_moves; try done; set_solver).
  destruct (do_look _ _ _ _ _ (AIt None) [] (moves_calm _ _ _ _ _ _ M1) (moves_foc _ _ _ _ _ _ M1)) as (b2&M2&F2); [done|done|].
  assert (Hs2 : source b2 x k s vs f) by (eapply src_moves; try done; set_solver).
  destruct (each_run vs b2 x k s f fs kk) as (c&M3&F3&Hs3); [by eapply moves_calm|done|by eapply moves_foc|done|].
  exists c. split; [|split; [by eauto using fixed_trans|done]]. change vs with (([] ++ []) ++ vs).
  eapply moves_trans; [|exact M3|set_solver..]. eapply moves_weaken with (J := []) (X := []); [|set_solver..]. eapply moves_trans; [exact M1|exact M2|set_solver..].
Qed.

(** ** Generators *)
Definition carries (u : gmap nat T) (g : arg) (v : T) : Prop := aarg_ok KVal g = true /\ aconstruct false g u = Some (inr (v, u)).

Lemma gen_produce u s gs vs k f : Forall2 (carries u) gs vs -> gen u s (exec (Go k) []) [] f -> gen u s (exec (Go (produce s gs k)) []) vs f.
Proof.
  induction 1 as [|g v gs vs [H1 H2] _ IH]; intros Hk; [done|]. cbn [produce]. unfold push. rewrite exec_do. refine (gen_yield _ _ _ g _ v vs f (rtc_refl _ _) H1 H2 _ _).
  - rewrite exec_exn0. apply rtc_refl.
  - by apply IH.
Qed.
Lemma gen_skip u s : gen u s (exec (Go Skip) []) [] None.
Proof. apply gen_end. rewrite exec_skip0. apply rtc_refl. Qed.
Lemma gen_throws u s e : gen u s (exec (Go (Throw e)) []) [] (Some e).
Proof. apply gen_throw. rewrite exec_throw, exec_exn0. eapply rtc_l; [constructor|apply rtc_refl]. Qed.

Fixpoint places (t : tree) : list nat := match t with Null => [] | Node l a _ r => places l ++ a :: places r end.
Lemma produce_app s gs gs' k : produce s (gs ++ gs') k = produce s gs (produce s gs' k).
Proof. induction gs as [|g gs IH]; [done|]. cbn. by rewrite IH. Qed.
Lemma traverse_produce t s k : traverse t s k = produce s (ACopy <$> places t) k.
Proof.
  revert k. induction t as [|l IHl a v r IHr]; intros k; [done|]. cbn [traverse places]. rewrite IHr, IHl, fmap_app, produce_app. done.
Qed.
Lemma places_carry u t : stored u t -> Forall (fun v => copy_exn v = None) (inorder t) -> Forall2 (carries u) (ACopy <$> places t) (inorder t).
Proof.
  induction t as [|l IHl a v r IHr]; [by constructor|]. cbn. intros (H1&H2&H3) (G1&[G2 G3]%Forall_cons)%Forall_app. rewrite fmap_app. cbn.
  apply Forall2_app; [by apply IHl|]. constructor; [|by apply IHr]. split; [done|]. cbn. by rewrite H1; cbn; rewrite G2.
Qed.
Lemma gen_traverse u t s : stored u t -> Forall (fun v => copy_exn v = None) (inorder t) -> gen u s (exec (Go (traverse t s Skip)) []) (inorder t) None.
Proof. intros H1 H2. rewrite traverse_produce. apply gen_produce; [by apply places_carry|apply gen_skip]. Qed.

(** ** Blocks *)
(** Nothing that existed before has changed. *)
Record keeps (a b : astate) : Prop := {
  kp_h : forall y, y < a_nh a -> a_h b !! y = a_h a !! y;
  kp_co : forall k, k < a_nk a -> a_co b !! k = a_co a !! k;
  kp_user : a_user b = a_user a;
  kp_cur : a_cur b = a_cur a;
  kp_wait : a_wait b = a_wait a;
  kp_nh : a_nh a <= a_nh b;
  kp_nk : a_nk a <= a_nk b }.
Definition does (a : astate) (l : list T) (s : strat) (b : astate) : Prop :=
  goes a b /\ a_foc b = AUser s /\ calm b /\ keeps a b /\ output (a_tr b) = output (a_tr a) ++ l.

Lemma keeps_trans a b c : keeps a b -> keeps b c -> keeps a c.
Proof.
  intros [E1 E2 E3 E4 E5 E6 E7] [F1 F2 F3 F4 F5 F6 F7]. split; try congruence; try lia.
  - intros y Hy. rewrite F1 by lia. auto.
  - intros y Hy. rewrite F2 by lia. auto.
Qed.
Lemma does_trans a l1 s1 b l2 s2 c : does a l1 s1 b -> does b l2 s2 c -> does a (l1 ++ l2) s2 c.
Proof.
  intros (G1&_&_&S1&O1) (G2&F2&C2&S2&O2). split; [by eapply goes_trans|]. split; [done|]. split; [done|].
  split; [by eapply keeps_trans|]. by rewrite O2, O1, app_assoc.
Qed.
Lemma moves_does a J X l s b : moves a J X l s b -> (forall k, k ∈ J -> a_nk a <= k) -> (forall y, y ∈ X -> a_nh a <= y) -> a_nh a <= a_nh b -> a_nk a <= a_nk b -> does a l s b.
Proof.
  intros (G1&F1&C1&[E1 E2 E3 E4 E5]&O1) HJ HX Hn1 Hn2. split; [done|]. split; [done|]. split; [done|]. split; [|done]. split; try done.
  - intros y Hy. apply E1. intros Hi. specialize (HX _ Hi). lia.
  - intros y Hy. apply E5. intros Hi. specialize (HJ _ Hi). lia.
Qed.
Lemma look_does a l s b : moves a [] [] l s b -> fixed a b -> does a l s b.
Proof. intros H [E1 E2]. eapply moves_does; [done|by intros ? ?%elem_of_nil..|lia|lia]. Qed.
Lemma source_keeps a b x k s vs f : source a x k s vs f -> keeps a b -> x < a_nh a -> s < a_nh a -> k < a_nk a -> source b x k s vs f.
Proof.
  intros Hs [E1 E2 E3 E4 E5 _ _] Hx Hss Hk. destruct Hs as [v K D vs f H1 H2 H3 H4 H5|f H1 H2 H3|f H1].
  - apply (src_more _ _ _ _ v K D); try done; [|by rewrite E3|by rewrite E4].
    destruct H1 as (G1&G2&G3&o&kp&b0&G4&G5). unfold reader. rewrite !E1, E2 by done. eauto 10.
  - apply src_done; try done; [|by rewrite E4]. destruct H1 as (G1&G2&G3&ex&v&b0&G4). unfold finished. rewrite !E1, E2 by done. eauto 10.
  - apply src_none. by rewrite E1.
Qed.

(** A block with a pull coroutine as automatic object: if the rest of the block is executed
    to its end ... *)
Lemma block a fn body kk fs vs f : calm a -> a_foc a = AUser (exec (Go (LocalCo Pull KVal plain_new fn body kk)) fs) ->
  gen (a_user a) (S (a_nh a)) (exec (Go (fn (S (a_nh a)))) []) vs f -> vs <> [] \/ f = None ->
  exists b, does a [] (exec (Go (body (a_nh a))) (FLocal (ODestroy (a_nh a)) kk :: fs)) b /\ source b (a_nh a) (a_nk a) (S (a_nh a)) vs f /\
    a_nh b = S (S (a_nh a)) /\ a_nk b = S (a_nk a).
Proof.
  intros Hc Hf Hg Hv. rewrite exec_new in Hf. destruct (src_new _ _ _ _ _ Hc Hf Hg) as (b&M&E1&E2&Hs).
  exists b. split; [|by auto]. eapply (moves_does _ [a_nk a] [a_nh a; S (a_nh a)]); [|intros ? ?%elem_of_list_singleton|intros ? [?|[?|?%elem_of_nil]%elem_of_cons]%elem_of_cons|..]; try lia.
  destruct vs as [|v vs]; [|exact M]. destruct Hv as [?| ->]; done.
Qed.
Lemma block_throws a fn body kk fs e : calm a -> a_foc a = AUser (exec (Go (LocalCo Pull KVal plain_new fn body kk)) fs) ->
  gen (a_user a) (S (a_nh a)) (exec (Go (fn (S (a_nh a)))) []) [] (Some e) ->
  exists b, does a [] (exec (Exn (XUser e)) fs) b.
Proof.
  intros Hc Hf Hg. rewrite exec_new in Hf. destruct (src_new _ _ _ _ _ Hc Hf Hg) as (b&M&E1&E2&Hs).
  exists b. eapply moves_does; [exact M|intros ? ?%elem_of_list_singleton|intros ? [?|[?|?%elem_of_nil]%elem_of_cons]%elem_of_cons|..]; lia.
Qed.
(** ... the object is destroyed, however the block is left. *)
Lemma block_end a x k s vs f c kk fs : calm a -> source a x k s vs f -> a_foc a = AUser (exec c (FLocal (ODestroy x) kk :: fs)) ->
  c = Go Skip \/ c = Ret \/ (exists y, c = Exn y) ->
  exists b, moves a [k] [x; s] [] (exec (match c with Go _ => Go kk | _ => c end) fs) b /\ fixed a b.
Proof.
  intros Hc Hs Hf Hcase.
  assert (exists kk', a_foc a = AUser (SDo (ODestroy x) kk') /\ kk' (ROk AUnit) = exec (match c with Go _ => Go kk | _ => c end) fs) as (kk'&Hf'&E).
  { rewrite (strat_eta (exec _ _)) in Hf. destruct Hcase as [-> |[-> |[y ->]]]; cbn in Hf; eexists; (split; [exact Hf|done]). }
  destruct (src_destroy _ _ _ _ _ _ _ Hc Hs Hf') as (b&M&F). rewrite E in M. by exists b.
Qed.

(** From the making of the object, over its use up to [c], to its destruction. *)
Lemma block_does a l st c vs f kk fs ct : does a l st c -> st = exec ct (FLocal (ODestroy (a_nh a)) kk :: fs) ->
  ct = Go Skip \/ ct = Ret \/ (exists y, ct = Exn y) -> source c (a_nh a) (a_nk a) (S (a_nh a)) vs f ->
  exists d, does a l (exec (match ct with Go _ => Go kk | _ => ct end) fs) d.
Proof.
  intros D -> Hcase Hs. pose proof D as (_&Hf&Hc&Hk&_). destruct (block_end _ _ _ _ _ _ _ _ _ Hc Hs Hf Hcase) as (d&M&F).
  exists d. destruct D as (G1&F1&C1&[E1 E2 E3 E4 E5 E6 E7]&O1). destruct M as (G2&F2&C2&[H1 H2 H3 H4 H5]&O2). destruct F as [N1 N2].
  split; [by eapply goes_trans|]. split; [done|]. split; [done|]. split.
  - split; try congruence; try lia.
    + intros y Hy. rewrite H1; [auto|]. intros [?|[?|?%elem_of_nil]%elem_of_cons]%elem_of_cons; lia.
    + intros k Hk'. rewrite H5; [auto|]. intros ?%elem_of_list_singleton. lia.
  - by rewrite O2, O1, app_nil_r.
Qed.

(** After an object was made, what is done to it and to new objects does not concern older ones. *)
Lemma does_moves a l1 s1 b J X l2 s2 c : does a l1 s1 b -> moves b J X l2 s2 c -> (forall k, k ∈ J -> a_nk a <= k) -> (forall y, y ∈ X -> a_nh a <= y) -> a_nh b <= a_nh c -> a_nk b <= a_nk c ->
  does a (l1 ++ l2) s2 c.
Proof.
  intros (G1&F1&C1&[E1 E2 E3 E4 E5 E6 E7]&O1) (G2&F2&C2&[H1 H2 H3 H4 H5]&O2) HJ HX Hn1 Hn2.
  split; [by eapply goes_trans|]. split; [done|]. split; [done|]. split; [|by rewrite O2, O1, app_assoc].
  split; try congruence; try lia.
  - intros y Hy. rewrite H1; [auto|]. intros Hi. specialize (HX _ Hi). lia.
  - intros y Hy. rewrite H5; [auto|]. intros Hi. specialize (HJ _ Hi). lia.
Qed.

(** ** same_fringe.cpp *)
Definition smooth (u : gmap nat T) (t : tree) : Prop := stored u t /\ Forall (fun v => copy_exn v = None) (inorder t).

Lemma print_all_run ts : forall a fs kk, calm a -> Forall (smooth (a_user a)) ts -> a_foc a = AUser (exec (Go (print_all ts kk)) fs) ->
  exists b, does a (concat (inorder <$> ts)) (exec (Go kk) fs) b.
Proof.
  induction ts as [|t ts IH]; intros a fs kk Hc Ht Hf.
  - exists a. apply look_does; [by apply moves_refl|done].
  - inversion Ht as [|? ? [Ht1 Ht2] Hts]; subst.
    destruct (block a _ _ _ _ (inorder t) None Hc Hf (gen_traverse _ _ _ Ht1 Ht2)) as (b&D1&Hs1&N1&N2); [auto|].
    pose proof D1 as (_&Hf1&Hc1&_).
    destruct (each_of_run _ _ _ _ _ _ _ _ Hc1 Hs1 Hf1) as (c&M2&[F2 F2']&Hs2); [auto|].
    assert (D2 : does a ([] ++ inorder t) (exec (Go (print_all ts Skip)) (FLocal (ODestroy (a_nh a)) kk :: fs)) c).
    { eapply does_moves; [exact D1|exact M2|..]; try lia; [by intros ? ->%elem_of_list_singleton|by intros ? ?%elem_of_nil]. }
    pose proof D2 as (_&Hf2&Hc2&K2&_).
    destruct (IH c (FLocal (ODestroy (a_nh a)) kk :: fs) Skip) as (d&D3); [done|by rewrite (kp_user _ _ K2)|done|].
    assert (Hs3 : source d (a_nh a) (a_nk a) (S (a_nh a)) [] None).
    { eapply source_keeps; [exact Hs2|by destruct D3 as (_&_&_&?&_)|lia..]. }
    destruct (block_does a _ _ d [] None kk fs (Go Skip) (does_trans _ _ _ _ _ _ _ D2 D3)) as (e&D4); [done|auto|done|]. by exists e.
Qed.

(** What std::equal computes; [None]: it would read past the end of the second range. *)
Fixpoint std_equal `{EqDecision T} (l1 l2 : list T) : option bool :=
  match l1, l2 with
  | [], _ => Some true
  | _ :: _, [] => None
  | v :: l1, w :: l2 => if decide (v = w) then std_equal l1 l2 else Some false
  end.
Lemma equal_unfold `{EqDecision T} i e j k : equal_loop i e j k =
  Do (OItNe i e) eq_refl (fun b =>
  match b with
  | AB true =>
      Do (OItDeref i) eq_refl (fun v => Do (OItDeref j) eq_refl (fun w =>
      match v, w with
      | AV v, AV w =>
          if decide (v = w)
          then Do (OItInc i) eq_refl (fun i' => Do (OItInc j) eq_refl (fun j' =>
               match i' with AIt i' => match j' with AIt j' => equal_loop i' e j' k | _ => Skip end | _ => Skip end))
          else k false
      | _, _ => Skip
      end))
  | _ => k true
  end).
Proof. by rewrite (stm_eta (equal_loop _ _ _ _)). Qed.

Lemma equal_run `{EqDecision T} l1 : forall l2 a x1 k1 s1 x2 k2 s2 fs kk, calm a -> source a x1 k1 s1 l1 None -> source a x2 k2 s2 l2 None -> k1 <> k2 ->
  a_foc a = AUser (exec (Go (equal_loop (pos x1 l1) None (pos x2 l2) kk)) fs) ->
  match std_equal l1 l2 with
  | Some r => exists b l1' l2', moves a [k1; k2] [] [] (exec (Go (kk r)) fs) b /\ fixed a b /\ source b x1 k1 s1 l1' None /\ source b x2 k2 s2 l2' None
  | None => exists n, arun n a = AViol
  end.
Proof.
  induction l1 as [|v l1 IH]; intros l2 a x1 k1 s1 x2 k2 s2 fs kk Hc H1 H2 Hk Hf; rewrite equal_unfold in Hf; cbn [std_equal].
  - destruct (do_look _ _ _ _ _ (AB false) [] Hc Hf) as (b&M1&F1); [done|done|].
    exists b, [], l2. split; [eapply moves_weaken; [exact M1|set_solver..]|]. split; [done|]. split; (eapply src_moves; [done|exact M1|set_solver..]).
  - cbn [pos] in Hf.
    destruct (do_look _ _ _ _ _ (AB true) [] Hc Hf) as (b1&M1&F1); [done|done|].
    assert (H11 : source b1 x1 k1 s1 (v :: l1) None) by (eapply src_moves; try done; set_solver).
    assert (H21 : source b1 x2 k2 s2 l2 None) by (eapply src_moves; try done; set_solver).
    destruct (do_deref _ _ _ _ _ _ _ _ _ _ (moves_calm _ _ _ _ _ _ M1) H11 (moves_foc _ _ _ _ _ _ M1)) as (b2&M2&F2).
    assert (H12 : source b2 x1 k1 s1 (v :: l1) None) by (eapply src_moves; try done; set_solver).
    assert (H22 : source b2 x2 k2 s2 l2 None) by (eapply src_moves; try done; set_solver).
    destruct l2 as [|w l2].
    + assert (G : goes a b2) by (eapply goes_trans; [exact (proj1 M1)|exact (proj1 M2)]). destruct G as [n G]. exists (n + 1). rewrite (arun_add _ _ _ _ G). cbn.
      pose proof (moves_foc _ _ _ _ _ _ M2) as Hf2. cbn [pos] in Hf2. rewrite exec_do in Hf2. rewrite (astep_do _ _ _ Hf2 (proj1 (moves_calm _ _ _ _ _ _ M2))). done.
    + destruct (do_deref _ _ _ _ _ _ _ _ _ _ (moves_calm _ _ _ _ _ _ M2) H22 (moves_foc _ _ _ _ _ _ M2)) as (b3&M3&F3).
      assert (H13 : source b3 x1 k1 s1 (v :: l1) None) by (eapply src_moves; try done; set_solver).
      assert (H23 : source b3 x2 k2 s2 (w :: l2) None) by (eapply src_moves; try done; set_solver).
      cbn beta iota in M3. destruct (decide (v = w)) as [->|Hne].
      * destruct (do_inc _ _ _ _ _ _ _ _ _ _ (moves_calm _ _ _ _ _ _ M3) H13 (moves_foc _ _ _ _ _ _ M3)) as (b4&M4&F4&H14).
        assert (M4' : moves b3 [k1] [] [] (exec (Go (Do (OItInc (pos x2 (w :: l2))) eq_refl (fun j' => match j' with AIt j' => equal_loop (pos x1 l1) None j' kk | _ => Skip end))) fs) b4) by (by destruct l1).
        assert (H24 : source b4 x2 k2 s2 (w :: l2) None) by (eapply src_moves; try done; set_solver).
        destruct (do_inc _ _ _ _ _ _ _ _ _ _ (moves_calm _ _ _ _ _ _ M4') H24 (moves_foc _ _ _ _ _ _ M4')) as (b5&M5&F5&H25).
        assert (M5' : moves b4 [k2] [] [] (exec (Go (equal_loop (pos x1 l1) None (pos x2 l2) kk)) fs) b5) by (by destruct l2).
        assert (H15 : source b5 x1 k1 s1 l1 None) by (eapply src_moves; try done; set_solver).
        assert (M : moves a [k1; k2] [] [] (exec (Go (equal_loop (pos x1 l1) None (pos x2 l2) kk)) fs) b5).
        { change (@nil T) with (([] ++ [] ++ []) ++ [] ++ @nil T). eapply moves_trans.
          - eapply moves_weaken; [eapply moves_trans; [exact M1|eapply moves_trans; [exact M2|exact M3|set_solver..]|set_solver..]|set_solver..].
          - eapply moves_trans; [eapply moves_weaken with (J' := [k1; k2]); [exact M4'|set_solver..]|exact M5'|set_solver..].
          - set_solver.
          - set_solver. }
        assert (F : fixed a b5) by eauto using fixed_trans.
        specialize (IH l2 b5 x1 k1 s1 x2 k2 s2 fs kk (moves_calm _ _ _ _ _ _ M) H15 H25 Hk (moves_foc _ _ _ _ _ _ M)).
        destruct (std_equal l1 l2) as [r|].
        -- destruct IH as (c&l1'&l2'&M6&F6&H16&H26). exists c, l1', l2'. split; [|split; [by eapply fixed_trans|done]].
           change (@nil T) with ([] ++ @nil T). eapply moves_trans; [exact M|exact M6|set_solver..].
        -- destruct IH as [n IH]. destruct (proj1 M) as [m G]. exists (m + n). by rewrite (arun_add _ _ _ _ G).
      * exists b3, (v :: l1), (w :: l2). split; [|split; [by eauto using fixed_trans|done]].
        change (@nil T) with ([] ++ [] ++ @nil T). eapply moves_weaken; [eapply moves_trans; [exact M1|eapply moves_trans; [exact M2|exact M3|set_solver..]|set_solver..]|set_solver..].
Qed.

Lemma compare_run `{EqDecision T} yes no t1 t2 a fs kk : calm a -> smooth (a_user a) t1 -> smooth (a_user a) t2 -> a_foc a = AUser (exec (Go (compare yes no t1 t2 kk)) fs) ->
  match std_equal (inorder t1) (inorder t2) with
  | Some r => exists b, does a [if r : bool then yes else no] (exec (Go kk) fs) b
  | None => exists n, arun n a = AViol
  end.
Proof.
  intros Hc [Ht1 Ht1'] [Ht2 Ht2'] Hf.
  destruct (block a _ _ _ _ (inorder t1) None Hc Hf (gen_traverse _ _ _ Ht1 Ht1')) as (b&D1&Hs1&N1&N2); [auto|].
  pose proof D1 as (_&Hf1&Hc1&K1&_). rewrite <- (kp_user _ _ K1) in Ht2.
  destruct (block b _ _ _ _ (inorder t2) None Hc1 Hf1 (gen_traverse _ _ _ Ht2 Ht2')) as (c&D2&Hs2&N3&N4); [auto|].
  pose proof D2 as (_&Hf2&Hc2&K2&_).
  assert (Hs1' : source c (a_nh a) (a_nk a) (S (a_nh a)) (inorder t1) None) by (eapply source_keeps; [exact Hs1|exact K2|lia..]).
  destruct (do_begin _ _ _ _ _ _ _ _ _ Hc2 Hs1' Hf2) as (c1&M1&F1).
  destruct (do_look _ _ _ _ _ (AIt None) [] (moves_calm _ _ _ _ _ _ M1) (moves_foc _ _ _ _ _ _ M1)) as (c2&M2&F2); [done|done|].
  assert (M12 : moves c [] [] ([] ++ []) _ c2) by (eapply moves_trans; [exact M1|exact M2|set_solver..]).
  assert (Hs2' : source c2 (a_nh b) (a_nk b) (S (a_nh b)) (inorder t2) None) by (eapply src_moves; [exact Hs2|exact M12|set_solver..]).
  destruct (do_begin _ _ _ _ _ _ _ _ _ (moves_calm _ _ _ _ _ _ M2) Hs2' (moves_foc _ _ _ _ _ _ M2)) as (c3&M3&F3).
  assert (M123 : moves c [] [] (([] ++ []) ++ []) _ c3) by (eapply moves_trans; [exact M12|exact M3|set_solver..]).
  assert (Hs13 : source c3 (a_nh a) (a_nk a) (S (a_nh a)) (inorder t1) None) by (eapply src_moves; [exact Hs1'|exact M123|set_solver..]).
  assert (Hs23 : source c3 (a_nh b) (a_nk b) (S (a_nh b)) (inorder t2) None) by (eapply src_moves; [exact Hs2|exact M123|set_solver..]).
  eassert (D3 : does a ([] ++ [] ++ (([] ++ []) ++ [])) _ c3).
  { eapply does_trans; [exact D1|]. eapply does_trans; [exact D2|]. eapply look_does; [exact M123|by eauto using fixed_trans]. }
  cbn [app] in D3. assert (F : fixed c c3) by eauto using fixed_trans. destruct F as [F F'].
  pose proof (equal_run (inorder t1) (inorder t2) c3 _ _ _ _ _ _ _ _ (moves_calm _ _ _ _ _ _ M3) Hs13 Hs23 ltac:(lia) (moves_foc _ _ _ _ _ _ M3)) as R.
  destruct (std_equal (inorder t1) (inorder t2)) as [r|].
  - destruct R as (d&l1'&l2'&M4&[F4 F4']&Hs14&Hs24).
    destruct (do_look _ _ _ _ _ AUnit [if r : bool then yes else no] (moves_calm _ _ _ _ _ _ M4) (moves_foc _ _ _ _ _ _ M4)) as (e&M5&[F5 F5']); [done|done|].
    assert (Hs15 : source e (a_nh a) (a_nk a) (S (a_nh a)) l1' None) by (eapply src_moves; [exact Hs14|exact M5|set_solver..]).
    assert (Hs25 : source e (a_nh b) (a_nk b) (S (a_nh b)) l2' None) by (eapply src_moves; [exact Hs24|exact M5|set_solver..]).
    eassert (D4 : does a (([] ++ []) ++ [if r : bool then yes else no]) _ e).
    { eapply does_moves; [eapply does_moves; [exact D3|exact M4|..]|exact M5|..]; try lia; try by intros ? ?%elem_of_nil.
      intros ? [-> |[-> |?%elem_of_nil]%elem_of_cons]%elem_of_cons; lia || done. }
    cbn [app] in D4. pose proof D4 as (_&Hf5&Hc5&_).
    destruct (block_end _ _ _ _ _ _ _ _ _ Hc5 Hs25 Hf5) as (g&M6&[F6 F6']); [auto|].
    eassert (D5 : does a ([if r : bool then yes else no] ++ []) _ g).
    { eapply does_moves; [exact D4|exact M6|..]; try lia.
      - intros ? ->%elem_of_list_singleton; lia.
      - intros ? [-> |[-> |?%elem_of_nil]%elem_of_cons]%elem_of_cons; lia || done. }
    assert (Hs16 : source g (a_nh a) (a_nk a) (S (a_nh a)) l1' None).
    { eapply src_moves; [exact Hs15|exact M6|..]; rewrite ?not_elem_of_cons; repeat split; try lia; apply not_elem_of_nil. }
    exact (block_does a _ _ g l1' None kk fs (Go Skip) D5 eq_refl (or_introl eq_refl) Hs16).
  - destruct R as [n R]. destruct (proj1 D3) as [m G]. exists (m + n). by rewrite (arun_add _ _ _ _ G).
Qed.

Lemma compare_all_run `{EqDecision T} yes no ps rs : forall a fs kk, calm a -> Forall (fun p => smooth (a_user a) p.1 /\ smooth (a_user a) p.2) ps ->
  Forall2 (fun p r => std_equal (inorder p.1) (inorder p.2) = Some r) ps rs -> a_foc a = AUser (exec (Go (compare_all yes no ps kk)) fs) ->
  exists b, does a ((fun r : bool => if r then yes else no) <$> rs) (exec (Go kk) fs) b.
Proof.
  revert rs. induction ps as [|[t1 t2] ps IH]; intros rs a fs kk Hc Ht Hr Hf; inversion Hr as [|? r ? rs' Hr1 Hr2]; subst.
  - exists a. apply look_does; [by apply moves_refl|done].
  - inversion Ht as [|? ? [Ht1 Ht2] Hts]; subst. cbn in *. pose proof (compare_run _ _ _ _ _ _ _ Hc Ht1 Ht2 Hf) as R. rewrite Hr1 in R. destruct R as [b D1].
    pose proof D1 as (_&Hf1&Hc1&K1&_). destruct (IH rs' b fs kk) as [c D2]; [done|by rewrite (kp_user _ _ K1)|done|done|].
    exists c. change (?x :: ?l) with ([x] ++ l). by eapply does_trans.
Qed.

Lemma calm_init p u : calm (ainit p u).
Proof. split; [intros k c fn; cbn; by rewrite lookup_empty|]. cbn. rewrite lookup_empty. repeat split; lia. Qed.

Lemma does_end p u l a : does (ainit p u) l SRet a -> exists n, arun n (ainit p u) = AHalt Finished a /\ output (a_tr a) = l.
Proof.
  intros (G&F&C&K&O). destruct (goes_halt _ _ Finished a G) as [n H]; [|by exists n].
  unfold astep. rewrite F. unfold do_leave. rewrite (kp_cur _ _ K). done.
Qed.

Lemma same_fringe_run `{EqDecision T} yes no fin ts ps rs u : Forall (smooth u) ts -> Forall (fun p => smooth u p.1 /\ smooth u p.2) ps ->
  Forall2 (fun p r => std_equal (inorder p.1) (inorder p.2) = Some r) ps rs ->
  exists n a, arun n (ainit (same_fringe yes no fin ts ps) u) = AHalt Finished a /\
    output (a_tr a) = concat (inorder <$> ts) ++ ((fun r : bool => if r then yes else no) <$> rs) ++ [fin].
Proof.
  intros Ht Hp Hr. destruct (print_all_run ts (ainit (same_fringe yes no fin ts ps) u) [] (compare_all yes no ps (emit fin Skip))) as [b D1]; [apply calm_init|done|done|].
  pose proof D1 as (_&Hf1&Hc1&K1&_).
  destruct (compare_all_run yes no ps rs b [] (emit fin Skip)) as [c D2]; [done|by rewrite (kp_user _ _ K1)|done|done|].
  pose proof D2 as (_&Hf2&Hc2&_).
  destruct (do_look _ _ _ _ _ AUnit [fin] Hc2 Hf2) as (d&M&F); [done|done|]. rewrite exec_skip0 in M.
  destruct (does_end _ _ _ d (does_trans _ _ _ _ _ _ _ D1 (does_trans _ _ _ _ _ _ _ D2 (look_does _ _ _ _ M F)))) as (n&H1&H2). by exists n, d.
Qed.

(** ** A range-for loop *)
Lemma tau_return fs : rtc tau (exec (Go Return) fs) (exec Ret fs).
Proof. rewrite exec_return. eapply rtc_l; [constructor|apply rtc_refl]. Qed.
Lemma tau_try_ret hd kk : rtc tau (exec Ret [FTry hd kk]) SRet.
Proof. rewrite (strat_eta (exec _ _)). cbn. rewrite exec_ret0. eapply rtc_l; [constructor|apply rtc_refl]. Qed.
Lemma tau_block_ret kk : rtc tau (exec Ret [FBlock kk]) SRet.
Proof. rewrite (strat_eta (exec _ _)). cbn. rewrite exec_ret0. eapply rtc_l; [constructor|apply rtc_refl]. Qed.
Lemma tau_catch e hd kk fs : rtc tau (exec (Exn (XUser e)) (FTry hd kk :: fs)) (exec (Go (hd e)) (FBlock kk :: fs)).
Proof. rewrite (strat_eta (exec _ _)). cbn. eapply rtc_l; [constructor|apply rtc_refl]. Qed.

Lemma does_tau a l s s' b : does a l s b -> rtc tau s s' -> exists c, does a l s' c /\ forall x k s vs f, source b x k s vs f -> source c x k s vs f.
Proof.
  intros (G1&F1&C1&S1&O1) Ht. destruct (goes_tau _ _ _ F1 Ht) as (c&G2&->). exists (w_foc (AUser s') b).
  split; [|intros x k y vs f Hs; apply (source_same b _ _ _ _ _ _ [] []); [done|by split|apply not_elem_of_nil..]]. split; [by eapply goes_trans|]. split; [done|]. split; [done|]. split; [|done]. destruct S1 as [E1 E2 E3 E4 E5 E6 E7]. by split.
Qed.

Lemma range_run fn fin caught u vs f : gen u 1 (exec (Go (fn 1)) []) vs f ->
  exists n a, arun n (ainit (range_main fn fin caught) u) = AHalt Finished a /\ output (a_tr a) = vs ++ [match f with None => fin | Some e => caught e end].
Proof.
  intros G. set (a := ainit (range_main fn fin caught) u).
  set (body := LocalCo Pull KVal plain_new fn (fun seq => each_of seq (emit fin Return)) Skip).
  set (fs := [FTry (fun e => emit (caught e) Return) Skip]).
  assert (exists b, does a [] (exec (Go body) fs) b /\ a_nh b = 0 /\ a_user b = u) as (b&D0&Hnh&Hu).
  { destruct (goes_tau a (range_main fn fin caught) (exec (Go body) fs) eq_refl) as (b&G1&->).
    - unfold range_main, cxx. rewrite exec_try. eapply rtc_l; [constructor|apply rtc_refl].
    - exists (w_foc (AUser (exec (Go body) fs)) a). split; [|done]. split; [done|]. split; [done|]. split; [apply (calm_init (range_main fn fin caught) u)|]. split; [by split|done]. }
  assert (Hend : forall l e c, does a l (exec (Exn (XUser e)) fs) c -> exists n a', arun n a = AHalt Finished a' /\ output (a_tr a') = l ++ [caught e]).
  { intros l e c D. destruct (does_tau _ _ _ _ _ D (tau_catch _ _ _ _)) as [d [D1 _]]. pose proof D1 as (_&Hf&Hc&_).
    destruct (do_look _ _ _ _ _ AUnit [caught e] Hc Hf) as (g&M&F); [done|done|].
    assert (Ht : rtc tau (exec (Go Return) [FBlock Skip]) SRet) by (eapply rtc_transitive; [apply tau_return|apply tau_block_ret]).
    destruct (does_tau _ _ _ _ _ (does_trans _ _ _ _ _ _ _ D1 (look_does _ _ _ _ M F)) Ht) as [i [D2 _]]. destruct (does_end _ _ _ _ D2) as (n&H1&H2). by exists n, i. }
  pose proof D0 as (_&Hf0&Hc0&_). rewrite <- Hu in G.
  assert (Hv : (vs <> [] \/ f = None) \/ vs = [] /\ exists e, f = Some e) by (destruct vs, f; eauto). destruct Hv as [Hv|(->&e&->)].
  - destruct (block b _ _ _ _ vs f Hc0 Hf0) as (c&D1&Hs1&N1&N2); [by rewrite Hnh|done|]. pose proof D1 as (_&Hf1&Hc1&_).
    destruct (each_of_run _ _ _ _ _ _ _ _ Hc1 Hs1 Hf1 Hv) as (d&M2&[F2 F2']&Hs2).
    eassert (D2 : does b ([] ++ vs) _ d).
    { eapply does_moves; [exact D1|exact M2|by intros ? ->%elem_of_list_singleton|by intros ? ?%elem_of_nil|lia|lia]. }
    pose proof D2 as (_&Hf2&Hc2&_). destruct f as [e|]; cbn [leave_by] in *.
    + destruct (block_does b _ _ d [] (Some e) Skip fs (Exn (XUser e)) D2) as [i D4]; [done|eauto|done|].
      exact (Hend _ _ _ (does_trans _ _ _ _ _ _ _ D0 D4)).
    + destruct (do_look _ _ _ _ _ AUnit [fin] Hc2 Hf2) as (e&M3&F3); [done|done|].
      destruct (does_tau _ _ _ _ _ (does_trans _ _ _ _ _ _ _ D2 (look_does _ _ _ _ M3 F3)) (tau_return _)) as [g [D3 Hg]].
      assert (Hs3 : source g (a_nh b) (a_nk b) (S (a_nh b)) [] None) by (apply Hg; eapply src_moves; [exact Hs2|exact M3|apply not_elem_of_nil..]).
      destruct (block_does b _ _ g [] None Skip fs Ret D3) as [i D4]; [done|auto|done|].
      destruct (does_tau _ _ _ _ _ (does_trans _ _ _ _ _ _ _ D0 D4) (tau_try_ret _ _)) as [j [D5 _]]. destruct (does_end _ _ _ _ D5) as (n&H1&H2). by exists n, j.
  - destruct (block_throws b _ _ _ _ e Hc0 Hf0) as [c D1]; [by rewrite Hnh|]. exact (Hend _ _ _ (does_trans _ _ _ _ _ _ _ D0 D1)).
Qed.

Lemma std_equal_prefix `{EqDecision T} l1 l2 : length l1 <= length l2 -> std_equal l1 l2 = Some (bool_decide (l1 `prefix_of` l2)).
Proof.
  revert l2. induction l1 as [|v l1 IH]; intros [|w l2] Hl; cbn in *; try lia.
  - by rewrite bool_decide_true by apply prefix_nil.
  - by rewrite bool_decide_true by apply prefix_nil.
  - case_decide as E.
    + rewrite IH by lia. f_equal. apply bool_decide_ext. subst. split; [apply prefix_cons|apply prefix_cons_inv_2].
    + f_equal. symmetry. apply bool_decide_eq_false. intros Hp. apply E. by eapply prefix_cons_inv_1.
Qed.
Lemma std_equal_same `{EqDecision T} l1 l2 : length l1 = length l2 -> std_equal l1 l2 = Some (bool_decide (l1 = l2)).
Proof.
  intros Hl. rewrite std_equal_prefix by lia. f_equal. apply bool_decide_ext. split; [|by intros ->]. intros [l ->].
  rewrite app_length in Hl. destruct l; [by rewrite app_nil_r|cbn in Hl; lia].
Qed.
Lemma std_equal_short `{EqDecision T} l1 l2 : std_equal l1 l2 = None <-> exists v l, l1 = l2 ++ v :: l.
Proof.
  split.
  - revert l2. induction l1 as [|v l1 IH]; intros [|w l2]; cbn; try done; [eauto|]. case_decide; [|done]. subst. intros (v&l&->)%IH. by exists v, l.
  - intros (v&l&->). induction l2 as [|w l2 IH]; [done|]. cbn. by rewrite decide_True.
Qed.

(** ** parser.cpp *)
Section parser.
Context (cls : T -> ckind) (perr : E).

Notation scan := (scan cls).
Notation next_is := (next_is cls).
Notation reports := (reports cls).
Notation parse := (parse cls perr).

Definition size (st : pstate) : nat := length st.2 + match st.1 with Some _ => 1 | None => 0 end.
Definition rank (nt : nonterm) : nat := match nt with NE => 3 | NT => 2 | NS => 1 | _ => 0 end.
Lemma scan_size l : size (scan l) <= length l.
Proof. induction l as [|c l IH]; [done|]. cbn. destruct (cls c); unfold size in *; cbn; lia. Qed.
Lemma next_size st k c : next_is st k = Some c -> size (scan st.2) < size st.
Proof.
  intros H. pose proof (scan_size st.2). unfold next_is in H. unfold size in *. destruct st as [[d|] l]; cbn in *; [lia|done].
Qed.

Definition after (k : pstate -> stm) (r : option pstate) : stm := match r with Some st => k st | None => Throw perr end.

Lemma parse_reports y n : forall nt st, 4 * size st + rank nt < n ->
  exists o r, reports nt st o r /\ (forall st', r = Some st' -> size st' <= size st) /\ forall k, parse y n nt st k = produce y (AImm <$> o) (after k r).
Proof.
  induction n as [|n IH]; intros nt st Hn; [lia|]. destruct nt; cbn [rank] in Hn.
  - destruct (IH NT st) as (o1&[st1|]&R1&S1&P1); [cbn [rank]; lia|..].
    + specialize (S1 _ eq_refl). destruct (IH NEs st1) as (o2&r&R2&S2&P2); [cbn [rank]; lia|]. exists (o1 ++ o2), r. split; [by eapply rp_E|].
      split; [intros st' E; specialize (S2 _ E); lia|]. intros k. cbn [parse]. rewrite P1. cbn [after]. by rewrite P2, fmap_app, produce_app.
    + exists o1, None. split; [by apply rp_Ex|]. split; [done|]. intros k. cbn [parse]. by rewrite P1.
  - destruct (next_is st CAdd) as [c|] eqn:E.
    + pose proof (next_size _ _ _ E). destruct (IH NT (scan st.2)) as (o1&[st1|]&R1&S1&P1); [cbn [rank]; lia|..].
      * specialize (S1 _ eq_refl). destruct (IH NEs st1) as (o2&r&R2&S2&P2); [cbn [rank]; lia|]. exists (c :: o1 ++ o2), r. split; [by eapply rp_Es|].
        split; [intros st' E'; specialize (S2 _ E'); lia|]. intros k. cbn [parse]. rewrite E, P1. cbn [after]. rewrite P2. cbn. by rewrite fmap_app, produce_app.
      * exists (c :: o1), None. split; [by apply rp_Esx|]. split; [done|]. intros k. cbn [parse]. by rewrite E, P1.
    + exists [], (Some st). split; [by apply rp_Es0|]. split; [by intros ? [= <-]|]. intros k. cbn [parse]. by rewrite E.
  - destruct (IH NS st) as (o1&[st1|]&R1&S1&P1); [cbn [rank]; lia|..].
    + specialize (S1 _ eq_refl). destruct (IH NTs st1) as (o2&r&R2&S2&P2); [cbn [rank]; lia|]. exists (o1 ++ o2), r. split; [by eapply rp_T|].
      split; [intros st' E; specialize (S2 _ E); lia|]. intros k. cbn [parse]. rewrite P1. cbn [after]. by rewrite P2, fmap_app, produce_app.
    + exists o1, None. split; [by apply rp_Tx|]. split; [done|]. intros k. cbn [parse]. by rewrite P1.
  - destruct (next_is st CMul) as [c|] eqn:E.
    + pose proof (next_size _ _ _ E). destruct (IH NS (scan st.2)) as (o1&[st1|]&R1&S1&P1); [cbn [rank]; lia|..].
      * specialize (S1 _ eq_refl). destruct (IH NTs st1) as (o2&r&R2&S2&P2); [cbn [rank]; lia|]. exists (c :: o1 ++ o2), r. split; [by eapply rp_Ts|].
        split; [intros st' E'; specialize (S2 _ E'); lia|]. intros k. cbn [parse]. rewrite E, P1. cbn [after]. rewrite P2. cbn. by rewrite fmap_app, produce_app.
      * exists (c :: o1), None. split; [by apply rp_Tsx|]. split; [done|]. intros k. cbn [parse]. by rewrite E, P1.
    + exists [], (Some st). split; [by apply rp_Ts0|]. split; [by intros ? [= <-]|]. intros k. cbn [parse]. by rewrite E.
  - destruct (next_is st CDigit) as [c|] eqn:E.
    + pose proof (next_size _ _ _ E). exists [c], (Some (scan st.2)). split; [by apply rp_Sd|]. split; [intros ? [= <-]; lia|]. intros k. cbn [parse]. by rewrite E.
    + destruct (next_is st COpen) as [c|] eqn:E2.
      * pose proof (next_size _ _ _ E2). destruct (IH NE (scan st.2)) as (o1&[st1|]&R1&S1&P1); [cbn [rank]; lia|..].
        -- specialize (S1 _ eq_refl). destruct (next_is st1 CClose) as [d|] eqn:E3.
           ++ pose proof (next_size _ _ _ E3). exists (c :: o1 ++ [d]), (Some (scan st1.2)). split; [by eapply rp_Sp|]. split; [intros ? [= <-]; lia|].
              intros k. cbn [parse]. rewrite E, E2, P1. cbn [after]. rewrite E3. cbn. by rewrite fmap_app, produce_app.
           ++ exists (c :: o1), None. split; [by eapply rp_Spc|]. split; [done|]. intros k. cbn [parse]. rewrite E, E2, P1. cbn [after]. by rewrite E3.
        -- exists (c :: o1), None. split; [by eapply rp_Spx|]. split; [done|]. intros k. cbn [parse]. by rewrite E, E2, P1.
      * exists [], None. split; [by eapply rp_S0|]. split; [done|]. intros k. cbn [parse]. by rewrite E, E2.
Qed.

Lemma reports_det nt st o r : reports nt st o r -> forall o' r', reports nt st o' r' -> o' = o /\ r' = r.
Proof.
  induction 1; intros o' r' H'; inversion H'; subst; simplify_eq;
    repeat match goal with
    | IH : forall o r, reports ?nt ?st o r -> _, H : reports ?nt ?st _ _ |- _ =>
        let E1 := fresh in let E2 := fresh in destruct (IH _ _ H) as [E1 E2]; clear H; simplify_eq
    end; done.
Qed.

Lemma parse_gen y u text : (forall v, move_exn v = None) -> exists o r, reports NE (scan text) o r /\
  gen u y (exec (Go (parse y (depth text) NE (scan text) (fun _ => Skip))) []) o (match r with Some _ => None | None => Some perr end).
Proof.
  intros Hm. destruct (parse_reports y (depth text) NE (scan text)) as (o&r&R&_&P).
  { pose proof (scan_size text). unfold depth. cbn [rank]. lia. }
  exists o, r. split; [done|]. rewrite P. apply gen_produce.
  - clear R P. induction o as [|v o IH]; [constructor|]. constructor; [|done]. split; [done|]. cbn. by rewrite Hm.
  - destruct r; [apply gen_skip|apply gen_throws].
Qed.

Definition accepted (r : option pstate) : bool := match r with Some _ => true | None => false end.
Lemma parser_run fin failed text u : (forall v, move_exn v = None) -> exists o r, reports NE (scan text) o r /\
  exists n a, arun n (ainit (parser_main cls perr fin failed text) u) = AHalt Finished a /\ output (a_tr a) = o ++ [if accepted r then fin else failed].
Proof.
  intros Hm. destruct (parse_gen 1 u text Hm) as (o&r&R&G). exists o, r. split; [done|].
  destruct (range_run (fun yield => parse yield (depth text) NE (scan text) (fun _ => Skip)) fin (fun _ => failed) u _ _ G) as (n&a&H1&H2). exists n, a. split; [done|]. rewrite H2. by destruct r.
Qed.

(** The grammar. *)
Notation nonspace := (nonspace cls).
Notation derives := (derives cls).
Definition tokens (st : pstate) : list T := match st.1 with Some c => c :: nonspace st.2 | None => nonspace st.2 end.
Definition well (st : pstate) : Prop := match st.1 with Some c => cls c <> CSpace | None => nonspace st.2 = [] end.
Lemma scan_tokens l : tokens (scan l) = nonspace l /\ well (scan l).
Proof.
  induction l as [|c l [IH1 IH2]]; [done|]. cbn. destruct (cls c) eqn:E; unfold tokens, well, nonspace in *; cbn; try (rewrite filter_cons_True by (by rewrite E)); try (split; [done|congruence]).
Qed.
Lemma next_tokens st k c : well st -> next_is st k = Some c -> tokens st = c :: tokens (scan st.2) /\ cls c = k.
Proof.
  destruct st as [[d|] l]; [|done]. unfold next_is, tokens. cbn. intros _ H. pose proof (proj1 (scan_tokens l)) as E. unfold tokens in E. rewrite E.
  destruct (cls d) eqn:Ed, k; simplify_eq; done.
Qed.
Lemma next_head st k c r : well st -> tokens st = c :: r -> cls c = k -> k <> CSpace -> k <> COther -> next_is st k = Some c.
Proof.
  destruct st as [[d|] l]; unfold well, tokens, next_is; cbn; [|by intros -> ?]. intros _ [= -> _] <- H1 H2. by destruct (cls c).
Qed.
Lemma next_not st k : well st -> (forall c r, tokens st = c :: r -> cls c <> k) -> next_is st k = None.
Proof.
  intros Hw H. destruct (next_is st k) as [c|] eqn:E; [|done]. destruct (next_tokens _ _ _ Hw E) as [E1 E2]. by destruct (H _ _ E1).
Qed.

(** The parser reports what it consumes, accepts only what the grammar derives, and goes on
    as long as it can. *)
Definition stops (nt : nonterm) (r : list T) : Prop :=
  match r with
  | [] => True
  | c :: _ => match nt with NE | NEs => cls c <> CAdd /\ cls c <> CMul | NT | NTs => cls c <> CMul | NS => True end
  end.
Lemma reports_sound nt st o r : reports nt st o r -> well st -> (exists l, tokens st = o ++ l) /\
  forall st', r = Some st' -> well st' /\ tokens st = o ++ tokens st' /\ derives nt o.
Proof.
  assert (Hsc : forall l, well (scan l)) by (intros l; apply scan_tokens).
  induction 1 as [st o1 st1 o2 r _ IH1 _ IH2|st o1 _ IH1|st c o1 st1 o2 r E _ IH1 _ IH2|st c o1 E _ IH1|st E|st o1 st1 o2 r _ IH1 _ IH2|st o1 _ IH1|st c o1 st1 o2 r E _ IH1 _ IH2|st c o1 E _ IH1|st E|st c E|st c o1 st1 d E0 E _ IH1 E1|st c o1 E0 E _ IH1|st c o1 st1 E0 E _ IH1 E1|st E0 E]; intros Hw.
  - destruct (IH1 Hw) as [_ IH]. destruct (IH _ eq_refl) as (W1&T1&D1). destruct (IH2 W1) as [[l El] IH']. split; [exists l; by rewrite T1, El, app_assoc|].
    intros st' Est. destruct (IH' _ Est) as (W2&T2&D2). split; [done|]. split; [by rewrite T1, T2, app_assoc|by constructor].
  - destruct (IH1 Hw) as [[l El] _]. split; [by exists l|done].
  - destruct (next_tokens _ _ _ Hw E) as [T0 C0]. destruct (IH1 (Hsc _)) as [_ IH]. destruct (IH _ eq_refl) as (W1&T1&D1). destruct (IH2 W1) as [[l El] IH'].
    split; [exists l; by rewrite T0, T1, El, app_assoc|]. intros st' Est. destruct (IH' _ Est) as (W2&T2&D2). split; [done|]. split; [by rewrite T0, T1, T2, app_assoc|by constructor].
  - destruct (next_tokens _ _ _ Hw E) as [T0 C0]. destruct (IH1 (Hsc _)) as [[l El] _]. split; [exists l; by rewrite T0, El|done].
  - split; [by eexists|]. intros ? [= <-]. split; [done|]. split; [done|constructor].
  - destruct (IH1 Hw) as [_ IH]. destruct (IH _ eq_refl) as (W1&T1&D1). destruct (IH2 W1) as [[l El] IH']. split; [exists l; by rewrite T1, El, app_assoc|].
    intros st' Est. destruct (IH' _ Est) as (W2&T2&D2). split; [done|]. split; [by rewrite T1, T2, app_assoc|by constructor].
  - destruct (IH1 Hw) as [[l El] _]. split; [by exists l|done].
  - destruct (next_tokens _ _ _ Hw E) as [T0 C0]. destruct (IH1 (Hsc _)) as [_ IH]. destruct (IH _ eq_refl) as (W1&T1&D1). destruct (IH2 W1) as [[l El] IH'].
    split; [exists l; by rewrite T0, T1, El, app_assoc|]. intros st' Est. destruct (IH' _ Est) as (W2&T2&D2). split; [done|]. split; [by rewrite T0, T1, T2, app_assoc|by constructor].
  - destruct (next_tokens _ _ _ Hw E) as [T0 C0]. destruct (IH1 (Hsc _)) as [[l El] _]. split; [exists l; by rewrite T0, El|done].
  - split; [by eexists|]. intros ? [= <-]. split; [done|]. split; [done|constructor].
  - destruct (next_tokens _ _ _ Hw E) as [T0 C0]. split; [eexists; by rewrite T0|]. intros ? [= <-]. split; [apply Hsc|]. split; [by rewrite T0|by constructor].
  - destruct (next_tokens _ _ _ Hw E) as [T0 C0]. destruct (IH1 (Hsc _)) as [_ IH]. destruct (IH _ eq_refl) as (W1&T1&D1). destruct (next_tokens _ _ _ W1 E1) as [T2 C2].
    split; [exists (tokens (scan st1.2)); by rewrite T0, T1, T2; cbn; rewrite <- app_assoc|]. intros ? [= <-]. split; [apply Hsc|]. split; [by rewrite T0, T1, T2; cbn; rewrite <- app_assoc|by constructor].
  - destruct (next_tokens _ _ _ Hw E) as [T0 C0]. destruct (IH1 (Hsc _)) as [[l El] _]. split; [exists l; by rewrite T0, El|done].
  - destruct (next_tokens _ _ _ Hw E) as [T0 C0]. destruct (IH1 (Hsc _)) as [[l El] _]. split; [exists l; by rewrite T0, El|done].
  - split; [by eexists|done].
Qed.
Lemma next_none st k c l : next_is st k = None -> well st -> tokens st = c :: l -> k <> CSpace -> k <> COther -> cls c <> k.
Proof. intros E Hw Et H1 H2 <-. by rewrite (next_head _ _ _ _ Hw Et eq_refl) in E. Qed.
Lemma reports_stops nt st o r : reports nt st o r -> well st -> forall st', r = Some st' -> (nt = NEs -> stops NT (tokens st)) -> stops nt (tokens st').
Proof.
  assert (Hsc : forall l, well (scan l)) by (intros l; apply scan_tokens).
  induction 1 as [st o1 st1 o2 r R1 IH1 R2 IH2|st o1 _ IH1|st c o1 st1 o2 r E R1 IH1 R2 IH2|st c o1 E _ IH1|st E|st o1 st1 o2 r R1 IH1 R2 IH2|st o1 _ IH1|st c o1 st1 o2 r E R1 IH1 R2 IH2|st c o1 E _ IH1|st E|st c E|st c o1 st1 d E0 E R1 IH1 E1|st c o1 E0 E _ IH1|st c o1 st1 E0 E R1 IH1 E1|st E0 E]; intros Hw st' Er Hs; simplify_eq.
  - destruct (reports_sound _ _ _ _ R1 Hw) as [_ H1]. destruct (H1 _ eq_refl) as [W1 _]. apply (IH2 W1 _ eq_refl). intros _. by apply (IH1 Hw).
  - destruct (reports_sound _ _ _ _ R1 (Hsc _)) as [_ H1]. destruct (H1 _ eq_refl) as [W1 _]. apply (IH2 W1 _ eq_refl). intros _. by apply (IH1 (Hsc _)).
  - specialize (Hs eq_refl). unfold stops in *. destruct (tokens st') as [|c l] eqn:Et; [done|]. split; [by eapply next_none|done].
  - destruct (reports_sound _ _ _ _ R1 Hw) as [_ H1]. destruct (H1 _ eq_refl) as [W1 _]. by apply (IH2 W1 _ eq_refl).
  - destruct (reports_sound _ _ _ _ R1 (Hsc _)) as [_ H1]. destruct (H1 _ eq_refl) as [W1 _]. by apply (IH2 W1 _ eq_refl).
  - unfold stops. destruct (tokens st') as [|c l] eqn:Et; [done|]. by eapply next_none.
  - unfold stops. by destruct (tokens (scan st.2)).
  - unfold stops. by destruct (tokens (scan st1.2)).
Qed.

(** Whatever the grammar derives is accepted, if it cannot be continued. *)
Lemma derives_reports nt w : derives nt w -> forall st r, well st -> tokens st = w ++ r -> stops nt r ->
  exists st', well st' /\ tokens st' = r /\ reports nt st w (Some st').
Proof.
  assert (Hsc : forall l, well (scan l)) by (intros l; apply scan_tokens).
  assert (Hhead : forall l, derives NEs l -> forall r, stops NE r -> stops NT (l ++ r)).
  { intros l Hd r Hr. inversion Hd as [|c l1 l2 Hc| | | | | | ]; subst; cbn; [by rewrite Hc|]. destruct r; cbn in *; [done|]. by destruct Hr. }
  assert (Hstep : forall st k c l, well st -> tokens st = c :: l -> cls c = k -> k <> CSpace -> k <> COther -> next_is st k = Some c /\ tokens (scan st.2) = l).
  { intros st k c l Hw Et Hc H1 H2. pose proof (next_head _ _ _ _ Hw Et Hc H1 H2) as E. split; [done|]. destruct (next_tokens _ _ _ Hw E) as [E' _]. congruence. }
  induction 1 as [l1 l2 D1 IH1 D2 IH2|c l1 l2 Hc D1 IH1 D2 IH2| |l1 l2 D1 IH1 D2 IH2|c l1 l2 Hc D1 IH1 D2 IH2| |c Hc|c l d Hc D1 IH1 Hd]; intros st r Hw Et Hs.
  - rewrite <- app_assoc in Et. destruct (IH1 st (l2 ++ r) Hw Et) as (st1&W1&T1&R1); [by apply Hhead|]. destruct (IH2 st1 r W1 T1) as (st2&W2&T2&R2); [done|].
    exists st2. split; [done|]. split; [done|]. by eapply rp_E.
  - cbn in Et. destruct (Hstep _ _ _ _ Hw Et Hc) as [E0 T0]; [done..|]. rewrite <- app_assoc in T0. destruct (IH1 _ (l2 ++ r) (Hsc _) T0) as (st1&W1&T1&R1); [by apply Hhead|].
    destruct (IH2 st1 r W1 T1) as (st2&W2&T2&R2); [done|]. exists st2. split; [done|]. split; [done|]. by eapply rp_Es.
  - exists st. split; [done|]. split; [done|]. apply rp_Es0. apply next_not; [done|]. cbn in Et. intros c l El. rewrite El in Et. subst. by destruct Hs.
  - rewrite <- app_assoc in Et. destruct (IH1 st (l2 ++ r) Hw Et) as (st1&W1&T1&R1); [destruct (l2 ++ r); exact I|]. destruct (IH2 st1 r W1 T1) as (st2&W2&T2&R2); [done|].
    exists st2. split; [done|]. split; [done|]. by eapply rp_T.
  - cbn in Et. destruct (Hstep _ _ _ _ Hw Et Hc) as [E0 T0]; [done..|]. rewrite <- app_assoc in T0. destruct (IH1 _ (l2 ++ r) (Hsc _) T0) as (st1&W1&T1&R1); [destruct (l2 ++ r); exact I|].
    destruct (IH2 st1 r W1 T1) as (st2&W2&T2&R2); [done|]. exists st2. split; [done|]. split; [done|]. by eapply rp_Ts.
  - exists st. split; [done|]. split; [done|]. apply rp_Ts0. apply next_not; [done|]. cbn in Et. intros c l El. rewrite El in Et. by subst.
  - cbn in Et. destruct (Hstep _ _ _ _ Hw Et Hc) as [E0 T0]; [done..|]. exists (scan st.2). split; [apply Hsc|]. split; [done|]. by apply rp_Sd.
  - cbn in Et. destruct (Hstep _ _ _ _ Hw Et Hc) as [E0 T0]; [done..|]. rewrite <- app_assoc in T0. destruct (IH1 _ ([d] ++ r) (Hsc _) T0) as (st1&W1&T1&R1); [cbn; by rewrite Hd|].
    destruct (Hstep _ _ _ _ W1 T1 Hd) as [E1 T2]; [done..|]. exists (scan st1.2). split; [apply Hsc|]. split; [done|]. eapply rp_Sp; try done.
    apply next_not; [done|]. intros c' l' El. rewrite El in Et. injection Et as -> _. by rewrite Hc.
Qed.

End parser.

End factsprog.
