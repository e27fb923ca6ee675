(** FactsLayout.v -- executing example/layout.cpp (Progs.v): proofs. *)
From stdpp Require Import prelude gmap relations.
From Coq Require Import Lia.
From Verif Require Import Base Model Spec InvSpec Main Hist Trace Cpp FactsReplay Progs Steps FactsProg.

Local Opaque gmap_lookup map_insert map_delete gmap_partial_alter.

Section layout.
Context {env : Env} (nl fin : T) (num : nat).

Notation FS := ([FLocal (dtor 0) Skip]).
Notation W i := (exec (Go (write nl num i 1)) FS).

Lemma write_unfold i : write nl num i 1 =
  if Nat.ltb i num
  then Do (ONot 1) eq_refl (fun b =>
       match b with
       | AB false => Do (OGet 1) eq_refl (fun w =>
           match w with AV w => Do (OEmit w) eq_refl (fun _ => Do (OResume 1) eq_refl (fun _ => write nl num (S i) 1)) | _ => Skip end)
       | _ => Return
       end)
  else Do (OEmit nl) eq_refl (fun _ => write nl num 0 1).
Proof. rewrite (stm_eta (write _ _ _ _)). match goal with |- _ = ?r => transitivity (stm_id r); [reflexivity|] end. by destruct (Nat.ltb i num). Qed.
Lemma write_word i : i < num -> write nl num i 1 =
  Do (ONot 1) eq_refl (fun b =>
       match b with
       | AB false => Do (OGet 1) eq_refl (fun w =>
           match w with AV w => Do (OEmit w) eq_refl (fun _ => Do (OResume 1) eq_refl (fun _ => write nl num (S i) 1)) | _ => Skip end)
       | _ => Return
       end).
Proof. intros H%Nat.ltb_lt. rewrite write_unfold. by rewrite H. Qed.
Lemma write_break : write nl num num 1 = Do (OEmit nl) eq_refl (fun _ => write nl num 0 1).
Proof. rewrite write_unfold. by rewrite Nat.ltb_irrefl. Qed.

(** The state of main between two words: the coroutine is suspended with [i] words on the
    current line, or has not been entered. *)
Definition entry : nat -> strat := fun s => exec (Go (Local 0 (write nl num 0 s) Skip)) [].
Definition ready (e : bool) (st : astatus) (i : nat) : Prop :=
  (e = false /\ st = ANew entry /\ i = 0) \/
  e = true /\ exists o kp, st = ASusp o PoUnit kp /\ kp (ROk AUnit) = W i /\ kp (RExn XUnwind) = exec (Exn XUnwind) FS.

Record there (a : astate) (c : acoro) : Prop := {
  th_h : a_h a = <[ 0 := HObj Push KVal (Some (Outer 1)) ]> (<[ 1 := HObj Pull KVal (Some (Inner 1)) ]> ∅);
  th_co : a_co a = {[ 1 := c ]};
  th_c : exists st sl b, c = ACo Push KVal st sl 1 b /\ sl <> SlBad }.

Lemma there_h0 a c : there a c -> a_h a !! 0 = Some (HObj Push KVal (Some (Outer 1))).
Proof. intros [E _ _]. by rewrite E, lookup_insert. Qed.
Lemma there_h1 a c : there a c -> a_h a !! 1 = Some (HObj Pull KVal (Some (Inner 1))).
Proof. intros [E _ _]. by rewrite E, lookup_insert_ne, lookup_insert. Qed.
Lemma there_c a c : there a c -> a_co a !! 1 = Some c.
Proof. intros [_ E _]. by rewrite E, lookup_singleton. Qed.
Lemma there_known a c : there a c -> known a 0 = true.
Proof.
  intros [_ E (st&sl&b&->&_)]. unfold known. apply bool_decide_eq_true. rewrite E. apply map_Forall_singleton. unfold hides. cbn. by destruct st.
Qed.
Lemma there_known1 a c : there a c -> (forall fn, ac_st c <> ANew fn) -> known a 1 = true.
Proof.
  intros [_ E (st&sl&b&->&_)] H. unfold known. apply bool_decide_eq_true. rewrite E. apply map_Forall_singleton. unfold hides. cbn in *. destruct st; try done. by destruct (H fn).
Qed.

Lemma astep_op a o k : a_foc a = AUser (SDo o k) -> forallb (known a) (op_hs o) = true -> astep a = do_op o k (alog (EvCall (a_cur a) (NOp o)) a).
Proof. intros H E. unfold astep. by rewrite H, E. Qed.

(** While the coroutine runs: it has the value [v] in its slot. *)
Record run (a : astate) (v : payload) (kk : resp -> strat) (s : strat) (L : list T) : Prop := {
  rn_there : exists b, there a (ACo Push KVal ARun (SlFull v) 1 b) /\ b = 0;
  rn_wait : exists o, a_wait a = {[ 0 := WOp 1 o (PoOut 0) kk ]};
  rn_cur : a_cur a = 1;
  rn_foc : a_foc a = AUser s;
  rn_scr : screen nl (a_tr a) = L }.

Lemma run_known a v kk s L : run a v kk s L -> known a 0 = true /\ known a 1 = true.
Proof. intros [(b&H&_) _ _ _ _]. split; [by eapply there_known|by eapply there_known1]. Qed.

Lemma run_look a v kk L o k r l : run a v kk (SDo o k) L -> forallb (known a) (op_hs o) = true ->
  do_op o k (alog (EvCall (a_cur a) (NOp o)) a) = ret_to (NOp o) r k (alog (EvCall (a_cur a) (NOp o)) a) ->
  screen nl [EvCall (a_cur a) (NOp o)] = l -> exists a', goes a a' /\ run a' v kk (k (ROk r)) (L ++ l).
Proof.
  intros [H1 H2 H3 H4 H5] Hk E <-. eexists. split; [apply goes_step; rewrite (astep_op _ _ _ H4 Hk), E; unfold ret_to; reflexivity|].
  destruct H1 as (b&[T1 T2 T3]&->). split; cbn; try done.
  - exists 0. split; [|done]. split; cbn; [done|done|by eexists _, _, _].
  - rewrite H5. destruct o as [h|h1 h2|h|h|h g|h|h|h|h| |[h|]|[h|]|i j|i j|h| |[h|] g|w|n|l|l w]; cbn; rewrite ?app_nil_r; try done.
    destruct n as [|[|n]]; by rewrite ?app_nil_r.
Qed.

Lemma run_get a v kk L k : run a (PVal v) kk (SDo (OGet 1) k) L -> move_exn v = None -> exists a', goes a a' /\ run a' (PVal (moved_from v)) kk (k (ROk (AV v))) L.
Proof.
  intros H Hm. destruct (run_known _ _ _ _ _ H) as [_ K1]. destruct H as [(b&Ht&->) H2 H3 H4 H5].
  pose proof (there_h1 _ _ Ht) as E1. pose proof (there_c _ _ Ht) as Ec.
  assert (E : astep a = ANext (w_foc (AUser (k (ROk (AV v)))) (alog (EvRet 1 (NOp (OGet 1)) (AV v)) (put_co 1 (ACo Push KVal ARun (SlFull (PVal (moved_from v))) 1 0) (alog (EvCall (a_cur a) (NOp (OGet 1))) a))))).
  { rewrite (astep_op _ _ _ H4); [|cbn; by rewrite K1]. cbn. rewrite E1. cbn. rewrite Ec. cbn. rewrite Hm. unfold ret_to. cbn. by rewrite H3. }
  eexists. split; [by apply goes_step|]. destruct Ht as [T1 T2 T3]. split; cbn; try done.
  exists 0. split; [|done]. split; cbn; [done| |by eexists _, _, _]. rewrite T2. by rewrite insert_singleton.
Qed.

(** The word arrives. *)
Record at_main (e : bool) (a : astate) (i : nat) (s : strat) (L : list T) : Prop := {
  am_there : exists st sl b, there a (ACo Push KVal st sl 1 b) /\ ready e st i /\ (forall fn, st = ANew fn -> sl = SlEmpty);
  am_wait : a_wait a = ∅;
  am_cur : a_cur a = 0;
  am_foc : a_foc a = AUser s;
  am_scr : screen nl (a_tr a) = L }.

Lemma run_resume a v kk i k L : run a v kk (SDo (OResume 1) k) L -> k (ROk AUnit) = W i -> k (RExn XUnwind) = exec (Exn XUnwind) FS ->
  exists a', goes a a' /\ at_main true a' i (kk (ROk (AIt (Some 0)))) L.
Proof.
  intros H Hk1 Hk2. destruct (run_known _ _ _ _ _ H) as [_ K1]. destruct H as [(b&Ht&->) [o Hw] H3 H4 H5].
  pose proof (there_h1 _ _ Ht) as E1. pose proof (there_h0 _ _ Ht) as E0. pose proof (there_c _ _ Ht) as Ec.
  pose proof (astep_op _ _ _ H4) as E. cbn in E. rewrite K1, E1 in E. specialize (E eq_refl). cbn in E. unfold resumable in E. cbn in E. rewrite H3, Ec in E. cbn in E.
  unfold transfer, give_back in E. cbn in E. rewrite Ec in E. cbn in E. rewrite Hw, lookup_singleton in E. cbn in E. unfold deliver in E. cbn in E. rewrite E0 in E. cbn in E. rewrite lookup_insert in E. cbn in E.
  unfold ret_to in E. rewrite bool_decide_eq_true_2 in E by done. cbn in E. match type of E with _ = ANext ?b => remember b as a1 eqn:E1' in E end.
  exists a1. split; [by apply goes_step|]. destruct Ht as [T1 T2 T3]. split; rewrite ?E1'; cbn; try done.
  - eexists _, _, _. split; [split; cbn; [done|by rewrite T2, insert_singleton|by eexists _, _, _]|]. split; [|done]. right. split; [done|]. by eexists _, _.
  - apply delete_singleton.
Qed.

Lemma write_run a v kk i L : run a (PVal v) kk (W i) L -> i <= num -> 0 < num -> move_exn v = None ->
  exists a', goes a a' /\ at_main true a' (S (if decide (i = num) then 0 else i)) (kk (ROk (AIt (Some 0)))) (L ++ if decide (i = num) then [nl; v] else [v]).
Proof.
  intros H Hi Hn Hm.
  assert (Hword : forall a j L, run a (PVal v) kk (W j) L -> j < num -> exists a', goes a a' /\ at_main true a' (S j) (kk (ROk (AIt (Some 0)))) (L ++ [v])).
  { clear a i L H Hi. intros a j L H Hj. rewrite (write_word j Hj), exec_do in H.
    destruct (run_look _ _ _ _ _ _ (AB false) [] H) as (a1&G1&H1).
    { cbn. destruct (run_known _ _ _ _ _ H) as [_ K1]. by rewrite K1. }
    { destruct H as [(b&Ht&->) _ _ _ _]. cbn. rewrite (there_h1 _ _ Ht). cbn. by rewrite (there_c _ _ Ht). }
    { done. }
    rewrite app_nil_r, exec_do in H1. destruct (run_get _ _ _ _ _ H1 Hm) as (a2&G2&H2). rewrite exec_do in H2.
    destruct (run_look _ _ _ _ _ _ AUnit [v] H2) as (a3&G3&H3); [done|done|done|]. rewrite exec_do in H3.
    destruct (run_resume _ _ _ (S j) _ _ H3) as (a4&G4&H4); [done|done|]. exists a4. split; [|done].
    eapply goes_trans; [exact G1|]. eapply goes_trans; [exact G2|]. by eapply goes_trans. }
  case_decide as E; [|by apply Hword; [|lia]]. subst i. rewrite write_break, exec_do in H.
  destruct (run_look _ _ _ _ _ _ AUnit [nl] H) as (a1&G1&H1); [done|done|done|].
  destruct (Hword a1 0 _ H1 Hn) as (a2&G2&H2). exists a2. split; [by eapply goes_trans|]. by rewrite <- app_assoc in H2.
Qed.

Lemma push_word e a i v ok kk fs L : at_main e a i (exec (Go (Do (OOutAssign (Some 0) (AImm v)) ok kk)) fs) L -> i <= num -> 0 < num -> copy_exn v = None -> move_exn v = None ->
  exists a', goes a a' /\ at_main true a' (S (if decide (i = num) then 0 else i)) (exec (Go (kk (AIt (Some 0)))) fs) (L ++ if decide (i = num) then [nl; v] else [v]).
Proof.
  intros [(st&sl&b&Ht&Hr&Hsl) Hw Hc Hf Hs] Hi Hn Hcp Hm. rewrite exec_do in Hf. set (k := fun r => match r with ROk a => _ | RExn x => _ end) in Hf.
  pose proof (there_known _ _ Ht) as K0. pose proof (there_h0 _ _ Ht) as E0. pose proof (there_c _ _ Ht) as Ec.
  assert (exists a1, goes a a1 /\ run a1 (PVal v) k (W i) L) as (a1&G1&R1).
  2: { destruct (write_run _ _ _ _ _ R1 Hi Hn Hm) as (a2&G2&H2). exists a2. split; [by eapply goes_trans|done]. }
  pose proof (astep_op _ _ _ Hf) as E. cbn in E. rewrite K0 in E. specialize (E eq_refl). rewrite E0 in E. cbn in E. unfold push_op, resumable in E. cbn in E. rewrite Ec in E. cbn in E.
  destruct Ht as [T1 T2 (st'&sl'&b'&Tc&Hbad)]. injection Tc as <- <- <-.
  destruct Hr as [(->&->&->)|(->&o&kp&->&Hk1&Hk2)].
  - rewrite (Hsl _ eq_refl) in *. cbn in E. rewrite Hcp in E. cbn in E. unfold transfer in E. cbn in E. rewrite lookup_insert in E. cbn in E.
    match type of E with _ = ANext ?b => remember b as a1 eqn:E1 in E end.
    assert (R1 : run a1 (PVal v) k (entry 1) L).
    { rewrite E1. split; cbn; try done.
      - exists (a_cur a). split; [|done]. split; cbn; [done|by rewrite insert_insert, T2, insert_singleton|by eexists _, _, _].
      - eexists. rewrite Hw, Hc. by rewrite insert_empty. }
    destruct (run_look a1 (PVal v) k L (ctor 0) (fun r => match r with ROk _ => W 0 | RExn x => exec (Exn x) [] end) AUnit []) as (a2&G2&R2).
    { unfold entry in R1. rewrite (strat_eta (exec _ _)) in R1. exact R1. }
    { done. }
    { done. }
    { done. }
    exists a2. rewrite app_nil_r in R2. split; [|done]. eapply goes_trans; [by apply goes_step|done].
  - clear Hsl. destruct sl as [|p|]; [| |done]; cbn in E; rewrite Hcp in E; cbn in E; unfold transfer in E; cbn in E; rewrite lookup_insert in E; cbn in E;
      unfold deliver, ret_to in E; cbn in E; rewrite Hk1 in E; (match type of E with _ = ANext ?b => remember b as a1 eqn:E1 in E end);
      exists a1; (split; [by apply goes_step|]); rewrite E1; (split; cbn; try done).
    1,3: exists (a_cur a); (split; [|done]); (split; cbn; [done|by rewrite insert_insert, T2, insert_singleton|by eexists _, _, _]).
    1,2: eexists; rewrite Hw, Hc; by rewrite insert_empty.
Qed.

Lemma rows_app i w ws : rows nl num i (w :: ws) = (if decide (i = num) then [nl; w] else [w]) ++ rows nl num (S (if decide (i = num) then 0 else i)) ws.
Proof. cbn. by case_decide. Qed.

Lemma copy_run ws : forall e a i kk fs L, at_main e a i (exec (Go (copy_to ws (Some 0) kk)) fs) L -> i <= num -> 0 < num -> Forall (fun v => copy_exn v = None /\ move_exn v = None) ws ->
  exists a' i', goes a a' /\ at_main (e || negb (bool_decide (ws = []))) a' i' (exec (Go kk) fs) (L ++ rows nl num i ws).
Proof.
  induction ws as [|w ws IH]; intros e a i kk fs L H Hi Hn Hw.
  - exists a, i. split; [apply goes_refl|]. cbn. by rewrite app_nil_r, orb_false_r.
  - inversion Hw as [|? ? [Hw1 Hw2] Hws]; subst. destruct (push_word _ _ _ _ _ _ _ _ H Hi Hn Hw1 Hw2) as (a1&G1&H1).
    destruct (IH _ _ _ _ _ _ H1) as (a2&i'&G2&H2); [case_decide; lia|done|done|]. exists a2, i'. split; [by eapply goes_trans|].
    rewrite rows_app, app_assoc. cbn. by rewrite orb_true_r.
Qed.

Lemma main_look e a i o k r l L : at_main e a i (SDo o k) L -> forallb (known a) (op_hs o) = true ->
  do_op o k (alog (EvCall (a_cur a) (NOp o)) a) = ret_to (NOp o) r k (alog (EvCall (a_cur a) (NOp o)) a) ->
  screen nl [EvCall (a_cur a) (NOp o)] = l -> exists a', goes a a' /\ at_main e a' i (k (ROk r)) (L ++ l).
Proof.
  intros [H1 H2 H3 H4 H5] Hk E <-. eexists. split; [apply goes_step; rewrite (astep_op _ _ _ H4 Hk), E; unfold ret_to; reflexivity|].
  destruct H1 as (st&sl&b&[T1 T2 T3]&H6&H7). split; cbn; try done.
  - exists st, sl, b. split; [|done]. split; cbn; done.
  - rewrite H5. destruct o as [h|h1 h2|h|h|h g|h|h|h|h| |[h|]|[h|]|x y|x y|h| |[h|] g|w|n|l|l w]; cbn; rewrite ?app_nil_r; try done.
    destruct n as [|[|n]]; by rewrite ?app_nil_r.
Qed.

(** The coroutine is destroyed. *)
Lemma main_destroy e a i k L : at_main e a i (SDo (ODestroy 0) k) L ->
  exists a', goes a a' /\ a_foc a' = AUser (k (ROk AUnit)) /\ a_cur a' = 0 /\ screen nl (a_tr a') = L ++ if e then [nl] else [].
Proof.
  intros [(st&sl&b&Ht&Hr&Hsl) Hw Hc Hf Hs].
  pose proof (there_known _ _ Ht) as K0. pose proof (there_h0 _ _ Ht) as E0. pose proof (there_h1 _ _ Ht) as E1. pose proof (there_c _ _ Ht) as Ec.
  pose proof (astep_op _ _ _ Hf) as E. cbn in E. rewrite K0 in E. specialize (E eq_refl). rewrite E0 in E. cbn in E. unfold kill in E. cbn in E. rewrite Ec in E. cbn in E.
  destruct Ht as [T1 T2 (st'&sl'&b'&Tc&Hbad)]. injection Tc as <- <- <-.
  (* the end of the coroutine *)
  assert (Hexit : forall a1 en, a_foc a1 = AExit -> a_cur a1 = 1 -> a_co a1 !! 1 = Some (ACo Push KVal (AUnw en) sl 1 0) -> a_h a1 !! 1 = Some (HObj Pull KVal (Some (Inner 1))) ->
    a_wait a1 !! 0 = Some (WKill 1 (NOp (ODestroy 0)) KfDestroy k) ->
    exists a', goes a1 a' /\ a_foc a' = AUser (k (ROk AUnit)) /\ a_cur a' = 0 /\ screen nl (a_tr a') = screen nl (a_tr a1)).
  { clear E. intros a1 en F1 F2 F3 F4 F5.
    assert (G1 : goes a1 (w_foc AExit2 (alog (EvGone 1 1) (w_h (delete 1 (a_h a1)) a1)))).
    { apply goes_step. unfold astep. rewrite F1. unfold do_exit. rewrite F2, F3. cbn. rewrite F4. cbn. by rewrite F3. }
    set (b1 := w_foc AExit2 (alog (EvGone 1 1) (w_h (delete 1 (a_h a1)) a1))) in *.
    assert (E : astep b1 = do_exit2 b1) by done. unfold do_exit2 in E. cbn in E. rewrite F2, F3 in E. cbn in E.
    destruct sl as [|p|]; [| |done]; cbn in E; rewrite F5 in E; cbn in E; (eexists; split; [eapply goes_trans; [exact G1|apply goes_step; exact E]|]; by cbn). }
  destruct Hr as [(->&->&->)|(->&o&kp&->&Hk1&Hk2)].
  - cbn in E. rewrite (Hsl _ eq_refl) in *. match type of E with _ = ANext ?b => remember b as a1 eqn:Ea in E end.
    destruct (Hexit a1 false) as (a2&G2&R2&R3&R4).
    { by rewrite Ea. }
    { by rewrite Ea. }
    { rewrite Ea. cbn. by rewrite lookup_insert, Hc. }
    { rewrite Ea. cbn. by rewrite lookup_delete_ne, E1. }
    { rewrite Ea. cbn. by rewrite Hc, lookup_insert. }
    exists a2. split; [eapply goes_trans; [by apply goes_step|done]|]. split; [done|]. split; [done|]. rewrite R4, Ea, app_nil_r. done.
  - cbn in E. unfold exn_to in E. cbn in E. rewrite Hk2 in E. match type of E with _ = ANext ?b => remember b as a1 eqn:Ea in E end.
    assert (F1 : a_foc a1 = AUser (SDo (dtor 0) (fun r => match r with ROk _ => exec (Exn XUnwind) [] | RExn x => exec (Exn x) [] end))).
    { rewrite Ea. cbn. f_equal. rewrite (strat_eta (exec _ _)). done. }
    pose proof (astep_op _ _ _ F1 eq_refl) as E2. cbn in E2. unfold ret_to in E2. cbn in E2. match type of E2 with _ = ANext ?b => remember b as a2 eqn:Ea2 in E2 end.
    assert (G3 : goes a2 (w_foc AExit (alog (EvLeave 1 (Some XUnwind)) a2))).
    { apply goes_step. unfold astep. rewrite Ea2. cbn. rewrite Ea. cbn. unfold do_leave. cbn. by rewrite lookup_insert. }
    destruct (Hexit (w_foc AExit (alog (EvLeave 1 (Some XUnwind)) a2)) true) as (a4&G4&R2&R3&R4).
    { done. }
    { by rewrite Ea2, Ea. }
    { rewrite Ea2, Ea. cbn. by rewrite lookup_insert, Hc. }
    { rewrite Ea2, Ea. cbn. by rewrite lookup_delete_ne, E1. }
    { rewrite Ea2, Ea. cbn. by rewrite Hc, lookup_insert. }
    exists a4. split; [eapply goes_trans; [by apply goes_step|]; eapply goes_trans; [by apply goes_step|]; by eapply goes_trans|].
    split; [done|]. split; [done|]. rewrite R4, Ea2, Ea. cbn. by rewrite Hs.
Qed.

Lemma layout_run u words : 0 < num -> Forall (fun v => copy_exn v = None /\ move_exn v = None) words ->
  exists n a, arun n (ainit (layout_main nl fin num words) u) = AHalt Finished a /\
    screen nl (a_tr a) = rows nl num 0 words ++ [fin] ++ match words with [] => [] | _ => [nl] end.
Proof.
  intros Hn Hw. set (a := ainit (layout_main nl fin num words) u).
  assert (exists a1, goes a a1 /\ at_main false a1 0 (exec (Go (Do (OOutBegin 0) eq_refl (fun o => match o with AIt o => copy_to words o (emit fin Skip) | _ => Skip end))) [FLocal (ODestroy 0) Skip]) []) as (a1&G1&H1).
  { eexists. split; [apply goes_step; unfold astep, a; cbn; unfold layout_main, cxx; rewrite exec_new; unfold do_new; cbn; unfold ret_to; reflexivity|].
    split; cbn; try done. eexists (ANew entry), SlEmpty, 0. split; [|split; [by left|done]]. split; cbn; [done|by rewrite insert_empty|by eexists _, _, _]. }
  rewrite exec_do in H1.
  destruct (main_look _ _ _ _ _ (AIt (Some 0)) [] _ H1) as (a2&G2&H2).
  { cbn. destruct H1 as [(st&sl&b&Ht&_) _ _ _ _]. by rewrite (there_known _ _ Ht). }
  { destruct H1 as [(st&sl&b&Ht&_) _ _ _ _]. cbn. by rewrite (there_h0 _ _ Ht). }
  { done. }
  cbn in H2. destruct (copy_run _ _ _ _ _ _ _ H2) as (a3&i&G3&H3); [lia|done|done|]. cbn in H3. unfold emit in H3. rewrite exec_do in H3.
  destruct (main_look _ _ _ _ _ AUnit [fin] _ H3) as (a4&G4&H4); [done|done|done|]. cbn in H4. rewrite exec_skip in H4.
  destruct (main_destroy _ _ _ _ _ H4) as (a5&G5&F5&C5&S5). rewrite exec_skip0 in F5.
  destruct (goes_halt a a5 Finished a5) as [n H].
  { eapply goes_trans; [exact G1|]. eapply goes_trans; [exact G2|]. eapply goes_trans; [exact G3|]. by eapply goes_trans. }
  { unfold astep. rewrite F5. unfold do_leave. by rewrite C5. }
  exists n, a5. split; [done|]. rewrite S5, <- app_assoc. do 2 f_equal. by destruct words.
Qed.
End layout.
