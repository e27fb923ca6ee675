(** FactsPipe.v -- the programs of Pipes.v do what [piped] says: proofs. *)
From stdpp Require Import prelude gmap relations.
From Coq Require Import Lia.
From Verif Require Import Base Model Spec InvSpec Main Hist Trace Cpp FactsReplay Progs Steps FactsProg Pipes.

Local Opaque gmap_lookup map_insert map_delete gmap_partial_alter.

Section pipe.
Context {env : Env}.
Context (nothrow : forall v, move_exn v = None).

(** Consumers are numbered from the last one; consumer [m] is coroutine [S m], owned by [px m],
    with counterpart [ps m]. *)
Definition px (m : nat) : nat := 2 * m.
Definition ps (m : nat) : nat := S (2 * m).
Local Arguments px : simpl never.
Local Arguments ps : simpl never.
(** What passing on to [n] consumers stands for. *)
Definition giver (n : nat) : T -> stm -> stm := match n with O => emit | S m => pass (px m) end.
Definition co_code (m s : nat) (c : consumer) : stm := consume (giver m) s c.

(** Frames that are left by return and by exceptions without doing anything. *)
Definition onto (fs fs' : list frame) : Prop := rtc tau (exec Ret fs) (exec Ret fs') /\ forall x, rtc tau (exec (Exn x) fs) (exec (Exn x) fs').
Lemma onto_refl fs : onto fs fs.
Proof. by split. Qed.
Lemma onto_block k fs fs' : onto fs fs' -> onto (FBlock k :: fs) fs'.
Proof.
  intros [H1 H2]. split.
  - rewrite (strat_eta (exec Ret (FBlock k :: fs))). cbn. eapply rtc_l; [apply tau_i|auto].
  - intros x. rewrite (strat_eta (exec (Exn x) (FBlock k :: fs))). cbn. eapply rtc_l; [apply tau_i|auto].
Qed.
Lemma onto_trans fs fs' fs'' : onto fs fs' -> onto fs' fs'' -> onto fs fs''.
Proof. intros [H1 H2] [H3 H4]. split; [by eapply rtc_transitive|]. intros x. eapply rtc_transitive; [apply H2|apply H4]. Qed.

Definition stat (m : nat) (oc : option consumer) (st : astatus) (sl : aslot) : Prop :=
  match oc with
  | Some c =>
      (st = ANew (fun s => exec (Go (co_code m s c)) []) /\ sl = SlEmpty) \/
      exists o kp fs, st = ASusp o PoUnit kp /\ onto fs [] /\ kp (ROk AUnit) = exec (Go (co_code m (ps m) c)) fs /\ kp (RExn XUnwind) = exec (Exn XUnwind) fs
  | None => exists ex, st = ADone ex
  end.
Definition cell (a : astate) (m : nat) (oc : option consumer) : Prop :=
  a_h a !! px m = Some (HObj Push KVal (Some (Outer (S m)))) /\ a_h a !! ps m = Some (HObj Pull KVal (Some (Inner (S m)))) /\
  exists st sl b, a_co a !! S m = Some (ACo Push KVal st sl (ps m) b) /\ sl <> SlBad /\ stat m oc st sl.
Fixpoint line_at (a : astate) (p : line) : Prop :=
  match p with [] => True | oc :: p => cell a (length p) oc /\ line_at a p end.

Definition numbered (a : astate) : Prop := forall k c, a_co a !! k = Some c -> exists m, k = S m /\ ac_syn c = ps m.
(** The current context is not one of the first [n] consumers, which do not wait for anything. *)
Definition ready (n : nat) (a : astate) : Prop :=
  numbered a /\ a_wait a !! a_cur a = None /\ (forall m, m < n -> a_wait a !! S m = None) /\ (a_cur a = 0 \/ n < a_cur a).
(** Nothing but the first [n] consumers changed. *)
Record kept (n : nat) (a b : astate) : Prop := {
  k_h : a_h b = a_h a;
  k_co : forall k, n < k -> a_co b !! k = a_co a !! k;
  k_cur : a_cur b = a_cur a;
  k_wait : a_wait b = a_wait a;
  k_num : numbered b }.

Lemma kept_trans n a b c : kept n a b -> kept n b c -> kept n a c.
Proof. intros [A1 A2 A3 A4 A5] [B1 B2 B3 B4 B5]. split; try congruence; try done. intros k Hk. by rewrite B2, A2. Qed.
Lemma kept_ready n a b : kept n a b -> ready n a -> ready n b.
Proof. intros [A1 A2 A3 A4 A5] (R1&R2&R3&R4). unfold ready. by rewrite A3, A4. Qed.
Lemma kept_refl n a : numbered a -> kept n a a.
Proof. by split. Qed.
Lemma line_at_same a b p : a_h b = a_h a -> (forall m, m < length p -> a_co b !! S m = a_co a !! S m) -> line_at a p -> line_at b p.
Proof.
  intros Eh. induction p as [|oc p IH]; [done|]. cbn. intros Ec [(H1&H2&st&sl&b0&H3&H4) Hp]. split; [|apply IH; [intros; apply Ec; lia|done]].
  unfold cell. rewrite Eh, Ec by lia. split; [done|]. split; [done|]. by eexists _, _, _.
Qed.

Lemma known_x a m : numbered a -> known a (px m) = true.
Proof.
  intros Hn. unfold known. apply bool_decide_eq_true. intros k c Hc. destruct (Hn k c Hc) as (m'&->&E). unfold hides. destruct (ac_st c); try done.
  apply Nat.eqb_neq. rewrite E. unfold ps, px. lia.
Qed.
Lemma known_s a m c : numbered a -> a_co a !! S m = Some c -> (forall fn, ac_st c <> ANew fn) -> known a (ps m) = true.
Proof.
  intros Hn Hm Hs. unfold known. apply bool_decide_eq_true. intros k c' Hc. destruct (Hn k c' Hc) as (m'&->&E). unfold hides. destruct (ac_st c') eqn:Es; try done.
  apply Nat.eqb_neq. rewrite E. unfold ps. intros Em. assert (m' = m) as -> by lia. rewrite Hm in Hc. injection Hc as <-. by eapply Hs.
Qed.

Lemma astep_op a o k : a_foc a = AUser (SDo o k) -> forallb (known a) (op_hs o) = true -> astep a = do_op o k (alog (EvCall (a_cur a) (NOp o)) a).
Proof. intros H E. unfold astep. by rewrite H, E. Qed.

(** [a] goes to [b] writing [l]. *)
Definition to (n : nat) (a : astate) (l : list T) (b : astate) : Prop := goes a b /\ kept n a b /\ output (a_tr b) = output (a_tr a) ++ l.
Lemma to_trans n a l b l' c : to n a l b -> to n b l' c -> to n a (l ++ l') c.
Proof. intros (A1&A2&A3) (B1&B2&B3). split; [by eapply goes_trans|]. split; [by eapply kept_trans|]. by rewrite B3, A3, app_assoc. Qed.
Lemma to_nil n a b l c : to n a [] b -> to n b l c -> to n a l c.
Proof. intros H1 H2. exact (to_trans _ _ _ _ _ _ H1 H2). Qed.

Lemma to_tau n a s s' : numbered a -> a_foc a = AUser s -> rtc tau s s' -> exists b, to n a [] b /\ a_foc b = AUser s' /\ (forall p, line_at a p -> line_at b p).
Proof.
  intros Hn Hf Ht. destruct (goes_tau _ _ _ Hf Ht) as (b&G&->). exists (w_foc (AUser s') a). split; [|split; [done|]].
  - split; [done|]. split; [by split|]. by rewrite app_nil_r.
  - intros p. by apply line_at_same.
Qed.
(** An operation that changes nothing. *)
Lemma to_look n a o ok k fs r l : numbered a -> a_foc a = AUser (exec (Go (Do o ok k)) fs) -> forallb (known a) (op_hs o) = true ->
  (forall kk, do_op o kk (alog (EvCall (a_cur a) (NOp o)) a) = ret_to (NOp o) r kk (alog (EvCall (a_cur a) (NOp o)) a)) ->
  output [EvCall (a_cur a) (NOp o)] = l ->
  exists b, to n a l b /\ a_foc b = AUser (exec (Go (k r)) fs) /\ (forall p, line_at a p -> line_at b p).
Proof.
  intros Hn Hf Hk E Hl. rewrite exec_do in Hf. eexists. split; [|split].
  - split; [apply goes_step; rewrite (astep_op _ _ _ Hf Hk), E; unfold ret_to; cbn; reflexivity|]. split; [by split|].
    cbn. rewrite <- Hl. destruct o; cbn; by rewrite ?app_nil_r.
  - done.
  - intros p. by apply line_at_same.
Qed.
Lemma to_emit n a w k fs : numbered a -> a_foc a = AUser (exec (Go (emit w k)) fs) -> exists b, to n a [w] b /\ a_foc b = AUser (exec (Go k) fs) /\ (forall p, line_at a p -> line_at b p).
Proof. intros Hn Hf. exact (to_look n a _ _ _ _ AUnit [w] Hn Hf eq_refl (fun _ => eq_refl) eq_refl). Qed.

(** How a piece of code ends. *)
Definition outcome_of (x : option E) (k : stm) : ctl := match x with None => Go k | Some e => Exn (XUser e) end.

(** Passing values on to [n] consumers is as [feed n] says. *)
Definition feeds (n : nat) : Prop := forall p v a k fs o p' x, length p = n -> ready n a -> line_at a p ->
  a_foc a = AUser (exec (Go (giver n v k)) fs) -> feed n p v = (o, p', x) ->
  exists b, to n a o b /\ line_at b p' /\ length p' = n /\ a_foc b = AUser (exec (outcome_of x k) fs).

Lemma work_run n l : feeds n -> forall p a fs o p' x, length p = n -> ready n a -> line_at a p ->
  a_foc a = AUser (exec (Go (work (giver n) l)) fs) -> does (feed n) l p = (o, p', x) ->
  exists b, to n a o b /\ line_at b p' /\ length p' = n /\ a_foc b = AUser (exec (outcome_of x Skip) fs).
Proof.
  intros HF. induction l as [|[w|v] l IH]; intros p a fs o p' x Hp Hr Hl Hf E; cbn in E.
  - injection E as <- <- <-. exists a. split; [|done]. split; [apply goes_refl|]. split; [by apply kept_refl; destruct Hr|]. by rewrite app_nil_r.
  - destruct (does (feed n) l p) as [[o1 p1] x1] eqn:E1. injection E as <- <- <-.
    destruct (to_emit n a _ _ _ (proj1 Hr) Hf) as (b&T1&F1&L1). destruct T1 as (G1&K1&O1). assert (T1 : to n a [w] b) by done.
    destruct (IH p b fs o1 p1 x1 Hp (kept_ready _ _ _ K1 Hr) (L1 _ Hl) F1 E1) as (c&T2&L2). exists c. split; [exact (to_trans _ _ _ _ _ _ T1 T2)|done].
  - destruct (feed n p v) as [[o1 p1] [e|]] eqn:E1.
    + injection E as <- <- <-. cbn in Hf. destruct (HF _ _ _ _ _ _ _ _ Hp Hr Hl Hf E1) as (b&T1&L1&P1&F1). by exists b.
    + destruct (does (feed n) l p1) as [[o2 p2] x2] eqn:E2. injection E as <- <- <-. cbn in Hf.
      destruct (HF _ _ _ _ _ _ _ _ Hp Hr Hl Hf E1) as (b&T1&L1&P1&F1).
      destruct (IH p1 b fs o2 p2 x2 P1) as (c&T2&L2); [by eapply kept_ready; [apply T1|]|done|done|done|]. exists c. split; [by eapply to_trans|done].
Qed.
Lemma writes_run n l : forall a fs, numbered a -> a_foc a = AUser (exec (Go (writes l)) fs) ->
  exists b, to n a l b /\ a_foc b = AUser (exec (Go Skip) fs) /\ (forall p, line_at a p -> line_at b p).
Proof.
  induction l as [|w l IH]; intros a fs Hn Hf.
  - exists a. split; [|done]. split; [apply goes_refl|]. split; [by apply kept_refl|]. by rewrite app_nil_r.
  - destruct (to_emit n a _ _ _ Hn Hf) as (b&T1&F1&L1). destruct (IH b fs) as (c&T2&F2&L2); [by apply T1|done|].
    exists c. split; [exact (to_trans _ _ _ _ _ _ T1 T2)|]. auto.
Qed.

(** A round of a consumer: [go] is how it goes on. *)
Lemma round_run n c v (go : after -> stm) : feeds n -> forall p a fs o p' af, length p = n -> ready n a -> line_at a p ->
  a_foc a = AUser (exec (Go (Try (work (giver n) (react c v)) (fun e => Block (writes (rescue c v e).1) (go (rescue c v e).2)) (go (next c v)))) fs) ->
  round (feed n) c v p = (o, p', af) ->
  exists b fs', to n a o b /\ line_at b p' /\ length p' = n /\ onto fs' fs /\ a_foc b = AUser (exec (Go (go af)) fs').
Proof.
  intros HF p a fs o p' af Hp Hr Hl Hf E. unfold round in E. rewrite exec_try in Hf.
  destruct (to_tau n a _ _ (proj1 Hr) Hf (rtc_l _ _ _ _ (tau_i _) (rtc_refl _ _))) as (b&T1&F1&L1).
  assert (R1 : ready n b) by (eapply kept_ready; [apply T1|done]).
  destruct (does (feed n) (react c v) p) as [[o1 p1] x1] eqn:E1.
  destruct (work_run n _ HF _ _ _ _ _ _ Hp R1 (L1 _ Hl) F1 E1) as (d&T2&L2&P2&F2).
  assert (R2 : ready n d) by (eapply kept_ready; [apply T2|done]).
  destruct x1 as [e|]; injection E as <- <- <-; cbn in F2.
  - destruct (to_tau n d _ (exec (Go (writes (rescue c v e).1)) (FBlock (go (rescue c v e).2) :: FBlock (go (next c v)) :: fs)) (proj1 R2) F2) as (f&T3&F3&L3).
    { rewrite (strat_eta (exec (Exn _) _)). cbn. eapply rtc_l; [constructor|]. rewrite (strat_eta (exec (Go (Block _ _)) _)). cbn. eapply rtc_l; constructor. }
    destruct (writes_run n _ f _ (k_num _ _ _ (proj1 (proj2 T3))) F3) as (g&T4&F4&L4).
    destruct (to_tau n g _ (exec (Go (go (rescue c v e).2)) (FBlock (go (next c v)) :: fs)) (k_num _ _ _ (proj1 (proj2 T4))) F4) as (h&T5&F5&L5).
    { rewrite (strat_eta (exec (Go Skip) _)). cbn. eapply rtc_l; constructor. }
    exists h, (FBlock (go (next c v)) :: fs). split; [|split; [by auto|]; split; [done|]; split; [by apply onto_block, onto_refl|done]].
    eapply to_nil; [exact T1|]. eapply to_trans; [exact T2|]. eapply to_nil; [exact T3|].
    rewrite <- (app_nil_r (rescue c v e).1). by eapply to_trans.
  - destruct (to_tau n d _ (exec (Go (go (next c v))) fs) (proj1 R2) F2) as (f&T3&F3&L3).
    { rewrite (strat_eta (exec (Go Skip) _)). cbn. eapply rtc_l; constructor. }
    exists f, fs. split; [|split; [by auto|]; split; [done|]; split; [by apply onto_refl|done]].
    eapply to_nil; [exact T1|]. rewrite <- (app_nil_r o1). by eapply to_trans.
Qed.

(** ** One consumer *)
Definition go_on (m s : nat) (af : after) : stm := match af with Again c' => Do (OResume s) eq_refl (fun _ => co_code m s c') | Done => Return | Fails e => Throw e end.
Lemma co_code_unfold m s c : co_code m s c =
  Do (OGet s) eq_refl (fun a => match a with
  | AV v => Try (work (giver m) (react c v)) (fun e => Block (writes (rescue c v e).1) (go_on m s (rescue c v e).2)) (go_on m s (next c v))
  | _ => Return end).
Proof. unfold co_code. rewrite (stm_eta (consume _ _ _)). reflexivity. Qed.

Definition cell_of (af : after) : option consumer := match af with Again c => Some c | _ => None end.
Definition exn_of (af : after) : option E := match af with Fails e => Some e | _ => None end.
Definition resp_of (x : option E) : resp := match x with None => ROk AUnit | Some e => RExn (XUser e) end.

(** Consumer [m] runs, was resumed by [b], and goes on with [s]. *)
Record runs (m : nat) (a : astate) (b : nat) (kk : resp -> strat) (v : T) : Prop := {
  r_cur : a_cur a = S m;
  r_num : numbered a;
  r_x : a_h a !! px m = Some (HObj Push KVal (Some (Outer (S m))));
  r_s : a_h a !! ps m = Some (HObj Pull KVal (Some (Inner (S m))));
  r_co : a_co a !! S m = Some (ACo Push KVal ARun (SlFull (PVal v)) (ps m) b);
  r_wait : exists o, a_wait a !! b = Some (WOp (S m) o PoUnit kk);
  r_b : b = 0 \/ S m < b;
  r_none : forall i, i <= m -> a_wait a !! S i = None }.

Lemma runs_kept m a b kk v a' : runs m a b kk v -> kept m a a' -> runs m a' b kk v.
Proof. intros [R1 R2 R3 R4 R5 R6 R7 R8] [K1 K2 K3 K4 K5]. split; try congruence; try done. - rewrite K2 by lia. done. - by rewrite K4. - by rewrite K4. Qed.
Lemma runs_ready m a b kk v : runs m a b kk v -> ready m a.
Proof. intros [R1 R2 R3 R4 R5 R6 R7 R8]. split; [done|]. rewrite R1. split; [apply R8; lia|]. split; [intros i Hi; apply R8; lia|lia]. Qed.

Record back (m : nat) (a : astate) (b : nat) (l : list T) (a' : astate) : Prop := {
  b_goes : goes a a';
  b_h : a_h a' = a_h a;
  b_co : forall k, S m < k -> a_co a' !! k = a_co a !! k;
  b_cur : a_cur a' = b;
  b_wait : a_wait a' = delete b (a_wait a);
  b_num : numbered a';
  b_out : output (a_tr a') = output (a_tr a) ++ l }.

Lemma numbered_put a m c a' : numbered a -> ac_syn c = ps m -> a_co a' = <[ S m := c ]> (a_co a) -> numbered a'.
Proof. intros Hn Hc E k c'. rewrite E. intros [[<- <-]|[_ H]]%lookup_insert_Some; [by exists m|by apply Hn]. Qed.

(** It goes back to [b] in one of three ways. *)
Lemma go_on_run m af : forall a b kk v p fs, runs m a b kk v -> length p = m -> line_at a p -> onto fs [] -> a_foc a = AUser (exec (Go (go_on m (ps m) af)) fs) ->
  exists a', back m a b [] a' /\ line_at a' (cell_of af :: p) /\ a_foc a' = AUser (kk (resp_of (exn_of af))).
Proof.
  intros a b kk v p fs R Hp Hl [Ho1 Ho2] Hf. pose proof R as [R1 R2 R3 R4 R5 [o R6] R7 R8].
  assert (Hlow : forall a' c, a_h a' = a_h a -> a_co a' = <[ S m := c ]> (a_co a) -> line_at a' p).
  { intros a' c E1 E2. eapply line_at_same; [exact E1| |exact Hl]. intros i Hi. rewrite E2, lookup_insert_ne; [done|lia]. }
  destruct af as [c'| |e]; cbn [go_on cell_of exn_of resp_of] in *.
  - rewrite exec_do in Hf. set (k := fun r => match r with ROk a => _ | RExn x => _ end) in Hf.
    pose proof (astep_op _ _ _ Hf) as E. cbn [op_hs forallb] in E. rewrite (known_s a m _ R2 R5) in E by done. specialize (E eq_refl). cbn in E. rewrite R4 in E.
    unfold resumable in E. cbn in E. rewrite R1, bool_decide_eq_true_2 in E by done. rewrite R5 in E. cbn in E. unfold transfer, give_back in E. cbn in E. rewrite R5 in E. cbn in E.
    rewrite R6 in E. cbn in E. unfold deliver, ret_to in E. cbn in E. match type of E with _ = ANext ?b => exists b end. split; [|split; [|reflexivity]].
    + split; [apply goes_step; exact E|..]; try done; cbn.
      * intros k' Hk. apply lookup_insert_ne. lia.
      * eapply numbered_put; [exact R2| |reflexivity]. done.
      * by rewrite app_nil_r.
    + cbn. split; [|eapply Hlow; reflexivity]. rewrite Hp. split; [done|]. split; [done|]. cbn. rewrite lookup_insert. eexists _, _, _. split; [reflexivity|]. split; [done|].
      right. eexists _, k, fs. split; [reflexivity|]. done.
  - rewrite exec_return in Hf. destruct (to_tau m a _ (exec Ret []) R2 Hf) as (a1&(G1&K1&O1)&F1&L1). { eapply rtc_l; [apply tau_i|exact Ho1]. }
    pose proof (runs_kept _ _ _ _ _ _ R K1) as [Q1 Q2 Q3 Q4 Q5 [o' Q6] Q7 Q8]. rewrite exec_ret0 in F1.
    assert (E : astep a1 = do_leave None a1) by (unfold astep; by rewrite F1). unfold do_leave in E. rewrite Q1 in E. rewrite decide_False in E by lia. cbn in E. rewrite Q5 in E. cbn in E. unfold give_back in E. cbn in E.
    rewrite Q5 in E. cbn in E. rewrite Q6 in E. cbn in E. unfold deliver, ret_to in E. cbn in E. destruct K1 as [K1 K2 K3 K4 K5]. match type of E with _ = ANext ?b => exists b end. split; [|split; [|reflexivity]].
    + split; [eapply goes_trans; [exact G1|apply goes_step; exact E]|..]; try done; cbn.
      * intros k' Hk. rewrite lookup_insert_ne by lia. apply K2. lia.
      * by rewrite K4.
      * eapply numbered_put; [exact Q2| |reflexivity]. done.
    + cbn. split.
      * rewrite Hp. split; [done|]. split; [done|]. cbn. rewrite lookup_insert. eexists _, _, _. split; [reflexivity|]. split; [done|]. by eexists.
      * apply (line_at_same a1); [done| |by apply L1]. cbn. intros i Hi. apply lookup_insert_ne. lia.
  - rewrite exec_throw in Hf. destruct (to_tau m a _ (exec (Exn (XUser e)) []) R2 Hf) as (a1&(G1&K1&O1)&F1&L1). { eapply rtc_l; [apply tau_i|apply Ho2]. }
    pose proof (runs_kept _ _ _ _ _ _ R K1) as [Q1 Q2 Q3 Q4 Q5 [o' Q6] Q7 Q8]. rewrite exec_exn0 in F1.
    assert (E : astep a1 = do_leave (Some (XUser e)) a1) by (unfold astep; by rewrite F1). unfold do_leave in E. rewrite Q1 in E. rewrite decide_False in E by lia. cbn in E. rewrite Q5 in E. cbn in E. unfold give_back in E. cbn in E.
    rewrite Q5 in E. cbn in E. rewrite Q6 in E. cbn in E. unfold deliver, exn_to in E. cbn in E. destruct K1 as [K1 K2 K3 K4 K5]. match type of E with _ = ANext ?b => exists b end. split; [|split; [|reflexivity]].
    + split; [eapply goes_trans; [exact G1|apply goes_step; exact E]|..]; try done; cbn.
      * intros k' Hk. rewrite lookup_insert_ne by lia. apply K2. lia.
      * by rewrite K4.
      * eapply numbered_put; [exact Q2| |reflexivity]. done.
    + cbn. split.
      * rewrite Hp. split; [done|]. split; [done|]. cbn. rewrite lookup_insert. eexists _, _, _. split; [reflexivity|]. split; [done|]. by eexists.
      * apply (line_at_same a1); [done| |by apply L1]. cbn. intros i Hi. apply lookup_insert_ne. lia.
Qed.

Lemma back_to m a l a1 b l' a2 : to m a l a1 -> back m a1 b l' a2 -> back m a b (l ++ l') a2.
Proof.
  intros (G1&[K1 K2 K3 K4 K5]&O1) [B1 B2 B3 B4 B5 B6 B7]. split; try congruence; try done.
  - by eapply goes_trans.
  - intros k Hk. rewrite B3, K2 by lia. done.
  - by rewrite B7, O1, app_assoc.
Qed.

Lemma react_run m : feeds m -> forall c v a b kk p fs o p' af, runs m a b kk v -> length p = m -> line_at a p -> onto fs [] ->
  a_foc a = AUser (exec (Go (co_code m (ps m) c)) fs) -> round (feed m) c v p = (o, p', af) ->
  exists a', back m a b o a' /\ line_at a' (cell_of af :: p') /\ length p' = m /\ a_foc a' = AUser (kk (resp_of (exn_of af))).
Proof.
  intros HF c v a b kk p fs o p' af R Hp Hl Ho Hf E. rewrite co_code_unfold, exec_do in Hf.
  pose proof R as [R1 R2 R3 R4 R5 R6 R7 R8].
  pose proof (astep_op _ _ _ Hf) as E1. cbn [op_hs forallb] in E1. rewrite (known_s a m _ R2 R5) in E1 by done. specialize (E1 eq_refl). cbn in E1. rewrite R4 in E1. cbn in E1.
  rewrite R5 in E1. cbn in E1. rewrite nothrow in E1. unfold ret_to in E1. cbn in E1.
  match type of E1 with _ = ANext ?b => remember b as a1 eqn:Ea1 end.
  assert (RR : runs m a1 b kk (moved_from v)).
  { rewrite Ea1. split; try done; cbn; [|by rewrite lookup_insert]. eapply numbered_put; [exact R2| |reflexivity]. done. }
  assert (L1 : line_at a1 p). { apply (line_at_same a); [by rewrite Ea1| |done]. intros i Hi. rewrite Ea1. cbn. apply lookup_insert_ne. lia. }
  assert (F1 : a_foc a1 = AUser (exec (Go (Try (work (giver m) (react c v)) (fun e => Block (writes (rescue c v e).1) (go_on m (ps m) (rescue c v e).2)) (go_on m (ps m) (next c v)))) fs)) by (by rewrite Ea1).
  destruct (round_run m c v (go_on m (ps m)) HF p a1 fs o p' af Hp (runs_ready _ _ _ _ _ RR) L1 F1 E) as (a2&fs'&T2&L2&P2&Ho2&F2).
  destruct (go_on_run m af a2 b kk (moved_from v) p' fs') as (a3&B3&L3&F3); [by eapply runs_kept; [|apply T2]|done|done|by eapply onto_trans|done|].
  exists a3. split; [|done]. rewrite <- (app_nil_r o). pose proof (back_to _ _ _ _ _ _ _ T2 B3) as [C1 C2 C3 C4 C5 C6 C7]. rewrite Ea1 in C2, C3, C5, C7. cbn in *. split; try done.
  - eapply goes_trans; [apply goes_step; exact E1|done].
  - intros k Hk. rewrite C3 by done. apply lookup_insert_ne. lia.
Qed.

(** ** All of them *)
Lemma feeds_all n : feeds n.
Proof.
  induction n as [|m IH].
  - intros p v a k fs o p' x Hp Hr Hl Hf E. destruct p; [|done]. cbn in E. injection E as <- <- <-. destruct (to_emit 0 a _ _ _ (proj1 Hr) Hf) as (b&T1&F1&L1). by exists b.
  - intros p v a k fs o p' x Hp Hr Hl Hf E. destruct p as [|oc p]; [done|]. injection Hp as Hp. cbn in Hl. rewrite Hp in Hl. destruct Hl as [Hc Hl].
    pose proof Hr as (N&W1&W2&C). pose proof Hc as (X1&X2&st&sl&b&X3&X4&X5). cbn [giver] in Hf.
    assert (Hlook : exists a1, to (S m) a [] a1 /\ (forall p, line_at a p -> line_at a1 p) /\
      a_foc a1 = AUser (exec (Go (match oc with Some _ => push (px m) (AImm v) k | None => k end)) fs)).
    { destruct (to_look (S m) a _ _ _ _ (AB (match oc with Some _ => true | None => false end)) [] N Hf) as (a1&T1&F1&L1); [cbn; by rewrite known_x| |done|].
      - intros kk. cbn. rewrite X1. cbn. rewrite X3. cbn. destruct oc as [c|]; [destruct X5 as [[-> _]|(?&?&?&->&_)]; done|by destruct X5 as [? ->]].
      - exists a1. split; [done|]. split; [done|]. rewrite F1. by destruct oc. }
    destruct Hlook as (a1&T1&L1&F1). destruct oc as [c|].
    2: { cbn in E. injection E as <- <- <-. exists a1. split; [done|]. split; [|split; [cbn; by f_equal|done]]. apply L1. cbn. by rewrite Hp. }
    pose proof (L1 p Hl) as Hl1. pose proof (proj1 (proj2 T1)) as K1. pose proof (kept_ready _ _ _ K1 Hr) as (N1&W3&W4&C1).
    assert (Hc1 : cell a1 m (Some c)). { pose proof (L1 (Some c :: p)) as Hx. cbn in Hx. rewrite Hp in Hx. by apply Hx. }
    clear X1 X2 st sl b X3 X4 X5. destruct Hc1 as (X1&X2&st&sl&b&X3&X4&X5). unfold push in F1. rewrite exec_do in F1.
    set (kk := fun r => match r with ROk a => _ | RExn x => _ end) in F1.
    assert (exists a2 fs', goes a1 a2 /\ runs m a2 (a_cur a1) kk v /\ onto fs' [] /\ a_foc a2 = AUser (exec (Go (co_code m (ps m) c)) fs') /\
      a_h a2 = a_h a1 /\ (forall k, S m <> k -> a_co a2 !! k = a_co a1 !! k) /\ delete (a_cur a1) (a_wait a2) = a_wait a1 /\ output (a_tr a2) = output (a_tr a1)) as (a2&fs'&G2&R2&Ho2&F2&Y1&Y2&Y3&Y4).
    { pose proof (astep_op _ _ _ F1) as E1. cbn [op_hs forallb] in E1. rewrite (known_x _ _ N1) in E1. specialize (E1 eq_refl). cbn in E1. rewrite X1 in E1. cbn in E1.
      unfold push_op, resumable in E1. cbn in E1. rewrite X3 in E1. cbn in E1.
      assert (Hw : forall x i, i <= m -> <[a_cur a1 := x]> (a_wait a1) !! S i = None). { intros x0 i Hi. rewrite lookup_insert_ne by lia. apply W4. lia. }
      destruct X5 as [[-> ->]|(o1&kp&fs1&->&Hof&Hk1&Hk2)].
      - cbn in E1. rewrite nothrow in E1. unfold transfer in E1. cbn in E1. rewrite lookup_insert in E1. cbn in E1. match type of E1 with _ = ANext ?b => remember b as a2 eqn:Ea2 end.
        exists a2, []. split; [by apply goes_step|]. rewrite Ea2. split; [split; cbn; try done|split; [apply onto_refl|split; [done|cbn; split; [done|]; split; [|split; [|done]]]]].
        + eapply numbered_put; [exact N1| |cbn; by rewrite insert_insert]. done.
        + by rewrite lookup_insert.
        + rewrite lookup_insert. by eexists.
        + intros i Hi. by apply Hw.
        + intros k' Hk. rewrite !lookup_insert_ne by done. done.
        + by apply delete_insert.
      - cbn in E1. destruct sl as [|pl|]; [| |done]; cbn in E1; rewrite nothrow in E1; unfold transfer in E1; cbn in E1; rewrite lookup_insert in E1; cbn in E1; unfold deliver, ret_to in E1; cbn in E1;
          rewrite Hk1 in E1; (match type of E1 with _ = ANext ?b => remember b as a2 eqn:Ea2 end);
          exists a2, fs1; (split; [by apply goes_step|]); rewrite Ea2; (split; [split; cbn; try done|split; [done|split; [done|cbn; split; [done|]; split; [|split; [|done]]]]]).
        all: first [by apply delete_insert | by rewrite lookup_insert | (eapply numbered_put; [exact N1| |cbn; by rewrite insert_insert]; done)
          | by intros i Hi; apply Hw | by intros k' Hk; rewrite !lookup_insert_ne by done | by rewrite lookup_insert; eexists]. }
    cbn [feed] in E. destruct (round (feed m) c v p) as [[o2 p2] af] eqn:ER.
    assert (Hl2 : line_at a2 p). { apply (line_at_same a1); [done| |done]. intros i Hi. apply Y2. lia. }
    destruct (react_run m IH c v a2 (a_cur a1) kk p fs' o2 p2 af R2 Hp Hl2 Ho2 F2 ER) as (a3&[B1 B2 B3 B4 B5 B6 B7]&L3&P3&F3).
    assert (E' : o = o2 /\ p' = cell_of af :: p2 /\ x = exn_of af) by (by destruct af; injection E as <- <- <-). destruct E' as (->&->&->).
    exists a3. split; [|split; [done|split; [cbn; by f_equal|]]].
    + apply (to_nil _ _ a1); [done|]. split; [eapply goes_trans; [exact G2|done]|]. split; [|by rewrite B7, Y4]. split; try congruence; try done.
      intros k' Hk. rewrite B3, Y2 by lia. done.
    + rewrite F3. by destruct af.
Qed.

(** ** main *)
Definition end_of (x : option E) : ctl := match x with None => Ret | Some e => Exn (XUser e) end.
Lemma drive_run n ins : forall a p c fs fs0 o x, length p = n -> ready n a -> line_at a p -> onto fs fs0 ->
  a_foc a = AUser (exec (Go (drive (giver n) c ins)) fs) -> driven n c ins p = (o, x) ->
  exists b p', to n a o b /\ line_at b p' /\ length p' = n /\ a_foc b = AUser (exec (end_of x) fs0).
Proof.
  induction ins as [|v ins IH]; intros a p c fs fs0 o x Hp Hr Hl Ho Hf E.
  - cbn in E, Hf. injection E as <- <-. rewrite exec_return in Hf. destruct (to_tau n a _ (exec Ret fs0) (proj1 Hr) Hf) as (b&T1&F1&L1); [eapply rtc_l; [apply tau_i|apply Ho]|].
    exists b, p. by auto.
  - cbn in E. destruct (round (feed n) c v p) as [[o1 p1] af] eqn:ER.
    set (go := fun af => match af with Again c' => drive (giver n) c' ins | Done => Return | Fails e => Throw e end).
    destruct (round_run n c v go (feeds_all n) p a fs o1 p1 af Hp Hr Hl) as (b&fs'&T1&L1&P1&Ho1&F1); [exact Hf|done|].
    pose proof (kept_ready _ _ _ (proj1 (proj2 T1)) Hr) as Hr1. pose proof (onto_trans _ _ _ Ho1 Ho) as Ho2. destruct af as [c'| |e]; cbn in F1.
    + injection E as <- <-. destruct (IH b p1 c' fs' fs0 (driven n c' ins p1).1 (driven n c' ins p1).2 P1 Hr1 L1 Ho2 F1) as (d&p2&T2&L2&P2&F2); [by destruct (driven n c' ins p1)|].
      exists d, p2. split; [by eapply to_trans|done].
    + injection E as <- <-. rewrite exec_return in F1. destruct (to_tau n b _ (exec Ret fs0) (proj1 Hr1) F1) as (d&T2&F2&L2); [eapply rtc_l; [apply tau_i|apply Ho2]|].
      exists d, p1. split; [rewrite <- (app_nil_r o1); by eapply to_trans|]. by auto.
    + injection E as <- <-. rewrite exec_throw in F1. destruct (to_tau n b _ (exec (Exn (XUser e)) fs0) (proj1 Hr1) F1) as (d&T2&F2&L2); [eapply rtc_l; [apply tau_i|apply Ho2]|].
      exists d, p1. split; [rewrite <- (app_nil_r o1); by eapply to_trans|]. by auto.
Qed.

(** The objects are destroyed, the first consumer's first. *)
Lemma line_at_low a b p : (forall m, m < length p -> a_h b !! px m = a_h a !! px m /\ a_h b !! ps m = a_h a !! ps m /\ a_co b !! S m = a_co a !! S m) -> line_at a p -> line_at b p.
Proof.
  induction p as [|oc p IH]; [done|]. cbn. intros Ec [(H1&H2&st&sl&b0&H3&H4) Hp]. split; [|apply IH; [intros; apply Ec; lia|done]].
  destruct (Ec (length p)) as (E1&E2&E3); [lia|]. unfold cell. rewrite E1, E2, E3. split; [done|]. split; [done|]. by eexists _, _, _.
Qed.
Lemma destroy_one a m oc p k : cell a m oc -> line_at a p -> length p = m -> numbered a -> a_cur a = 0 -> a_wait a !! 0 = None ->
  a_foc a = AUser (SDo (ODestroy (px m)) k) ->
  exists b, goes a b /\ numbered b /\ a_cur b = 0 /\ a_wait b = a_wait a /\ line_at b p /\ a_h b = delete (ps m) (delete (px m) (a_h a)) /\ output (a_tr b) = output (a_tr a) /\ a_foc b = AUser (k (ROk AUnit)).
Proof.
  intros (X1&X2&st&sl&b0&X3&X4&X5) Hl Hp N C W Hf.
  pose proof (astep_op _ _ _ Hf) as E. cbn [op_hs forallb] in E. rewrite (known_x _ _ N) in E. specialize (E eq_refl). cbn in E. rewrite X1 in E. cbn in E. unfold kill in E. cbn in E. rewrite X3 in E. cbn in E.
  assert (Hxs : px m <> ps m) by (unfold px, ps; lia).
  (* the end of the coroutine *)
  assert (Hexit : forall a1 en, a_foc a1 = AExit -> a_cur a1 = S m -> a_h a1 = delete (px m) (a_h a) -> a_co a1 = <[ S m := ACo Push KVal (AUnw en) sl (ps m) 0 ]> (a_co a) ->
    a_wait a1 = <[ 0 := WKill (S m) (NOp (ODestroy (px m))) KfDestroy k ]> (a_wait a) -> output (a_tr a1) = output (a_tr a) ->
    exists b, goes a1 b /\ numbered b /\ a_cur b = 0 /\ a_wait b = a_wait a /\ line_at b p /\ a_h b = delete (ps m) (delete (px m) (a_h a)) /\ output (a_tr b) = output (a_tr a) /\ a_foc b = AUser (k (ROk AUnit))).
  { clear E. intros a1 en F1 F2 F3 F4 F5 F6.
    assert (E0 : a_co a1 !! S m = Some (ACo Push KVal (AUnw en) sl (ps m) 0)) by (by rewrite F4, lookup_insert).
    assert (G1 : goes a1 (w_foc AExit2 (alog (EvGone (S m) (ps m)) (w_h (delete (ps m) (a_h a1)) a1)))).
    { apply goes_step. unfold astep. rewrite F1. unfold do_exit. rewrite F2, E0. cbn. rewrite F3, lookup_delete_ne, X2 by done. cbn. by rewrite E0. }
    set (b1 := w_foc AExit2 (alog (EvGone (S m) (ps m)) (w_h (delete (ps m) (a_h a1)) a1))) in *.
    assert (E : astep b1 = do_exit2 b1) by done. unfold do_exit2 in E. cbn in E. rewrite F2, E0 in E. cbn in E.
    assert (E2 : exists tr, do_exit2 b1 = ANext (w_foc (AUser (k (ROk AUnit))) (ASt (delete (S m) (a_co a1)) (delete 0 (a_wait a1)) (a_h b1) (a_user a1) (a_nh a1) (a_nk a1) 0 (a_foc a1) tr)) /\ output tr = output (a_tr a1)).
    { unfold do_exit2. cbn. rewrite F2, E0. cbn. destruct sl as [|pl|]; [| |done]; cbn; rewrite F5, lookup_insert; cbn; rewrite <- F5; eexists; (split; [reflexivity|done]). }
    destruct E2 as (tr&E2&Otr). eexists. split; [eapply goes_trans; [exact G1|apply goes_step; exact E2]|]. cbn. split; [|split; [done|split; [|split; [|split; [by rewrite F3|split; [by rewrite Otr|done]]]]]].
    - intros k' c'. cbn. rewrite F4, delete_insert_delete. intros [_ H]%lookup_delete_Some. by apply N.
    - rewrite F5. by apply delete_insert.
    - apply (line_at_low a); [|done]. cbn. intros i Hi. rewrite F3, F4. rewrite Hp in Hi. split; [|split].
      + rewrite !lookup_delete_ne; [done|unfold px, ps; lia..].
      + rewrite !lookup_delete_ne; [done|unfold px, ps; lia..].
      + rewrite lookup_delete_ne, lookup_insert_ne by lia. done. }
  assert (H0 : (exists fs o kp en, st = ASusp o PoUnit kp /\ onto fs [] /\ kp (RExn XUnwind) = exec (Exn XUnwind) fs /\ en = true) \/
    exists en, match st with ANew _ => en = false | ADone _ => en = true | _ => False end).
  { destruct oc as [c|]; [destruct X5 as [[-> _]|(o&kp&fs&->&Ho&_&Hk)]|destruct X5 as [ex ->]]; [by right; eexists|left|by right; eexists]. by exists fs, o, kp, true. }
  destruct H0 as [(fs&o&kp&en&->&Ho&Hk&->)|(en&Hst)].
  - cbn in E. unfold exn_to in E. cbn in E. rewrite Hk in E. match type of E with _ = ANext ?b => remember b as a1 eqn:Ea in E end.
    destruct (goes_tau a1 (exec (Exn XUnwind) fs) (exec (Exn XUnwind) [])) as (a2&G2&E2); [by rewrite Ea|apply Ho|]. rewrite exec_exn0 in E2.
    assert (E3 : astep a2 = ANext (w_foc AExit (alog (EvLeave (S m) (Some XUnwind)) a2))).
    { unfold astep. rewrite E2, Ea. cbn. unfold do_leave. cbn. by rewrite lookup_insert. }
    destruct (Hexit (w_foc AExit (alog (EvLeave (S m) (Some XUnwind)) a2)) true) as (b&G4&R); try (by rewrite E2, Ea; cbn; rewrite ?C; done).
    exists b. split; [|done]. eapply goes_trans; [apply goes_step; exact E|]. eapply goes_trans; [exact G2|]. eapply goes_trans; [apply goes_step; exact E3|done].
  - assert (E' : astep a = ANext (w_foc AExit (w_cur (S m) (w_wait (<[a_cur a := WKill (S m) (NOp (ODestroy (px m))) KfDestroy k]> (a_wait a))
        (put_co (S m) (ACo Push KVal (AUnw en) sl (ps m) (a_cur a)) (w_h (delete (px m) (a_h a)) (alog (EvCall (a_cur a) (NOp (ODestroy (px m)))) a))))))).
    { destruct st; try done; subst en; exact E. }
    match type of E' with _ = ANext ?b => remember b as a1 eqn:Ea in E' end.
    destruct (Hexit a1 en) as (b&G4&R); try (by rewrite Ea; cbn; rewrite ?C; done).
    exists b. split; [|done]. eapply goes_trans; [apply goes_step; exact E'|done].
Qed.

Fixpoint owned (n : nat) : list frame := match n with O => [] | S m => FLocal (ODestroy (px m)) Skip :: owned m end.
(** Only the first [n] objects own coroutines. *)
Definition owners (n : nat) (a : astate) : Prop := forall x sd kd k, a_h a !! x = Some (HObj sd kd (Some (Outer k))) -> exists m, m < n /\ x = px m.
Lemma destroy_all x p : forall a, line_at a p -> numbered a -> a_cur a = 0 -> a_wait a !! 0 = None -> owners (length p) a -> a_foc a = AUser (exec (end_of x) (owned (length p))) ->
  exists b, goes a b /\ a_cur b = 0 /\ owners 0 b /\ output (a_tr b) = output (a_tr a) /\ a_foc b = AUser (exec (end_of x) []).
Proof.
  induction p as [|oc p IH]; intros a Hl N C W Ow Hf; cbn in Hl, Hf.
  - exists a. split; [apply goes_refl|done].
  - destruct Hl as [Hc Hl].
    assert (Hd : exists k, exec (end_of x) (FLocal (ODestroy (px (length p))) Skip :: owned (length p)) = SDo (ODestroy (px (length p))) k /\ k (ROk AUnit) = exec (end_of x) (owned (length p))).
    { rewrite (strat_eta (exec _ _)). destruct x; cbn; by eexists. }
    destruct Hd as (k&E1&E2). rewrite E1 in Hf. destruct (destroy_one _ _ _ p k Hc Hl eq_refl N C W Hf) as (b&G1&N1&C1&W1&L1&H1&O1&F1). rewrite E2 in F1.
    destruct (IH b L1 N1 C1) as (d&G2&C2&Ow2&O2&F2); [by rewrite W1| |done|].
    { intros y sd kd j. rewrite H1. intros [_ [Hy Ha]%lookup_delete_Some]%lookup_delete_Some. destruct (Ow _ _ _ _ Ha) as (i&Hi&->). cbn in Hi. exists i. split; [|done].
      destruct (decide (i = length p)) as [->|]; [done|lia]. }
    exists d. split; [by eapply goes_trans|]. split; [done|]. split; [done|]. split; [congruence|done].
Qed.

(** The objects are made. *)
Lemma setup_run body cs : forall a p, line_at a p -> numbered a -> a_cur a = 0 -> a_wait a = ∅ -> a_nh a = px (length p) -> a_nk a = S (length p) -> owners (length p) a ->
  a_foc a = AUser (exec (Go (setup (giver (length p)) cs body)) (owned (length p))) ->
  exists b p', p' = rev (Some <$> cs) ++ p /\ goes a b /\ line_at b p' /\ numbered b /\ a_cur b = 0 /\ a_wait b = ∅ /\ owners (length p') b /\ output (a_tr b) = output (a_tr a) /\
    a_foc b = AUser (exec (Go (body (giver (length p')))) (owned (length p'))).
Proof.
  induction cs as [|c cs IH]; intros a p Hl N C W Nh Nk Ow Hf.
  - exists a, p. split; [done|]. split; [apply goes_refl|done].
  - cbn [setup] in Hf. rewrite exec_new in Hf. assert (E : astep a = do_new Push KVal plain_new (fun s => exec (Go (co_code (length p) s c)) [])
      (fun r => match r with ROk (AH h) => exec (Go (setup (pass h) cs body)) (FLocal (ODestroy h) Skip :: owned (length p)) | ROk _ => exec Ret (owned (length p)) | RExn x => exec (Exn x) (owned (length p)) end)
      (alog (EvCall (a_cur a) (NNew Push KVal)) a)) by (unfold astep; by rewrite Hf).
    unfold do_new in E. cbn in E. unfold ret_to in E. cbn in E. match type of E with _ = ANext ?b => remember b as a1 eqn:Ea end.
    assert (Hs : S (px (length p)) = ps (length p)) by done.
    destruct (IH a1 (Some c :: p)) as (b&p'&Ep&G&R).
    + cbn. split.
      * rewrite Ea. unfold cell. cbn. rewrite Nh, Nk, C, Hs. rewrite !lookup_insert, lookup_insert_ne, lookup_insert by (unfold px, ps; lia). split; [done|]. split; [done|].
        eexists _, _, _. split; [reflexivity|]. split; [done|]. by left.
      * apply (line_at_low a); [|done]. intros i Hi. rewrite Ea. cbn. rewrite Nh, Nk, Hs. split; [|split].
        { rewrite !lookup_insert_ne; [done|unfold px, ps; lia..]. }
        { rewrite !lookup_insert_ne; [done|unfold px, ps; lia..]. }
        { rewrite lookup_insert_ne; [done|lia]. }
    + rewrite Ea. intros k c'. cbn. rewrite Nk. intros [[<- <-]|[_ H]]%lookup_insert_Some; [|by apply N]. exists (length p). cbn. by rewrite Nh.
    + by rewrite Ea.
    + by rewrite Ea.
    + rewrite Ea. cbn. rewrite Nh. unfold px. cbn. lia.
    + rewrite Ea. cbn. by rewrite Nk.
    + rewrite Ea. intros y sd kd j. cbn. rewrite Nh. intros [[<- _]|[_ [[_ ?]|[_ Ha]]%lookup_insert_Some]]%lookup_insert_Some; [exists (length p); cbn; split; [lia|done]|done|].
      destruct (Ow _ _ _ _ Ha) as (i&Hi&->). exists i. split; [cbn; lia|done].
    + rewrite Ea. cbn. by rewrite Nh.
    + exists b, p'. split; [rewrite Ep; cbn; by rewrite <- app_assoc|]. split; [eapply goes_trans; [apply goes_step; exact E|done]|].
      destruct R as (R1&R2&R3&R4&R5&R6&R7). rewrite R6, Ea. done.
Qed.

(** ** The whole program *)
Lemma pipe_run c ins cs u : exists n a, arun n (ainit (pipe_main c ins cs) u) = AHalt (match (piped c ins cs).2 with None => Finished | Some _ => Terminated end) a /\
  output (a_tr a) = (piped c ins cs).1 /\ forall x sd kd k, a_h a !! x <> Some (HObj sd kd (Some (Outer k))).
Proof.
  set (a := ainit (pipe_main c ins cs) u).
  destruct (setup_run (fun give => drive give c ins) (rev cs) a []) as (b&p&Ep&G1&L1&N1&C1&W1&Ow1&O1&F1); try done.
  assert (Ep' : p = Some <$> cs). { rewrite Ep, app_nil_r. etransitivity; [apply f_equal; exact (map_rev Some cs)|apply rev_involutive]. } clear Ep. subst p.
  set (p := Some <$> cs) in *. assert (Hlen : length p = length cs) by (unfold p; by rewrite fmap_length).
  destruct (piped c ins cs) as [o x] eqn:E. unfold piped in E. fold p in E. rewrite <- Hlen in E. cbn [fst snd].
  destruct (drive_run (length p) ins b p c (owned (length p)) (owned (length p)) o x) as (d&p'&(G2&K2&O2)&L2&P2&F2); try done.
  { split; [done|]. rewrite C1, W1. split; [apply lookup_empty|]. split; [intros; apply lookup_empty|by left]. }
  rewrite <- P2 in F2. destruct (destroy_all x p' d) as (f&G3&C3&Ow3&O3&F3); try done.
  { apply K2. }
  { by rewrite (k_cur _ _ _ K2). }
  { rewrite (k_wait _ _ _ K2), W1. apply lookup_empty. }
  { intros y sd kd j. rewrite (k_h _ _ _ K2), P2. apply Ow1. }
  destruct (goes_halt a f (match x with None => Finished | Some _ => Terminated end) f) as [n H].
  { eapply goes_trans; [exact G1|]. by eapply goes_trans. }
  { unfold astep. rewrite F3. destruct x; cbn; rewrite ?exec_ret0, ?exec_exn0; unfold do_leave; by rewrite C3. }
  exists n, f. split; [done|]. split; [by rewrite O3, O2, O1|]. intros y sd kd j Hy. destruct (Ow3 _ _ _ _ Hy) as (?&?&_). lia.
Qed.
End pipe.
