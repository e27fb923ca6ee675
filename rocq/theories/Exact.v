(** Exact.v -- the contract (Contract.v) asks for no more than the reference semantics
    (Spec.v) needs: a program that never leaves the reference semantics respects the
    contract, if no push of it fails. *)
From stdpp Require Import prelude gmap relations.
From Coq Require Import Lia.
From Verif Require Import Base Model Spec InvSpec Main Micro Trace Mono Life Pend Den Own Tgt Stack Slot ContractInv Contract ContractProof
  Discipline DiscInv DiscStep DiscProof Uses.
From Verif Require Steps.

Local Opaque gmap_lookup map_insert map_delete gmap_partial_alter.

Section ex.
Context {env : Env}.

Lemma push_failed_app l h : push_failed (l ++ h) = false -> push_failed h = false.
Proof. induction l as [|e l IH]; [done|]. cbn [app push_failed]. intros [_ H]%orb_false_iff. auto. Qed.
Lemma failed_spoiled k h : push_failed h = false -> spoiled k h = false.
Proof.
  induction h as [|e h IH]; [done|]. cbn [push_failed spoiled]. intros [H1 H2]%orb_false_iff. rewrite IH by done. rewrite orb_false_r.
  destruct e as [c o|c o g|c o [ex|]|m y|m r|m p0|m|m y|m y|m|m]; try done. destruct h as [|[] [|[c' o'| | | | | | | | | |] h]]; try done.
  destruct (push_arg o') eqn:Ho; [|done]. rewrite bool_decide_eq_true_2 in H1; [done|by eexists].
Qed.

(** ** What a step adds to the history *)
Definition quiet (e : event) : bool := match e with EvCall _ _ | EvLeave _ _ => false | _ => true end.

Lemma quiet_obeys u l h : Forall (fun e => quiet e = true) l -> obeys u h = true -> obeys u (l ++ h) = true.
Proof. induction 1 as [|e l He _ IH]; [done|]. intros H. cbn. rewrite IH by done. by destruct e. Qed.

Definition grows (a : astate) (r : ares) : Prop :=
  match r with
  | ANext a' | AHalt _ a' => exists l, Forall (fun e => quiet e = true) l /\ a_tr a' = l ++ a_tr a /\ a_nk a' <= a_nk a + length l
  | AViol => True
  end.
Lemma grows_at a a' r : (exists l, Forall (fun e => quiet e = true) l /\ a_tr a' = l ++ a_tr a /\ a_nk a' <= a_nk a + length l) -> grows a' r -> grows a r.
Proof.
  intros (l&Hl&E&Hn). destruct r as [b|o b|]; [..|done]; cbn; intros (l'&Hl'&E'&Hn'); exists (l' ++ l); rewrite E', E, app_assoc, app_length;
    (split; [by apply Forall_app|]); (split; [done|lia]).
Qed.
Lemma grows_same a a' r : a_tr a' = a_tr a -> a_nk a' = a_nk a -> grows a' r -> grows a r.
Proof. intros E1 E2. apply grows_at. exists []. rewrite E1, E2. split; [by constructor|]. split; [done|]. cbn. lia. Qed.
Lemma grows_one a a' e r : quiet e = true -> a_tr a' = e :: a_tr a -> a_nk a' <= S (a_nk a) -> grows a' r -> grows a r.
Proof. intros He E1 E2. apply grows_at. exists [e]. rewrite E1. split; [by repeat constructor|]. split; [done|]. cbn. lia. Qed.

Lemma grows_ret o r k a : grows a (ret_to o r k a).
Proof. exists [EvRet (a_cur a) o r]. split; [by repeat constructor|]. split; [done|]. cbn. lia. Qed.
Lemma grows_exn o x k a : grows a (exn_to o x k a).
Proof. exists [EvExn (a_cur a) o x]. split; [by repeat constructor|]. split; [done|]. cbn. lia. Qed.
Lemma grows_next f a : grows a (ANext (w_foc f a)).
Proof. exists []. split; [by constructor|]. split; [done|]. cbn. lia. Qed.

Ltac grow1 T := eapply grows_one; [| | |apply T]; [|reflexivity|cbn; lia]; reflexivity.
Ltac grow0 T := eapply grows_same; [| |apply T]; reflexivity.

Lemma grows_kill j w a : grows a (kill j w a).
Proof.
  unfold kill. destruct (a_co a !! j) as [c|]; [|done].
  assert (G : forall a1, grows a1 (
    let slot := match ac_side c with Pull => SlEmpty | Push => ac_slot c end in
    let entered := match ac_st c with ANew _ => false | _ => true end in
    let a := put_co j (ACo (ac_side c) (ac_kind c) (AUnw entered) slot (ac_syn c) (a_cur a1)) a1 in
    let a := w_cur j (w_wait (<[ a_cur a := w ]> (a_wait a)) a) in
    match ac_st c with
    | ASusp o _ k => exn_to o XUnwind k a
    | ANew _ | ADone _ => ANext (w_foc AExit a)
    | ARun | AUnw _ => AViol
    end)).
  { intros a1. cbv zeta. destruct (ac_st c); try done; first [grow0 grows_exn|grow0 grows_next]. }
  destruct (ac_side c), (ac_kind c), (ac_slot c); try done; try apply G; grow1 G.
Qed.

Lemma grows_deliver j o po k x a : grows a (deliver j o po k x a).
Proof.
  unfold deliver. destruct x as [e|], po as [|h|h|h kd]; try apply grows_exn; try apply grows_kill; try apply grows_ret.
  - destruct (a_h a !! h) as [[[] kd e]|]; try done. destruct (avalid e a); [apply grows_ret|done].
  - destruct (a_h a !! h) as [[[] kd e]|]; try done. destruct (avalid e a); [apply grows_ret|done].
  - destruct (ac_st <$> a_co a !! j) as [[]|]; try done; [|apply grows_kill]. grow1 grows_ret.
Qed.

Lemma grows_give n st x a : grows a (give_back n st x a).
Proof.
  unfold give_back. destruct (a_co a !! n) as [c|]; [|done]. destruct (a_wait a !! ac_by c) as [[]|]; try done. grow0 grows_deliver.
Qed.

Lemma grows_transfer e o po k a : grows a (transfer e o po k a).
Proof.
  unfold transfer. destruct e as [n|n]; [|apply grows_give]. destruct (a_co a !! n) as [c|]; [|done]. cbv zeta.
  destruct (ac_st c); try done.
  - grow1 grows_next.
  - grow0 grows_deliver.
Qed.

Lemma grows_push e kd lv g o po k a : grows a (push_op e kd lv g o po k a).
Proof.
  unfold push_op. destruct (negb (resumable e a)); [done|]. cbv zeta. destruct (a_co a !! ep_co e) as [c|]; [|done].
  destruct kd; [|destruct g; try done; grow1 grows_transfer|apply grows_transfer].
  destruct (ac_slot c) as [|pl|]; [..|done]; (destruct (aconstruct lv g (a_user a)) as [[e'|[v u']]|]; [..|done]).
  - grow0 grows_exn.
  - grow1 grows_transfer.
  - grow1 grows_exn.
  - apply (grows_one _ (alog (EvDel (ep_co e)) a) (EvDel (ep_co e))); [done|done|cbn; lia|]. grow1 grows_transfer.
Qed.

Lemma grows_op o k a : grows a (do_op o k a).
Proof.
  destruct o as [h|h1 h2|h|h|h g|h|h|h|h| |[h|]|[h|]|i j|i j|h| |[h|] g|v|n|l|l v]; unfold do_op; cbv zeta;
    repeat (case_match; try done); try apply grows_ret; try apply grows_transfer; try apply grows_push.
  all: try exact I. all: try (grow0 grows_ret).
  - grow0 grows_kill.
  - exists []. split; [by constructor|]. split; [done|]. cbn. lia.
Qed.

Lemma grows_new sd kd np fn k a : grows a (do_new sd kd np fn k a).
Proof.
  unfold do_new. cbv zeta. destruct (np_alloc np); [grow0 grows_exn|].
  destruct (np_fn np); [grow1 grows_exn|].
  apply (grows_one _ (alog (EvAlloc (a_nk a)) (w_nk (S (a_nk a)) (w_nh (S (a_nh a)) a))) (EvAlloc (a_nk a))); [done|done|cbn; lia|].
  destruct sd.
  - grow1 grows_next.
  - grow1 grows_ret.
Qed.

Lemma grows_exit a : grows a (do_exit a).
Proof.
  unfold do_exit. destruct (a_co a !! a_cur a) as [c|]; [|done]. destruct (a_h a !! ac_syn c) as [[sd kd e]|]; [|done]. cbv zeta.
  repeat (case_match; try done).
  - grow1 grows_kill.
  - grow1 grows_next.
  - grow1 grows_next.
Qed.

Lemma grows_exit2 a : grows a (do_exit2 a).
Proof.
  unfold do_exit2. destruct (a_co a !! a_cur a) as [c|]; [|done].
  assert (G : forall a1, grows a1 (
     let a := alog (EvFree (a_cur a)) (w_co (delete (a_cur a) (a_co a1)) a1) in
          match a_wait a !! ac_by c with
          | None => AViol
          | Some w =>
              let a := w_cur (ac_by c) (w_wait (delete (ac_by c) (a_wait a)) a) in
              match w with
              | WExit _ => ANext (w_foc AExit2 a)
              | WKill _ o KfDestroy k => ret_to o AUnit k a
              | WKill _ o (KfEmpty h kd) k => ret_to o (AH h) k (w_h (<[ h := HObj Pull kd None ]> (a_h a)) a)
              | WKill _ o (KfThrow e) k => exn_to o (XUser e) k a
              | WOp _ _ _ _ => AViol
              end
          end)).
  { intros a1. cbv zeta. repeat (case_match; try done); first [grow1 grows_exn|grow1 grows_ret|grow1 grows_next]. }
  destruct (ac_side c), (ac_kind c), (ac_slot c); try done; try apply G; grow1 G.
Qed.

(** The event with which user code starts a step. *)
Definition starts (a : astate) : list event :=
  match a_foc a with
  | AUser (SDo o _) => [EvCall (a_cur a) (NOp o)]
  | AUser (SNew sd kd _ _ _) => [EvCall (a_cur a) (NNew sd kd)]
  | AUser SRet => if decide (a_cur a = 0) then [] else [EvLeave (a_cur a) None]
  | AUser (SThrow x) => if decide (a_cur a = 0) then [] else [EvLeave (a_cur a) (Some x)]
  | _ => []
  end.

Lemma grows_leave x a : match do_leave x a with
  | ANext a' | AHalt _ a' => exists l, Forall (fun e => quiet e = true) l /\ a_tr a' = l ++ (if decide (a_cur a = 0) then [] else [EvLeave (a_cur a) x]) ++ a_tr a /\ a_nk a' <= a_nk a + length l
  | AViol => True end.
Proof.
  unfold do_leave. destruct (decide (a_cur a = 0)).
  - destruct x as [[]|]; try done; exists []; cbn; (split; [by constructor|split; [done|lia]]).
  - destruct (a_co a !! a_cur a) as [c|]; [|done]. cbv zeta.
    assert (Q : forall r, grows (alog (EvLeave (a_cur a) x) a) r -> match r with
      | ANext a' | AHalt _ a' => exists l, Forall (fun e => quiet e = true) l /\ a_tr a' = l ++ [EvLeave (a_cur a) x] ++ a_tr a /\ a_nk a' <= a_nk a + length l
      | AViol => True end) by (intros [| |] G; exact G).
    apply Q. destruct (ac_st c), x as [[]|]; try done; try apply grows_give. apply grows_next.
Qed.

Lemma astep_grows a : match astep a with
  | ANext a' | AHalt _ a' => exists l, Forall (fun e => quiet e = true) l /\ a_tr a' = l ++ starts a ++ a_tr a /\ a_nk a' <= a_nk a + length l
  | AViol => True end.
Proof.
  unfold astep, starts. destruct (a_foc a) as [[|x|o k|sd kd np fn k|s]| |].
  - apply grows_leave.
  - apply grows_leave.
  - destruct (negb _); [done|]. apply (grows_op o k (alog (EvCall (a_cur a) (NOp o)) a)).
  - apply (grows_new sd kd np fn k (alog (EvCall (a_cur a) (NNew sd kd)) a)).
  - apply grows_next.
  - apply grows_exit.
  - apply grows_exit2.
Qed.

Lemma nk_tr p u n a : arun n (ainit p u) = ANext a -> a_nk a <= S (length (a_tr a)).
Proof.
  revert a. induction n as [|n IH]; intros a; [by intros [= <-]; cbn; lia|]. rewrite arun_S. destruct (arun n (ainit p u)) as [b| |]; try done. intros E.
  pose proof (astep_grows b) as G. rewrite E in G. destruct G as (l&_&->&G). specialize (IH _ eq_refl). rewrite !app_length. lia.
Qed.
(** ** Destruction: from what happens to what has to hold *)
Definition never (a : astate) : Prop := forall n, arun n a <> AViol.
Definition neverr (r : ares) : Prop := r <> AViol /\ forall a, r = ANext a -> never a.

Lemma never_step a : never a -> neverr (astep a).
Proof. intros H. split; [intros E; specialize (H 1); cbn in H; by rewrite E in H|]. intros a' E n. specialize (H (S n)). cbn in H. by rewrite E in H. Qed.

Definition intact (co : gmap nat acoro) : Prop := map_Forall (fun _ c => ac_slot c <> SlBad) co.
Lemma intact_ins co k c : intact co -> ac_slot c <> SlBad -> intact (<[k := c]> co).
Proof. intros H1 H2. by apply map_Forall_insert_2. Qed.

(** Coroutines that are not being destroyed are in [X]. *)
Definition within (co : gmap nat acoro) (X : gset nat) : Prop := forall k c, co !! k = Some c -> unw_st (ac_st c) = false -> k ∈ X.

(** What can be destroyed after [j] is being destroyed could be destroyed before. *)
Lemma kl_back co hs co' hs' j c' : (forall i, i <> j -> co' !! i = co !! i) -> is_Some (co !! j) -> co' !! j = Some c' -> active (ac_st c') = true ->
  (forall z o, hs' !! z = Some o -> hs !! z = Some o) ->
  forall m i, kl co' hs' m i = true -> kl co hs m i = true.
Proof.
  intros Hco Hj Hj' Hu Hhs. induction m as [|m IH]; intros i Hi; [done|]. cbn in Hi |- *.
  destruct (decide (i = j)) as [->|Hne]. { rewrite Hj' in Hi. destruct (ac_slot c'); try done; by destruct (ac_st c'). }
  rewrite Hco in Hi by done. destruct (co !! i) as [c|]; [|done].
  assert (Hg : goes co' hs' (kl co' hs' m) (ac_syn c) = true -> goes co hs (kl co hs m) (ac_syn c) = true).
  { unfold goes. destruct (hs' !! ac_syn c) as [o|] eqn:Ho; [|done]. rewrite (Hhs _ _ Ho). destruct (h_ep o) as [[i'|i']|]; [auto|..|done].
    intros Hg. apply bool_decide_eq_true in Hg. apply bool_decide_eq_true. destruct (decide (i' = j)) as [->|]; [done|]. by rewrite <- Hco. }
  destruct (ac_slot c); try done; destruct (ac_st c); auto.
Qed.
Lemma goes_back co hs co' hs' j c' m x : (forall i, i <> j -> co' !! i = co !! i) -> is_Some (co !! j) -> co' !! j = Some c' -> active (ac_st c') = true ->
  (forall z o, hs' !! z = Some o -> hs !! z = Some o) ->
  goes co' hs' (kl co' hs' m) x = true -> goes co hs (kl co hs m) x = true.
Proof.
  intros Hco Hj Hj' Hu Hhs. unfold goes. destruct (hs' !! x) as [o|] eqn:Ho; [|done]. rewrite (Hhs _ _ Ho). destruct (h_ep o) as [[i'|i']|]; [|..|done].
  - by eapply kl_back.
  - intros Hg. apply bool_decide_eq_true in Hg. apply bool_decide_eq_true. destruct (decide (i' = j)) as [->|]; [done|]. by rewrite <- Hco.
Qed.

Definition exit_goes (m : nat) : Prop := forall b X, a_foc b = AExit -> never b -> intact (a_co b) -> within (a_co b) X -> size X <= m ->
  exists c, a_co b !! a_cur b = Some c /\ goes (a_co b) (a_h b) (kl (a_co b) (a_h b) m) (ac_syn c) = true.

(** The state in which the destruction of [j] goes on, if its function is not suspended. *)
Lemma kill_next j w b c : a_co b !! j = Some c -> ac_slot c <> SlBad -> neverr (kill j w b) -> active (ac_st c) = false /\
  forall x, ac_st c = ADone x -> exists b', a_foc b' = AExit /\ never b' /\ a_cur b' = j /\ a_h b' = a_h b /\
    exists c', a_co b' = <[j := c']> (a_co b) /\ ac_st c' = AUnw true /\ ac_syn c' = ac_syn c /\ ac_slot c' <> SlBad.
Proof.
  intros Hj Hs. unfold kill. rewrite Hj.
  assert (G : forall a1, a_h a1 = a_h b -> a_co a1 = a_co b -> neverr (
    let slot := match ac_side c with Pull => SlEmpty | Push => ac_slot c end in
    let entered := match ac_st c with ANew _ => false | _ => true end in
    let a := put_co j (ACo (ac_side c) (ac_kind c) (AUnw entered) slot (ac_syn c) (a_cur a1)) a1 in
    let a := w_cur j (w_wait (<[ a_cur a := w ]> (a_wait a)) a) in
    match ac_st c with
    | ASusp o _ k => exn_to o XUnwind k a
    | ANew _ | ADone _ => ANext (w_foc AExit a)
    | ARun | AUnw _ => AViol
    end) -> active (ac_st c) = false /\
    forall x, ac_st c = ADone x -> exists b', a_foc b' = AExit /\ never b' /\ a_cur b' = j /\ a_h b' = a_h b /\
    exists c', a_co b' = <[j := c']> (a_co b) /\ ac_st c' = AUnw true /\ ac_syn c' = ac_syn c /\ ac_slot c' <> SlBad).
  { intros a1 E1 E2. cbv zeta. intros [N1 N2]. destruct (ac_st c) as [fn|o po k| |x|] eqn:Hst; try done. split; [done|]. intros x' _.
    eexists. split; [|split; [by apply N2|]]; [done|]. split; [done|]. split; [done|]. cbn. rewrite E2. eexists. split; [done|]. split; [done|]. split; [done|]. cbn. by destruct (ac_side c). }
  destruct (ac_side c), (ac_kind c), (ac_slot c); try done; by apply G.
Qed.

Lemma kill_goes m j w b hs X : exit_goes m -> neverr (kill j w b) -> intact (a_co b) -> within (a_co b) X -> size X <= S m ->
  (forall z o, a_h b !! z = Some o -> hs !! z = Some o) -> kl (a_co b) hs (S m) j = true.
Proof.
  intros IH N Hi Hw Hsz Hhs. destruct (a_co b !! j) as [c|] eqn:Hj; [|exfalso; destruct N as [N _]; unfold kill in N; by rewrite Hj in N].
  pose proof (Hi _ _ Hj) as Hs. cbn in Hs. destruct (kill_next _ _ _ _ Hj Hs N) as [Ha Hn]. cbn. rewrite Hj.
  assert (G : match ac_st c with ANew _ | ASusp _ _ _ => true | ADone _ => goes (a_co b) hs (kl (a_co b) hs m) (ac_syn c) | _ => false end = true).
  { destruct (ac_st c) as [| | |x|] eqn:Hst; try done. destruct (Hn _ eq_refl) as (b'&Hf&Hnv&Hc&Hh&c'&Hco&Hs'&Hy&Hsl).
    destruct (IH b' (X ∖ {[j]})) as (c''&Hc''&Hg); [done|done|..].
    - rewrite Hco. by apply intact_ins.
    - rewrite Hco. intros k ck [[<- <-]|[Hne Hk]]%lookup_insert_Some; [by rewrite Hs'|]. intros Hu. apply elem_of_difference. split; [by eapply Hw|]. by intros ->%elem_of_singleton.
    - assert (j ∈ X) by (eapply Hw; [exact Hj|by rewrite Hst]). rewrite size_difference by (by apply singleton_subseteq_l). rewrite size_singleton. lia.
    - rewrite Hc, Hco, lookup_insert in Hc''. injection Hc'' as <-. rewrite Hy in Hg. rewrite Hco, Hh in Hg.
      eapply (goes_back (a_co b) hs _ _ j c'); [..|exact Hg].
      + intros i Hne. by rewrite lookup_insert_ne.
      + by rewrite Hj.
      + by rewrite lookup_insert.
      + by rewrite Hs'.
      + done. }
  by destruct (ac_slot c).
Qed.

Lemma exit_goes_all m : exit_goes m.
Proof.
  induction m as [|m IH]; intros b X Hf Hn Hi Hw Hsz; pose proof (never_step _ Hn) as N; unfold astep in N; rewrite Hf in N; unfold do_exit in N;
    (destruct (a_co b !! a_cur b) as [c|]; [|by destruct N]); exists c; (split; [done|]); unfold goes; (destruct (a_h b !! ac_syn c) as [[sd kd e]|] eqn:Ha; [|by destruct N]);
    cbn in N |- *; (destruct e as [[j|j]|]; [..|done]).
  - exfalso. destruct (a_co b !! j) as [cj|] eqn:Hj; [|destruct N as [N _]; unfold kill in N; cbn in N; by rewrite Hj in N].
    destruct (kill_next j _ _ cj (Hj : a_co (alog _ (w_h _ b)) !! j = Some cj) (Hi _ _ Hj) N) as [Hu _]. assert (Hx : j ∈ X) by (eapply Hw; [exact Hj|by destruct (ac_st cj)]).
    assert (X ≡ ∅) as E by (apply size_empty_inv; lia). by apply E in Hx.
  - destruct (a_co b !! j) as [cj|] eqn:Hj; [|by destruct N]. apply bool_decide_eq_true. by eexists.
  - eapply (kill_goes m j _ _ _ X IH N); [done|done|done|]. cbn. intros z o [_ Hz]%lookup_delete_Some. done.
  - destruct (a_co b !! j) as [cj|] eqn:Hj; [|by destruct N]. apply bool_decide_eq_true. by eexists.
Qed.

(** ** User code *)
Section user.
Context (p : strat) (u : gmap nat T) (a : astate) (st : strat).
Context (Hx : mreach p u (a, MFoc)) (Hf : a_foc a = AUser st) (N : never a).
Context (Hnk : a_nk a <= S (length (a_tr a))).
Context (Q : push_failed (a_tr a) = false) (Qn : forall a', astep a = ANext a' -> push_failed (a_tr a') = false).

Let HI : Inv a := mreach_minv _ _ _ Hx.
Let L := mreach_life _ _ _ Hx.
Let P := mreach_pend _ _ _ Hx.
Let D := mreach_den _ _ _ Hx.
Let B : basic a := mreach_basic _ _ _ Hx.

Lemma ex_intact : intact (a_co a).
Proof. intros k c Hc Hs. destruct (mreach_bad _ _ _ Hx _ _ Hc Hs) as [E|[]]. cbn in E. by rewrite (failed_spoiled _ _ Q) in E. Qed.

Lemma ex_new h : hid a h -> exists k c, a_co a !! k = Some c /\ hst (ac_st c) = 0 /\ ac_syn c = h /\ a_h a !! h = Some (HObj Pull (ac_kind c) (Some (Inner k))).
Proof.
  intros (k&c&Hc&Hs&<-). pose proof (uc_hst _ _ _ _ Hx Hf _ _ Hc). assert (hst (ac_st c) = 0) as H0 by (destruct (ac_st c) as [| | | |[]]; done).
  exists k, c. split; [done|]. split; [done|]. split; [done|]. by apply (d_new _ D).
Qed.

Lemma ex_known h : known a h = true -> ~ hid a h.
Proof.
  intros Hk Hh. destruct (ex_new _ Hh) as (k&c&Hc&Hs&E&_). apply bool_decide_eq_true in Hk. specialize (Hk _ _ Hc). cbn in Hk. unfold hides in Hk.
  destruct (ac_st c) as [| | | |[]]; try done. by rewrite E, Nat.eqb_refl in Hk.
Qed.

Lemma ex_obj h sd kd e : a_h a !! h = Some (HObj sd kd e) -> ~ hid a h -> (forall d, e = Some d -> is_Some (a_co a !! ep_co d)) ->
  den (a_tr a) !! h = Some e /\ typ h (a_tr a) = Some (sd, kd) /\ usable h (a_tr a) = true.
Proof.
  intros Ha Hh He. destruct (dp_den _ _ _ Hx _ _ _ _ Ha Hh) as [E1 E2]. split; [done|]. split; [done|]. unfold usable. rewrite E1.
  destruct e as [d|]; [|done]. destruct (He _ eq_refl) as [c Hc]. by eapply dp_lives.
Qed.

(** Who gets control back in a call can finish it. *)
Lemma ex_returns cx j o po k b n c c' : deliver j o po k None b <> AViol -> a_h b = a_h a -> a_co b = <[n := c']> (a_co a) -> a_co a !! n = Some c ->
  hst (ac_st c) = 2 -> pst o po -> pend cx (a_tr a) = Some o -> returns cx (a_tr a) = true.
Proof.
  intros Hd Hh Hco Hn Hs Hps Hp. unfold returns. rewrite Hp.
  assert (Hin : forall i, is_Some (a_co b !! i) -> is_Some (a_co a !! i)).
  { intros i. rewrite Hco. destruct (decide (n = i)) as [->|]; [by rewrite Hn; eexists|by rewrite lookup_insert_ne]. }
  assert (G : forall h sd kd e b0, a_h a !! h = Some (HObj sd kd e) -> avalid e b = Some b0 -> is_class sd h (a_tr a) && usable h (a_tr a) = true).
  { intros h sd kd e b0 Ha Hv. assert (Hnh : ~ hid a h).
    { intros (k0&c0&Hc0&Hs0&_&E)%ex_new. rewrite Ha in E. injection E as -> -> ->. cbn in Hv. rewrite Hco in Hv.
      rewrite lookup_insert_ne in Hv by (intros ->; rewrite Hn in Hc0; injection Hc0 as <-; lia). rewrite Hc0 in Hv. destruct (ac_st c0) as [| | | |[]]; done. }
    destruct (ex_obj _ _ _ _ Ha Hnh) as (E1&E2&E3).
    - intros d ->. apply Hin. destruct d as [i|i]; cbn in Hv |- *; destruct (a_co b !! i); try done; by eexists.
    - unfold is_class. rewrite E2, E3. by rewrite bool_decide_eq_true_2. }
  destruct po as [|h|h|h kd]; cbn in Hps.
  - destruct Hps as [[h ->]|(h&g&->)]; done.
  - subst o. unfold deliver in Hd. rewrite Hh in Hd. destruct (a_h a !! h) as [[[] kd e]|] eqn:Ha; try done. destruct (avalid e b) as [b0|] eqn:Hv; [|done]. by eapply G.
  - destruct Hps as [g ->]. unfold deliver in Hd. rewrite Hh in Hd. destruct (a_h a !! h) as [[[] kd e]|] eqn:Ha; try done. destruct (avalid e b) as [b0|] eqn:Hv; [|done]. by eapply G.
  - by subst o.
Qed.

(** Transfer of control. *)
Lemma ex_outer k c o po kk b : a_co a !! k = Some c -> resumable (Outer k) a = true -> transfer (Outer k) o po kk b <> AViol -> a_h b = a_h a ->
  (exists s, a_co b = <[k := c_slot s c]> (a_co a)) -> transferable (Outer k) (a_tr a) = true.
Proof.
  intros Hc Hr Ht Hh [s Hco]. unfold resumable in Hr. rewrite Hc in Hr. assert (Ha : active (ac_st c) = false) by by destruct (ac_st c).
  pose proof (uc_ph _ _ _ Hx _ _ Hc) as Hp. destruct (basic_inactive _ _ _ B Hc Ha) as [Hnc Hnw]. unfold transferable.
  destruct (ac_st c) as [fn|o' po' k'| | |] eqn:E; try done; cbn in Hp; rewrite Hp.
  - cbn. unfold returns. assert (pend k (a_tr a) = None) as ->; [|done]. rewrite (pi_pend _ P). unfold xop. cbn. rewrite decide_False by done. rewrite Hnw, Hc. cbn. by rewrite E.
  - rewrite bool_decide_eq_true_2 by (eapply (dp_idle _ _ _ _ Hx Hf); [done|by rewrite E]). destruct (uc_pend_susp _ _ _ Hx HI _ _ _ _ _ Hc E) as (Hpe&Hps&_). cbn [andb].
    unfold transfer in Ht. rewrite Hco, lookup_insert in Ht. cbn [ac_st c_slot] in Ht. rewrite E in Ht. cbv zeta in Ht.
    eapply (ex_returns _ k o' po' k' _ k c); [exact Ht|done| |exact Hc|by rewrite E|done|done]. cbn. rewrite Hco. apply insert_insert.
Qed.

Lemma ex_running c : a_co a !! a_cur a = Some c -> ac_st c = ARun -> unwinding (a_cur a) (a_tr a) = false /\ life (a_cur a) (a_tr a) = PRun.
Proof.
  intros Hc Hs. pose proof (uc_ph _ _ _ Hx _ _ Hc) as Hp. rewrite Hs in Hp. cbn in Hp. split; [|done].
  destruct (unwinding (a_cur a) (a_tr a)) eqn:Eu; [|done]. apply unwinding_unw in Eu. destruct (un_st _ (mreach_unw _ _ _ Hx) (a_cur a) Eu Hp) as (c'&Hc'&Hs'). cbn in Hc'. congruence.
Qed.

Lemma ex_back c stt b : a_co a !! a_cur a = Some c -> ac_st c = ARun -> give_back (a_cur a) stt None b <> AViol -> a_h b = a_h a -> a_wait b = a_wait a ->
  (exists s, a_co b = <[a_cur a := c_slot s c]> (a_co a)) -> returns (resumer (a_tr a)) (a_tr a) = true.
Proof.
  intros Hc Hs Hg Hh Hw [s Hco]. rewrite (uc_rsm _ _ _ _ Hx HI Hf _ Hc). destruct (uc_waits _ _ _ Hx HI _ Hc Hs) as (j&o&po&k&Hwt&->&Hp&Hps&_).
  unfold give_back in Hg. rewrite Hco, lookup_insert, Hw in Hg. cbn [ac_by c_slot] in Hg. rewrite Hwt in Hg.
  eapply (ex_returns _ (a_cur a) o po k _ (a_cur a) c); [exact Hg|done| |exact Hc|by rewrite Hs|done|done]. cbn. rewrite Hco. apply insert_insert.
Qed.

Lemma ex_transfer e c o po kk b : a_co a !! ep_co e = Some c -> resumable e a = true -> transfer e o po kk b <> AViol -> a_h b = a_h a -> a_wait b = a_wait a ->
  (exists s, a_co b = <[ep_co e := c_slot s c]> (a_co a)) -> transferable e (a_tr a) = true.
Proof.
  intros Hc Hr Ht Hh Hw Hco. destruct e as [k|k]; [by eapply ex_outer|]. cbn in Hc, Hco, Hr, Ht. apply andb_true_iff in Hr as [->%bool_decide_eq_true Hr].
  rewrite Hc in Hr. assert (ac_st c = ARun) as Hs by by destruct (ac_st c). destruct (ex_running _ Hc Hs) as [Hu Hl]. cbn. rewrite Hl, Hu. cbn.
  destruct (chain_head _ _ _ (uc_stack _ _ _ _ Hx Hf)) as [l El]. rewrite bool_decide_eq_true_2 by (by rewrite El). cbn. by eapply ex_back.
Qed.

Lemma ex_resumable e b : resumable e a = true -> exists c, a_co a !! ep_co e = Some c /\ a_co a = <[ep_co e := c_slot (ac_slot c) c]> (a_co a) /\ (a_co b = a_co a -> exists s, a_co b = <[ep_co e := c_slot s c]> (a_co a)).
Proof.
  intros Hr. assert (exists c, a_co a !! ep_co e = Some c) as [c Hc].
  { unfold resumable in Hr. destruct e as [k|k]; cbn [ep_co]; (destruct (a_co a !! k) as [c|]; [by exists c|]); [done|]. by rewrite andb_false_r in Hr. }
  assert (E : a_co a = <[ep_co e := c_slot (ac_slot c) c]> (a_co a)) by (symmetry; apply insert_id; rewrite Hc; by destruct c).
  exists c. split; [done|]. split; [done|]. intros ->. by exists (ac_slot c).
Qed.

(** Destruction. *)
Lemma ex_fuel : size (dom (a_co a)) <= length (a_tr a).
Proof.
  assert (dom (a_co a) ⊆ set_seq (C := gset nat) 1 (length (a_tr a))) as Hs.
  { intros k [c Hc]%elem_of_dom. pose proof (ib_dom _ B _ _ Hc). apply elem_of_set_seq. lia. }
  apply subseteq_size in Hs. by rewrite size_set_seq in Hs.
Qed.

Lemma ex_within (co' : gmap nat acoro) : (forall k, is_Some (co' !! k) -> is_Some (a_co a !! k)) -> within co' (dom (a_co a)).
Proof. intros H k c Hk _. apply elem_of_dom. apply H. by eexists. Qed.

Lemma ex_goes (d d' : nat -> bool) k c : a_co a !! k = Some c -> hst (ac_st c) = 2 -> (forall j, d j = true -> d' j = true) ->
  goes (a_co a) (a_h a) d (ac_syn c) = true -> counterpart_goes d' k (a_tr a) = true.
Proof.
  intros Hc Hs Hd. unfold counterpart_goes. assert (handed k (a_tr a) = Some (ac_syn c)) as -> by (by apply (mreach_syn _ _ _ Hx _ _ Hc Hs)).
  unfold goes. destruct (a_h a !! ac_syn c) as [[sd kd e]|] eqn:Ha; [|done]. destruct (dp_den _ _ _ Hx _ _ _ _ Ha (dp_nhid _ _ _ Hx _ _ Hc Hs)) as [-> _]. cbn.
  destruct e as [[j|j]|]; [auto|..|done]. intros [c' Hc']%bool_decide_eq_true. by eapply dp_lives.
Qed.

Lemma ex_kl m : forall k m', m <= m' -> kl (a_co a) (a_h a) m k = true -> destroyable m' k (a_tr a) = true.
Proof.
  induction m as [|m IH]; intros k m' Hle Hk; [done|]. destruct m' as [|m']; [lia|]. cbn in Hk |- *. rewrite (failed_spoiled _ _ Q). cbn.
  destruct (a_co a !! k) as [c|] eqn:Hc; [|done]. pose proof (uc_ph _ _ _ Hx _ _ Hc) as Hp.
  assert (Hk' : match ac_st c with ANew _ | ASusp _ _ _ => true | ADone _ => goes (a_co a) (a_h a) (kl (a_co a) (a_h a) m) (ac_syn c) | _ => false end = true) by by destruct (ac_slot c). clear Hk.
  destruct (ac_st c) eqn:E; try done; cbn in Hp; rewrite Hp; [done|..].
  - apply bool_decide_eq_true. eapply (dp_idle _ _ _ _ Hx Hf); [done|by rewrite E].
  - eapply ex_goes; [done|by rewrite E| |exact Hk']. intros j Hj. apply IH; [lia|done].
Qed.

Lemma ex_destroy j w b : neverr (kill j w b) -> a_co b = a_co a -> (forall z o, a_h b !! z = Some o -> a_h a !! z = Some o) ->
  destroyable (length (a_tr a)) j (a_tr a) = true.
Proof.
  intros Hk Hco Hh. pose proof ex_fuel as Hfu. assert (exists m, size (dom (a_co a)) = S m) as [m Hm].
  { assert (exists c, a_co a !! j = Some c) as [c Hc]. { destruct Hk as [Hk _]. unfold kill in Hk. rewrite Hco in Hk. destruct (a_co a !! j) as [c|]; [by exists c|done]. }
    destruct (size (dom (a_co a))) as [|m] eqn:E; [|by exists m]. apply size_empty_inv in E. assert (j ∈ dom (a_co a)) as Hj by (by apply elem_of_dom; exists c). by apply E in Hj. }
  eapply (ex_kl (S m)); [lia|]. rewrite <- Hco. eapply (kill_goes m j w b (a_h a) (dom (a_co a))); [apply exit_goes_all|done|rewrite Hco; apply ex_intact| |lia|done].
  rewrite Hco. by apply ex_within.
Qed.

(** The current coroutine goes away: now, or after its constructor has killed it. *)
Lemma ex_exit b c c' : a_co a !! a_cur a = Some c -> hst (ac_st c) = 2 -> a_foc b = AExit -> never b -> a_cur b = a_cur a -> a_h b = a_h a ->
  a_co b = <[a_cur a := c']> (a_co a) -> active (ac_st c') = true -> ac_slot c' <> SlBad -> ac_syn c' = ac_syn c -> disposable (a_cur a) (a_tr a) = true.
Proof.
  intros Hc Hs Hfb Hn Hcur Hh Hco Ha Hsl Hy. destruct (exit_goes_all (length (a_tr a)) b (dom (a_co a))) as (c''&Hc''&Hg); [done|done|..].
  - rewrite Hco. apply intact_ins; [apply ex_intact|done].
  - rewrite Hco. apply ex_within. intros k. destruct (decide (a_cur a = k)) as [<-|]; [by rewrite Hc; eexists|by rewrite lookup_insert_ne].
  - apply ex_fuel.
  - rewrite Hcur, Hco, lookup_insert in Hc''. injection Hc'' as <-. rewrite Hco, Hh, Hy in Hg. unfold disposable.
    eapply ex_goes; [done|done| |eapply (goes_back (a_co a) (a_h a) _ _ (a_cur a) c'); [..|exact Hg]].
    + intros j Hj. by eapply ex_kl.
    + intros i Hne. by rewrite lookup_insert_ne.
    + by rewrite Hc.
    + by rewrite lookup_insert.
    + done.
    + done.
Qed.

Theorem ex_leave r c : a_co a !! a_cur a = Some c -> neverr (do_leave r a) -> may_leave (a_cur a) r (a_tr a) = true.
Proof.
  intros Hc Hl. assert (Hn0 : a_cur a <> 0). { pose proof (ib_dom _ B _ _ Hc). lia. }
  unfold do_leave in Hl. rewrite decide_False in Hl by done. rewrite Hc in Hl. cbv zeta in Hl.
  destruct (ac_st c) as [| | | |en] eqn:Hs; try (by destruct Hl).
  - destruct (ex_running _ Hc Hs) as [Hu Hlf].
    assert (Hgb : forall x, r = (XUser <$> x) -> neverr (give_back (a_cur a) (ADone x) x (alog (EvLeave (a_cur a) r) a)) -> may_leave (a_cur a) r (a_tr a) = true).
    { intros x Hr Hg. assert (Hm : may_leave (a_cur a) r (a_tr a) = match pend (resumer (a_tr a)) (a_tr a) with
         | Some (NNew _ _) => disposable (a_cur a) (a_tr a) | _ => match r with None => returns (resumer (a_tr a)) (a_tr a) | _ => true end end).
      { unfold may_leave. rewrite Hu, Hr. by destruct x. }
      rewrite Hm. clear Hm. destruct (uc_waits _ _ _ Hx HI _ Hc Hs) as (j&o&po&k&Hwt&->&Hp&Hps&Hempty).
      assert (Hret : r = None -> returns (resumer (a_tr a)) (a_tr a) = true).
      { intros ->. destruct x; [done|]. eapply (ex_back c (ADone None) (alog (EvLeave (a_cur a) None) a)); [done|done|by apply Hg|done|done|].
        exists (ac_slot c). symmetry. apply insert_id. etrans; [exact Hc|]. by destruct c. }
      rewrite (uc_rsm _ _ _ _ Hx HI Hf _ Hc) in Hret |- *. rewrite Hp. destruct o as [o|sd kd].
      { destruct r; [done|by apply Hret]. }
      destruct po as [|h|h|h kd']; cbn in Hps; try done; [naive_solver|naive_solver|]. injection Hps as -> ->. pose proof (Hempty _ _ eq_refl) as He.
      unfold give_back in Hg. cbn [a_co a_wait alog] in Hg. rewrite Hc, Hwt in Hg.
      assert (Hk : forall w b, a_co b = <[a_cur a := c_st (ADone x) c]> (a_co a) -> a_h b = a_h a -> neverr (kill (a_cur a) w b) -> disposable (a_cur a) (a_tr a) = true).
      { intros w b E1 E2 Hk. destruct (kill_next (a_cur a) w b (c_st (ADone x) c)) as [_ Hk2]; [by rewrite E1, lookup_insert|cbn; by rewrite He|done|].
        destruct (Hk2 _ eq_refl) as (b'&Hfb&Hn&Hcur&Hh&c'&Hco&Hs'&Hy&Hsl). rewrite E1, insert_insert in Hco. eapply (ex_exit b' c c'); try done; [by rewrite Hs|by rewrite Hh|by rewrite Hs']. }
      unfold deliver in Hg. destruct x as [e|]; [eapply Hk; [| |exact Hg]; done|]. cbn [a_co w_cur w_wait put_co w_co alog] in Hg. rewrite lookup_insert in Hg. cbn [fmap option_fmap option_map c_st ac_st] in Hg.
      eapply Hk; [| |exact Hg]; done. }
    destruct r as [[e|]|]; [by apply (Hgb (Some e))|by destruct Hl|by apply (Hgb None)].
  - destruct r as [[e|]|]; try (by destruct Hl). destruct Hl as [_ Hl]. specialize (Hl _ eq_refl). pose proof (uc_hst _ _ _ _ Hx Hf _ _ Hc) as Hh. rewrite Hs in Hh. destruct en; [|done].
    assert (Hr : life (a_cur a) (a_tr a) = PRun). { apply (li_cur _ L); [done|]. unfold userish. cbn. by rewrite Hf. }
    unfold may_leave. assert (unwinding (a_cur a) (a_tr a) = true) as ->.
    { destruct (un_on _ (mreach_unw _ _ _ Hx) (a_cur a)) as [[_ (?&?&Hm')]|Hu]; [by exists c|done|done|]. by apply unwinding_unw in Hu. }
    cbn. eapply (ex_exit (w_foc AExit (alog (EvLeave (a_cur a) (Some XUnwind)) a)) c c); [done|by rewrite Hs|done|exact Hl|done|done| |by rewrite Hs|by apply (ex_intact _ _ Hc)|done]. cbn. symmetry. by apply insert_id.
Qed.

Lemma ex_read h kd e c b pl : a_h a !! h = Some (HObj Pull kd (Some e)) -> ~ hid a h -> readable e b = Some c -> a_co b = a_co a -> ac_slot c = SlFull pl -> kd <> KVoid ->
  has_data Pull h (a_tr a) && can_read h (a_tr a) = true.
Proof.
  intros Ha Hh Hr Hco Hs Hk. assert (Hr' : a_co a !! ep_co e = Some c /\ match e with Outer _ => match ac_st c with ADone _ | AUnw _ => False | _ => True end | Inner _ => True end).
  { unfold readable in Hr. rewrite <- Hco. destruct e as [k|k]; cbn [ep_co]; (destruct (a_co b !! k) as [c'|]; [|done]); cbn in Hr; destruct (ac_st c') as [| | | |[]] eqn:E; try done; injection Hr as <-; by rewrite ?E. }
  destruct Hr' as [Hc Hst]. destruct (ex_obj _ _ _ _ Ha Hh) as (E1&E2&_); [intros d [= <-]; by eexists|]. unfold has_data, can_read. rewrite E1, E2.
  assert (match kd with KVal | KRef => bool_decide (Pull = Pull) | KVoid => false end = true) as -> by by destruct kd.
  rewrite (dp_lives _ _ _ Hx _ _ Hc). cbn [andb].
  pose proof (sl_slot _ _ (mreach_slot _ _ _ Hx) _ _ Hc) as S. unfold slot_exp in S. cbn in S. rewrite !orb_false_r in S.
  destruct HI as [I _]. pose proof (ic_h _ _ _ _ _ I _ _ _ _ _ Ha Hc) as [_ Hsd].
  assert (slotv (ep_co e) (a_tr a) = slp (ac_slot c)) as Hsl.
  { destruct e as [k|k].
    - assert (unw_st (ac_st c) = false) as Hu by by destruct (ac_st c). by rewrite Hu, andb_false_r in S.
    - cbn in Hsd. rewrite Hsd in S. done. }
  rewrite bool_decide_eq_true_2 by (rewrite Hsl, Hs; destruct pl; by eexists). cbn. destruct e as [k|k]; [|done]. cbn in Hc. pose proof (uc_ph _ _ _ Hx _ _ Hc) as Hp.
  destruct (ac_st c); try done; cbn in Hp; by rewrite Hp.
Qed.

Lemma ex_push h kd e (lv : bool) g o po kk : a_h a !! h = Some (HObj Push kd (Some e)) -> ~ hid a h ->
  let b := alog (EvCall (a_cur a) o) a in astep a = push_op e kd lv g o po kk b -> is_Some (push_arg o) -> (if lv then aout_ok kd g else aarg_ok kd g) = true ->
  can_push u h g (a_tr a) = true.
Proof.
  intros Ha Hh b E Hpa Hg. pose proof (never_step _ N) as [N1 _]. rewrite E in N1. unfold push_op in N1, E. destruct (resumable e b) eqn:Hr; [|done]. cbn [negb] in N1, E. cbv zeta in N1, E.
  assert (Hr' : resumable e a = true) by exact Hr. destruct (ex_resumable _ b Hr') as (c&Hc&Ea&_).
  assert (a_co b !! ep_co e = Some c) as Hcb by exact Hc. rewrite Hcb in N1, E.
  destruct (ex_obj _ _ _ _ Ha Hh) as (E1&_&_); [intros d [= <-]; by eexists|]. unfold can_push. rewrite E1, (failed_spoiled _ _ Q). cbn [negb]. rewrite andb_true_r.
  assert (Hu : a_user b = umem u (a_tr a)) by apply (sl_user _ _ (mreach_slot _ _ _ Hx)).
  assert (Ht : forall b', transfer e o po kk b' <> AViol -> a_h b' = a_h a -> a_wait b' = a_wait a -> (exists s, a_co b' = <[ep_co e := c_slot s c]> (a_co a)) -> transferable e (a_tr a) = true).
  { intros. by eapply ex_transfer. }
  assert (Hfail : forall a', push_failed (a_tr a') = true -> astep a = ANext a' -> False). { intros a' H1 H2. by rewrite (Qn _ H2) in H1. }
  destruct kd.
  - assert (Hx' : exists v u', aconstruct lv g (a_user b) = Some (inr (v, u'))).
    { destruct (ac_slot c) as [|pl|]; [| |done]; (destruct (aconstruct lv g (a_user b)) as [[e'|[v u']]|]; [exfalso|by exists v, u'|done]);
        (eapply Hfail; [|exact E]); cbn; by rewrite bool_decide_eq_true_2. }
    destruct Hx' as (v&u'&Hcon). rewrite Hcon in N1.
    assert (transferable e (a_tr a) = true) as ->. { destruct (ac_slot c) as [|pl|]; [| |done]; (eapply Ht; [exact N1|done|done|]); by eexists. }
    cbn. destruct g as [l|l|v'|l|]; try done; unfold aconstruct in Hcon; rewrite Hu in Hcon; apply bool_decide_eq_true; destruct (umem u (a_tr a) !! l); try done; by eexists.
  - destruct g as [l|l|v|l|]; try done. assert (transferable e (a_tr a) = true) as ->; [|done]. eapply Ht; [exact N1|done|done|]. by eexists.
  - assert (transferable e (a_tr a) = true) as ->. { eapply Ht; [exact N1|done|done|]. by exists (ac_slot c). } by destruct lv, g.
Qed.

Theorem ex_op o k : st = SDo o k -> pre u (a_tr a) o = true.
Proof.
  intros Hst. pose proof (never_step _ N) as Hn. assert (Ea : astep a = if negb (forallb (known a) (op_hs o)) then AViol else do_op o k (alog (EvCall (a_cur a) (NOp o)) a)).
  { unfold astep. by rewrite Hf, Hst. }
  destruct (forallb (known a) (op_hs o)) eqn:Hkn; cbn [negb] in Ea; rewrite Ea in Hn; [|by destruct Hn].
  assert (K : forall h, h ∈ op_hs o -> ~ hid a h). { intros h Hh. apply ex_known. rewrite forallb_forall in Hkn. apply Hkn. by apply elem_of_list_In. }
  assert (K1 : forall h, op_hs o = [h] -> ~ hid a h). { intros h E. apply K. rewrite E. by left. }
  assert (N1 := proj1 Hn).
  assert (Hpres : forall h sd kd e, a_h a !! h = Some (HObj sd kd e) -> ~ hid a h -> present h (a_tr a) = true /\ den (a_tr a) !! h = Some e /\ typ h (a_tr a) = Some (sd, kd)).
  { intros h sd kd e Ha Hh. destruct (dp_den _ _ _ Hx _ _ _ _ Ha Hh) as [E1 E2]. split; [|done]. apply bool_decide_eq_true. by exists e. }
  assert (Husa : forall h sd kd e b bb, a_h a !! h = Some (HObj sd kd e) -> ~ hid a h -> avalid e b = Some bb -> a_co b = a_co a -> usable h (a_tr a) = true).
  { intros h sd kd e b bb Ha Hh Hv Hco. eapply ex_obj; [exact Ha|done|]. intros d ->. rewrite <- Hco. destruct d as [i|i]; cbn in Hv |- *; destruct (a_co b !! i); try done; by eexists. }
  assert (Hres : forall h sd kd e b po, a_h a !! h = Some (HObj sd kd (Some e)) -> ~ hid a h -> resumable e b = true -> transfer e (NOp o) po k b <> AViol ->
    b = alog (EvCall (a_cur a) (NOp o)) a -> can_resume h (a_tr a) = true).
  { intros h sd kd e b po Ha Hh Hr Ht ->. destruct (Hpres _ _ _ _ Ha Hh) as (_&E1&_). unfold can_resume. rewrite E1.
    destruct (ex_resumable e (alog (EvCall (a_cur a) (NOp o)) a) Hr) as (c&Hc&_&Hs). eapply ex_transfer; [exact Hc|exact Hr|exact Ht|done|done|by apply Hs]. }
  destruct o as [h|h1 h2|h|h|h g|h|h|h|h| |[h|]|[h|]|i j|i j|h| |[h|] g|v|n|l|l v]; unfold do_op in N1; cbn [a_h alog a_user] in N1; cbn [pre]; try done.
  - destruct (a_h a !! h) as [[sd kd e]|] eqn:Ha; [|done]. by apply (Hpres _ _ _ _ Ha (K1 _ eq_refl)).
  - destruct (a_h a !! h1) as [[sd kd e]|] eqn:Ha1; [|done]. destruct (a_h a !! h2) as [[sd2 kd2 e2]|] eqn:Ha2; [|done].
    destruct (bool_decide (sd = sd2) && bool_decide (kd = kd2)) eqn:Eb; [|done]. apply andb_true_iff in Eb as [->%bool_decide_eq_true ->%bool_decide_eq_true].
    destruct (Hpres _ _ _ _ Ha1) as (->&_&->); [apply K; by left|]. destruct (Hpres _ _ _ _ Ha2) as (->&_&->); [apply K; by right; left|]. cbn. by apply bool_decide_eq_true.
  - destruct (a_h a !! h) as [[sd kd e]|] eqn:Ha; [|done]. destruct (Hpres _ _ _ _ Ha (K1 _ eq_refl)) as (_&->&_). cbv zeta in N1.
    destruct e as [[j|j]|]; [| |done].
    + unfold do_op in Hn. cbn [a_h alog] in Hn. rewrite Ha in Hn. eapply ex_destroy; [exact Hn|done|]. cbn. intros z o [_ Hz]%lookup_delete_Some. done.
    + cbn [a_co w_h alog] in N1. destruct (a_co a !! j) as [c|] eqn:Hc; [|done]. by eapply dp_lives.
  - destruct (a_h a !! h) as [[[] kd [e|]]|] eqn:Ha; try done. destruct (resumable e _) eqn:Hr; [|done].
    rewrite (Hres _ _ _ _ _ _ Ha (K1 _ eq_refl) Hr N1 eq_refl). destruct (Hpres _ _ _ _ Ha (K1 _ eq_refl)) as (_&_&E). unfold is_class. rewrite E. by rewrite bool_decide_eq_true_2.
  - destruct (a_h a !! h) as [[[] kd [e|]]|] eqn:Ha; try done. destruct (aarg_ok kd g) eqn:Hg; [|done].
    destruct (Hpres _ _ _ _ Ha (K1 _ eq_refl)) as (_&_&->). rewrite (ex_push h kd e false g (NOp (OPush h g)) PoUnit k Ha (K1 _ eq_refl)); [by destruct kd, g|..|by eexists|done].
    rewrite Ea. unfold do_op. cbn [a_h alog]. by rewrite Ha, Hg.
  - destruct (a_h a !! h) as [[sd kd e]|] eqn:Ha; [|done]. destruct (avalid e _) eqn:Hv; [|done]. by eapply Husa; [exact Ha|apply K1|exact Hv|].
  - destruct (a_h a !! h) as [[sd kd e]|] eqn:Ha; [|done]. destruct (avalid e _) eqn:Hv; [|done]. by eapply Husa; [exact Ha|apply K1|exact Hv|].
  - destruct (a_h a !! h) as [[[] kd [e|]]|] eqn:Ha; try done. destruct (readable e _) as [c|] eqn:Hr; [|done].
    destruct kd; [destruct (ac_slot c) as [|[]|] eqn:Hs|destruct (ac_slot c) as [|[]|] eqn:Hs|]; try done; (eapply ex_read; [exact Ha|by apply K1|exact Hr|done|exact Hs|done]).
  - destruct (a_h a !! h) as [[[] kd e]|] eqn:Ha; try done. destruct (not_void kd) eqn:Hk; [|done]. destruct (avalid e _) eqn:Hv; [|done].
    destruct (Hpres _ _ _ _ Ha (K1 _ eq_refl)) as (_&_&E). unfold has_data. rewrite E. rewrite (Husa _ _ _ _ _ _ Ha (K1 _ eq_refl) Hv eq_refl). rewrite bool_decide_eq_true_2 by done. by destruct kd.
  - destruct (a_h a !! h) as [[[] kd [e|]]|] eqn:Ha; try done. destruct (not_void kd) eqn:Hk; [|done]. destruct (resumable e _) eqn:Hr; [|done]. cbn [andb] in N1.
    rewrite (Hres _ _ _ _ _ _ Ha (K1 _ eq_refl) Hr N1 eq_refl). destruct (Hpres _ _ _ _ Ha (K1 _ eq_refl)) as (_&_&E). unfold has_data. rewrite E. rewrite bool_decide_eq_true_2 by done. by destruct kd.
  - destruct (a_h a !! h) as [[[] kd [e|]]|] eqn:Ha; try done. destruct (readable e _) as [c|] eqn:Hr; [|done].
    destruct kd; [destruct (ac_slot c) as [|[]|] eqn:Hs|destruct (ac_slot c) as [|[]|] eqn:Hs|]; try done; (eapply ex_read; [exact Ha|by apply K1|exact Hr|done|exact Hs|done]).
  - destruct (a_h a !! h) as [[[] kd e]|] eqn:Ha; try done. destruct (not_void kd) eqn:Hk; [|done].
    destruct (Hpres _ _ _ _ Ha (K1 _ eq_refl)) as (->&_&E). unfold has_data. rewrite E. rewrite bool_decide_eq_true_2 by done. by destruct kd.
  - destruct (a_h a !! h) as [[[] kd [e|]]|] eqn:Ha; try done. destruct (aout_ok kd g) eqn:Hg; [|done].
    destruct (Hpres _ _ _ _ Ha (K1 _ eq_refl)) as (_&_&->). rewrite (ex_push h kd e true g (NOp (OOutAssign (Some h) g)) (PoOut h) k Ha (K1 _ eq_refl)); [by destruct kd, g|..|by eexists|done].
    rewrite Ea. unfold do_op. cbn [a_h alog]. by rewrite Ha, Hg.
  - assert (Hu : a_user a = umem u (a_tr a)) by apply (sl_user _ _ (mreach_slot _ _ _ Hx)). rewrite Hu in N1. apply bool_decide_eq_true. destruct (umem u (a_tr a) !! l); [by eexists|done].
Qed.
End user.

(** ** Runs *)
Section run.
Context (p : strat) (u : gmap nat T).
Context (Hs : spec_used p u).
Context (Hpf : forall n, push_failed (ares_tr (arun n (ainit p u))) = false).

Lemma arun_never n a : arun n (ainit p u) = ANext a -> never a.
Proof. intros E m. rewrite <- (Steps.arun_add n m _ _ E). apply Hs. Qed.

Lemma run_starts n a : arun n (ainit p u) = ANext a -> obeys u (a_tr a) = true -> obeys u (starts a ++ a_tr a) = true.
Proof.
  intros E Ho. pose proof (arun_mreach _ _ _ _ E) as Hx. pose proof (arun_never _ _ E) as N. pose proof (nk_tr _ _ _ _ E) as Hnk.
  assert (Q : push_failed (a_tr a) = false). { specialize (Hpf n). by rewrite E in Hpf. }
  assert (Qn : forall a', astep a = ANext a' -> push_failed (a_tr a') = false). { intros a' E'. specialize (Hpf (S n)). by rewrite arun_S, E, E' in Hpf. }
  unfold starts. destruct (a_foc a) as [s| |] eqn:Hf; [|done|done].
  assert (Hl : forall r, astep a = do_leave r a -> obeys u ((if decide (a_cur a = 0) then [] else [EvLeave (a_cur a) r]) ++ a_tr a) = true).
  { intros r Er. destruct (decide (a_cur a = 0)) as [|H0]; [done|]. cbn. rewrite Ho, andb_true_r.
    destruct (ib_cur _ (mreach_basic _ _ _ Hx)) as [?|(c&Hc&_)]; [done|]. eapply ex_leave; [exact Hx|exact Hf|exact Hnk|exact Q|exact Hc|]. rewrite <- Er. by apply never_step. }
  destruct s as [|x|o k|sd kd np fn k|s].
  - apply Hl. unfold astep. by rewrite Hf.
  - apply Hl. unfold astep. by rewrite Hf.
  - cbn. rewrite Ho, andb_true_r. eapply (ex_op p u a); [exact Hx|exact Hf|exact N|exact Hnk|exact Q|exact Qn|done].
  - done.
  - done.
Qed.

Lemma run_obeys n : obeys u (ares_tr (arun n (ainit p u))) = true.
Proof.
  induction n as [|n IH]; [done|]. rewrite arun_S. destruct (arun n (ainit p u)) as [a|o a|] eqn:E; [|done|done]. cbn in IH.
  pose proof (run_starts _ _ E IH) as Ho. pose proof (astep_grows a) as G. destruct (astep a) as [a'|o a'|]; [..|done]; destruct G as (l&Hl&Et&_); cbn; rewrite Et; by apply quiet_obeys.
Qed.

Context {comp : Compiler}.

Lemma run_used : well_used p u.
Proof.
  intros n. induction n as [n IH] using lt_wf_ind. split.
  - destruct (hist_prefix p u n) as [l Hl]; [by apply spec_used_arespects|]. eapply (obeys_app u l). rewrite <- Hl. apply run_obeys.
  - intros (m&s&Hm&Hc&Hcur&Hf). destruct (user_state _ _ _ _ _ (IH m Hm) Hc Hf) as (k&a&_&Ha&_&HR&Hfa).
    destruct (never_step _ (arun_never _ _ Ha)) as [Hn _]. apply Hn. unfold astep. rewrite Hfa. unfold do_leave. by rewrite decide_True by (rewrite <- (Refine.R_cur _ _ HR); done).
Qed.
End run.

(** ** Pushes that cannot fail *)
Section safe.
Definition st_safe (s : astatus) : Prop := match s with ANew fn => forall h, pushes_safe (fn h) | ASusp _ _ k => forall r, pushes_safe (k r) | _ => True end.
Definition wait_safe (w : wait) : Prop := match w with WOp _ _ _ k | WKill _ _ _ k => forall r, pushes_safe (k r) | WExit _ => True end.
Definition foc_safe (f : mfoc) : Prop :=
  match f with
  | MFoc | MLeft _ | MExit3 => True
  | MCall o k => push_safe o /\ forall r, pushes_safe (k r)
  | MNew _ _ _ fn k | MNew2 _ _ _ fn k _ _ => (forall h, pushes_safe (fn h)) /\ forall r, pushes_safe (k r)
  | MRet _ _ k | MExn _ _ k | MXfer _ _ _ k | MGot _ _ _ k _ | MEmpty _ _ _ k => forall r, pushes_safe (k r)
  | MPush _ _ lv g _ _ k | MPush2 _ lv g _ _ k => arg_safe lv g /\ forall r, pushes_safe (k r)
  | MKill _ w | MKill2 _ w => wait_safe w
  end.
Record SfI (x : astate * mfoc) : Prop := {
  sf_co : forall k c, a_co x.1 !! k = Some c -> st_safe (ac_st c);
  sf_wait : forall c w, a_wait x.1 !! c = Some w -> wait_safe w;
  sf_user : forall s, a_foc x.1 = AUser s -> x.2 = MFoc -> pushes_safe s;
  sf_foc : foc_safe x.2 }.

Lemma sf_init p u : pushes_safe p -> SfI (ainit p u, MFoc).
Proof. intros H. split; cbn; [done|done|by intros s [= <-]|done]. Qed.
Lemma ins_safe (m : gmap nat acoro) j c : st_safe (ac_st c) -> (forall k c, m !! k = Some c -> st_safe (ac_st c)) -> forall k c', <[ j := c ]> m !! k = Some c' -> st_safe (ac_st c').
Proof. intros H H0 k c' [[_ <-]|[_ Hl]]%lookup_insert_Some; eauto. Qed.
Lemma del_safe (m : gmap nat acoro) j : (forall k c, m !! k = Some c -> st_safe (ac_st c)) -> forall k c', delete j m !! k = Some c' -> st_safe (ac_st c').
Proof. intros H0 k c' [_ Hl]%lookup_delete_Some; eauto. Qed.
Lemma insw_safe (m : gmap nat wait) j w : wait_safe w -> (forall c w, m !! c = Some w -> wait_safe w) -> forall c w', <[ j := w ]> m !! c = Some w' -> wait_safe w'.
Proof. intros H H0 k c' [[_ <-]|[_ Hl]]%lookup_insert_Some; eauto. Qed.
Lemma delw_safe (m : gmap nat wait) j : (forall c w, m !! c = Some w -> wait_safe w) -> forall c w', delete j m !! c = Some w' -> wait_safe w'.
Proof. intros H0 k c' [_ Hl]%lookup_delete_Some; eauto. Qed.

Lemma sf_step x y : SfI x -> micro x y -> SfI y.
Proof.
  intros [C W U F] Hm. destruct Hm; cbn in C, W, U, F.
  all: try (match goal with H : a_co ?a !! _ = Some ?c |- _ => pose proof (C _ _ H) as HC end).
  all: try (match goal with H : a_wait ?a !! _ = Some _ |- _ => pose proof (W _ _ H) as HW end).
  all: try (match goal with H : ac_st ?c = _, HC : st_safe (ac_st ?c) |- _ => rewrite H in HC; cbn in HC end).
  all: try (match goal with H : a_foc ?a = AUser _ |- _ => pose proof (U _ H eq_refl) as HU; inversion HU; subst end).
  all: try (by split; cbn; [done|done|try done; intros ? [= <-] _; first [apply F|done]|try done; first [by apply F|by split|by destruct F]]).
  all: try (by split; cbn; repeat first [apply ins_safe|apply del_safe|apply insw_safe|apply delw_safe]; cbn; try done; try (by apply F); try (by intros ? [= <-] _; first [apply F|apply HC])).
  - (* local operations *)
    destruct F as [_ F]. assert (a_wait a' = a_wait a /\ (forall k c, a_co a' !! k = Some c -> st_safe (ac_st c))) as [Ew Ec].
    { destruct o as [h|h1 h2|h|h|h g|h|h|h|h| |[h|]|[h|]|i j|i j|h| |[h|] g|v|n|l|l v]; cbn in H; repeat (case_match; try done); simplify_eq; (split; [done|]); try done.
      cbn. apply ins_safe; [|done]. cbn. match goal with H : readable _ _ = Some _ |- _ => rename H into Hr end. clear -C Hr. unfold readable in Hr.
      repeat (case_match; simplify_eq/=; try done); try (apply bind_Some in Hr as (c0&Hl&Hr); repeat (case_match; simplify_eq/=; try done)); by eapply C. }
    split; cbn; [done|by rewrite Ew|intros ? [= <-] _; apply F|done].
  - destruct w as [|j o [| |e] k|j]; [done|..]; subst y; (split; cbn; [by apply del_safe|by apply delw_safe| |done]); try done.
Qed.

Definition nopush (h : list event) : Prop := match h with EvDel _ :: _ => False | EvCall _ o :: _ => push_arg o = None | _ => True end.
Definition PfI (x : astate * mfoc) : Prop :=
  push_failed (a_tr x.1) = false /\
  match x.2 with
  | MExn _ (XUser _) _ | MNew _ _ _ _ _ | MNew2 _ _ _ _ _ _ _ | MLeft _ | MGot _ _ _ _ (Some _) => nopush (a_tr x.1)
  | _ => True
  end.

Lemma failed_quiet e h : (forall c o x, e = EvExn c o (XUser x) -> nopush h) -> push_failed h = false -> push_failed (e :: h) = false.
Proof.
  intros H Hs. cbn [push_failed]. rewrite Hs, orb_false_r. destruct e as [c o|c o g|c o [ex|]|m y|m r|m p0|m|m y|m y|m|m]; try done.
  specialize (H _ _ _ eq_refl). destruct h as [|[] h]; try done. cbn in H. by rewrite H.
Qed.

Lemma pf_step x y : SfI x -> PfI x -> micro x y -> PfI y.
Proof.
  intros [_ _ _ Hsf] [S F] Hm.
  destruct Hm; cbn -[push_failed] in S, F |- *; try done; try (by split; [apply failed_quiet|]).
  - split; [|done]. apply failed_quiet; [|done]. intros ??? E. simplify_eq. done.
  - assert (a_tr a' = a_tr a) as E.
    { destruct o as [h|h1 h2|h|h|h g|h|h|h|h| |[h|]|[h|]|i j|i j|h| |[h|] g|v|n|l|l v]; cbn in H; repeat (case_match; try done); by simplify_eq. }
    split; [|done]. cbn [fst w_foc alog a_tr]. rewrite E. by apply failed_quiet.
  - exfalso. eapply arg_fine; [apply Hsf|done].
  - split; [done|]. cbn. by destruct x.
  - destruct w as [|j o [| |e] k|j]; [done|..]; subst y; (split; [by apply failed_quiet|done]).
Qed.

Lemma mreach_pf p u x : pushes_safe p -> mreach p u x -> push_failed (a_tr x.1) = false.
Proof.
  intros Hp H. assert (HI : SfI x /\ PfI x); [|by destruct HI as [_ [? _]]]. revert x H. apply (mreach_ind p u (fun x => SfI x /\ PfI x)).
  - split; [by apply sf_init|done].
  - intros x y _ [H1 H2] Hm. split; [by eapply sf_step|by eapply pf_step].
Qed.

Lemma run_pf p u n : pushes_safe p -> push_failed (ares_tr (arun n (ainit p u))) = false.
Proof.
  intros Hp. destruct (arun n (ainit p u)) as [a|o a|] eqn:E; [|destruct (ahalt_mreach _ _ _ _ _ E) as [f Hf]; apply (mreach_pf _ _ _ Hp Hf)|done].
  apply (mreach_pf p u (a, MFoc) Hp). by eapply arun_mreach.
Qed.

(** Values that never throw. *)
Lemma nothrow_safe : (forall v, copy_exn v = None) -> (forall v, move_exn v = None) -> forall p, pushes_safe p.
Proof.
  intros Hc Hm. assert (Hg : forall lv g, arg_safe lv g) by (intros [] []; cbn; done).
  cofix IH. intros [| x|o k|sd kd np fn k|s]; [apply on_ret|apply on_throw|apply on_do; [destruct o; cbn; auto|intros r; apply IH]|apply on_new; intros; apply IH|apply on_tau, IH].
Qed.
End safe.

Context {comp : Compiler}.

(** If no push fails, respecting the contract and staying within the reference
    semantics are the same. *)
Theorem contract_exact p u : (forall n, push_failed (hist p u n) = false) -> (well_used p u <-> spec_used p u).
Proof.
  intros Hpf. split; [apply respects_spec|]. intros Hs.
  assert (E : forall n, exists N, hist p u N = ares_tr (arun n (ainit p u))). { intros n. apply hist_complete. by apply spec_used_arespects. }
  apply run_used; [done|]; intros n; destruct (E n) as [m <-]; auto.
Qed.

Theorem contract_exact_safe p u : pushes_safe p -> (well_used p u <-> spec_used p u).
Proof.
  intros Hp. split; [apply respects_spec|]. intros Hs. apply run_used; [done|]. intros n. by apply run_pf.
Qed.
End ex.
