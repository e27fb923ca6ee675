(** FactsSeq.v -- facts about sequences of pushed and received values. *)
From stdpp Require Import prelude gmap.
From Coq Require Import Lia.
From Verif Require Import Base Model Spec InvSpec Main Micro Trace Life Pend Den Tgt Stack Slot Turn Hist FactsVal Next Rules RulesProof FactsLife.

Section seq.
Context {env : Env} {comp : Compiler}.

Lemma read_ans p u n c o x r b : respects p u n -> occurs (hist p u n) (EvRet c (NOp o) r) b -> robj o = Some x ->
  exists sd k, den b !! x = Some (Some (receiver sd k)) /\ reads sd k b r.
Proof.
  intros Hr Ho Hx. destruct (history_answers _ _ _ _ _ _ _ Hr Ho) as [_ Ha].
  destruct o as [| | | | | | |h| | |[i|]|[i|]| | | | |[i|]| | | | ]; cbn in Hx, Ha; simplify_eq; done.
Qed.

Lemma ep_receiver sd k : ep_co (receiver sd k) = k. Proof. by destruct sd. Qed.
Lemma receiver_inj sd sd' k k' : receiver sd k = receiver sd' k' -> sd = sd' /\ k = k'.
Proof. destruct sd, sd'; cbn; intros; simplify_eq; done. Qed.

(** ** One consumer reading everything *)
Lemma got_inv p u n k h : respects p u n -> past (hist p u n) h ->
  let q := length (pushes k h) in
  let r := if decide (ngets k h = 0) then pred q else q in
  (q = 0 -> ngets k h = 0) /\ length (got k h) <= r /\ (length (got k h) = r -> PVal <$> got k h = drop (q - r) (pushes k h)).
Proof.
  intros Hr. induction h as [|e h IH]; intros Hp; [done|].
  specialize (IH (past_tail _ _ _ Hp)). cbn zeta in IH |- *.
  assert (Hsame : got k (e :: h) = got k h -> ngets k (e :: h) = ngets k h -> pushes k (e :: h) = pushes k h ->
    (length (pushes k (e :: h)) = 0 → ngets k (e :: h) = 0) ∧ length (got k (e :: h)) ≤ (if decide (ngets k (e :: h) = 0) then Nat.pred (length (pushes k (e :: h))) else length (pushes k (e :: h))) ∧
    (length (got k (e :: h)) = (if decide (ngets k (e :: h) = 0) then Nat.pred (length (pushes k (e :: h))) else length (pushes k (e :: h))) →
     PVal <$> got k (e :: h) = drop (length (pushes k (e :: h)) - (if decide (ngets k (e :: h) = 0) then Nat.pred (length (pushes k (e :: h))) else length (pushes k (e :: h)))) (pushes k (e :: h)))).
  { intros -> -> ->. exact IH. }
  destruct e as [c o|c o a|c o ex|m x|m r|m p0|m|m x|m x|m|m]; try (by apply Hsame).
  - destruct o as [o|]; [|by apply Hsame]. destruct o as [| | | | | | |x| | | | | | | | | | | | |]; try (by apply Hsame). destruct a as [| | | |v|]; try (by apply Hsame).
    destruct (read_ans _ _ _ _ _ x _ _ Hr Hp eq_refl) as (sd&k'&Hd&_&Hv).
    destruct (decide (k' = k)) as [->|Hne].
    2:{ apply Hsame; cbn; rewrite ?Hd; cbn; rewrite ?ep_receiver; try done; (rewrite decide_False; [done|]); [by intros [? _]|done]. }
    cbn -[decide]. rewrite Hd. rewrite ep_receiver. rewrite (decide_True (P := k = k)) by done.
    destruct Hv as [(w&rest&_&Epu&Ev)|(?&?&_&_&?)]; [|done]. injection Ev as ->. rewrite Epu in *. cbn [length] in *.
    destruct IH as (IH1&IH2&IH3). split; [done|]. rewrite (decide_False (P := S _ = 0)) by done.
    destruct (decide (ngets k h = 0)) as [E0|E0].
    + rewrite decide_True by done. cbn in IH2, IH3 |- *. split; [lia|]. intros El. rewrite Nat.sub_diag. cbn.
      rewrite E0. cbn. f_equal. rewrite IH3 by lia. replace (S (length rest) - length rest) with 1 by lia. done.
    + rewrite decide_False by (by intros [_ ?]). split; [lia|]. exact IH3.
  - destruct (decide (m = k)) as [->|Hne]; [|apply Hsame; cbn; by rewrite ?decide_False].
    cbn -[decide]. rewrite !(decide_True (P := k = k)) by done. cbn -[decide]. rewrite (decide_True (P := 0 = 0)) by done.
    destruct IH as (IH1&IH2&IH3). split; [done|].
    destruct (decide (ngets k h = 0)) as [E0|E0].
    + split; [lia|]. intros El. destruct (pushes k h) as [|q0 rest] eqn:Eq; [|cbn in *; lia]. cbn in *. rewrite El in IH3. by apply IH3.
    + split; [lia|]. intros El. rewrite IH3 by done. rewrite Nat.sub_diag. by replace (S (length (pushes k h)) - length (pushes k h)) with 1 by lia.
Qed.

(** Coroutines that exist. *)
Lemma life_co p u a f k : mreach p u (a, f) -> life k (a_tr a) <> PNone -> life k (a_tr a) <> PAlloc -> life k (a_tr a) <> PFreed -> is_Some (a_co a !! k).
Proof.
  intros Hx H1 H2 H3. pose proof (mreach_life _ _ _ Hx) as L. destruct (a_co a !! k) eqn:E; [done|]. exfalso.
  destruct (decide (k = 0)) as [->|]; [apply H1, (li_none _ L); by left|]. destruct (decide (a_nk a <= k)); [apply H1, (li_none _ L); by right|].
  destruct (li_gone _ L k) as [Q|Q]; cbn in *; try lia; done.
Qed.

(** While user code is in control nothing is on its way. *)
Lemma all_delivered p u n c o b k sd kd : respects p u n -> occurs (hist p u n) (EvCall c o) b ->
  cls k b = Some (sd, kd) -> kd <> KVoid -> life k b <> PAlloc -> life k b <> PFreed -> length (pushes k b) = turns sd k b.
Proof.
  intros Hr Ho Hcl Hkd H1 H2. destruct (hist_at _ _ _ _ _ Hr Ho) as ([a f]&y&Hx&Hm&Hb&H). cbn in H, Hb. destruct H as (_&->&_). subst b.
  destruct (life_co _ _ _ _ k Hx) as [co Hco]; try done; [by eapply cls_life|].
  pose proof (sl_cls _ _ (mreach_slot _ _ _ Hx) _ _ Hco) as Q. cbn in Q. rewrite Hcl in Q. injection Q as -> ->.
  pose proof (tn_ok _ (mreach_turn _ _ _ Hx) _ _ Hco Hkd) as Q. unfold tok in Q. cbn in Q. lia.
Qed.

Lemma got_all p u n c o b k sd : respects p u n -> occurs (hist p u n) (EvCall c o) b ->
  cls k b = Some (sd, KVal) -> life k b <> PAlloc -> life k b <> PFreed -> length (got k b) = turns sd k b ->
  PVal <$> got k b = pushes k b.
Proof.
  intros Hr Ho Hcl H1 H2 Hg. pose proof (all_delivered _ _ _ _ _ _ _ _ _ Hr Ho Hcl ltac:(done) H1 H2) as Hd.
  destruct (got_inv p u n k b Hr (past_tail _ _ _ Ho)) as (G1&G2&G3). cbn zeta in *.
  destruct (decide (ngets k b = 0)).
  - assert (length (pushes k b) = 0) as E by lia. rewrite G3 by lia. by rewrite E.
  - rewrite G3 by lia. by rewrite Nat.sub_diag.
Qed.

(** ** Number of turns at the first turn *)
Record FirstI (x : astate * mfoc) : Prop := {
  fi_wait : forall c j o h kd k, a_wait x.1 !! c = Some (WOp j o (PoNew h kd) k) -> turns Pull j (a_tr x.1) = 0;
  fi_foc : forall j o h kd k y, x.2 = MGot j o (PoNew h kd) k y -> turns Pull j (a_tr x.1) = 0 }.

Lemma first_quiet x y : FirstI x -> (forall j c co o h kd k, a_wait x.1 !! c = Some (WOp j o (PoNew h kd) k) -> a_co x.1 !! j = Some co -> ac_st co = ARun -> turns Pull j (a_tr y.1) = turns Pull j (a_tr x.1)) ->
  basic x.1 -> a_wait y.1 = a_wait x.1 -> (forall j o h kd k z, y.2 <> MGot j o (PoNew h kd) k z) -> FirstI y.
Proof.
  intros [F1 F2] Ht B Hw Hf. split.
  - intros c j o h kd k. rewrite Hw. intros H. destruct (ib_wait _ B _ _ H) as (co&Hco&_&Hs). cbn in Hco. rewrite (Ht _ _ _ _ _ _ _ H Hco Hs). by eapply F1.
  - intros j o h kd k z E. by destruct (Hf j o h kd k z).
Qed.

Lemma first_step p u x y : mreach p u x -> FirstI x -> micro x y -> FirstI y.
Proof.
  intros Hx F Hm. pose proof (mreach_basic _ _ _ Hx) as B.
  assert (Q := first_quiet x y F).
  destruct Hm; cbn [fst snd] in B, Q; try (by apply Q).
  - (* return *)
    apply Q; try done. intros j c co o' h kd k' Hw Hc Hs. cbn.
    destruct (recv o) eqn:Hrv; [|done]. cbn. rewrite bool_decide_eq_false_2; [done|]. intros Et.
    pose proof (tg_foc _ (mreach_tgt _ _ _ Hx)) as G. cbn in G. destruct o as [o|]; [|done].
    assert (xret a (tgt (a_cur a) (a_tr a))) as Hxr.
    { destruct o as [| | | | | | | | | |[i|]| | | | | |[i|]| | | | ]; try done. by destruct G. }
    destruct Hxr as [(j'&_&E&(co'&Hc'&Hs'))|E]; rewrite Et in E; [|done]. injection E as <-.
    cbn in Hc'. assert (co' = co) as -> by congruence. rewrite Hs in Hs'. by destruct Hs' as [(?&?&?&?)|[? _]].
  - (* local *)
    assert (recv (NOp o) = false) as Hrv by by destruct o as [| | | | | | | | | |[i|]| | | | | |[i|]| | | | ].
    apply local_op_frame in H as (E1&E2&E3&E4&E5&E6). apply Q; cbn -[recv]; rewrite ?E1, ?E2; try done. intros. by rewrite Hrv.
  - pose proof (pi_foc _ (mreach_pend _ _ _ Hx)) as P. cbn in P. subst o. by apply Q.
  - (* resume *)
    destruct F as [F1 F2]. split; cbn in *.
    + intros c0 j o0 h kd k0 Hw. apply lookup_insert_Some in Hw as [[<- E]|[_ Hw]]; [|by eapply F1].
      simplify_eq. pose proof (mreach_minv _ _ _ Hx) as (Hn&_). by edestruct Hn.
    + intros * E. simplify_eq. by destruct (ib_post _ B _ _ _ _ _ _ H H0).
  - destruct F as [F1 F2]. split; cbn in *; [|done].
    intros c0 j o0 h kd k0 Hw. apply lookup_insert_Some in Hw as [[<- E]|[_ Hw]]; [|by eapply F1].
    simplify_eq. pose proof (mreach_minv _ _ _ Hx) as (Hn&_). by edestruct Hn.
  - (* back *)
    destruct F as [F1 F2]. assert (j = n) as ->.
    { destruct (ib_wait _ B _ _ H0) as (c1&Hc1&Hb1&Hs1). cbn in Hc1.
      pose proof (mreach_minv _ _ _ Hx) as (_&Hrs&_). unfold resumable in Hrs. cbn in Hrs. rewrite H in Hrs. apply andb_true_iff in Hrs as [Hn%bool_decide_eq_true Hst].
      destruct (ib_act _ B _ _ H) as [_ (w&Hw&Ew)]; [by destruct (ac_st c)|]. rewrite H0 in Hw. injection Hw as <-. done. }
    split; cbn in *.
    + intros c0 j0 o0 h kd k0 Hw. apply lookup_delete_Some in Hw as [_ Hw]. by eapply F1.
    + intros * E. simplify_eq. by eapply F1.
  - apply Q; try done. intros j' c0 co o1 h1 kd1 k0 Hw Hc Hs. cbn. rewrite decide_False; [done|]. intros <-. cbn in Hc. congruence.
  - destruct F as [F1 F2]. split; cbn in *; [|done].
    intros c0 j0 o0 h kd k0 Hw. apply lookup_insert_Some in Hw as [[<- E]|[_ Hw]]; [|by eapply F1].
    subst w. pose proof (mreach_minv _ _ _ Hx) as (_&_&Hn&_). by edestruct Hn.
  - destruct F as [F1 F2]. split; cbn in *; [|done].
    intros c0 j0 o0 h kd k0 Hw. apply lookup_insert_Some in Hw as [[<- E]|[_ Hw]]; [|by eapply F1].
    subst w. pose proof (mreach_minv _ _ _ Hx) as (_&_&Hn&_). by edestruct Hn.
  - destruct F as [F1 F2]. split; cbn in *; [|done].
    intros c0 j0 o0 h0 kd0 k0 Hw. apply lookup_insert_Some in Hw as [[<- E]|[_ Hw]]; [|by eapply F1].
    simplify_eq. destruct (tn_none _ (mreach_turn _ _ _ Hx) j0) as [_ Ht]; [right; eauto 10|]. apply Ht.
  - apply Q; try done. intros j' c0 co o' h' kd' k0 Hw Hc Hs. cbn. rewrite decide_False; [done|]. intros <-.
    pose proof (mreach_minv _ _ _ Hx) as (I&_). pose proof (ic_dom _ _ _ _ _ I _ _ Hc). lia.
  - destruct F as [F1 F2]. assert (j = a_cur a) as ->.
    { pose proof (mreach_minv _ _ _ Hx) as (_&c'&Hc'&Hst). cbn in Hc'. assert (c' = c) as -> by congruence.
      destruct (ib_act _ B _ _ H) as [_ (w&Hw&Ew)]; [by rewrite Hst|]. rewrite H0 in Hw. injection Hw as <-. done. }
    split; cbn in *.
    + intros c0 j0 o0 h kd k0 Hw. apply lookup_delete_Some in Hw as [_ Hw]. by eapply F1.
    + intros * E. simplify_eq. by eapply F1.
  - subst a1. destruct F as [F1 F2]. destruct w as [|? ? []|]; [done|..]; subst y; (split; cbn; [|done]);
      intros c0 j0 o0 h0 kd0 k0 Hw; apply lookup_delete_Some in Hw as [_ Hw]; by eapply F1.
Qed.

Lemma mreach_first p u x : mreach p u x -> FirstI x.
Proof. apply mreach_ind; [split; cbn; done|]. apply first_step. Qed.

Lemma first_turn p u n k x b kd : respects p u n -> occurs (hist p u n) (EvNew k x) b -> cls k b = Some (Pull, kd) -> turns Pull k b = 0.
Proof.
  intros Hr Ho Hcl. destruct (hist_at _ _ _ _ _ Hr Ho) as ([a f]&y&Hx&Hm&Hb&H). cbn in H, Hb. subst b.
  destruct H as [(o&kd'&k'&c&o'&po'&k1&->&_)|(kd'&np&fn&k'&->&_)].
  - by eapply (fi_foc _ (mreach_first _ _ _ Hx)).
  - destruct (tn_none _ (mreach_turn _ _ _ Hx) k) as [_ Ht]; [right; eauto 10|]. apply Ht.
Qed.

Lemma entry_turn p u n k x b kd : respects p u n -> occurs (hist p u n) (EvEnter k x) b -> cls k b = Some (Push, kd) -> turns Push k b = 0.
Proof.
  intros Hr Ho Hcl. assert (life k b = PNew) as Hl.
  { destruct (enter_turn _ _ _ _ _ _ Hr Ho) as [(?&_&?&_)|(?&?&_)]; congruence. }
  pose proof (past_tail _ _ _ Ho) as Hb. clear Ho Hcl.
  assert (forall b', past b b' -> turns Push k b' = 0) as Hg; [|apply Hg, past_refl].
  intros b'. induction b' as [|e b' IH]; [done|]. intros Hp. specialize (IH (past_tail _ _ _ Hp)).
  assert (Hrk : rank (life k (e :: b')) <= 2).
  { pose proof (life_rank _ _ _ _ _ k Hr Hb Hp) as Q. by rewrite Hl in Q. }
  assert (Hrk' : rank (life k b') <= 2).
  { pose proof (life_rank _ _ _ _ _ k Hr Hb (past_tail _ _ _ Hp)) as Q. by rewrite Hl in Q. }
  destruct e as [c o|c o a|c o ex|m y|m r|m p0|m|m y|m y|m|m]; try done.
  - cbn. destruct (life k b'); cbn in *; rewrite ?andb_false_r; try done. lia.
  - cbn in Hrk |- *. case_decide; [cbn in Hrk; lia|done].
Qed.

(** ** Kinds and slots *)
Lemma acts_del c k : acts c (EvDel k) -> False.
Proof. by intros [[? ?]|(_&?&?)]. Qed.
Lemma handover_del d h k : handover d h (EvDel k) -> False.
Proof. destruct d; cbn; [intros (_&[(_&?&?)|(_&?&?&_&_&?)])|intros (?&?&?&_&_&_&[(?&?)|(?&?&_&?)])]; done. Qed.
Lemma constructs_del u c o g k h j : constructs u c o g k h (EvDel j) -> False.
Proof. intros (v&_&?). by destruct (arg_exn o v). Qed.
Lemma dies_del k h j : dies k h (EvDel j) -> False.
Proof. intros [(_&_&?&_&_&?)|(_&?&?)]; done. Qed.
Lemma destroys_del j h k : destroys j h (EvDel k) -> slotv k h <> None /\ exists sd, cls k h = Some (sd, KVal).
Proof. intros [(?&?&E)|(_&E)]; [injection E as ->; eauto|by apply dies_del in E]. Qed.
Lemma frees_del j h k : frees j h (EvDel k) -> slotv k h <> None /\ exists sd, cls k h = Some (sd, KVal).
Proof. intros [(?&?&E)|(_&E)]; [injection E as ->; eauto|done]. Qed.
Lemma ep_sender sd k : ep_co (sender sd k) = k. Proof. by destruct sd. Qed.
Lemma sender_inj sd sd' k k' : sender sd k = sender sd' k' -> sd = sd' /\ k = k'.
Proof. destruct sd, sd'; cbn; intros; simplify_eq; done. Qed.

Lemma del_rule u b k : follows u b (EvDel k) -> slotv k b <> None /\ exists sd, cls k b = Some (sd, KVal).
Proof.
  intros H. destruct b as [|e0 b]; cbn in H; [by apply acts_del in H|].
  assert (Hpush : forall c o g sd j kd, cls j b = Some (sd, kd) -> push_follows u c o g (sender sd j) kd (EvCall c o :: b) (EvDel k) ->
    slotv k (EvCall c o :: b) <> None /\ exists sd, cls k (EvCall c o :: b) = Some (sd, KVal)).
  { intros c o g sd j kd Hcl Hp. destruct kd; cbn in Hp; rewrite ?ep_sender in Hp.
    - destruct Hp as [[Hs E]|[_ E]]; [injection E as ->; eauto|by apply constructs_del in E].
    - by destruct Hp as (?&_&?).
    - by apply handover_del in Hp. }
  destruct e0 as [c o|c o r|c o ex|m x|m r|m p0|m|m x|m x|m|m]; try (by apply acts_del in H).
  - destruct o as [o|]; [|by destruct H as [[? ?]|(?&_&_&?)]].
    destruct o as [y1|x1 x2|x|x|x g|x|x|x|x| |[x|]|[x|]|i j|i j|x| |[x|] g|v|m|l|l v]; try (by destruct H); try done.
    + destruct (den b !! x) as [[[j|j]|]|]; try done. by apply destroys_del in H.
    + destruct H as (sd&j&kd&_&_&H). by apply handover_del in H.
    + destruct H as (sd&j&kd&_&Hcl&H). by eapply Hpush.
    + destruct H as (sd&j&kd&_&_&H). by apply handover_del in H.
    + destruct H as (sd&j&kd&_&Hcl&H). by eapply Hpush.
  - destruct r as [[ex|]|]; [|by destruct H|].
    + destruct H as (c&o&s&_&_&_&H). destruct o; [done|by apply destroys_del in H].
    + destruct H as (c&o&s&_&_&_&H). destruct o; [by destruct H|by apply destroys_del in H].
  - destruct H as (sd&kd&_&_&H). by apply handover_del in H.
  - destruct b as [|e1 b]; [by repeat case_match; try done; apply dies_del in H|].
    destruct e1; try (by repeat case_match; try done; apply dies_del in H).
    destruct (push_arg o); [by apply constructs_del in H|by apply dies_del in H].
  - destruct H as (?&?&?&_&_&?). done.
  - destruct (den b !! x) as [[[j|j]|]|]; [by apply destroys_del in H|by apply frees_del in H..].
  - destruct b as [|[] b]; try done. destruct o; [done|]. destruct H as [[? ?]|H]; [done|]. by destruct sd; destruct H.
  - destruct H as (c&s&_&H). destruct (pend c b) as [[o|sd kd]|]; [by destruct H as [? _]| |by apply frees_del in H].
    destruct H as (_&_&[(_&?&?)|(?&_&?)]); done.
Qed.

Lemma del_kind p u n k sd b : respects p u n -> occurs (hist p u n) (EvDel k) b -> cls k b <> Some (sd, KRef).
Proof. intros Hr Ho E. destruct (del_rule _ _ _ (history_follows _ _ _ _ _ Hr Ho)) as (_&sd'&?). congruence. Qed.

Definition pkind (q : payload) : kind := match q with PVal _ => KVal | PRef _ => KRef end.

Lemma slot_kind p u n h k q : respects p u n -> past (hist p u n) h -> slotv k h = Some q -> exists sd, cls k h = Some (sd, pkind q).
Proof.
  intros Hr. revert q. induction h as [|e h IH]; intros q Hp Hs; [done|]. pose proof (past_tail _ _ _ Hp) as Hp'. specialize (fun q => IH q Hp').
  destruct e as [c o|c o a|c o ex|m x|m r|m p0|m|m x|m x|m|m]; cbn in Hs |- *; try (by apply IH).
  - destruct o as [o|]; [|by apply IH]. destruct o as [| | | | | | |x| | | | | | | | | | | | |]; try (by apply IH). destruct a; try (by apply IH).
    destruct (den h !! x) as [[d|]|]; try (by apply IH). case_decide; [|by apply IH].
    destruct (slotv k h) as [q'|]; [|done]. cbn in Hs. injection Hs as <-. destruct (IH q') as (sd&E); [done|]. exists sd. by destruct q'.
  - case_decide; [|by apply IH]. injection Hs as <-. subst m. destruct (set_event _ _ _ _ _ _ Hr Hp) as (c&o&lv&g&sd&kd&b'&_&_&_&_&Hcl&_&Hv).
    exists sd. destruct Hv as [(?&->&->&_)|(?&->&->&_)]; done.
  - case_decide; [done|by apply IH].
  - case_decide; [|by apply IH]. subst m. destruct (IH q Hs) as (sd&E). pose proof (hist_life _ _ _ _ _ Hr Hp) as Hl. cbn in Hl. by apply cls_life in E.
Qed.

Lemma push_value p u n c o g x b e sd k v : respects p u n -> occurs (hist p u n) e (EvCall c o :: b) ->
  (o = NOp (OPush x g) \/ o = NOp (OOutAssign (Some x) g)) -> den b !! x = Some (Some (sender sd k)) -> cls k b = Some (sd, KVal) -> argval u g b = Some v ->
  let r := match arg_exn o v with Some ex => EvExn c o (XUser ex) | None => EvSet k (PVal v) end in
  (slotv k b = None /\ e = r) \/ (slotv k b <> None /\ e = EvDel k /\ forall e', occurs (hist p u n) e' (e :: EvCall c o :: b) -> e' = r).
Proof.
  intros Hr Ho Hx Hd Hcl Hv r. pose proof (history_follows _ _ _ _ _ Hr Ho) as H.
  assert (push_follows u c o g (sender sd k) KVal (EvCall c o :: b) e) as Hp.
  { destruct Hx as [-> | ->]; cbn in H; destruct H as (sd'&k'&kd&Hd'&Hcl'&H); rewrite Hd in Hd'; injection Hd' as E; apply sender_inj in E as [<- <-];
      rewrite Hcl in Hcl'; injection Hcl' as <-; exact H. }
  assert (Hpa : push_arg o = Some g) by by destruct Hx as [-> | ->].
  clear H. cbn in Hp. rewrite ep_sender in Hp. destruct Hp as [[Hs ->]|[Hs (v'&Hv'&->)]].
  - right. split; [done|]. split; [done|]. intros e' Ho'. pose proof (history_follows _ _ _ _ _ Hr Ho') as H. cbn in H. rewrite Hpa in H.
    destruct H as (v'&Hv'&->). change (argval u g b = Some v') in Hv'. by simplify_eq.
  - left. split; [done|]. change (argval u g b = Some v') in Hv'. by simplify_eq.
Qed.

(** ** Objects in slots *)
Fixpoint nmade (k : nat) (h : list event) : nat :=
  match h with [] => 0 | EvSet n (PVal _) :: h' => (if decide (n = k) then 1 else 0) + nmade k h' | _ :: h' => nmade k h' end.
Fixpoint ndestroyed (k : nat) (h : list event) : nat :=
  match h with [] => 0 | EvDel n :: h' => (if decide (n = k) then 1 else 0) + ndestroyed k h' | _ :: h' => ndestroyed k h' end.

Definition alive (s : option payload) : nat := match s with Some (PVal _) => 1 | _ => 0 end.

Lemma made_destroyed p u n h k : respects p u n -> past (hist p u n) h -> nmade k h = ndestroyed k h + alive (slotv k h).
Proof.
  intros Hr. induction h as [|e h IH]; intros Hp; [done|]. pose proof (past_tail _ _ _ Hp) as Hp'. specialize (IH Hp').
  destruct e as [c o|c o a|c o ex|m x|m r|m p0|m|m x|m x|m|m]; cbn; try done.
  - destruct o as [o|]; [|done]. destruct o as [| | | | | | |x| | | | | | | | | | | | |]; try done. destruct a; try done.
    destruct (den h !! x) as [[d|]|]; try done. case_decide; [|done]. rewrite IH. by destruct (slotv k h) as [[]|].
  - destruct (set_event _ _ _ _ _ _ Hr Hp) as (c&o&lv&g&sd&kd&b'&_&_&_&_&Hcl&_&Hv).
    destruct Hv as [(l&->&->&_)|(v&->&->&Hs&_)]; case_decide; try done; subst m.
    + cbn. rewrite IH. destruct (slotv k h) as [q|] eqn:E; [|done]. destruct (slot_kind _ _ _ _ _ _ Hr Hp' E) as [sd' E']. destruct q; [|done]. cbn in E'. congruence.
    + rewrite Hs in IH. cbn in *. lia.
  - case_decide; [|done]. subst m. destruct (del_rule _ _ _ (history_follows _ _ _ _ _ Hr Hp)) as (Hs&sd&Hcl).
    destruct (slotv k h) as [q|] eqn:E; [|done]. destruct (slot_kind _ _ _ _ _ _ Hr Hp' E) as [sd' E']. destruct q; cbn in *; [lia|congruence].
Qed.

Lemma free_slot p u n k b sd : respects p u n -> occurs (hist p u n) (EvFree k) b -> cls k b = Some (sd, KVal) -> slotv k b = None.
Proof.
  intros Hr Ho Hcl. destruct (hist_at _ _ _ _ _ Hr Ho) as ([a f]&y&Hx&Hm&Hb&H). cbn in H, Hb. subst b. destruct H as (->&->&c&w&Hc&_).
  pose proof (mreach_slot _ _ _ Hx) as S. pose proof (sl_slot _ _ S _ _ Hc) as Q. pose proof (sl_cls _ _ S _ _ Hc) as E. cbn in Q, E.
  rewrite Hcl in E. injection E as _ E. unfold slot_exp in Q. cbn in Q. rewrite Nat.eqb_refl, orb_true_r in Q. by apply Q.
Qed.

Lemma none_leaked p u n h k : respects p u n -> past (hist p u n) h -> life k h = PFreed -> nmade k h = ndestroyed k h.
Proof.
  intros Hr Hp Hl. rewrite (made_destroyed _ _ _ _ k Hr Hp). assert (alive (slotv k h) = 0); [|lia].
  revert Hp Hl. induction h as [|e h IH]; intros Hp Hl; [done|]. pose proof (past_tail _ _ _ Hp) as Hp'. specialize (IH Hp').
  destruct e as [c o|c o a|c o ex|m x|m r|m p0|m|m x|m x|m|m]; cbn in Hl |- *; try (by apply IH).
  - destruct o as [o|]; [|by apply IH]. destruct o as [| | | | | | |x| | | | | | | | | | | | |]; try (by apply IH). destruct a; try (by apply IH).
    destruct (den h !! x) as [[d|]|]; try (by apply IH). case_decide; [|by apply IH]. specialize (IH Hl). by destruct (slotv k h) as [[]|].
  - case_decide; [done|by apply IH].
  - apply IH. destruct r as [[]|]; case_decide; done.
  - case_decide; [|by apply IH]. subst m. pose proof (hist_life _ _ _ _ _ Hr Hp) as Q. cbn in Q. destruct Q; congruence.
  - case_decide; [done|by apply IH].
  - apply IH. case_decide; [|done]. by destruct (life k h).
  - case_decide; [done|by apply IH].
  - case_decide; [|by apply IH]. subst m. destruct (slotv k h) as [[v|]|] eqn:E; try done. exfalso.
    destruct (slot_kind _ _ _ _ _ _ Hr Hp' E) as [sd E']. cbn in E'. by rewrite (free_slot _ _ _ _ _ _ Hr Hp E') in E.
Qed.

Lemma push_argument p u n k v b : respects p u n -> occurs (hist p u n) (EvSet k (PVal v)) b ->
  exists c o g b', push_arg o = Some g /\ (b = EvCall c o :: b' \/ b = EvDel k :: EvCall c o :: b') /\
    match g with
    | ACopy l => umem u b' !! l = Some v /\ umem u (EvSet k (PVal v) :: b) = umem u b'
    | AMove l => umem u b' !! l = Some v /\ umem u (EvSet k (PVal v) :: b) = <[ l := moved_from v ]> (umem u b')
    | AImm w => w = v /\ umem u (EvSet k (PVal v) :: b) = umem u b'
    | _ => False
    end.
Proof.
  intros Hr Ho. destruct (set_event _ _ _ _ _ _ Hr Ho) as (c&o&lv&g&sd&kd&b'&Hc&Hpd&Hg&Ht&Hcl&Hb&Hv).
  destruct Hv as [(?&_&?&_)|(v'&->&E&_&Hv)]; [done|]. injection E as <-.
  exists c, o, g, b'. assert (push_arg o = Some g) as Hpa by (destruct o as [[]|]; cbn in Hg |- *; simplify_eq; done).
  split; [done|]. split; [done|].
  assert (Hu : umem u b = umem u b') by by destruct Hb as [-> | ->].
  assert (Hv' : argval u g b' = Some v) by by destruct Hb as [-> | ->].
  assert (Hmv : forall x l, o = NOp (OOutAssign x g) -> g <> AMove l).
  { intros x l ->. destruct (hist_at _ _ _ _ _ Hr Ho) as ([a f]&y&Hx&Hm&Hb2&H). cbn in H, Hb2.
    destruct H as [(d&lv'&l'&o'&po&kk&c'&_&_&?&_)|(d&lv'&g'&o'&po&kk&c'&v'&u'&->&_)]; [done|].
    assert (Hcc : c = a_cur a). { rewrite Hc, <- Hb2. eapply cur_top; [exact Hx|done]. }
    pose proof (sl_arg _ _ (mreach_slot _ _ _ Hx)) as [A1 A2].
    assert (o' = NOp (OOutAssign x g)) as ->.
    { pose proof (pi_pend _ (mreach_pend _ _ _ Hx) (a_cur a)) as P. unfold xop in P. cbn in P. rewrite decide_True in P by done. rewrite Hb2, <- Hcc, Hpd in P. by injection P. }
    cbn in A1. injection A1 as <- <-. by apply A2. }
  cbn. rewrite <- Hc, Hpd, Hu. destruct g; try done.
  - split; [done|]. destruct o as [[]|]; cbn in Hpa |- *; simplify_eq; done.
  - split; [done|]. destruct o as [[]|]; cbn in Hpa |- *; simplify_eq; [done|]. by edestruct Hmv.
  - split; [by injection Hv'|]. destruct o as [[]|]; cbn in Hpa |- *; simplify_eq; done.
Qed.

End seq.
