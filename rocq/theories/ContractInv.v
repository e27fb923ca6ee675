(** ContractInv.v -- link between the state of the reference semantics and what the
    contract (Contract.v) reads off the history: forced unwinding, types of objects,
    spoiled slots, counterpart addresses. *)
From stdpp Require Import prelude gmap relations.
From Coq Require Import Lia.
From Verif Require Import Base Model Spec InvSpec Main Micro Trace Contract Life Pend Den Tgt Stack Own Slot Turn Events Phase.

Section ci.
Context {env : Env}.

(** ** Forced unwinding *)

Lemma unw_cons k e h : unw k (e :: h) <-> (exists o, e = EvExn k o XUnwind) \/ unw k h.
Proof.
  unfold unw. split.
  - intros (o&b&[[<- ->]|H]%occurs_cons); eauto.
  - intros [(o&->)|(o&b&H)]; [exists o, h|exists o, b]; apply occurs_cons; eauto.
Qed.
Lemma unw_past k h b : past h b -> unw k b -> unw k h.
Proof. intros Hp (o&b'&H). exists o, b'. by eapply past_occurs. Qed.

Definition is_unw (a : astate) (k : nat) : Prop := sts a k (fun s => s = AUnw true).

Record UnwI (x : astate * mfoc) : Prop := {
  un_on : forall k, is_unw x.1 k -> life k (a_tr x.1) = PRun -> (k = a_cur x.1 /\ exists o kk, x.2 = MExn o XUnwind kk) \/ unw k (a_tr x.1);
  un_st : forall k, unw k (a_tr x.1) -> life k (a_tr x.1) = PRun -> is_unw x.1 k;
  un_rk : forall k, unw k (a_tr x.1) -> 3 <= rank (life k (a_tr x.1)) }.

Lemma unw_init p u : UnwI (ainit p u, MFoc).
Proof.
  split; cbn; try done.
  intros k (o&b&[l H]). by destruct l.
Qed.

Lemma unw_quiet p u x y : mreach p u x -> micro x y -> UnwI x ->
  (forall k, is_unw y.1 k -> is_unw x.1 k) ->
  (forall k, is_unw x.1 k -> life k (a_tr y.1) = PRun -> is_unw y.1 k) ->
  (forall o k, x.2 <> MExn o XUnwind k) -> UnwI y.
Proof.
  intros Hx Hm [U1 U2 U3] H1 H2 Hn.
  assert (Hlife : forall k, life k (a_tr y.1) = life k (a_tr x.1) \/ rank (life k (a_tr x.1)) < rank (life k (a_tr y.1))).
  { intros k. destruct (micro_tr _ _ Hm) as [->|(e&E)]; [by left|]. rewrite E. apply life_cons. by eapply life_at. }
  assert (Hu : forall k, unw k (a_tr y.1) <-> unw k (a_tr x.1)).
  { intros k. destruct (micro_tr _ _ Hm) as [->|(e&E)]; [done|]. rewrite E, unw_cons. split; [|auto]. intros [(o&->)|]; [|done].
    destruct (micro_event _ _ _ Hm E) as (_&kk&Ef&_). by destruct (Hn o kk). }
  split.
  - intros k Hk Hl. apply H1 in Hk. right. apply Hu. destruct (Hlife k) as [E|E].
    + rewrite E in Hl. destruct (U1 _ Hk Hl) as [(_&o&kk&Ex)|]; [|done]. by destruct (Hn o kk).
    + exfalso. destruct Hk as (c&Hc&Hs). pose proof (li_st _ (mreach_life _ _ _ Hx) _ _ Hc) as Q. rewrite Hs in Q. cbn in Q. rewrite Hl in E. destruct Q as [Q|[[? Q]|Q]]; rewrite Q in E; cbn in E; lia.
  - intros k Hk%Hu Hl. apply H2; [|done]. apply U2; [done|]. destruct (Hlife k) as [E|E]; [congruence|].
    specialize (U3 _ Hk). rewrite Hl in E. cbn in E. lia.
  - intros k Hk%Hu. specialize (U3 _ Hk). destruct (Hlife k) as [->|]; lia.
Qed.

Lemma is_unw_insert a a' n c c' : a_co a !! n = Some c -> a_co a' = <[n := c']> (a_co a) -> (ac_st c' = AUnw true <-> ac_st c = AUnw true) ->
  forall k, is_unw a' k <-> is_unw a k.
Proof.
  intros Hn E Hs k. unfold is_unw, sts. rewrite E. destruct (decide (n = k)) as [->|].
  - rewrite lookup_insert, Hn. split; intros (c1&H1&H2); simplify_eq; eexists; (split; [done|]); tauto.
  - by rewrite lookup_insert_ne.
Qed.

Theorem unw_step p u x y : mreach p u x -> UnwI x -> micro x y -> UnwI y.
Proof.
  intros Hx U Hm. pose proof (unw_quiet p u x y Hx Hm U) as Q. pose proof (mreach_minv _ _ _ Hx) as M. pose proof (mreach_basic _ _ _ Hx) as B.
  assert (Qi : forall n c c', a_co x.1 !! n = Some c -> a_co y.1 = <[n := c']> (a_co x.1) -> (ac_st c' = AUnw true <-> ac_st c = AUnw true) ->
    (forall o k, x.2 <> MExn o XUnwind k) -> UnwI y).
  { intros n c c' H1 H2 H3 H4. apply Q; [| |done]; intros k; [|intros Hk _; revert Hk]; by apply (is_unw_insert x.1 y.1 n c c'). }
  destruct Hm; cbn in M, B; try (by apply Q).
  - (* exception *)
    destruct x as [e|].
    { apply Q; cbn; try done. }
    pose proof (tg_foc _ (mreach_tgt _ _ _ Hx)) as G. cbn in G. destruct G as (_&G&_). destruct U as [U1 U2 U3].
    assert (Hl : life (a_cur a) (a_tr a) = PRun).
    { apply (li_cur _ (mreach_life _ _ _ Hx)); [|done]. cbn. destruct G as (c&Hc&_). apply (ib_dom _ B) in Hc. lia. }
    split; cbn.
    + intros k0 Hk Hl'. right. apply unw_cons. destruct (U1 k0 Hk Hl') as [(->&_)|]; [|by right]. left. eauto.
    + intros k0 [(o'&E)|Hk]%unw_cons Hl'; [injection E as <- _; done|]. by apply U2.
    + intros k0 [(o'&E)|Hk]%unw_cons; [injection E as <- _; rewrite Hl; cbn; lia|]. by apply U3.
  - (* local *)
    apply local_op_frame in H as (E1&E2&E3&E4&E5&E6). destruct E6 as [E6|(n&c&s&Hn&E6)].
    + apply Q; try done; unfold is_unw, sts; cbn; by rewrite E6.
    + by apply (Qi n c (c_slot s c)).
  - by apply (Qi (ep_co e) c (c_slot (SlFull (PRef l)) c)).
  - by apply (Qi (ep_co e) c (c_slot SlBad c)).
  - by apply (Qi (ep_co e) c (c_slot (SlFull (PVal v)) c)).
  - apply (Qi n c (c_by (a_cur a) (c_st ARun c))); try done. cbn. by rewrite H0.
  - apply (Qi n c (c_by (a_cur a) (c_st ARun c))); try done. cbn. by rewrite H0.
  - (* back *)
    apply (Qi n c (c_st (ASusp o po k) c)); try done. cbn. destruct M as (_&Hr&_). unfold resumable in Hr. cbn in Hr. rewrite H in Hr. apply andb_true_iff in Hr as [_ Hr]. by destruct (ac_st c).
  - (* kill *)
    destruct U as [U1 U2 U3]. split; cbn.
    + intros k0 (c0&Hc0&Hs0) Hl. destruct (decide (k0 = j)) as [->|]; [left; eauto|]. right. cbn in Hc0. rewrite lookup_insert_ne in Hc0 by done.
      destruct (U1 k0) as [(_&?&?&?)|]; [by exists c0|done|done|done].
    + intros k0 Hk Hl. destruct (U2 k0 Hk Hl) as (c0&Hc0&Hs0). cbn in Hc0. exists c0. cbn. rewrite lookup_insert_ne; [done|]. intros <-. congruence.
    + done.
  - destruct U as [U1 U2 U3]. split; cbn.
    + intros k0 (c0&Hc0&Hs0) Hl. cbn in Hc0. destruct (decide (k0 = j)) as [->|].
      * exfalso. rewrite lookup_insert in Hc0. injection Hc0 as <-. cbn in Hs0. injection Hs0 as ->.
        pose proof (li_st _ (mreach_life _ _ _ Hx) _ _ H) as P. cbn in P. destruct (ac_st c); try done. cbn in P. congruence.
      * rewrite lookup_insert_ne in Hc0 by done. destruct (U1 k0) as [(_&?&?&?)|]; [by exists c0|done|done|by right].
    + intros k0 Hk Hl. destruct (U2 k0 Hk Hl) as (c0&Hc0&Hs0). cbn in Hc0. exists c0. cbn. rewrite lookup_insert_ne; [done|]. intros <-. assert (c0 = c) as -> by congruence. by rewrite Hs0 in H0.
    + done.
  - (* new pull *)
    assert (a_co a !! n = None) as Hn. { destruct (a_co a !! n) eqn:En; [|done]. exfalso.
      pose proof (mreach_life _ _ _ Hx) as L. pose proof (li_new2 _ L _ _ _ _ _ _ _ eq_refl) as L2. pose proof (li_st _ L n _ En) as P. cbn in P, L2. rewrite L2 in P. destruct (ac_st a0) as [| | | |[]]; cbn in P; try done. destruct P as [?|[[? ?]|?]]; done. }
    apply Q; [| |done].
    + intros k0 (c0&Hc0&Hs0). cbn in Hc0. apply lookup_insert_Some in Hc0 as [[<- <-]|[_ Hc0]]; [done|]. by exists c0.
    + intros k0 (c0&Hc0&Hs0) _. exists c0. cbn in *. rewrite lookup_insert_ne by congruence. done.
  - assert (a_co a !! n = None) as Hn. { destruct (a_co a !! n) eqn:En; [|done]. exfalso.
      pose proof (mreach_life _ _ _ Hx) as L. pose proof (li_new2 _ L _ _ _ _ _ _ _ eq_refl) as L2. pose proof (li_st _ L n _ En) as P. cbn in P, L2. rewrite L2 in P. destruct (ac_st a0) as [| | | |[]]; cbn in P; try done. destruct P as [?|[[? ?]|?]]; done. }
    apply Q; [| |done].
    + intros k0 (c0&Hc0&Hs0). cbn in Hc0. apply lookup_insert_Some in Hc0 as [[<- <-]|[_ Hc0]]; [done|]. by exists c0.
    + intros k0 (c0&Hc0&Hs0) _. exists c0. cbn in *. rewrite lookup_insert_ne by congruence. done.
  - (* left *)
    apply (Qi (a_cur a) c (c_st (ADone x) c)); try done. cbn. destruct M as (_&c'&Hc'&Hst). assert (c' = c) as -> by congruence. by rewrite Hst.
  - (* released *)
    assert (Hco : a_co y.1 = delete (a_cur a) (a_co a) /\ a_tr y.1 = EvFree (a_cur a) :: a_tr a) by (subst a1; destruct w as [|? ? []|]; [done|..]; by subst y).
    destruct Hco as [Hco Htr]. apply Q; [| |done].
    + intros k0 (c0&Hc0&Hs0). rewrite Hco in Hc0. apply lookup_delete_Some in Hc0 as [_ Hc0]. by exists c0.
    + intros k0 (c0&Hc0&Hs0). rewrite Htr. cbn. case_decide; [done|]. intros _. exists c0. rewrite Hco. by rewrite lookup_delete_ne.
Qed.

Theorem mreach_unw p u x : mreach p u x -> UnwI x.
Proof. apply mreach_ind; [apply unw_init|]. apply unw_step. Qed.


Lemma unwinding_unw k h : unwinding k h = true <-> unw k h.
Proof.
  induction h as [|e h IH]; cbn.
  - split; [done|]. intros (o&b&[l H]). by destruct l.
  - rewrite unw_cons, <- IH. destruct e as [c o|c o a|c o [ex|]|m y|m r|m p0|m|m y|m y|m|m]; try (by split; [auto|intros [[? ?]|?]]).
    case_decide as Hd.
    + subst. split; [left; eauto|done].
    + split; [auto|]. intros [[? E]|?]; [by injection E as ->|done].
Qed.

(** ** Counterpart addresses *)
Definition SynI (x : astate * mfoc) : Prop :=
  forall k c, a_co x.1 !! k = Some c -> hst (ac_st c) = 2 -> handed k (a_tr x.1) = Some (ac_syn c).

Lemma syn_quiet x y : SynI x -> (forall k, handed k (a_tr y.1) = handed k (a_tr x.1)) ->
  (forall k c', a_co y.1 !! k = Some c' -> hst (ac_st c') = 2 -> exists c, a_co x.1 !! k = Some c /\ hst (ac_st c) = 2 /\ ac_syn c' = ac_syn c) -> SynI y.
Proof. intros S Hh Hc k c' H1 H2. destruct (Hc _ _ H1 H2) as (c&H3&H4&->). rewrite Hh. by apply S. Qed.

Lemma syn_ins (co : gmap nat acoro) n c c' : co !! n = Some c -> (hst (ac_st c') = 2 -> hst (ac_st c) = 2) -> ac_syn c' = ac_syn c ->
  forall k c'', <[n := c']> co !! k = Some c'' -> hst (ac_st c'') = 2 -> exists c, co !! k = Some c /\ hst (ac_st c) = 2 /\ ac_syn c'' = ac_syn c.
Proof.
  intros H1 H2 H3 k c'' [[<- <-]|[Hn H]]%lookup_insert_Some; intros Hs; [|by exists c''].
  exists c. split; [done|]. split; [auto|done].
Qed.

Theorem syn_step p u x y : mreach p u x -> SynI x -> micro x y -> SynI y.
Proof.
  intros Hx S Hm. pose proof (mreach_minv _ _ _ Hx) as M. pose proof (mreach_basic _ _ _ Hx) as B.
  assert (Qi : forall n c c', a_co x.1 !! n = Some c -> a_co y.1 = <[n := c']> (a_co x.1) -> (hst (ac_st c') = 2 -> hst (ac_st c) = 2) -> ac_syn c' = ac_syn c ->
    (forall k, handed k (a_tr y.1) = handed k (a_tr x.1)) -> SynI y).
  { intros n c c' H1 H2 H3 H4 H5. apply (syn_quiet _ _ S H5). rewrite H2. by eapply syn_ins. }
  destruct Hm; cbn in M, B; try (by apply (syn_quiet _ _ S); [done|intros k0 c0 ? ?; exists c0]).
  - (* local *)
    apply local_op_frame in H as (E1&E2&E3&E4&E5&E6). destruct E6 as [E6|(n&c&s&Hn&E6)].
    + apply (syn_quiet _ _ S); cbn; [by rewrite E1|]. intros k0 c0. rewrite E6. intros; by exists c0.
    + apply (Qi n c (c_slot s c)); cbn; try done. by rewrite E1.
  - by apply (Qi (ep_co e) c (c_slot (SlFull (PRef l)) c)).
  - by apply (Qi (ep_co e) c (c_slot SlBad c)).
  - by apply (Qi (ep_co e) c (c_slot (SlFull (PVal v)) c)).
  - apply (Qi n c (c_by (a_cur a) (c_st ARun c))); try done. cbn. by rewrite H0.
  - (* enter *)
    intros k0 c0. cbn. intros [[<- <-]|[Hn Hc]]%lookup_insert_Some; intros Hs; cbn.
    + by rewrite decide_True.
    + rewrite decide_False by done. by apply S.
  - apply (Qi n c (c_st (ASusp o po k) c)); try done. cbn. destruct M as (_&Hr&_). unfold resumable in Hr. cbn in Hr. rewrite H in Hr. apply andb_true_iff in Hr as [_ Hr]. by destruct (ac_st c).
  - eapply (Qi j c); cbn; try done. cbn. by rewrite H0.
  - eapply (Qi j c); cbn; try done. cbn. revert H0. destruct (ac_st c); try done; by intros ->.
  - (* new pull *)
    intros k0 c0. cbn. intros [[<- <-]|[Hn Hc]]%lookup_insert_Some; intros Hs; cbn.
    + by rewrite decide_True.
    + rewrite decide_False by done. by apply S.
  - (* new push *)
    intros k0 c0. cbn. intros [[<- <-]|[Hn Hc]]%lookup_insert_Some; intros Hs; cbn; [done|]. by apply S.
  - apply (Qi (a_cur a) c (c_st (ADone x) c)); try done. cbn. destruct M as (_&c'&Hc'&Hst). assert (c' = c) as -> by congruence. by rewrite Hst.
  - assert (Hco : a_co y.1 = delete (a_cur a) (a_co a) /\ a_tr y.1 = EvFree (a_cur a) :: a_tr a) by (subst a1; destruct w as [|? ? []|]; [done|..]; by subst y).
    destruct Hco as [Hco Htr]. apply (syn_quiet _ _ S); [by rewrite Htr|]. rewrite Hco. intros k0 c0 [_ ?]%lookup_delete_Some ?. by exists c0.
Qed.

Theorem mreach_syn p u x : mreach p u x -> SynI x.
Proof. apply mreach_ind; [|apply syn_step]. intros k c H. cbn in H. by rewrite lookup_empty in H. Qed.

(** ** Spoiled slots *)
Definition bad_foc (a : astate) (f : mfoc) (k : nat) : Prop :=
  match f with
  | MPush2 e _ _ o _ _ => ep_co e = k /\ exists h', a_tr a = EvDel k :: EvCall (a_cur a) o :: h'
  | MExn o (XUser _) _ => is_Some (push_arg o) /\ exists h', a_tr a = EvDel k :: EvCall (a_cur a) o :: h'
  | _ => False
  end.
Definition BadI (x : astate * mfoc) : Prop :=
  forall k c, a_co x.1 !! k = Some c -> ac_slot c = SlBad -> spoiled k (a_tr x.1) = true \/ bad_foc x.1 x.2 k.

Lemma spoiled_cons k e h : spoiled k h = true -> spoiled k (e :: h) = true.
Proof. intros H. cbn. rewrite H. apply orb_true_r. Qed.

Lemma spoiled_tr p u x y k : mreach p u x -> micro x y -> spoiled k (a_tr x.1) = true -> spoiled k (a_tr y.1) = true.
Proof. intros Hx Hm Hs. destruct (micro_tr _ _ Hm) as [->|[e ->]]; [done|]. by apply spoiled_cons. Qed.

Theorem bad_step p u x y : mreach p u x -> BadI x -> micro x y -> BadI y.
Proof.
  intros Hx S Hm. pose proof (mreach_minv _ _ _ Hx) as M. pose proof (mreach_basic _ _ _ Hx) as B. pose proof (mreach_tgt _ _ _ Hx) as TT.
  assert (Hsp := fun k => spoiled_tr p u x y k Hx Hm).
  assert (Q : (forall k, ~ bad_foc x.1 x.2 k) ->
    (forall k c', a_co y.1 !! k = Some c' -> ac_slot c' = SlBad -> exists c, a_co x.1 !! k = Some c /\ ac_slot c = SlBad) -> BadI y).
  { intros H1 H2 k c' Hc' Hs. destruct (H2 _ _ Hc' Hs) as (c&Hc&Hs'). left. apply Hsp. destruct (S _ _ Hc Hs') as [|Hb]; [done|]. by destruct (H1 k). }
  assert (Qi : forall n c c', (forall k, ~ bad_foc x.1 x.2 k) -> a_co x.1 !! n = Some c -> a_co y.1 = <[n := c']> (a_co x.1) ->
    (ac_slot c' = SlBad -> ac_slot c = SlBad) -> BadI y).
  { intros n c c' H0 H1 H2 H3. apply (Q H0). rewrite H2. intros k0 c0 [[<- <-]|[_ H]]%lookup_insert_Some; intros Hs; [exists c; eauto|by exists c0]. }
  destruct Hm; cbn in M, B; try (by apply Q; [cbn; tauto|intros k0 c0 ? ?; exists c0]).
  - (* exception *)
    intros k0 c0 Hc0 Hs0. cbn in Hc0. destruct (S _ _ Hc0 Hs0) as [Hp|Hp]; [by left; apply Hsp|]. left.
    cbn in Hp. destruct x as [ex|]; [|done]. destruct Hp as [[g Hg] (h'&Ht)]. cbn. rewrite Ht, Hg. by rewrite bool_decide_true.
  - (* local *)
    pose proof H as Hl. apply local_op_frame in H as (E1&E2&E3&E4&E5&E6). destruct E6 as [E6|(n&c&s&Hn&E6)].
    + apply Q; [cbn; tauto|]. cbn. rewrite E6. intros; eauto.
    + apply Q; [cbn; tauto|]. cbn. destruct o as [h|h1 h2|h|h|h g|h|h|h|h| |[h|]|[h|]|i j|i j|h| |[h|] g|v|n0|l|l v]; cbn in Hl; repeat case_match; simplify_eq; cbn; eauto.
      intros k0 c0 [[<- <-]|[_ ?]]%lookup_insert_Some; [done|]. eauto.
  - apply (Qi (ep_co e) c (c_slot (SlFull (PRef l)) c)); cbn; try done; tauto.
  - (* old value destroyed *)
    intros k0 c0 Hc0 Hs0. cbn in Hc0. destruct (decide (k0 = ep_co e)) as [->|Hne].
    + right. cbn. split; [done|]. pose proof (tg_foc _ TT) as G. cbn in G. destruct G as (_&_&h'&G). exists h'. by rewrite G.
    + rewrite lookup_insert_ne in Hc0 by done. destruct (S _ _ Hc0 Hs0) as [Hp|[]]. left. by apply Hsp.
  - (* new value *)
    intros k0 c0 Hc0 Hs0. cbn in Hc0. apply lookup_insert_Some in Hc0 as [[<- <-]|[Hne Hc0]]; [done|].
    destruct (S _ _ Hc0 Hs0) as [Hp|[Hp _]]; [by left; apply Hsp|done].
  - (* construction fails *)
    intros k0 c0 Hc0 Hs0. cbn in Hc0. destruct (S _ _ Hc0 Hs0) as [Hp|(Hp&h'&Ht)]; [by left; apply Hsp|]. right. cbn.
    split; [|eauto]. pose proof (tg_foc _ TT) as G. cbn in G. destruct G as (_&G&_). destruct o as [[]|]; cbn in G; try done; eauto.
  - apply (Qi n c (c_by (a_cur a) (c_st ARun c))); cbn; try done; tauto.
  - apply (Qi n c (c_by (a_cur a) (c_st ARun c))); cbn; try done; tauto.
  - apply (Qi n c (c_st (ASusp o po k) c)); cbn; try done; tauto.
  - eapply (Qi j c); cbn; try done; [tauto|]. by destruct (ac_side c).
  - eapply (Qi j c); cbn; try done; [tauto|]. by destruct (ac_side c).
  - apply Q; [cbn; tauto|]. cbn. intros k0 c0 [[<- <-]|[_ ?]]%lookup_insert_Some; [done|]. eauto.
  - apply Q; [cbn; tauto|]. cbn. intros k0 c0 [[<- <-]|[_ ?]]%lookup_insert_Some; [done|]. eauto.
  - apply (Qi (a_cur a) c (c_st (ADone x) c)); cbn; try done; tauto.
  - assert (Hco : a_co y.1 = delete (a_cur a) (a_co a)) by (subst a1; destruct w as [|? ? []|]; [done|..]; by subst y).
    apply Q; [cbn; tauto|]. rewrite Hco. intros k0 c0 [_ ?]%lookup_delete_Some ?. eauto.
Qed.

Theorem mreach_bad p u x : mreach p u x -> BadI x.
Proof. apply mreach_ind; [|apply bad_step]. intros k c H. cbn in H. by rewrite lookup_empty in H. Qed.

(** ** Types of objects *)
Record TypI (x : astate * mfoc) : Prop := {
  ty_h : forall h o, a_h x.1 !! h = Some o -> ~ hid x.1 h -> typ h (a_tr x.1) = Some (h_side o, h_kind o);
  ty_lim : forall h, lim x <= h -> typ h (a_tr x.1) = None;
  ty_hid : forall h, hid x.1 h -> typ h (a_tr x.1) = None }.

Lemma typ_quiet x y : TypI x ->
  (forall h o', a_h y.1 !! h = Some o' -> exists o, a_h x.1 !! h = Some o /\ h_side o' = h_side o /\ h_kind o' = h_kind o) ->
  (forall h, typ h (a_tr y.1) = typ h (a_tr x.1)) -> lim x <= lim y -> (forall h, hid y.1 h <-> hid x.1 h) -> TypI y.
Proof.
  intros [T1 T2 T3] Hh Ht Hl Hd. split; intros h; rewrite Ht.
  - intros o' Ho Hn. destruct (Hh _ _ Ho) as (o&Ho'&->&->). apply T1; [done|]. by rewrite <- Hd.
  - intros ?. apply T2. lia.
  - rewrite Hd. apply T3.
Qed.

Lemma hid_colike a a' h : colike (a_co a) (a_co a') -> hid a' h <-> hid a h.
Proof. intros H. split; [by apply colike_hid|]. apply colike_hid. by apply colike_sym. Qed.

Lemma typ_quiet1 x y : TypI x -> a_h y.1 = a_h x.1 -> (forall h, typ h (a_tr y.1) = typ h (a_tr x.1)) -> lim x <= lim y ->
  colike (a_co x.1) (a_co y.1) -> TypI y.
Proof.
  intros T Hh Ht Hl Hc. apply (typ_quiet _ _ T); try done; [|intros; by apply hid_colike].
  rewrite Hh. intros h o' Ho. by exists o'.
Qed.

Lemma hid_ins a a' n c c' h : a_co a !! n = Some c -> a_co a' = <[n := c']> (a_co a) -> ac_syn c' = ac_syn c -> (hst (ac_st c') = 2 <-> hst (ac_st c) = 2) ->
  hid a' h <-> hid a h.
Proof.
  intros Hn E Hs Ht. unfold hid. rewrite E. split.
  - intros (k&x&[[<- <-]|[_ Hx]]%lookup_insert_Some&Hh&Hy); [|eauto]. exists n, c. split; [done|]. split; [tauto|congruence].
  - intros (k&x&Hx&Hh&Hy). destruct (decide (n = k)) as [->|].
    + exists k, c'. rewrite lookup_insert. simplify_eq. split; [done|]. split; [tauto|congruence].
    + exists k, x. by rewrite lookup_insert_ne.
Qed.

Theorem typ_step p u x y : mreach p u x -> TypI x -> micro x y -> TypI y.
Proof.
  intros Hx S Hm. pose proof (mreach_minv _ _ _ Hx) as M. pose proof (mreach_basic _ _ _ Hx) as B. pose proof (mreach_den _ _ _ Hx) as D.
  assert (Qi : forall n c c', a_h y.1 = a_h x.1 -> (forall h, typ h (a_tr y.1) = typ h (a_tr x.1)) -> lim x <= lim y ->
    a_co x.1 !! n = Some c -> a_co y.1 = <[n := c']> (a_co x.1) -> ac_syn c' = ac_syn c -> (hst (ac_st c') = 2 <-> hst (ac_st c) = 2) -> TypI y).
  { intros n c c' H1 H2 H3 H4 H5 H6 H7. apply (typ_quiet _ _ S); try done; [rewrite H1; eauto|]. intros h. by eapply hid_ins. }
  destruct Hm; cbn in M, B; try (by apply (typ_quiet1 _ _ S); cbn; try done; [lia|apply colike_refl]); try (by apply (typ_quiet1 _ _ S); [..|apply colike_refl]).
  - (* return *)
    pose proof (pi_foc _ (mreach_pend _ _ _ Hx)) as P. cbn in P.
    apply (typ_quiet1 _ _ S); cbn; try done. intros h. destruct o as [o|sd kd].
    + destruct r; try by destruct o. destruct P as (?&?&?). done.
    + destruct r; try done. case_decide as Hd; [|done]. subst. destruct (d_ret _ D _ _ _ _ eq_refl) as [z Hz]. cbn in Hz. by rewrite Hz.
  - (* local *)
    pose proof (local_op_frame _ _ _ _ H) as (E1&E2&E3&E4&E5&E6). destruct (local_den _ _ _ _ _ D H) as (F1&F2&F3&F4&F5&F6&F7).
    assert (Hq : (forall h, typ h (EvRet (a_cur a') (NOp o) r :: a_tr a) = typ h (a_tr a)) ->
      (forall h o', a_h a' !! h = Some o' -> exists o, a_h a !! h = Some o /\ h_side o' = h_side o /\ h_kind o' = h_kind o) ->
      TypI (w_foc (AUser (k (ROk r))) (alog (EvRet (a_cur a') (NOp o) r) a'), MFoc)).
    { intros H1 H2. apply (typ_quiet _ _ S); cbn; try done; [by rewrite E1|]. intros h. by apply hid_colike. }
    assert (Hsame : a_h a' = a_h a -> forall h o', a_h a' !! h = Some o' -> exists o, a_h a !! h = Some o /\ h_side o' = h_side o /\ h_kind o' = h_kind o).
    { intros ->. eauto. }
    destruct o as [h|h1 h2|h|h|h g|h|h|h|h| |[h|]|[h|]|i j|i j|h| |[h|] g|v|n0|l|l v]; cbn in H; try done;
      try (by apply Hq; [done|apply Hsame]); try (by assert (Hah : a_h a' = a_h a) by (clear -H; repeat case_match; simplify_eq; done); apply Hq; [done|apply Hsame]).
    + (* move construction *)
      destruct (a_h a !! h) as [[sd kd e]|] eqn:Hh; [|done]. injection H as <- <-. clear Hq Hsame.
      assert (Hnk : ~ hid a h) by (apply (d_known _ D _ _ eq_refl h); cbn; set_solver).
      assert (Hnh : ~ hid a (a_nh a)). { intros (k0&c0&Hc0&_&Hs). pose proof (d_syn _ D _ _ Hc0) as Q. cbn in Q. lia. }
      pose proof (ty_h _ S h _ Hh Hnk) as Ht. cbn in Ht.
      assert (Hne : h <> a_nh a). { intros ->. pose proof (d_h _ D _ _ Hh) as Q. cbn in Q. lia. }
      split; cbn.
      * intros h0 o0 Ho Hn0. case_decide as Hd.
        -- subst h0. rewrite lookup_insert_ne, lookup_insert in Ho by congruence. injection Ho as <-. done.
        -- apply lookup_insert_Some in Ho as [[<- <-]|[_ Ho]]; [done|]. rewrite lookup_insert_ne in Ho by congruence. by apply (ty_h _ S).
      * intros h0 Hl. case_decide as Hd; [unfold lim in Hl; cbn in Hl; lia|]. apply (ty_lim _ S). unfold lim in *; cbn in *; lia.
      * intros h0 Hh0. case_decide as Hd; [subst; by destruct Hnh|]. by apply (ty_hid _ S).
    + (* move assignment *)
      destruct (a_h a !! h1) as [[sd1 kd1 e1]|] eqn:Hh1; [|done]. destruct (a_h a !! h2) as [[sd2 kd2 e2]|] eqn:Hh2; [|done].
      case_match; [|done]. injection H as <- <-. apply Hq; [done|]. cbn. intros h0 o0 [[<- <-]|[_ Ho]]%lookup_insert_Some; [by eexists|].
      apply lookup_insert_Some in Ho as [[<- <-]|[_ Ho]]; by eexists.
    + (* destruction *)
      assert (a_h a' = delete h (a_h a) /\ r = AUnit) as [Ha' ->] by (repeat case_match; simplify_eq; done).
      apply Hq; [done|]. rewrite Ha'. intros h0 o0 [_ Ho]%lookup_delete_Some. eauto.
  - (* empty object *)
    pose proof (pi_foc _ (mreach_pend _ _ _ Hx)) as P. cbn in P. subst o.
    destruct (d_empty _ D _ _ _ _ eq_refl) as (He1&He2&_). cbn in He1, He2.
    assert (Hnh : ~ hid a h).
    { intros (k0&c0&Hc0&Hn0&Hs). assert (hst (ac_st c0) = 0) as H0 by (pose proof (no_unw _ _ _ D eq_refl Hc0); destruct (ac_st c0) as [| | | |[]]; cbn in *; done).
      pose proof (d_new _ D _ _ Hc0 H0) as Q. cbn in Q. rewrite Hs in Q. congruence. }
    assert (Hd : den (a_tr a) !! h = None). { pose proof (d_den2 _ D h Hnh) as Q. cbn in Q. rewrite Q by done. by rewrite He1. }
    split; cbn.
    + intros h0 o0 Ho Hn. case_decide as Hdec.
      * subst h0. rewrite Hd. rewrite lookup_insert in Ho. by injection Ho as <-.
      * rewrite lookup_insert_ne in Ho by congruence. by apply (ty_h _ S).
    + intros h0 Hl. unfold lim in Hl; cbn in Hl. rewrite decide_False by lia. by apply (ty_lim _ S).
    + intros h0 Hh0. case_decide as Hdec; [subst; by destruct Hnh|]. by apply (ty_hid _ S).
  - (* destroy *)
    apply (typ_quiet _ _ S); cbn; try done. intros h0 o0 [_ Ho]%lookup_delete_Some. eauto.
  - by eapply (Qi (ep_co e) c (c_slot (SlFull (PRef l)) c)).
  - by eapply (Qi (ep_co e) c (c_slot SlBad c)).
  - by eapply (Qi (ep_co e) c (c_slot (SlFull (PVal v)) c)).
  - eapply (Qi n c (c_by (a_cur a) (c_st ARun c))); try done. cbn. by rewrite H0.
  - (* enter *)
    pose proof (mreach_slot _ _ _ Hx) as SL. pose proof (sl_cls _ _ SL _ _ H) as Hcls. pose proof (ib_new _ B _ _ _ H H0) as Hsd. cbn in Hcls. rewrite Hsd in Hcls.
    pose proof (d_new _ D _ _ H) as Hnew. rewrite H0 in Hnew. specialize (Hnew eq_refl). cbn in Hnew.
    assert (Hhid : forall h, hid (w_foc (AUser (fn (ac_syn c))) (alog (EvEnter n (ac_syn c))
             (w_cur n (w_wait (<[ a_cur a := WOp n o po k ]> (a_wait a)) (put_co n (c_by (a_cur a) (c_st ARun c)) a))))) h <-> hid a h /\ h <> ac_syn c).
    { intros h. unfold hid. cbn. split.
      - intros (k0&c0&[[<- <-]|[Hn Hc0]]%lookup_insert_Some&Hh&Hs); [by cbn in Hh|]. split; [eauto|]. intros ->. by pose proof (d_inj _ D _ _ _ _ H Hc0 (eq_sym Hs)).
      - intros [(k0&c0&Hc0&Hh&Hs) Hne]. exists k0, c0. rewrite lookup_insert_ne; [done|]. intros <-. assert (c0 = c) as -> by congruence. done. }
    split; cbn -[hid].
    + intros h0 o0 Ho Hn. rewrite Hhid in Hn. case_decide as Hd.
      * subst h0. rewrite Hcls. rewrite Hnew in Ho. by injection Ho as <-.
      * apply (ty_h _ S); [done|]. intros Hh. apply Hn. auto.
    + intros h0 Hl. unfold lim in Hl; cbn in Hl. pose proof (d_syn _ D _ _ H) as Q. cbn in Q. rewrite decide_False by lia. by apply (ty_lim _ S).
    + intros h0 [Hh0 Hne]%Hhid. rewrite decide_False by done. by apply (ty_hid _ S).
  - eapply (Qi n c (c_st (ASusp o po k) c)); try done. cbn. destruct M as (_&Hr&_). unfold resumable in Hr. cbn in Hr. rewrite H in Hr. apply andb_true_iff in Hr as [_ Hr]. by destruct (ac_st c).
  - (* new object *)
    pose proof (mreach_slot _ _ _ Hx) as SL. pose proof (sl_cls _ _ SL _ _ H) as Hcls. destruct M as [_ M]. destruct (M _ _ eq_refl) as (c'&Hc'&Hsd&Hkd). cbn in Hcls.
    assert (c' = c) as -> by congruence. rewrite Hsd, Hkd in Hcls.
    destruct (d_res _ D h j) as (Hr1&c'&Hc2&Hr2); [by right|]. cbn in Hr1, Hc2. assert (c' = c) as -> by congruence.
    assert (Hnh : ~ hid a h).
    { intros (k0&c0&Hc0&Hn0&Hs). assert (hst (ac_st c0) = 0) as Hz by (pose proof (no_unw _ _ _ D eq_refl Hc0); destruct (ac_st c0) as [| | | |[]]; cbn in *; done).
      pose proof (d_new _ D _ _ Hc0 Hz) as Q. cbn in Q. rewrite Hs in Q. congruence. }
    split; cbn.
    + intros h0 o0 Ho Hn. case_decide as Hd.
      * subst h0. rewrite lookup_insert in Ho. by injection Ho as <-.
      * rewrite lookup_insert_ne in Ho by congruence. by apply (ty_h _ S).
    + intros h0 Hl. unfold lim in Hl; cbn in Hl. pose proof (d_syn _ D _ _ H) as Q. cbn in Q. unfold lim in Q. cbn in Q. rewrite decide_False by lia. by apply (ty_lim _ S).
    + intros h0 Hh0. rewrite decide_False by (by intros <-). by apply (ty_hid _ S).
  - eapply (Qi j c); cbn; try done. by rewrite H0.
  - eapply (Qi j c); cbn; try done. revert H0. destruct (ac_st c); try done; by intros ->.
  - (* allocation *)
    apply (typ_quiet1 _ _ S); cbn; try done; lia.
  - apply (typ_quiet1 _ _ S); cbn; try done. unfold lim; cbn. lia.
  - (* new pull *)
    pose proof (mreach_slot _ _ _ Hx) as SL. destruct (sl_new _ _ SL _ _ _ _ _ _ _ eq_refl) as [Hcls _]. cbn in Hcls.
    destruct M as (I&Hnk&Hnh).
    assert (Hco : a_co a !! n = None). { destruct (a_co a !! n) eqn:En; [|done]. pose proof (ic_dom _ _ _ _ _ I _ _ En). lia. }
    match goal with |- TypI (?y, _) => assert (Hhid : forall h', hid y h' <-> hid a h') end.
    { intros h'. unfold hid. cbn. split.
      - intros (k0&c0&[[<- <-]|[Hn Hc0]]%lookup_insert_Some&Hh&Hs); [by cbn in Hh|]. eauto.
      - intros (k0&c0&Hc0&Hh&Hs). exists k0, c0. rewrite lookup_insert_ne by congruence. done. }
    assert (Hlim : ~ hid a (a_nh a)). { intros (k0&c0&Hc0&_&Hs). pose proof (d_syn _ D _ _ Hc0) as Q. unfold lim in Q. cbn in Q. lia. }
    split; cbn -[hid].
    + intros h0 o0 Ho Hn0. assert (Hn : ~ hid a h0) by (intros Q; apply Hn0, Hhid, Q). case_decide as Hd.
      * subst h0. rewrite Hcls. rewrite lookup_insert in Ho. by injection Ho as <-.
      * rewrite lookup_insert_ne in Ho by congruence. by apply (ty_h _ S).
    + intros h0 Hl. unfold lim in Hl; cbn in Hl. rewrite decide_False by lia. apply (ty_lim _ S). unfold lim. cbn. lia.
    + intros h0 Hh0%Hhid. rewrite decide_False by (by intros <-). by apply (ty_hid _ S).
  - (* new push *)
    pose proof (mreach_slot _ _ _ Hx) as SL. destruct (sl_new _ _ SL _ _ _ _ _ _ _ eq_refl) as [Hcls _]. cbn in Hcls.
    destruct M as (I&Hnk&Hnh).
    assert (Hco : a_co a !! n = None). { destruct (a_co a !! n) eqn:En; [|done]. pose proof (ic_dom _ _ _ _ _ I _ _ En). lia. }
    match goal with |- TypI (?y, _) => assert (Hhid : forall h', hid y h' <-> hid a h' \/ h' = a_nh a) end.
    { intros h'. unfold hid. cbn. split.
      - intros (k0&c0&[[<- <-]|[Hn Hc0]]%lookup_insert_Some&Hh&Hs); [by right|]. left; eauto.
      - intros [(k0&c0&Hc0&Hh&Hs)| ->].
        + exists k0, c0. rewrite lookup_insert_ne by congruence. done.
        + eexists n, _. by rewrite lookup_insert. }
    assert (Hlim : forall h', h <= h' -> ~ hid a h'). { intros h' Hle (k0&c0&Hc0&_&Hs). pose proof (d_syn _ D _ _ Hc0) as Q. unfold lim in Q. cbn in Q. lia. }
    split; cbn -[hid].
    + intros h0 o0 Ho Hn0. assert (Hn : ~ (hid a h0 \/ h0 = a_nh a)) by (intros Q; apply Hn0, Hhid, Q). case_decide as Hd.
      * subst h0. rewrite lookup_insert in Ho. by injection Ho as <-.
      * rewrite lookup_insert_ne in Ho by congruence. rewrite lookup_insert_ne in Ho by (intros E; apply Hn; right; congruence). apply (ty_h _ S); [done|]. intros Q. apply Hn. by left.
    + intros h0 Hl. unfold lim in Hl; cbn in Hl. rewrite decide_False by lia. apply (ty_lim _ S). unfold lim. cbn. lia.
    + intros h0 [Hh0| ->]%Hhid.
      * rewrite decide_False; [by apply (ty_hid _ S)|]. intros ->. by apply (Hlim h0).
      * rewrite decide_False by lia. apply (ty_lim _ S). unfold lim. cbn. lia.
  - eapply (Qi (a_cur a) c (c_st (ADone x) c)); try done. cbn. destruct M as (_&c'&Hc'&Hst). assert (c' = c) as -> by congruence. by rewrite Hst.
  - apply (typ_quiet _ _ S); cbn; try done. intros h0 o0 [_ Ho]%lookup_delete_Some. eauto.
  - apply (typ_quiet _ _ S); cbn; try done. intros h0 o0 [_ Ho]%lookup_delete_Some. eauto.
  - (* released *)
    assert (Hco : a_co y.1 = delete (a_cur a) (a_co a) /\ a_tr y.1 = EvFree (a_cur a) :: a_tr a /\ a_h y.1 = a_h a /\ lim y = a_nh a) by (subst a1; destruct w as [|? ? []|]; [done|..]; by subst y).
    destruct Hco as (Hco&Htr&Hh&Hl).
    assert (Hy : forall h, hid y.1 h -> hid a h).
    { intros h (k0&c0&Hc0&H2&H3). rewrite Hco in Hc0. apply lookup_delete_Some in Hc0 as [_ Hc0]. by exists k0, c0. }
    split; rewrite Htr; cbn.
    + intros h0 o0. rewrite Hh. intros Ho Hn. apply (ty_h _ S); [done|]. intros (k0&c0&Hc0&H2&H3). cbn in Hc0. destruct (decide (k0 = a_cur a)) as [->|Hne].
      * destruct M as (_&c1&Hc1&Hu). assert (c1 = c0) as -> by congruence. assert (hst (ac_st c0) = 1) as H11 by (by destruct (ac_st c0) as [| | | |[]]).
        destruct (d_unw _ D _ _ Hc0 H11) as (_&_&_&Q). cbn in Q. rewrite H3 in Q. rewrite Q in Ho by naive_solver. done.
      * apply Hn. exists k0, c0. rewrite Hco. by rewrite lookup_delete_ne.
    + intros h0. rewrite Hl. apply (ty_lim _ S).
    + intros h0 Hh0. apply (ty_hid _ S). by apply Hy.
Qed.

Theorem mreach_typ p u x : mreach p u x -> TypI x.
Proof.
  apply mreach_ind; [|apply typ_step]. split; cbn; try done.
Qed.

End ci.
