(** Phase.v -- the phase of a coroutine at every event of the reference semantics. *)
From stdpp Require Import prelude gmap relations.
From Coq Require Import Lia.
From Verif Require Import Base Model Spec InvSpec Main Micro Trace Life Den Events.

Section ph.
Context {env : Env}.

(** ** Coroutines that are past their function *)
Definition past_fn (x : astate * mfoc) : bool :=
  match x.2 with
  | MFoc => match a_foc x.1 with AUser _ => false | _ => true end
  | MKill _ (WExit _) | MKill2 _ (WExit _) | MExit3 => true
  | _ => false
  end.

Record GoneI (x : astate * mfoc) : Prop := {
  g_cur : past_fn x = true -> life (a_cur x.1) (a_tr x.1) <> PRun;
  g_wait : forall k j, a_wait x.1 !! k = Some (WExit j) -> life k (a_tr x.1) <> PRun }.

Lemma gone_quiet x y : GoneI x -> (forall k, life k (a_tr y.1) = PRun -> life k (a_tr x.1) = PRun) ->
  a_wait y.1 = a_wait x.1 -> (past_fn y = true -> past_fn x = true /\ a_cur y.1 = a_cur x.1) -> GoneI y.
Proof.
  intros [G1 G2] Ht Hw Hp. split.
  - intros H Hr. destruct (Hp H) as [H1 H2]. apply (G1 H1). apply Ht. by rewrite <- H2.
  - intros k j. rewrite Hw. intros H Hr. apply (G2 _ _ H). by apply Ht.
Qed.

Lemma gone_step p u x y : mreach p u x -> GoneI x -> micro x y -> GoneI y.
Proof.
  intros Hx G Hm. pose proof (mreach_basic _ _ _ Hx) as B. pose proof (mreach_life _ _ _ Hx) as L.
  destruct Hm; cbn in B; try (by apply (gone_quiet _ _ G); cbn; try done; intros ?; repeat case_decide; try done; repeat case_match).
  - (* local *) apply local_op_frame in H as (E1&E2&E3&E4&E5&E6). apply (gone_quiet _ _ G); cbn; rewrite ?E1, ?E2; done.
  - (* resume *) split; cbn; [done|]. intros m j Hw. destruct (decide (m = a_cur a)) as [->|]; [by rewrite lookup_insert in Hw|].
    rewrite lookup_insert_ne in Hw by done. by eapply (g_wait _ G).
  - (* enter *) split; cbn; [done|]. intros m j Hw. destruct (decide (m = a_cur a)) as [->|]; [by rewrite lookup_insert in Hw|].
    rewrite lookup_insert_ne in Hw by done. destruct (basic_inactive _ _ _ B H) as [Hn1 Hn2]; [by rewrite H0|]. cbn in Hn2.
    rewrite decide_False by congruence. by eapply (g_wait _ G).
  - (* back *) split; cbn; [done|]. intros m i Hw. apply lookup_delete_Some in Hw as [_ Hw]. by eapply (g_wait _ G).
  - split; cbn; [done|]. intros m i Hw. destruct (decide (m = a_cur a)) as [->|].
    + rewrite lookup_insert in Hw. simplify_eq. by apply (g_cur _ G).
    + rewrite lookup_insert_ne in Hw by done. by eapply (g_wait _ G).
  - split; cbn.
    + intros _. pose proof (li_st _ L _ _ H) as Q. cbn in Q. destruct (ac_st c); try done; cbn in Q; by rewrite Q.
    + intros m i Hw. destruct (decide (m = a_cur a)) as [->|].
      * rewrite lookup_insert in Hw. simplify_eq. by apply (g_cur _ G).
      * rewrite lookup_insert_ne in Hw by done. by eapply (g_wait _ G).
  - (* new pull *) pose proof (mreach_minv _ _ _ Hx) as (I&Hn&_). cbn in *.
    split; cbn; [done|]. intros m j Hw. destruct (decide (m = a_cur a)) as [->|]; [by rewrite lookup_insert in Hw|].
    rewrite lookup_insert_ne in Hw by done. rewrite decide_False; [by eapply (g_wait _ G)|]. intros <-.
    destruct (ib_ctx _ B _ _ Hw) as [E|(c&Hc&_)].
    + pose proof (ic_nk _ _ _ _ _ I). lia.
    + pose proof (ic_dom _ _ _ _ _ I _ _ Hc). lia.
  - (* left *) split; cbn; [done|]. intros m i Hw. apply lookup_delete_Some in Hw as [_ Hw]. by eapply (g_wait _ G).
  - split; cbn.
    + intros _. by rewrite decide_True.
    + intros m i Hw. case_decide; [done|]. by eapply (g_wait _ G).
  - subst a1. destruct w as [|? ? []|]; [done|..]; subst y; split; cbn; try done; intros m; cbn;
      try (intros i Hw; apply lookup_delete_Some in Hw as [_ Hw]; case_decide; [done|]; by eapply (g_wait _ G)).
    case_decide; [done|]. by eapply (g_wait _ G).
Qed.

Theorem mreach_gone p u x : mreach p u x -> GoneI x.
Proof. apply mreach_ind; [split; cbn; done|]. apply gone_step. Qed.

(** ** The phase at every event *)
Definition ended (ph : phase) : Prop := ph = PNew \/ (exists x, ph = PDone x) \/ ph = PLeft.

Definition life_ok (e : event) (b : list event) : Prop :=
  match e with
  | EvAlloc k => life k b = PNone
  | EvNew k _ => life k b = PAlloc \/ life k b = PRun
  | EvEnter k _ => life k b = PAlloc \/ life k b = PNew
  | EvLeave k _ => life k b = PRun
  | EvGone k _ | EvFree k => ended (life k b)
  | EvCall c _ | EvRet c _ _ | EvExn c _ _ => c <> 0 -> life c b = PRun
  | EvSet k _ => life k b = PNew \/ life k b = PRun
  | EvDel k => life k b <> PNone /\ life k b <> PAlloc /\ life k b <> PFreed
  end.

Lemma past_ended p u a f c : mreach p u (a, f) -> past_fn (a, f) = true -> a_co a !! a_cur a = Some c -> unw_st (ac_st c) = true -> ended (life (a_cur a) (a_tr a)).
Proof.
  intros Hx Hp Hc Hu. pose proof (g_cur _ (mreach_gone _ _ _ Hx) Hp) as Hg. pose proof (li_st _ (mreach_life _ _ _ Hx) _ _ Hc) as Q. cbn in Hg, Q.
  unfold ended. destruct (ac_st c) as [| | | |[]]; cbn in Q; try done; [|by left]. destruct Q as [?|[?|?]]; auto. done.
Qed.

Lemma alive_phase p u a f k c : mreach p u (a, f) -> a_co a !! k = Some c -> life k (a_tr a) <> PNone /\ life k (a_tr a) <> PAlloc /\ life k (a_tr a) <> PFreed.
Proof.
  intros Hx Hc. pose proof (li_st _ (mreach_life _ _ _ Hx) _ _ Hc) as Q. cbn in Q.
  destruct (ac_st c) as [| | | |[]]; cbn in Q; repeat case_match; try (rewrite Q; done).
  destruct Q as [->|[[? ->]| ->]]; done.
Qed.

Theorem life_at p u x y e b : mreach p u x -> micro x y -> a_tr x.1 = b -> a_tr y.1 = e :: b -> life_ok e b.
Proof.
  intros Hx Hm Hb He. pose proof (mreach_life _ _ _ Hx) as L. pose proof (mreach_basic _ _ _ Hx) as B. pose proof (mreach_minv _ _ _ Hx) as M.
  assert (E := micro_event _ _ e Hm). rewrite Hb in E. specialize (E He). destruct x as [a f]. cbn in Hb, E, B, M. subst b.
  destruct e as [c o|c o r|c o ex|n h|n r|n p0|n|n h|n h|n|n]; cbn in E |- *.
  - destruct E as (->&->&[(o'&k&->&Hf&_)|(sd&kd&np&fn&k&->&Hf&_)]); intros; apply (li_cur _ L); try done; unfold userish; cbn; by rewrite Hf.
  - destruct E as (->&[(k&->&_)|[(o'&k&a'&->&_)|(h&kd&k&->&_)]]); intros; by apply (li_cur _ L).
  - destruct E as (->&(k&->&_)); intros; by apply (li_cur _ L).
  - destruct E as [(o&po&k&c&fn&->&Hc&Hs&_)|(kd&np&fn&k&h0&->&_)].
    + right. pose proof (li_st _ L _ _ Hc) as Q. cbn in Q. by rewrite Hs in Q.
    + left. by eapply (li_new2 _ L).
  - destruct E as (->&->&[(s&c&ex&Hf&_&_&Hc&Hs&_)|(c&en&Hf&_&Hc&Hs&_)]); apply (li_cur _ L); unfold userish; cbn; rewrite ?Hf; try done;
      pose proof (ib_dom _ B _ _ Hc); cbn in *; lia.
  - assert (forall d, n = ep_co d -> resumable d a = true -> life n (a_tr a) = PNew \/ life n (a_tr a) = PRun) as Hg.
    { intros d -> Hr. unfold resumable in Hr; destruct d as [k|k]; destruct (a_co a !! k) as [c|] eqn:Hc; try done; try (by rewrite andb_false_r in Hr); pose proof (li_st _ L _ _ Hc) as Q; cbn in Q |- *.
      + destruct (ac_st c); try done; cbn in Q; auto.
      + apply andb_true_iff in Hr as [_ Hr]. destruct (ac_st c); try done. right. rewrite Q.
        destruct E as [(d&lv&l&o&po&k0&c0&->&_)|(d&lv&g&o&po&k0&c0&v&u'&->&_)]; done. }
    destruct E as [(d&lv&l&o&po&k&c&->&Hn&_)|(d&lv&g&o&po&k&c&v&u'&->&Hn&_)]; (apply (Hg d); [done|]); by destruct M as (_&_&?&_).
  - destruct E as (c&p0&Hc&_). by eapply alive_phase.
  - destruct E as [(o&kd&k&c&o'&po'&k'&->&Hc&Hs&_)|(kd&np&fn&k&->&_)].
    + right. pose proof (li_st _ L _ _ Hc) as Q. cbn in Q. by rewrite Hs in Q.
    + left. by eapply (li_new2 _ L).
  - destruct E as (->&->&Hf&c&ho&Hc&_). destruct M as [_ M]. unfold foc_inv in M. cbn in M. rewrite Hf in M. destruct M as (c'&Hc'&Hu).
    eapply past_ended; [done| |done|congruence]. unfold past_fn; cbn. by rewrite Hf.
  - destruct E as (->&_). apply (li_none _ L). cbn. right. lia.
  - destruct E as (->&->&_). destruct M as (_&c&Hc&Hu). by eapply past_ended.
Qed.

(** ** Phases only advance *)
Definition rank (ph : phase) : nat :=
  match ph with PNone => 0 | PAlloc => 1 | PNew => 2 | PRun => 3 | PDone _ | PLeft => 4 | PFreed => 5 end.

Lemma life_cons k e b : life_ok e b -> life k (e :: b) = life k b \/ rank (life k b) < rank (life k (e :: b)).
Proof.
  intros H. destruct e as [c o|c o r|c o ex|n h|n [[x|]|]|n p0|n|n h|n h|n|n]; cbn in H |- *; try (by left); case_decide; subst; try (by left).
  - right. destruct H as [-> | ->]; cbn; lia.
  - right. rewrite H. cbn. lia.
  - right. rewrite H. cbn. lia.
  - right. rewrite H. cbn. lia.
  - destruct H as [-> | ->]; [right; cbn; lia|by left].
  - right. rewrite H. cbn. lia.
  - right. destruct H as [-> |[[? ->]| ->]]; cbn; lia.
Qed.

Lemma past_refl h : past h h. Proof. by exists []. Qed.
Lemma past_trans h b c : past h b -> past b c -> past h c.
Proof. intros [l ->] [l' ->]. exists (l ++ l'). by rewrite app_assoc. Qed.
Lemma past_cons h e b : past h b -> past (e :: h) b.
Proof. intros [l ->]. by exists (e :: l). Qed.
Lemma occurs_past h e b : occurs h e b <-> past h (e :: b).
Proof. done. Qed.
Lemma past_tail h e b : past h (e :: b) -> past h b.
Proof. intros [l ->]. exists (l ++ [e]). by rewrite <- app_assoc. Qed.
Lemma past_occurs h b e c : past h b -> occurs b e c -> occurs h e c.
Proof. apply past_trans. Qed.
Lemma past_inv h e b : past (e :: h) b -> b = e :: h \/ past h b.
Proof. intros [[|e' l] E]; [by left|]. injection E as -> ->. right. by exists l. Qed.
Lemma past_or h b c : past h b -> past h c -> past b c \/ past c b.
Proof.
  intros [l ->]. revert b c. induction l as [|e l IH]; intros b c Hc; [by left|].
  apply past_inv in Hc as [->|Hc]; [right; by exists (e :: l)|]. by apply IH.
Qed.
Lemma past_len h b : past h b -> length b <= length h.
Proof. intros [l ->]. rewrite app_length. lia. Qed.
Lemma past_antisym h b : past h b -> past b h -> h = b.
Proof. intros [l E] H. apply past_len in H. rewrite E in *. rewrite app_length in H. destruct l; [done|cbn in H; lia]. Qed.

Lemma occurs_cons h e e' b : occurs (e :: h) e' b <-> (e' = e /\ b = h) \/ occurs h e' b.
Proof.
  split.
  - intros [[|e0 l] E]; injection E as -> ->; [by left|]. right. by exists l.
  - intros [[-> ->]|[l ->]]; [by exists []|by exists (e :: l)].
Qed.

End ph.
