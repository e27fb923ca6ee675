(** FactsObj.v -- what objects denote, over whole histories. *)
From stdpp Require Import prelude gmap.
From Coq Require Import Lia.
From Verif Require Import Base Model Spec InvSpec Main Micro Trace Life Pend Den Tgt Own Hist FactsVal Next Rules RulesProof FactsLife FactsSeq FactsBack.

Section fo.
Context {env : Env}.

(** ** Histories alone *)
Lemma den_origin e h x d : den (e :: h) !! x = Some (Some d) ->
  (exists y, den h !! y = Some (Some d)) \/ (exists k y, e = EvNew k y /\ d = Outer k) \/ (exists k y, e = EvEnter k y /\ d = Inner k).
Proof.
  destruct e as [c o|c o r|c o ex|n y|n r|n p0|n|n y|n y|n|n]; cbn; eauto.
  - destruct o as [[]|]; eauto. intros [_ H]%lookup_delete_Some. eauto.
  - destruct o as [[z|z w| | | | | | | | | | | | | | | | | | | ]|].
    2: { destruct (den h !! z) as [q|] eqn:E1; [|eauto]. destruct (den h !! w) as [q'|] eqn:E2; [|eauto].
         intros [[_ ->]|[_ [[_ ->]|[_ H]]%lookup_insert_Some]]%lookup_insert_Some; eauto. }
    all: destruct r; eauto.
    + destruct (den h !! z) as [q|] eqn:E1; [|eauto]. intros [[_ ?]|[_ [[_ ->]|[_ H]]%lookup_insert_Some]]%lookup_insert_Some; eauto; done.
    + destruct (den h !! h0); eauto. intros [[_ ?]|[_ H]]%lookup_insert_Some; eauto. done.
  - intros [[_ E]|[_ H]]%lookup_insert_Some; eauto. injection E as <-. right; right; eauto.
  - intros [[_ E]|[_ H]]%lookup_insert_Some; eauto. injection E as <-. right; left; eauto.
  - intros [_ H]%lookup_delete_Some. eauto.
Qed.

Definition made (k : nat) h : Prop := exists x b, occurs h (EvNew k x) b.
Definition owner (k : nat) h : Prop := exists x, den h !! x = Some (Some (Outer k)).

Lemma made_cons k e h : made k (e :: h) <-> (exists x, e = EvNew k x) \/ made k h.
Proof.
  unfold made. split.
  - intros (x&b&[[<- ->]|H]%occurs_cons); eauto.
  - intros [(x&->)|(x&b&H)]; [exists x, h|exists x, b]; apply occurs_cons; eauto.
Qed.
Lemma made_past k h b : past h b -> made k b -> made k h.
Proof. intros Hp (x&b'&H). exists x, b'. by eapply past_occurs. Qed.

Lemma owner_made k h : owner k h -> made k h.
Proof.
  induction h as [|e h IH]; [by intros [x ?]|]. intros [x Hx]. apply made_cons.
  destruct (den_origin _ _ _ _ Hx) as [H|[(k'&y&->&E)|(k'&y&->&E)]]; [by right; apply IH|left; injection E as ->; eauto|done].
Qed.

Context {comp : Compiler}.

(** ** Reading the invariants *)
Lemma hist_state p u n h : respects p u n -> past (hist p u n) h -> exists x, mreach p u x /\ a_tr x.1 = h.
Proof.
  intros Hr Hh. destruct h as [|e b].
  - exists (ainit p u, MFoc). split; [apply rtc_refl|done].
  - destruct (hist_occurs p u n e b Hr Hh) as (z&Hz&Ho). destruct (occurs_at _ _ _ _ _ Hz Ho) as (x&y&Hx&Hm&_&He&_). exists y. split; [by eapply rtc_r|done].
Qed.

Lemma den_h p u x y d : mreach p u x -> den (a_tr x.1) !! y = Some d -> exists o, a_h x.1 !! y = Some o /\ h_ep o = d.
Proof.
  intros Hx Hd. pose proof (mreach_den _ _ _ Hx) as D.
  rewrite (d_den2 _ D) in Hd.
  - destruct (a_h x.1 !! y) as [o|]; [|done]. cbn in Hd. injection Hd as <-. eauto.
  - intros Hh. by rewrite (d_den1 _ D _ Hh) in Hd.
  - intros k E. by rewrite (d_den3 _ D _ _ E) in Hd.
Qed.

Lemma den_inj p u n h x y d : respects p u n -> past (hist p u n) h -> den h !! x = Some (Some d) -> den h !! y = Some (Some d) -> x = y.
Proof.
  intros Hr Hh Hx Hy. destruct (hist_state _ _ _ _ Hr Hh) as (s&Hs&<-).
  destruct (den_h _ _ _ _ _ Hs Hx) as (o&Ho&E). destruct (den_h _ _ _ _ _ Hs Hy) as (o'&Ho'&E').
  by eapply (o_inj _ (mreach_own _ _ _ Hs)).
Qed.

Lemma owner_phase p u n h k : respects p u n -> past (hist p u n) h -> owner k h ->
  life k h = PNew \/ life k h = PRun \/ exists x, life k h = PDone x.
Proof.
  intros Hr Hh [x Hx]. destruct (hist_state _ _ _ _ Hr Hh) as (s&Hs&<-).
  destruct (den_h _ _ _ _ _ Hs Hx) as (o&Ho&E).
  destruct (o_own _ (mreach_own _ _ _ Hs) k) as [(c&Hc&Hu) _]; [by exists x, o|].
  pose proof (li_st _ (mreach_life _ _ _ Hs) _ _ Hc) as Q. destruct (ac_st c) as [| | | |[]]; cbn in Q; eauto; try done.
  destruct s as [a f]. cbn in Q. destruct f; eauto. case_decide; eauto.
Qed.

(** The stack of a coroutine is not released while an object owns it. *)
Lemma free_not_owned p u n k b : respects p u n -> occurs (hist p u n) (EvFree k) b -> ~ owner k b.
Proof.
  intros Hr Ho [x Hx]. destruct (hist_at _ _ _ _ _ Hr Ho) as ([a f]&y&Hs&Hm&Hb&Hk&Hf&c&w&Hc&_). cbn in *. subst f k b.
  destruct (den_h _ _ _ _ _ Hs Hx) as (o&Ho'&E). destruct (o_own _ (mreach_own _ _ _ Hs) (a_cur a)) as [(c'&Hc'&Hu) _]; [by exists x, o|].
  cbn in Hc'. pose proof (mreach_minv _ _ _ Hs) as (_&c1&Hc1&Hu1). cbn in *. congruence.
Qed.

Lemma new_fresh p u n k x b : respects p u n -> occurs (hist p u n) (EvNew k x) b -> den b !! x = None.
Proof.
  intros Hr Ho. destruct (hist_at _ _ _ _ _ Hr Ho) as ([a f]&y&Hs&Hm&Hb&H). cbn in *. subst b.
  destruct (den (a_tr a) !! x) as [d|] eqn:Hd; [|done]. exfalso. destruct (den_h _ _ _ _ _ Hs Hd) as (o&Ho'&_). cbn in Ho'.
  pose proof (mreach_den _ _ _ Hs) as D.
  destruct H as [(o'&kd&kk&c&o1&po1&k1&->&_)|(kd&np&fn&kk&->&_)].
  - destruct (d_res _ D x k) as [E _]; [right; done|]. cbn in E. congruence.
  - pose proof (d_h _ D _ _ Ho') as E. unfold lim in E. cbn in E. lia.
Qed.
Lemma enter_fresh p u n k x b : respects p u n -> occurs (hist p u n) (EvEnter k x) b -> den b !! x = None.
Proof.
  intros Hr Ho. destruct (hist_at _ _ _ _ _ Hr Ho) as ([a f]&y&Hs&Hm&Hb&H). cbn in *. subst b.
  pose proof (mreach_den _ _ _ Hs) as D.
  destruct H as [(o'&po&kk&c&fn&->&Hc&Hst&->)|(kd&np&fn&kk&h0&->&->)].
  - apply (d_den1 _ D). exists k, c. split; [done|]. by rewrite Hst.
  - destruct (den (a_tr a) !! a_nh a) as [d|] eqn:Hd; [|done]. exfalso. destruct (den_h _ _ _ _ _ Hs Hd) as (o&Ho'&_). cbn in Ho'.
    pose proof (d_h _ D _ _ Ho') as E. unfold lim in E. cbn in E.
    assert (a_nh a = S h0). { pose proof (mreach_minv _ _ _ Hs) as M. cbn in M. tauto. } lia.
Qed.

(** ** Every coroutine is constructed once *)
Lemma turns_mono sd k h b : past h b -> turns sd k b <= turns sd k h.
Proof.
  intros [l ->]. induction l as [|e l IH]; [done|]. cbn [app]. etrans; [exact IH|]. cbn.
  destruct e, sd; repeat case_match; cbn; lia.
Qed.
Lemma new_once p u n k x b : respects p u n -> occurs (hist p u n) (EvNew k x) b -> ~ made k b.
Proof.
  intros Hr Ho (y&b'&Ho'). pose proof (past_tail _ _ _ Ho) as Hb. pose proof (past_occurs _ _ _ _ Hb Ho') as Ho2.
  destruct (new_turn _ _ _ _ _ _ Hr Ho) as [(kd&Hcl&Hl&_)|(kd&Hcl&Hl&_)].
  - pose proof (first_turn _ _ _ _ _ _ _ Hr Ho Hcl) as E. destruct (new_turn _ _ _ _ _ _ Hr Ho2) as [(kd'&Hcl'&_)|(kd'&Hcl'&Hl'&_)].
    + pose proof (turns_mono Pull k b (EvNew k y :: b') Ho') as Q. cbn in Q. rewrite decide_True in Q by done. lia.
    + pose proof (hist_life _ _ _ _ _ Hr Ho2). assert (Hx : forall h, past h (EvNew k y :: b') -> past (hist p u n) h -> cls k h = Some (Push, kd')).
      { intros h [l ->]. induction l as [|e l IH]; [done|]. cbn [app]. intros Hp. specialize (IH (past_tail _ _ _ Hp)). destruct e; try done. cbn. case_decide; [|done]. subst k0.
        pose proof (hist_life _ _ _ _ _ Hr Hp) as Q. cbn in Q. by apply cls_life in IH. }
      pose proof (Hx b Ho' Hb). congruence.
  - pose proof (life_rank _ _ _ _ _ k Hr Hb Ho') as Q. rewrite Hl in Q. cbn in Q. rewrite decide_True in Q by done.
    pose proof (hist_life _ _ _ _ _ Hr Ho2) as [E|E]; rewrite E in Q; cbn in Q; lia.
Qed.

(** Once nobody owns a coroutine that was constructed, nobody ever will. *)
Lemma disowned p u n h b k : respects p u n -> past (hist p u n) h -> past h b -> made k b -> ~ owner k b -> ~ owner k h.
Proof.
  intros Hr Hh [l ->] Hm Hn. induction l as [|e l IH]; [done|]. cbn [app] in *. specialize (IH (past_tail _ _ _ Hh)).
  intros [x Hx]. destruct (den_origin _ _ _ _ Hx) as [H|[(k'&y&->&E)|(k'&y&->&E)]]; [by apply IH| |done].
  injection E as <-. eapply new_once; [exact Hr|exact Hh|]. eapply made_past; [|done]. by exists l.
Qed.

(** ** Owners are not lost *)
Definition killed (k : nat) h : Prop := exists b, past h b /\ starts_kill k b.
Lemma owner_kept p u n h k : respects p u n -> past (hist p u n) h -> made k h -> owner k h \/ killed k h.
Proof.
  intros Hr. induction h as [|e h IH]; [by intros _ (?&?&[[] ?])|]. intros Hh Hm. apply made_cons in Hm as [(x&->)|Hm].
  { left. exists x. cbn. by rewrite lookup_insert. }
  destruct (IH (past_tail _ _ _ Hh) Hm) as [[x Hx]|(b&Hb&Hk)]; [|right; exists b; split; [by apply past_cons|done]].
  assert (Hstay : (den (e :: h) !! x = Some (Some (Outer k))) -> owner k (e :: h) \/ killed k (e :: h)) by (left; eauto; by exists x).
  destruct e as [c o|c o r|c o ex|m y|m r|m p0|m|m y|m y|m|m]; try (by apply Hstay).
  - destruct o as [o|]; [|by apply Hstay]. destruct o; try (by apply Hstay).
    destruct (decide (h0 = x)) as [->|]; [|apply Hstay; cbn; by rewrite lookup_delete_ne].
    right. exists (EvCall c (NOp (ODestroy x)) :: h). split; [apply past_refl|done].
  - destruct (history_answers _ _ _ _ _ _ _ Hr Hh) as [_ A]. destruct o as [[z|z w| | | | | | | | | | | | | | | | | | | ]|]; try (by apply Hstay).
    + destruct A as (y&->&Hy&Hz). left. cbn. destruct (den h !! z) as [q|] eqn:E; [|done]. unfold owner. cbn. rewrite E.
      destruct (decide (z = x)) as [->|].
      * exists y. rewrite lookup_insert_ne by congruence. rewrite lookup_insert. congruence.
      * exists x. rewrite lookup_insert_ne by done. rewrite lookup_insert_ne by congruence. done.
    + destruct A as (->&Hz&Hw). left. unfold owner. cbn. destruct (den h !! z) as [q|] eqn:E; [|done]. destruct (den h !! w) as [q'|] eqn:E'; [|done].
      destruct (decide (w = x)) as [->|].
      * destruct (decide (z = x)) as [->|]; [exists x; rewrite lookup_insert; congruence|]. exists z. rewrite lookup_insert_ne by congruence. rewrite lookup_insert. congruence.
      * destruct (decide (z = x)) as [->|]; [exists w; rewrite lookup_insert; congruence|]. exists x. rewrite !lookup_insert_ne by congruence. done.
    + apply Hstay. destruct A as (y&->&_). cbn. destruct (den h !! y) eqn:E; [done|]. rewrite lookup_insert_ne by congruence. done.
  - apply Hstay. cbn. rewrite lookup_insert_ne; [done|]. intros ->. pose proof (enter_fresh _ _ _ _ _ _ Hr Hh). congruence.
  - apply Hstay. cbn. rewrite lookup_insert_ne; [done|]. intros ->. pose proof (new_fresh _ _ _ _ _ _ Hr Hh). congruence.
  - destruct (decide (y = x)) as [->|]; [|apply Hstay; cbn; by rewrite lookup_delete_ne].
    right. exists (EvGone m x :: h). split; [apply past_refl|done].
Qed.

(** The moment the destruction starts is the moment the coroutine has no owner any more. *)
Lemma kill_disowns p u n h k : respects p u n -> past (hist p u n) h -> starts_kill k h -> ~ owner k h.
Proof.
  intros Hr Hh Hk [x Hx]. destruct h as [|e h]; [done|]. pose proof (past_tail _ _ _ Hh) as Hh'. destruct e; try done.
  - destruct o as [[]|]; try done. cbn in Hk, Hx. apply lookup_delete_Some in Hx as [Hne Hx]. apply Hne. by eapply den_inj.
  - destruct Hk as (->&_&c&sd&kd&s&Hs&Hp&Ht). cbn in Hx.
    destruct (hist_at _ _ _ _ _ Hr Hh) as ([a f]&y&Hst&Hm&Hb&Hc&Hf&_). cbn in *. subst f k h.
    destruct (den_h _ _ _ _ _ Hst Hx) as (o&Ho'&E).
    destruct (o_own _ (mreach_own _ _ _ Hst) (a_cur a)) as [(co&Hco&Hu) Hbare]; [by exists x, o|]. apply Hbare. left. cbn in *.
    pose proof (mreach_pend _ _ _ Hst) as P. pose proof (pi_pend _ P c) as Q. cbn in Q. rewrite Hp in Q. unfold xop in Q. cbn in Q.
    destruct (decide (c = a_cur a)) as [|Hne]; [done|].
    destruct (a_wait a !! c) as [w|] eqn:Hw.
    + exists c, w. split; [done|]. pose proof (tg_wait _ (mreach_tgt _ _ _ Hst) _ _ Hw) as G. pose proof (pi_wait _ P _ _ Hw) as W. cbn in G, W.
      destruct w as [j o' po k'|j o' ff k'|j]; cbn in *; simplify_eq.
      * destruct po; cbn in W |- *; try (by naive_solver).
      * destruct G as [G Hkf]. simplify_eq. destruct (ib_wait _ (mreach_basic _ _ _ Hst) _ _ Hw) as (c1&Hc1&_&Hs1). cbn in *. congruence.
    + destruct (a_co a !! c) as [cc|] eqn:Ec; [|done]. cbn in Q. destruct (ac_st cc) eqn:Es; try done. injection Q as <-.
      pose proof (tg_susp _ (mreach_tgt _ _ _ Hst) c) as G. cbn in G. rewrite Ht in G. discriminate G. exists cc. split; [done|]. rewrite Es. unfold is_susp. eauto.
  - cbn in Hk, Hx. apply lookup_delete_Some in Hx as [Hne Hx]. apply Hne. by eapply den_inj.
Qed.

End fo.
