(** FactsEnd.v -- how coroutines are entered, end and are destroyed. *)
From stdpp Require Import prelude gmap.
From Coq Require Import Lia.
From Verif Require Import Base Model Spec InvSpec Main Micro Trace Hist FactsVal Next Rules RulesProof FactsLife FactsSeq FactsBack FactsObj FactsCall Slot Turn.

Section fe.
Context {env : Env} {comp : Compiler}.

Lemma zero_life p u n h : respects p u n -> past (hist p u n) h -> life 0 h = PNone.
Proof.
  intros Hr. induction h as [|e h IH]; [done|]. intros Hh. specialize (IH (past_tail _ _ _ Hh)). pose proof (hist_life _ _ _ _ _ Hr Hh) as Hl.
  destruct e as [c o|c o a|c o ex|m y|m r|m p0|m|m y|m y|m|m]; cbn; try done; try (case_decide; [subst m|done]); cbn in Hl; rewrite ?IH in *; try (by destruct Hl); try done.
  - destruct r as [[|]|]; try done; (case_decide; [subst m; by rewrite IH in Hl|done]).
  - by destruct (history_origin _ _ _ _ _ Hr Hh) as (?&_).
  - destruct Hl as [|[[]|]]; done.
Qed.

(** ** Entering *)
Lemma new_push p u n b k : respects p u n -> past (hist p u n) b -> life k b = PNew -> exists kd, cls k b = Some (Push, kd).
Proof.
  intros Hr. induction b as [|e b IH]; [done|]. intros Hb Hl. pose proof (past_tail _ _ _ Hb) as Hb'.
  pose proof (hist_life _ _ _ e b Hr Hb) as Hok.
  destruct e as [c o|c o a|c o ex|m y|m r|m p0|m|m y|m y|m|m]; cbn in Hl |- *; try (by apply IH); try case_decide; try done; try (by apply IH).
  - by destruct r as [[?|]|].
  - destruct r as [[?|]|]; by apply IH.
  - subst. destruct Hok as [Hok|Hok]; [|by rewrite Hok in Hl].
    destruct (new_turn _ _ _ _ _ _ Hr Hb) as [(kd'&_&E&_)|(kd'&E&_)]; [congruence|eauto].
Qed.

Lemma new_silent p u n b k : respects p u n -> past (hist p u n) b -> life k b = PNew -> turns Push k b = 0.
Proof.
  intros Hr Hb Hl.
  assert (forall b', past b b' -> turns Push k b' = 0) as Hg; [|apply Hg, past_refl].
  intros b'. induction b' as [|e b' IH]; [done|]. intros Hp. specialize (IH (past_tail _ _ _ Hp)).
  assert (Hrk : rank (life k (e :: b')) <= 2).
  { pose proof (life_rank _ _ _ _ _ k Hr Hb Hp) as Q. by rewrite Hl in Q. }
  assert (Hrk' : rank (life k b') <= 2).
  { pose proof (life_rank _ _ _ _ _ k Hr Hb (past_tail _ _ _ Hp)) as Q. by rewrite Hl in Q. }
  destruct e as [c o|c o a|c o ex|m y|m r|m p0|m|m y|m y|m|m]; try done.
  - cbn. destruct (life k b'); cbn in *; rewrite ?andb_false_r; try done. lia.
  - cbn in Hrk |- *. case_decide; [cbn in Hrk; lia|done].
Qed.

Lemma new_slot p u n c o b k : respects p u n -> occurs (hist p u n) (EvCall c o) b -> life k b = PNew -> slotv k b = None.
Proof.
  intros Hr Ho Hl. assert (Hb : past (hist p u n) b) by (by eapply past_tail).
  destruct (slotv k b) as [q|] eqn:Hs; [|done]. exfalso.
  destruct (new_push _ _ _ _ _ Hr Hb Hl) as (kd&Hcl). destruct (slotv_pushes _ _ _ Hs) as (p0&rest&Hp&_).
  destruct (slot_kind _ _ _ _ _ _ Hr Hb Hs) as (sd&Hcl'). assert (kd <> KVoid) as Hk by (destruct q; cbn in Hcl'; congruence).
  pose proof (all_delivered _ _ _ _ _ _ _ _ _ Hr Ho Hcl Hk) as E. rewrite Hl in E. specialize (E ltac:(done) ltac:(done)).
  rewrite (new_silent _ _ _ _ _ Hr Hb Hl), Hp in E. done.
Qed.

Lemma enter_once p u n k s b s' b' : respects p u n -> occurs (hist p u n) (EvEnter k s) b -> ~ occurs b (EvEnter k s') b'.
Proof.
  intros Hr Ho Ho'. pose proof (hist_life _ _ _ _ _ Hr Ho) as Hl. cbn in Hl.
  pose proof (life_rank p u n b (EvEnter k s' :: b') k Hr (past_tail _ _ _ Ho) Ho') as Q. cbn in Q. rewrite decide_True in Q by done.
  destruct Hl as [Hl|Hl]; rewrite Hl in Q; cbn in Q; lia.
Qed.

Lemma first_push_enters p u n c x g b k kd e : respects p u n -> occurs (hist p u n) e (EvCall c (NOp (OPush x g)) :: b) ->
  den b !! x = Some (Some (Outer k)) -> cls k b = Some (Push, kd) -> life k b = PNew ->
  match kd with
  | KVoid => exists s, e = EvEnter k s
  | _ => (exists v, e = EvSet k v /\ forall e', occurs (hist p u n) e' (e :: EvCall c (NOp (OPush x g)) :: b) -> exists s, e' = EvEnter k s) \/
         (exists v ex, argval u g b = Some v /\ arg_exn (NOp (OPush x g)) v = Some ex /\ e = EvExn c (NOp (OPush x g)) (XUser ex))
  end.
Proof.
  intros Hr Ho Hd Hcl Hl. pose proof (past_tail _ _ _ Ho : occurs (hist p u n) (EvCall c (NOp (OPush x g))) b) as Hc.
  pose proof (new_slot _ _ _ _ _ _ _ Hr Hc Hl) as Hs.
  assert (Hset : forall v e', occurs (hist p u n) e' (EvSet k v :: EvCall c (NOp (OPush x g)) :: b) -> exists s, e' = EvEnter k s).
  { intros v e' Ho'. destruct (history_follows _ _ _ _ _ Hr Ho') as (sd&kd'&Hcl'&Ht&H). cbn in Hcl'. rewrite Hcl in Hcl'. injection Hcl' as <- <-.
    cbn in H. rewrite Hl in H. destruct H as (_&[(_&H)|(?&_)]); done. }
  destruct (history_follows _ _ _ _ _ Hr Ho) as (sd&k'&kd'&Hd'&Hcl'&H). rewrite Hd in Hd'. destruct sd; cbn in Hd'; [done|]. injection Hd' as <-.
  rewrite Hcl in Hcl'. injection Hcl' as <-. destruct kd; cbn in H.
  - destruct H as [(Q&_)|(_&v&Hv&H)]; [by rewrite Hs in Q|]. destruct (arg_exn _ v) as [ex|] eqn:Ex.
    + right. exists v, ex. split; [by destruct g|done].
    + left. exists (PVal v). split; [done|]. intros e' He'. rewrite H in He'. by eapply Hset.
  - destruct H as (l&->&->). left. eauto.
  - rewrite Hl in H. destruct H as (_&[(_&H)|(?&_)]); done.
Qed.

Lemma entered_by_push p u n k s b kd : respects p u n -> occurs (hist p u n) (EvEnter k s) b -> cls k b = Some (Push, kd) ->
  exists c o g b', push_arg o = Some g /\ tgt c b = Some (Outer k) /\ pend c b = Some o /\
    (b = EvCall c o :: b' \/ exists v, b = EvSet k v :: EvCall c o :: b').
Proof.
  intros Hr Ho Hcl. pose proof (history_origin _ _ _ _ _ Hr Ho) as [(c&kd'&b'&->)|(Hh&Hl&Hs)].
  { cbn in Hcl. by rewrite decide_True in Hcl. }
  destruct b as [|e b]; [done|]. destruct e; try done.
  - cbn in Hh. destruct o as [o|]; [|done]. destruct Hh as (x&Hx&Hd&[(Hrv&sd&kd'&E&Hc)|(sd&g&Hg&Hsd&Hc)]).
    + exfalso. cbn in Hcl, Hc. rewrite Hcl in Hc. injection Hc as <- <-. done.
    + exists c, (NOp o), g, b. split; [done|]. cbn. rewrite !decide_True by done. rewrite Hx. cbn. rewrite Hd. cbn. split; [done|]. split; [done|]. by left.
  - cbn in Hh. destruct Hh as (sd&kd'&Hcl'&E&Ht). pose proof (past_tail _ _ _ Ho) as Hset.
    destruct (set_event _ _ _ _ _ _ Hr Hset) as (c&o&lv&g&sd'&kd''&b'&Hc&Hp&Hg&Ht'&Hcl''&Hb&_).
    assert (k0 = k) as ->. { destruct sd; cbn in E; congruence. }
    exists c, o, g, b'. split; [by destruct o as [[]|]; cbn in Hg |- *; simplify_eq|]. cbn. rewrite Hc at 1. split; [done|]. split; [done|]. right.
    destruct Hb as [-> | ->]; [eauto|]. exfalso. pose proof (past_tail _ _ _ Hset) as Hdel.
    destruct (history_origin _ _ _ _ _ Hr Hdel) as (Q&_). cbn in Q. apply Q. eapply new_slot; [done|by eapply past_tail|done].
Qed.

(** ** Being destroyed *)
Lemma kill_head k h : starts_kill k h -> exists e b, h = e :: b /\ match e with EvCall _ (NOp (ODestroy _)) | EvGone _ _ | EvLeave _ _ => True | _ => False end.
Proof. destruct h as [|e b]; [done|]. intros H. exists e, b. split; [done|]. destruct e; try done. destruct o as [[]|]; done. Qed.

Lemma past_strict (h : list event) e c : past (e :: h) c -> c <> e :: h -> past h c.
Proof. intros [->|?]%past_inv; done. Qed.

(** Once its destruction has started, a coroutine that was not entered is not entered any more. *)
Lemma hands_owner p u n b k : respects p u n -> past (hist p u n) b -> hands (Outer k) b ->
  exists b0 e, past b (e :: b0) /\ owner k b0 /\ (exists c o, e = EvCall c (NOp o) /\ (forall x, o <> ODestroy x) /\
    (b = e :: b0 \/ exists v, b = EvSet k v :: e :: b0 \/ b = EvSet k v :: EvDel k :: e :: b0)).
Proof.
  intros Hr Hb Hh. destruct b as [|e b]; [done|]. destruct e; try done; cbn in Hh.
  - destruct o as [o|]; [|done]. destruct Hh as (x&Hx&Hd&Hk). exists b, (EvCall c (NOp o)). split; [apply past_refl|]. split; [by exists x|].
    exists c, o. split; [done|]. split; [|by left]. intros y ->. destruct Hk as [(?&_)|(?&?&?&_)]; done.
  - destruct Hh as (sd&kd&Hcl&E&Ht). destruct (set_event _ _ _ _ _ _ Hr Hb) as (c&o&lv&g&sd'&kd''&b'&Hc&Hp&Hg&Ht'&Hcl''&Hb'&_).
    assert (k0 = k) as -> by (destruct sd; cbn in E; congruence). rewrite Hc, Ht in Ht'. rewrite <- Hc in Ht.
    destruct o as [o|]; [|done].
    assert (owner k b') as Ho.
    { assert (tgt c (EvCall c (NOp o) :: b') = Some (Outer k)) as Q by (destruct Hb' as [-> | ->]; done).
      cbn in Q. rewrite decide_True in Q by done. destruct (opobj o) as [x|]; [|done]. cbn in Q. exists x. destruct (den b' !! x) as [[]|]; cbn in Q; by simplify_eq. }
    exists b', (EvCall c (NOp o)). split.
    + destruct Hb' as [-> | ->]; [by exists [EvSet k p0]|by exists [EvSet k p0; EvDel k]].
    + split; [done|]. exists c, o. split; [done|]. split; [by intros x ->|]. right. exists p0. destruct Hb' as [-> | ->]; auto.
Qed.

Lemma killed_new p u n h b k : respects p u n -> past (hist p u n) h -> past h b -> starts_kill k b -> made k b -> life k b = PNew ->
  life k h = PNew \/ life k h = PFreed.
Proof.
  intros Hr. induction h as [|e h IH]; intros Hh Hb Hk Hm Hl.
  { destruct b; [done|]. destruct Hb as [[] ?]; done. }
  apply past_inv in Hb as [->|Hb]; [by left|]. specialize (IH (past_tail _ _ _ Hh) Hb Hk Hm Hl).
  pose proof (hist_life _ _ _ _ _ Hr Hh) as Hok.
  destruct e as [c o|c o a|c o ex|m y|m r|m p0|m|m y|m y|m|m]; cbn; try done; try (case_decide; [subst m|done]).
  - exfalso. destruct (history_origin _ _ _ _ _ Hr Hh) as [(c&kd'&b'&->)|(Hd&Hl'&Hs)].
    { cbn in IH. rewrite decide_True in IH by done. by destruct IH. }
    destruct (hands_owner _ _ _ _ _ Hr (past_tail _ _ _ Hh) Hd) as (b0&e&Hbe&Hw&c&o&->&Hnd&Hsh).
    assert (past b0 b) as Hb0.
    { destruct (kill_head _ _ Hk) as (e0&b1&->&He0).
      assert (past (EvCall c (NOp o) :: b0) (e0 :: b1)) as Q.
      { destruct Hsh as [->|(v&[->| ->])]; [done| |].
        - apply past_strict in Hb; [done|]. by intros [= -> ->].
        - apply past_strict in Hb; [|by intros [= -> ->]]. apply past_strict in Hb; [done|]. by intros [= -> ->]. }
      apply past_strict in Q; [done|]. intros [= -> ->]. destruct o; try done. by eapply Hnd. }
    eapply (disowned p u n b0 b k); [done|by eapply past_tail, past_trans; [exact (past_tail _ _ _ Hh)|]|done|done| |done].
    eapply kill_disowns; [done| |done]. eapply past_trans; [exact (past_tail _ _ _ Hh)|done].
  - destruct r as [[|]|]; try done; (case_decide; [subst m; cbn in Hok; destruct IH; congruence|done]).
  - destruct IH as [IH|IH]; rewrite IH; auto.
  - cbn in Hok. by destruct IH as [IH|IH]; rewrite IH in Hok.
  - by right.
Qed.

(** The context of a user code event is entered. *)
Lemma ctx_entered p u n e h k : respects p u n -> occurs (hist p u n) e h -> ev_ctx e = Some k -> k <> 0 ->
  exists b, past (e :: h) b /\ life k b = PRun.
Proof.
  intros Hr Ho He Hk. pose proof (hist_life _ _ _ _ _ Hr Ho) as Hl.
  destruct e; cbn in He; simplify_eq; cbn in Hl; try (exists h; split; [apply past_cons, past_refl|by auto]).
  eexists; split; [apply past_refl|]. cbn. by rewrite decide_True.
Qed.

Lemma unused_never_runs p u n c x b k e h : respects p u n -> occurs (hist p u n) (EvCall c (NOp (ODestroy x))) b ->
  den b !! x = Some (Some (Outer k)) -> life k b = PNew -> occurs (hist p u n) e h -> ev_ctx e <> Some k.
Proof.
  intros Hr Hc Hd Hl Ho He.
  assert (Hb : past (hist p u n) b) by (by eapply past_tail).
  assert (k <> 0) as Hk. { intros ->. by rewrite (zero_life _ _ _ _ Hr Hb) in Hl. }
  destruct (ctx_entered _ _ _ _ _ _ Hr Ho He Hk) as (h0&Hh0&Hrun).
  assert (Hp0 : past (hist p u n) h0) by (by eapply (past_trans _ (e :: h))).
  assert (Hm : made k b) by (apply owner_made; by exists x).
  destruct (past_or _ _ _ Hp0 Hc) as [Hq|Hq].
  - destruct (killed_new p u n h0 (EvCall c (NOp (ODestroy x)) :: b) k) as [E|E]; try done; [by apply made_cons; right|congruence|congruence].
  - pose proof (life_rank p u n _ _ k Hr Hc Hq) as Q. rewrite Hrun in Q. cbn in Q. rewrite Hl in Q. cbn in Q. lia.
Qed.


Lemma done_no_code p u n k x b e h : respects p u n -> life k b = PDone x -> occurs (hist p u n) e h -> past h b -> ev_ctx e <> Some k.
Proof.
  intros Hr Hl Ho Hb He. pose proof (life_rank p u n h b k Hr (past_tail _ _ _ Ho) Hb) as Q. rewrite Hl in Q. cbn in Q.
  assert (k <> 0) as Hk. { intros ->. rewrite (zero_life p u n b Hr) in Hl; [done|]. eapply past_trans; [exact (past_tail _ _ _ Ho)|done]. }
  pose proof (hist_life _ _ _ _ _ Hr Ho) as Hok. destruct e; cbn in He; simplify_eq; cbn in Hok.
  all: try (rewrite Hok in Q by done; cbn in Q; lia). destruct Hok as [Hok|Hok]; rewrite Hok in Q; cbn in Q; lia.
Qed.

Lemma leave_life k r b : r <> Some XUnwind -> exists x, life k (EvLeave k r :: b) = PDone x.
Proof. intros Hr. destruct r as [[|]|]; try done; cbn; rewrite decide_True by done; eauto. Qed.

Lemma done_owned p u n h b k x : respects p u n -> past (hist p u n) h -> past h b -> life k b = PDone x -> owner k h -> life k h = PDone x.
Proof.
  intros Hr Hh Hb Hl Hw. destruct (life_later p u n h b k Hr Hh Hb) as [E|E]; [congruence|]. rewrite Hl in E.
  destruct (owner_phase _ _ _ _ _ Hr Hh Hw) as [Q|[Q|(?&Q)]]; rewrite Q in E; cbn in E; lia.
Qed.
Lemma done_tests p u n h b k x v : respects p u n -> past (hist p u n) h -> past h b -> (exists y, life k b = PDone y) ->
  den h !! x = Some (Some (Outer k)) -> tests x h = Some v -> v = false.
Proof.
  intros Hr Hh Hb (y&Hl) Hd Ht. unfold tests in Ht. rewrite Hd in Ht. rewrite (done_owned p u n h b k y) in Ht; try done; [congruence|by exists x].
Qed.
Lemma done_bool p u n k r b c x v h : respects p u n -> occurs (hist p u n) (EvRet c (NOp (OBool x)) (AB v)) h ->
  occurs h (EvLeave k r) b -> r <> Some XUnwind -> den h !! x = Some (Some (Outer k)) -> v = false.
Proof.
  intros Hr Ho Hb Hx Hd. destruct (history_answers _ _ _ _ _ _ _ Hr Ho) as (_&v'&Ht&E). injection E as <-.
  eapply done_tests; [done|exact (past_tail _ _ _ Ho)|exact Hb|by apply leave_life|done|done].
Qed.
Lemma done_not p u n k r b c x v h : respects p u n -> occurs (hist p u n) (EvRet c (NOp (ONot x)) (AB v)) h ->
  occurs h (EvLeave k r) b -> r <> Some XUnwind -> den h !! x = Some (Some (Outer k)) -> v = true.
Proof.
  intros Hr Ho Hb Hx Hd. destruct (history_answers _ _ _ _ _ _ _ Hr Ho) as (_&v'&Ht&E). injection E as ->.
  rewrite (done_tests p u n h (EvLeave k r :: b) k x v'); [done|done|exact (past_tail _ _ _ Ho)|exact Hb|by apply leave_life|done|done].
Qed.

Lemma done_releases p u n c x b k y : respects p u n -> den b !! x = Some (Some (Outer k)) -> life k b = PDone y ->
  let h0 := EvCall c (NOp (ODestroy x)) :: b in
  (forall e, occurs (hist p u n) e h0 -> e = EvDel k \/ exists s, e = EvGone k s) /\
  (forall e, occurs (hist p u n) e (EvDel k :: h0) -> exists s, e = EvGone k s) /\
  (forall e s h, h = h0 \/ h = EvDel k :: h0 -> occurs (hist p u n) e (EvGone k s :: h) ->
     (exists j, den h !! s = Some (Some (Outer j))) \/ e = EvDel k \/ e = EvFree k) /\
  (forall e s h, h = h0 \/ h = EvDel k :: h0 -> occurs (hist p u n) e (EvDel k :: EvGone k s :: h) ->
     (exists j, den h !! s = Some (Some (Outer j))) \/ e = EvFree k) /\
  (forall e h, tgt c h = Some (Outer k) -> pend c h = Some (NOp (ODestroy x)) -> hd 0 (tail (cstack h)) = c ->
     occurs (hist p u n) e (EvFree k :: h) -> e = EvRet c (NOp (ODestroy x)) AUnit).
Proof.
  intros Hr Hd Hl h0.
  assert (Hdies : forall h e, life k h = PDone y -> dies k h e -> exists s, e = EvGone k s).
  { intros h e Hh [(Q&_)|(_&s&->)]; [congruence|eauto]. }
  split_and!.
  - intros e Ho. pose proof (history_follows _ _ _ _ _ Hr Ho) as H. unfold h0 in H. cbn -[destroys] in H. rewrite Hd in H.
    destruct H as [(_&_&->)|(_&H)]; [by left|right]. by eapply Hdies; [|exact H].
  - intros e Ho. pose proof (history_follows _ _ _ _ _ Hr Ho) as H. unfold h0 in H. cbn -[dies] in H. by eapply Hdies; [|exact H].
  - intros e s h Hh Ho. pose proof (history_follows _ _ _ _ _ Hr Ho) as H. cbn -[destroys frees] in H.
    destruct (den h !! s) as [[[j|j]|]|]; [by eauto| | |]; right; (destruct H as [(_&_&->)|(_&->)]; auto).
  - intros e s h Hh Ho. pose proof (history_follows _ _ _ _ _ Hr Ho) as H.
    pose proof (history_origin _ _ _ _ _ Hr (past_tail _ _ _ Ho)) as (_&H').
    destruct H' as [(?&?&?&?&?&?&_)|[(_&H')|(Hcl&_)]]; [done|by left; exists k|].
    right. cbn -[dies] in H, Hcl. by rewrite Hcl in H.
  - intros e h Ht Hp Hc Ho. destruct (history_follows _ _ _ _ _ Hr Ho) as (c'&s&Hs&H). rewrite Hs in Hc. cbn in Hc. subst c'. rewrite Hp in H. tauto.
Qed.

(** ** Constructors *)
Lemma alloc_cls p u n h k c sd kd b : respects p u n -> past (hist p u n) h -> occurs h (EvAlloc k) (EvCall c (NNew sd kd) :: b) -> cls k h = Some (sd, kd).
Proof.
  intros Hr. induction h as [|e h IH]; intros Hh Ho; [by destruct Ho as [[] ?]|].
  apply occurs_cons in Ho as [(<-&<-)|Ho]; [cbn; by rewrite decide_True|]. specialize (IH (past_tail _ _ _ Hh) Ho).
  destruct e; cbn; try done. case_decide; [subst|done]. exfalso. pose proof (hist_life _ _ _ _ _ Hr Hh) as Q. by apply cls_life in IH.
Qed.
Lemma ctor_tgt h c sd kd d : pend c h = Some (NNew sd kd) -> tgt c h = Some d -> exists k b, d = Outer k /\ occurs h (EvAlloc k) (EvCall c (NNew sd kd) :: b).
Proof.
  assert (Hc : forall (h : list event) e, (exists k b, d = Outer k /\ occurs h (EvAlloc k) (EvCall c (NNew sd kd) :: b)) -> exists k b, d = Outer k /\ occurs (e :: h) (EvAlloc k) (EvCall c (NNew sd kd) :: b)).
  { intros h0 e0 (k&b&->&l&->). exists k, b. split; [done|]. by exists (e0 :: l). }
  induction h as [|e h IH]; [done|]. intros Hp Ht.
  destruct e as [c' o|c' o a|c' o ex|m y|m r|m p0|m|m y|m y|m|m]; cbn in Hp, Ht; try case_decide; simplify_eq; try (by apply Hc; auto).
  - destruct h as [|e h]; [done|]. destruct e; try (by apply Hc; auto). destruct o; try (by apply Hc; auto). case_decide; [|by apply Hc; auto].
    simplify_eq. cbn in Hp. rewrite decide_True in Hp by done. simplify_eq. exists m, h. split; [done|]. by exists [].
Qed.
Lemma ctor_allocated p u n c sd kd r b : respects p u n -> occurs (hist p u n) (EvRet c (NNew sd kd) r) b ->
  exists k b', tgt c b = Some (Outer k) /\ occurs b (EvAlloc k) (EvCall c (NNew sd kd) :: b').
Proof.
  intros Hr Ho. destruct (history_answers _ _ _ _ _ _ _ Hr Ho) as (Hp&_).
  assert (exists d, tgt c b = Some d) as (d&Hd).
  { destruct sd.
    - destruct (ret_new_pull _ _ _ _ _ _ _ Hr Ho) as (k&x&b'&_&Ht&_). eauto.
    - destruct (ret_new_push _ _ _ _ _ _ _ Hr Ho) as (k&x&b'&_&->). cbn. rewrite decide_True by done. eauto. }
  destruct (ctor_tgt _ _ _ _ _ Hp Hd) as (k&b'&->&?). eauto.
Qed.
Lemma free_once p u n k b b' : respects p u n -> occurs (hist p u n) (EvFree k) b -> ~ occurs b (EvFree k) b'.
Proof.
  intros Hr Ho Ho'. pose proof (hist_life _ _ _ _ _ Hr Ho) as Hl. cbn in Hl.
  pose proof (life_rank p u n b (EvFree k :: b') k Hr (past_tail _ _ _ Ho) Ho') as Q. cbn in Q. rewrite decide_True in Q by done.
  destruct Hl as [Hl|[(?&Hl)|Hl]]; rewrite Hl in Q; cbn in Q; lia.
Qed.
Lemma life_alloc p u n h k : respects p u n -> past (hist p u n) h -> life k h <> PNone -> exists b, occurs h (EvAlloc k) b.
Proof.
  intros Hr. induction h as [|e h IH]; [done|]. intros Hh Hl. pose proof (past_tail _ _ _ Hh) as Hh'.
  assert (life k h <> PNone \/ e = EvAlloc k) as [H| ->].
  { pose proof (hist_life _ _ _ _ _ Hr Hh) as Hok. destruct e as [c o|c o a|c o ex|m y|m r|m p0|m|m y|m y|m|m]; cbn in Hl; try (by left); try (case_decide; [subst m|by left]).
    - left. by destruct Hok as [-> | ->].
    - destruct r as [[|]|]; try (case_decide; [subst m|by left]); cbn in Hok; left; congruence.
    - left. by destruct Hok as [-> | ->].
    - by right.
    - left. by destruct Hok as [->|[(?&->)| ->]]. }
  - destruct (IH Hh' H) as (b&l&->). exists b. by exists (e :: l).
  - exists h. by exists [].
Qed.
Lemma free_allocated p u n k b : respects p u n -> occurs (hist p u n) (EvFree k) b -> exists b', occurs b (EvAlloc k) b'.
Proof.
  intros Hr Ho. eapply life_alloc; [done|exact (past_tail _ _ _ Ho)|].
  destruct (hist_life _ _ _ _ _ Hr Ho) as [Q|[(?&Q)|Q]]; by rewrite Q.
Qed.

(** The function of a coroutine was left while the constructor is running. *)
Lemma ctor_back p u n c kd k r e h b : respects p u n -> occurs (hist p u n) e h ->
  (exists r, e = EvRet c (NNew Pull kd) r) \/ (exists x, e = EvExn c (NNew Pull kd) x) -> tgt c h = Some (Outer k) ->
  occurs h (EvLeave k r) b -> exists h', h = EvFree k :: h' /\ past h' (EvLeave k r :: b) /\
    ((exists x, e = EvRet c (NNew Pull kd) (AH x) /\ life k h' = PDone None /\ den h !! x = None) \/ (exists ex, e = EvExn c (NNew Pull kd) (XUser ex) /\ life k h' = PDone (Some ex))).
Proof.
  intros Hr Ho He Ht Hl. assert (Hh : past (hist p u n) h) by exact (past_tail _ _ _ Ho).
  assert (4 <= rank (life k (EvLeave k r :: b))) as Hk by (destruct r as [[|]|]; cbn; rewrite decide_True by done; cbn; lia).
  assert (Q : 4 <= rank (life k h)) by (pose proof (life_rank p u n h _ k Hr Hh Hl) as Q; lia).
  destruct He as [(a&->)|(x&->)].
  - destruct (ret_new_pull _ _ _ _ _ _ _ Hr Ho) as (k'&x&b'&->&Ht'&H). rewrite Ht in Ht'. injection Ht' as <-.
    destruct H as [(->&E)|(->&E&Hd)].
    + cbn in Q. rewrite decide_True in Q by done. rewrite E in Q. cbn in Q. lia.
    + exists b'. split; [done|]. split; [by apply past_strict in Hl|]. left. eauto.
  - destruct (exn_new _ _ _ _ _ _ _ _ Hr Ho) as (ex&->&[(b'&->)|[(k'&b'&->)|(_&k'&b'&Ht'&->&E)]]).
    + cbn in Ht. by rewrite decide_True in Ht.
    + cbn in Ht. rewrite decide_True in Ht by done. injection Ht as ->. cbn in Q. rewrite decide_True in Q by done. cbn in Q. lia.
    + rewrite Ht in Ht'. injection Ht' as <-. exists b'. split; [done|]. split; [by apply past_strict in Hl|]. right. eauto.
Qed.
Lemma ctor_throws p u n c kd k ex e h b : respects p u n -> occurs (hist p u n) e h ->
  (exists r, e = EvRet c (NNew Pull kd) r) \/ (exists x, e = EvExn c (NNew Pull kd) x) -> tgt c h = Some (Outer k) ->
  occurs h (EvLeave k (Some (XUser ex))) b ->
  e = EvExn c (NNew Pull kd) (XUser ex) /\ exists h', h = EvFree k :: h'.
Proof.
  intros Hr Ho He Ht Hl. destruct (ctor_back _ _ _ _ _ _ _ _ _ _ Hr Ho He Ht Hl) as (h'&->&Hp&H). split; [|eauto].
  destruct (life_later p u n h' _ k Hr (past_tail _ _ _ (past_tail _ _ _ Ho)) Hp) as [E|E]; cbn in E; rewrite decide_True in E by done.
  - destruct H as [(?&_&Q&_)|(ex'&->&Q)]; congruence.
  - destruct H as [(?&_&Q&_)|(ex'&->&Q)]; rewrite Q in E; cbn in E; lia.
Qed.
Lemma ctor_empty p u n c kd k e h b : respects p u n -> occurs (hist p u n) e h ->
  (exists r, e = EvRet c (NNew Pull kd) r) \/ (exists x, e = EvExn c (NNew Pull kd) x) -> tgt c h = Some (Outer k) ->
  occurs h (EvLeave k None) b ->
  exists x h', e = EvRet c (NNew Pull kd) (AH x) /\ h = EvFree k :: h' /\ den h !! x = None /\ den (e :: h) !! x = Some None /\ tests x (e :: h) = Some false.
Proof.
  intros Hr Ho He Ht Hl. destruct (ctor_back _ _ _ _ _ _ _ _ _ _ Hr Ho He Ht Hl) as (h'&->&Hp&H).
  destruct (life_later p u n h' _ k Hr (past_tail _ _ _ (past_tail _ _ _ Ho)) Hp) as [E|E]; cbn in E; rewrite decide_True in E by done.
  - destruct H as [(x&->&Q&Hd)|(ex'&->&Q)]; [|congruence]. exists x, h'. split; [done|]. split; [done|]. split; [done|].
    assert (den (EvRet c (NNew Pull kd) (AH x) :: EvFree k :: h') !! x = Some None) as Hn.
    { change (match den (EvFree k :: h') !! x with Some _ => den (EvFree k :: h') | None => <[x:=None]> (den (EvFree k :: h')) end !! x = Some None). rewrite Hd. by rewrite lookup_insert. }
    split; [done|]. unfold tests. by rewrite Hn.
  - destruct H as [(?&_&Q&_)|(ex'&->&Q)]; rewrite Q in E; cbn in E; lia.
Qed.
Lemma ctor_no_object p u n c sd kd k r b s h : respects p u n -> past (hist p u n) h -> past h (EvLeave k r :: b) ->
  r <> Some XUnwind -> cstack b = k :: c :: s -> pend c b = Some (NNew sd kd) -> tgt c b = Some (Outer k) -> ~ owner k h.
Proof.
  intros Hr Hh Hb Hx Hs Hp Ht. assert (Hb' : past (hist p u n) (EvLeave k r :: b)) by (by eapply past_trans).
  assert (Hk : starts_kill k (EvLeave k r :: b)) by (cbn; eauto 10). destruct (leave_life k r b Hx) as (y&Hl).
  pose proof (kill_disowns _ _ _ _ _ Hr Hb' Hk) as Hn. remember (EvLeave k r :: b) as b0. clear Heqb0 Hk Hs Hp Ht. revert Hh Hb.
  induction h as [|e h IH]; intros Hh Hb Hw; [by destruct Hw as [? Hw]|].
  apply past_inv in Hb as [->|Hb]; [done|]. specialize (IH (past_tail _ _ _ Hh) Hb). destruct Hw as (x&Hw).
  destruct (den_origin _ _ _ _ Hw) as [(y'&?)|[(k'&y'&->&[= ->])|(?&?&_&?)]]; [apply IH; by exists y'| |done].
  pose proof (hist_life _ _ _ _ _ Hr Hh) as Q. pose proof (life_rank p u n h b0 k' Hr (past_tail _ _ _ Hh) Hb) as Q'. rewrite Hl in Q'.
  destruct Q as [Q|Q]; rewrite Q in Q'; cbn in Q'; lia.
Qed.
Lemma copy_leaks p u n c sd kd x b k h : respects p u n -> past (hist p u n) h ->
  past h (EvExn c (NNew sd kd) x :: EvAlloc k :: EvCall c (NNew sd kd) :: b) -> life k h = PAlloc.
Proof.
  intros Hr. induction h as [|e h IH]; intros Hh Hb; [by destruct Hb as [[] ?]|].
  apply past_inv in Hb as [[= <- <-]|Hb]; [cbn; by rewrite decide_True|]. specialize (IH (past_tail _ _ _ Hh) Hb).
  assert (Hal : past h (EvAlloc k :: EvCall c (NNew sd kd) :: b)) by (by eapply past_tail).
  assert (Hno : forall h', h <> EvAlloc k :: h').
  { intros h' ->. apply past_strict in Hb; [|done]. pose proof (hist_life _ _ _ _ _ Hr (past_tail _ _ _ Hh)) as Q. cbn in Q.
    pose proof (life_rank p u n h' _ k Hr (past_tail _ _ _ (past_tail _ _ _ Hh)) Hb) as Q'. rewrite Q in Q'. cbn in Q'. rewrite decide_True in Q' by done. cbn in Q'. lia. }
  pose proof (hist_life _ _ _ _ _ Hr Hh) as Hok. pose proof (history_origin _ _ _ _ _ Hr Hh) as Hor.
  destruct e as [c' o|c' o a|c' o ex|m y|m r|m p0|m|m y|m y|m|m]; cbn in Hok; try done; cbn; try (case_decide; [subst m|done]); try done.
  - destruct Hor as [(?&?&h'&E)|(_&E&_)]; [by apply Hno in E|congruence].
  - destruct r as [[|]|]; (case_decide; [subst m; congruence|done]).
  - exfalso. destruct Hor as [(?&?&h'&E)|(_&c'&kd'&s&_&Hp&Ht)]; [by apply Hno in E|].
    destruct (ctor_tgt _ _ _ _ _ Hp Ht) as (k'&b'&[= <-]&Hal').
    assert (sd = Pull) as ->.
    { pose proof (alloc_cls p u n h _ _ _ _ _ Hr (past_tail _ _ _ Hh) Hal) as E1. rewrite (alloc_cls p u n h _ _ _ _ _ Hr (past_tail _ _ _ Hh) Hal') in E1. congruence. }
    pose proof (alloc_cls p u n h _ _ _ _ _ Hr (past_tail _ _ _ Hh) Hal) as E1.
    destruct (new_turn _ _ _ _ _ _ Hr Hh) as [(?&_&E&_)|(?&E&_)]; congruence.
  - rewrite IH in Hok. by destruct Hok as [?|[(?&?)|?]].
Qed.

(** ** Exceptions of coroutine-functions *)
Lemma past_next (h b : list event) : past h b -> h <> b -> exists e, past h (e :: b).
Proof.
  intros [l ->] Hn. destruct l as [|e l _] using rev_ind; [done|]. exists e, l. by rewrite <- app_assoc.
Qed.
Lemma leave_not_made p u n c sd kd k r b s : respects p u n -> occurs (hist p u n) (EvLeave k r) b -> r <> Some XUnwind ->
  cstack b = k :: c :: s -> pend c b = Some (NNew sd kd) -> tgt c b = Some (Outer k) -> ~ made k b.
Proof.
  intros Hr Ho Hx Hs Hp Ht Hm. assert (Hb : past (hist p u n) b) by exact (past_tail _ _ _ Ho).
  pose proof (hist_life _ _ _ _ _ Hr Ho) as Hrun. cbn in Hrun.
  assert (Hk : starts_kill k (EvLeave k r :: b)) by (cbn; eauto 10).
  destruct (owner_kept _ _ _ _ _ Hr Hb Hm) as [Hw|(b0&Hb0&Hk0)].
  { eapply kill_disowns; [done|exact Ho|done|]. destruct Hw as (x&Hw). by exists x. }
  assert (Hctl : controls k b) by (by destruct (history_origin _ _ _ _ _ Hr Ho) as (_&?)).
  assert (Hnb : forall e b', b = e :: b' -> match e with EvRet _ _ _ | EvExn _ _ _ | EvEnter _ _ => True | _ => False end).
  { intros e b' ->. by destruct e. }
  assert (Hp0 : past (hist p u n) b0) by (by eapply past_trans).
  pose proof (life_rank p u n b b0 k Hr Hb Hb0) as Q. rewrite Hrun in Q. cbn in Q.
  destruct (kill_head _ _ Hk0) as (e&b1&->&He).
  assert (b <> e :: b1) as Hne by (intros ->; specialize (Hnb _ _ eq_refl); by destruct e).
  assert (Hw : owner k b1).
  { destruct e; try done.
    - destruct o as [[]|]; try done. by exists h.
    - destruct Hk0 as (->&Hr0&_). destruct (leave_life k r0 b1 Hr0) as (y&Hy). rewrite Hy in Q. cbn in Q. lia.
    - by exists h. }
  assert (life k (e :: b1) = life k b1) as El.
  { destruct e; try done. destruct Hk0 as (->&Hr0&_). destruct (leave_life k r0 b1 Hr0) as (y&Hy). rewrite Hy in Q. cbn in Q. lia. }
  destruct (owner_phase _ _ _ _ _ Hr (past_tail _ _ _ Hp0) Hw) as [E|[E|(y&E)]].
  - destruct (killed_new p u n b (e :: b1) k) as [E'|E']; try done; [apply made_cons; right; by apply owner_made|congruence|congruence|congruence].
  - destruct (past_next _ _ Hb0 Hne) as (e1&He1).
    assert (Hdes : destroys k (e :: b1) e1).
    { pose proof (history_follows _ _ _ _ _ Hr (past_trans _ _ _ Hb He1)) as H. destruct e; try done.
      - destruct o as [[]|]; try done. cbn in Hk0. cbn -[destroys] in H. by rewrite Hk0 in H.
      - destruct Hk0 as (->&Hr0&_). destruct (leave_life k r0 b1 Hr0) as (z&Hz). rewrite Hz in Q. cbn in Q. lia.
      - cbn in Hk0. cbn -[destroys frees] in H. by rewrite Hk0 in H. }
    assert (Hd : exists h', past b h' /\ unw k h').
    { assert (Hdies : forall h' e', past b (e' :: h') -> life k h' = PRun -> dies k h' e' -> exists h', past b h' /\ unw k h').
      { intros h' e' Hh' Hl' [(_&_&o&_&_&->)|([?|(?&?)]&_)]; [|congruence|congruence]. eexists. split; [exact Hh'|]. apply unw_cons. eauto. }
      destruct Hdes as [(Hcl&_&->)|(_&Hd)]; [|eapply Hdies; [done|congruence|done]].
      destruct (past_next _ _ He1) as (e2&He2); [intros ->; by specialize (Hnb _ _ eq_refl)|].
      eapply Hdies; [exact He2|cbn; cbn in El; congruence|].
      pose proof (history_follows _ _ _ _ _ Hr (past_trans _ _ _ Hb He2)) as H. destruct e; try done.
      + destruct o as [[]|]; try done.
      + cbn -[dies] in H, Hcl. by rewrite Hcl in H.
      + cbn -[dies] in H, Hcl. by rewrite Hcl in H. }
    destruct Hd as (h'&Hh'&Hu). apply Hx, (leave_unw _ _ _ _ _ _ Hr Ho). by eapply unw_past.
  - rewrite El, E in Q. cbn in Q. lia.
Qed.
Lemma rethrown_pull p u n k ex b e kd : respects p u n -> occurs (hist p u n) e (EvLeave k (Some (XUser ex)) :: b) ->
  cls k b = Some (Pull, kd) -> made k b ->
  exists c o s, recv o = true /\ cstack b = k :: c :: s /\ pend c b = Some o /\ tgt c b = Some (Outer k) /\ e = EvExn c o (XUser ex).
Proof.
  intros Hr Ho Hcl Hm. destruct (history_follows _ _ _ _ _ Hr Ho) as (c&o&s&Hs&Hp&Ht&H).
  destruct (leave_resumer _ _ _ _ _ _ _ _ Hr (past_tail _ _ _ Ho) ltac:(done) Hcl) as (c'&o'&s'&Hs'&Hp'&_&E).
  rewrite Hs in Hs'. injection Hs' as <- <-. rewrite Hp in Hp'. injection Hp' as <-. destruct o as [o|sd kd'].
  - exists c, (NOp o), s. rewrite orb_false_r in E. done.
  - exfalso. eapply leave_not_made; [done|exact (past_tail _ _ _ Ho)|done|done|done|done|done].
Qed.
Lemma rethrown_push p u n k ex b e kd : respects p u n -> occurs (hist p u n) e (EvLeave k (Some (XUser ex)) :: b) ->
  cls k b = Some (Push, kd) ->
  exists c o g s, push_arg o = Some g /\ cstack b = k :: c :: s /\ pend c b = Some o /\ tgt c b = Some (Outer k) /\ e = EvExn c o (XUser ex).
Proof.
  intros Hr Ho Hcl. destruct (history_follows _ _ _ _ _ Hr Ho) as (c&o&s&Hs&Hp&Ht&H).
  destruct (leave_resumer _ _ _ _ _ _ _ _ Hr (past_tail _ _ _ Ho) ltac:(done) Hcl) as (c'&o'&s'&Hs'&Hp'&_&E).
  rewrite Hs in Hs'. injection Hs' as <- <-. rewrite Hp in Hp'. injection Hp' as <-. destruct o as [o|sd kd']; [|done].
  subst e. rewrite orb_false_r in E. destruct (exn_op _ _ _ _ _ _ _ Hr Ho) as (x&[->|[->|[(g&->)|(g&->)]]]); try done; [by exists c, (NOp (OPush x g)), g, s|by exists c, (NOp (OOutAssign (Some x) g)), g, s].
Qed.

End fe.
