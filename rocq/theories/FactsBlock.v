(** FactsBlock.v -- who owns the coroutines of programs in the structured language, and what is
    left when main returns. *)
From stdpp Require Import prelude gmap.
From Coq Require Import Lia.
From Verif Require Import Base Model Spec InvSpec Main Micro Trace Life Pend Den Tgt Own Stack Hist Events Phase Contract Rules RulesProof FactsVal Next
  FactsLife FactsSeq FactsBack FactsObj FactsCall FactsEnd Replay FactsReplay Uses Cpp Blocks FactsCpp FactsFin.

Section block.
Context {env : Env} {comp : Compiler}.
Implicit Types h b : list event.

Lemma alloc_later p u n c sd kd k b : respects p u n -> occurs (hist p u n) (EvAlloc k) (EvCall c (NNew sd kd) :: b) -> c < k.
Proof.
  intros Hr Ho. destruct (hist_at _ _ _ _ _ Hr Ho) as (x&y&Hx&Hm&Hb&He). destruct He as (->&_).
  destruct (decide (c = 0)) as [-> |Hc].
  - destruct (history_origin _ _ _ _ _ Hr Ho) as (?&_). lia.
  - destruct (decide (a_nk x.1 <= c)) as [Hle|]; [|lia]. exfalso. pose proof (li_none _ (mreach_life _ _ _ Hx) c (or_intror Hle)) as Hl. rewrite Hb in Hl. cbn in Hl.
    pose proof (hist_life _ _ _ _ _ Hr (past_tail _ _ _ Ho)) as Q. cbn in Q. rewrite (Q Hc) in Hl. done.
Qed.

Section program.
Context (f : stm) (u : gmap nat T) (n : nat) (Hr : respects (cxx f) u n).
Notation H := (hist (cxx f) u n).

Lemma lifo_here c d b : occurs H (EvCall c (NOp d)) b -> is_dtor d = true -> head (live c b) = Some d.
Proof.
  intros Ho Hd. destruct (act_code _ _ _ c _ _ Hr Ho) as (s0&s&Hc&_); [eauto|]. destruct (code_cxx _ _ _ _ Hc) as [g ->]. by eapply lifo.
Qed.
Lemma live_quiet c e h : (forall o a, e <> EvRet c o a) -> (forall o x, e <> EvExn c o x) -> live c (e :: h) = live c h.
Proof. intros H1 H2. unfold live. destruct e as [| c' o a|c' o x| | | | | | | |]; try done; cbn; (case_decide; [subst|done]); [by destruct (H1 o a)|by destruct (H2 o x)]. Qed.

(** The destructor that is running is that of the innermost object. *)
Lemma running c d h : past H h -> pend c h = Some (NOp d) -> is_dtor d = true -> head (live c h) = Some d.
Proof.
  induction h as [|e h IH]; intros Hp Hd Hi; [done|]. pose proof (past_tail _ _ _ Hp) as Hp'.
  destruct e as [c' o|c' o a|c' o ex|m y|m r|m q|m|m y|m y|m|m]; cbn in Hd; try (rewrite live_quiet by done; by apply IH).
  - rewrite live_quiet by done. case_decide; [|by apply IH]. simplify_eq. by apply lifo_here.
  - case_decide; [done|]. rewrite live_quiet by (intros; congruence). by apply IH.
  - case_decide; [done|]. rewrite live_quiet by (intros; congruence). by apply IH.
  - case_decide; [done|]. rewrite live_quiet by done. by apply IH.
Qed.

Lemma held_step c x e h : past H (e :: h) -> held c x h -> e <> EvCall c (NOp (ODestroy x)) -> held c x (e :: h).
Proof.
  intros Hp [Hin Hpd] He. pose proof (past_tail _ _ _ Hp) as Hp'. split.
  - destruct e as [c' o|c' o a|c' o ex|m y|m r|m q|m|m y|m y|m|m]; try (by rewrite live_quiet).
    + destruct (decide (c' = c)) as [-> |]; [|rewrite live_quiet; [done|intros; congruence..]].
      destruct (history_answers _ _ _ _ _ _ _ Hr Hp) as (Hc&_). unfold live. cbn [completed]. rewrite decide_True by done.
      destruct (makes o (ROk a)) as [d|] eqn:Em; [rewrite (alive_made _ _ _ _ Em); by right|].
      destruct o as [o|sd kd]; [|rewrite alive_skip; done]. destruct (is_dtor o) eqn:Ed; [|rewrite alive_skip; [done|done|by intros ? [= <-]]].
      rewrite alive_dtor by done. pose proof (running _ _ _ Hp' Hc Ed) as Hh. unfold live in Hin, Hh. destruct (alive (completed c h)) as [|d L]; [done|].
      cbn in Hh. injection Hh as ->. apply elem_of_cons in Hin as [<-|Hin]; [done|exact Hin].
    + destruct (decide (c' = c)) as [-> |]; [|rewrite live_quiet; [done|intros; congruence..]].
      unfold live. cbn [completed]. rewrite decide_True by done. rewrite alive_skip; [done|apply exn_makes|].
      intros o' ->. destruct (is_dtor o') eqn:Ed; [|done]. destruct (tidy_no_exn (cxx f) u n c o' ex h Hr); [by rewrite Ed|done].
  - destruct e as [c' o|c' o a|c' o ex|m y|m r|m q|m|m y|m y|m|m]; cbn; try done; case_decide; subst; try done. intros [= ->]. done.
Qed.

(** Every owner is an automatic object of an older context; or its constructor is just returning. *)
Lemma owner_held x k h : past H h -> moved_out h -> den h !! x = Some (Some (Outer k)) ->
  (exists c, c < k /\ held c x h) \/ exists h', h = EvNew k x :: h'.
Proof.
  induction h as [|e h IH]; intros Hp Hm Hd; [done|]. pose proof (past_tail _ _ _ Hp) as Hp'.
  assert (Hm' : moved_out h) by (intros c o r b Ho; apply (Hm c o r b); by apply occurs_cons).
  assert (Hnew : (exists h', h = EvNew k x :: h') -> exists c, c < k /\ held c x (e :: h)).
  { intros [h' ->]. destruct (history_follows _ _ _ _ _ Hr Hp) as (c&sd&kd&Hpc&Ht&->). destruct (ctor_tgt _ _ _ _ _ Hpc Ht) as (k'&b&[= <-]&Ho).
    exists c. split; [exact (alloc_later _ _ _ _ _ _ _ _ Hr (past_occurs _ _ _ _ Hp' Ho))|]. split; [|cbn; by rewrite decide_True].
    unfold live. cbn [completed]. rewrite decide_True by done. rewrite (alive_made _ _ (ODestroy x)) by done. left. }
  assert (Hkeep : den h !! x = Some (Some (Outer k)) -> (forall c, e <> EvCall c (NOp (ODestroy x))) -> (exists c, c < k /\ held c x (e :: h)) \/ exists h', e :: h = EvNew k x :: h').
  { intros Hx Hne. left. destruct (IH Hp' Hm' Hx) as [(c&Hc&Hh)|Hn]; [|by apply Hnew]. exists c. split; [done|]. by apply held_step. }
  destruct e as [c o|c o r|c o ex|m y|m r|m q|m|m y|m y|m|m]; cbn in Hd; try (apply Hkeep; done).
  - destruct o as [o|sd kd]; [|by apply Hkeep]. destruct o; try (by apply Hkeep). apply lookup_delete_Some in Hd as [Hne Hd]. apply Hkeep; [done|]. by intros c' [= _ ->].
  - destruct o as [o|sd kd].
    + pose proof (fun k => Hm c o r h (ex_intro _ [] eq_refl) k) as Hk. destruct o as [z|z w| | | | | | | | | | | | | | | | | | | ]; try (by apply Hkeep).
      * destruct r as [|v|y|i|v|l]; try (by apply Hkeep). destruct (den h !! z) as [q|] eqn:E; [|by apply Hkeep].
        apply lookup_insert_Some in Hd as [[_ ?]|[Hne Hd]]; [done|]. apply lookup_insert_Some in Hd as [[<- ->]|[Hne' Hd]]; [|by apply Hkeep].
        left. exists c. split; [by apply (Hk k)|]. split; [|cbn; by rewrite decide_True].
        unfold live. cbn [completed]. rewrite decide_True by done. rewrite (alive_made _ _ (ODestroy y)) by done. left.
      * destruct (den h !! z) as [q|] eqn:E; [|by apply Hkeep]. destruct (den h !! w) as [q'|] eqn:E'; [|by apply Hkeep].
        apply lookup_insert_Some in Hd as [[<- ->]|[Hne Hd]].
        { left. destruct (proj2 (Hk k) eq_refl) as (c'&Hc&Hh). exists c'. split; [done|]. by apply held_step. }
        apply lookup_insert_Some in Hd as [[<- ->]|[Hne' Hd]]; [|by apply Hkeep].
        left. destruct (proj1 (Hk k) eq_refl) as (c'&Hc&Hh). exists c'. split; [done|]. by apply held_step.
    + destruct r as [|v|y|i|v|l]; try (by apply Hkeep). destruct (den h !! y) eqn:E; [by apply Hkeep|]. apply lookup_insert_Some in Hd as [[_ ?]|[Hne Hd]]; [done|]. by apply Hkeep.
  - apply lookup_insert_Some in Hd as [[_ ?]|[Hne Hd]]; [done|]. by apply Hkeep.
  - apply lookup_insert_Some in Hd as [[<- [= ->]]|[Hne Hd]]; [right; by eexists|]. by apply Hkeep.
  - apply lookup_delete_Some in Hd as [Hne Hd]. by apply Hkeep.
Qed.

(** A function that is not running has no automatic objects. *)
Lemma not_running c h : past H h -> c <> 0 -> life c h <> PRun -> live c h = [].
Proof.
  induction h as [|e h IH]; intros Hp Hc Hl; [done|]. pose proof (past_tail _ _ _ Hp) as Hp'. pose proof (hist_life _ _ _ _ _ Hr Hp) as Q.
  assert (Hsame : (forall o a, e <> EvRet c o a) -> (forall o x, e <> EvExn c o x) -> life c h <> PRun -> live c (e :: h) = []).
  { intros H1 H2 H3. rewrite live_quiet by done. by apply IH. }
  destruct e as [c' o|c' o r|c' o ex|m y|m r|m q|m|m y|m y|m|m]; cbn in Hl, Q; try (by apply Hsame).
  - destruct (decide (c' = c)) as [-> |]; [by rewrite (Q Hc) in Hl|]. apply Hsame; [intros; congruence..|done].
  - destruct (decide (c' = c)) as [-> |]; [by rewrite (Q Hc) in Hl|]. apply Hsame; [intros; congruence..|done].
  - case_decide; [done|]. by apply Hsame.
  - destruct (decide (m = c)) as [-> |Hne].
    + rewrite live_quiet by done. destruct (act_code _ _ _ c _ _ Hr Hp) as (s0&s&Hco&_); [eauto|]. destruct (code_cxx _ _ _ _ Hco) as [g ->]. by eapply all_gone.
    + apply Hsame; [done..|]. destruct r as [[]|]; cbn in Hl; try case_decide; done.
  - case_decide; [|by apply Hsame]. subst. apply Hsame; [done..|]. intros E. by rewrite E in Hl.
  - case_decide; [|by apply Hsame]. subst. apply Hsame; [done..|]. congruence.
  - case_decide; [|by apply Hsame]. subst. apply Hsame; [done..|]. intros E. rewrite E in Q. by destruct Q as [|[[]|]].
Qed.

(** When main returns nothing is owned any more. *)
Lemma block_unowned m : crun n (cinit (cxx f) u) = CHalt Finished m -> moved_out (m_tr m) -> unowned (m_tr m).
Proof.
  intros Hc Hm. destruct (end_state _ _ _ _ Hr Hc) as (a&Hx&H0&Hf&E&Eh).
  assert (Hp : past H (m_tr m)) by (rewrite Eh; by exists []).
  assert (Hmain : live 0 (m_tr m) = []).
  { pose proof (rp_foc _ _ (mreach_rep _ _ _ Hx)) as Q. cbn in Q. rewrite Hf, H0, E in Q. destruct Q as (s0&Hs0&Hrun).
    destruct (code_cxx _ _ _ _ Hs0) as [g ->]. destruct (point_run _ _ _ Hrun) as (c&fs&Es&_&Ho). unfold live. rewrite <- Ho.
    by rewrite (exec_end c fs None 0). }
  assert (Hlast : forall k x h', m_tr m <> EvNew k x :: h').
  { intros k x h' Et. assert (Ho : occurs H (EvNew k x) h') by (rewrite <- Eh, Et; by exists []).
    assert (exists c sd kd, pend c (m_tr m) = Some (NNew sd kd) /\ tgt c (m_tr m) = Some (Outer k)) as (c&sd&kd&Hpc&Ht).
    { rewrite Et. destruct (history_origin _ _ _ _ _ Hr Ho) as [(c&kd&b&->)|(_&c&kd&s&_&Hpc&Ht)]; [|exists c, Pull, kd; split; [exact Hpc|exact Ht]].
      exists c, Push, kd. cbn. by rewrite !decide_True. }
    pose proof (pi_pend _ (mreach_pend _ _ _ Hx) c) as Q. rewrite <- E in Hpc, Ht. cbn in Q. rewrite Hpc in Q. unfold xop in Q. cbn in Q. case_decide as Hd; [done|].
    rewrite (main_nowait _ _ _ Hx H0), lookup_empty in Q. destruct (a_co a !! c) as [x'|] eqn:Hk; [|done]. cbn in Q.
    assert (tgt c (a_tr a) = Some (Inner c)) as Ht'; [|congruence].
    apply (tg_susp _ (mreach_tgt _ _ _ Hx)). exists x'. split; [done|]. revert Q. destruct (ac_st x'); intros Q; try done. by eexists _, _, _. }
  assert (Hno : forall k x, den (m_tr m) !! x <> Some (Some (Outer k))).
  { intros k. induction k as [k IH] using lt_wf_ind. intros x Hd. destruct (owner_held _ _ _ Hp Hm Hd) as [(c&Hlt&Hin&_)|[h' Et]]; [|by destruct (Hlast k x h')].
    destruct (decide (c = 0)) as [-> |Hc0]; [rewrite Hmain in Hin; by apply elem_of_nil in Hin|].
    assert (Hl : life c (m_tr m) = PRun).
    { destruct (life c (m_tr m)) eqn:El; try done; exfalso; rewrite (not_running c _ Hp Hc0) in Hin by congruence; by apply elem_of_nil in Hin. }
    destruct (left_has_owner _ _ _ _ c Hr Hc) as [y Hy]; [congruence..|]. by apply (IH c Hlt y). }
  intros x k. apply Hno.
Qed.
End program.

(** Programs that use certain operations only. *)
Lemma run_only (P : op -> Prop) s0 l s : run_on s0 l s -> only P s0 -> only P s.
Proof.
  induction 1 as [|l s _ IH|l o k r _ IH|l sd kd np fn k r _ IH]; intros H0; [done|..]; specialize (IH H0); by inversion IH.
Qed.
Lemma code_only (P : op -> Prop) p c h s : code_of p c h s -> only P p -> only P s.
Proof.
  induction 1 as [|h k x b c h0 sd kd np fn kk s0 _ _ _ IH Hrun]; intros Hp; [done|]. pose proof (run_only P _ _ _ Hrun (IH Hp)) as Q. by inversion Q.
Qed.
Lemma pend_call c o h : pend c h = Some o -> exists b, occurs h (EvCall c o) b.
Proof.
  induction h as [|e h IH]; [done|]. intros Hp. assert (Hc : pend c h = Some o -> exists b, occurs (e :: h) (EvCall c o) b) by (intros [b Hb]%IH; exists b; by apply occurs_cons).
  destruct e; cbn in Hp; try (by apply Hc); case_decide; try done; try (by apply Hc). simplify_eq. exists h. by exists [].
Qed.
Lemma only_calls (P : op -> Prop) p u n c o b : respects p u n -> only P p -> occurs (hist p u n) (EvCall c (NOp o)) b -> P o.
Proof.
  intros Hr Hp Ho. destruct (act_code _ _ _ c _ _ Hr Ho) as (s0&s&H1&H2&k&->); [eauto|].
  pose proof (run_only P _ _ _ H2 (code_only P _ _ _ _ H1 Hp)) as Q. by inversion Q.
Qed.
Lemma only_moved_out p u n h : respects p u n -> only moves_no p -> past (hist p u n) h -> moved_out h.
Proof.
  intros Hr Hp Hh c o r b Ho k. pose proof (past_occurs _ _ _ _ Hh Ho) as Ho'. destruct (history_answers _ _ _ _ _ _ _ Hr Ho') as (Hc&_).
  destruct (pend_call _ _ _ Hc) as [b' Hb]. assert (moves_no o) as Hno; [|by destruct o].
  eapply (only_calls moves_no p u n c o b' Hr Hp). eapply past_occurs; [|exact Hb]. by eapply past_tail.
Qed.
End block.
