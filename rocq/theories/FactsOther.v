(** FactsOther.v -- operations touch the coroutine they are applied to, and no other. *)
From stdpp Require Import prelude gmap relations.
From Coq Require Import Lia.
From Verif Require Import Base Model Spec InvSpec Main Micro Trace Life Pend Den Tgt Stack Hist Next Rules RulesProof FactsLife FactsSeq FactsBack FactsObj FactsCall FactsEnd Ctl FactsCtl.

Section other.
Context {env : Env} {comp : Compiler}.
Implicit Types h b l : list event.

(** Events inside the library: no user code takes part in them. *)
Definition internal (e : event) : bool := match ev_ctx e with None => true | _ => false end.
(** The coroutine an internal event is about. *)
Definition concerns (e : event) : option nat :=
  match e with
  | EvSet k _ | EvDel k | EvNew k _ | EvGone k _ | EvAlloc k | EvFree k => Some k
  | _ => None
  end.

(** [drawn k h j]: [j] is [k], or is owned by the counterpart object of a coroutine that
    is destroyed with [k] (a counterpart object becomes an owner by moves). *)
Inductive drawn (k : nat) h : nat -> Prop :=
| dr_self : drawn k h k
| dr_owned i s j b : drawn k h i -> occurs h (EvGone i s) b -> den b !! s = Some (Some (Outer j)) -> drawn k h j.

Lemma drawn_cons k e h j : drawn k h j -> drawn k (e :: h) j.
Proof. induction 1 as [|i s j b _ IH Ho Hd]; [constructor|]. eapply dr_owned; [exact IH| |exact Hd]. destruct Ho as [l ->]. by exists (e :: l). Qed.

(** What a call or the end of a function may touch. *)
Definition touches (e0 : event) b h (j : nat) : Prop :=
  match e0 with
  | EvCall c o => exists d, tgt c h = Some d /\ drawn (ep_co d) h j
  | EvLeave k r => drawn k h j \/ (j ∈ tail (cstack b) /\ pend j b = None)
  | _ => False
  end.

Lemma internal_pend c l b : forallb internal l = true -> pend c (l ++ b) = pend c b.
Proof. induction l as [|e l IH]; [done|]. cbn. intros [He Hl]%andb_true_iff. rewrite <- IH by done. by destruct e. Qed.

Lemma split_internal l c o b c' o' b' : forallb internal l = true -> l ++ EvCall c o :: b = EvCall c' o' :: b' -> l = [] /\ c' = c /\ o' = o /\ b' = b.
Proof. destruct l as [|e l]; cbn; [by intros _ [= -> -> ->]|]. intros [He _]%andb_true_iff [= -> _]. done. Qed.
Lemma split_internal2 l c o b e c' o' b' : forallb internal l = true -> internal e = true -> l ++ EvCall c o :: b = e :: EvCall c' o' :: b' -> l = [e] /\ c' = c /\ o' = o /\ b' = b.
Proof.
  destruct l as [|e' l]; cbn; [by intros _ He [= <- _]|]. intros [He Hl]%andb_true_iff He' [= -> E].
  destruct (split_internal _ _ _ _ _ _ _ Hl E) as (->&->&->&->). done.
Qed.

Lemma free_pend p u n k b : respects p u n -> occurs (hist p u n) (EvFree k) b -> pend k b = None.
Proof.
  intros Hr Ho. destruct (hist_at _ _ _ _ _ Hr Ho) as ([a f]&y&Hx&Hm&Hb&Hy). cbn [fst snd] in *. subst b.
  destruct Hy as (->&Hf&_). cbn [fst snd] in *. subst f.
  pose proof (pi_pend _ (mreach_pend _ _ _ Hx) (a_cur a)) as Q. cbn [fst snd] in Q. rewrite Q. unfold xop. by rewrite decide_True.
Qed.

Lemma segment_call p u n c o b l : respects p u n -> past (hist p u n) (l ++ EvCall c o :: b) -> forallb internal l = true ->
  let h := l ++ EvCall c o :: b in
  match l with [] => True | e :: _ => forall j, concerns e = Some j -> touches (EvCall c o) b h j end /\
  exists t, cstack h = t ++ cstack b /\ forall i, i ∈ t -> touches (EvCall c o) b h i.
Proof.
  intros Hr. induction l as [|e l IH]; intros Hp Hi; cbn [app] in *.
  { split; [done|]. exists []. split; [done|]. intros i. by intros ?%elem_of_nil. }
  cbn in Hi. apply andb_true_iff in Hi as [He Hi]. set (h := l ++ EvCall c o :: b) in *.
  assert (Ho : occurs (hist p u n) e h) by done.
  assert (Hp' : past (hist p u n) h) by (by eapply past_tail).
  destruct (IH Hp' Hi) as (Hhd&t&Ht&Htt). clear IH.
  pose proof (history_origin _ _ _ _ _ Hr Ho) as Hor.
  destruct (call_stack p u n c o b Hr) as [sb Hsb]. { destruct Hp' as [l0 ->]. subst h. exists (l0 ++ l). by rewrite <- app_assoc. }
  assert (Hpc : pend c h = Some o). { subst h. rewrite internal_pend by done. cbn. by rewrite decide_True. }
  assert (Htg : (forall k, e <> EvAlloc k) -> tgt c (e :: h) = tgt c h) by (intros Hk; destruct e as [| | | | | | | | |k|]; cbn in He; try done; by destruct (Hk k)).
  assert (Hmono : (forall k, e <> EvAlloc k) -> forall i, touches (EvCall c o) b h i -> touches (EvCall c o) b (e :: h) i).
  { intros Hk i (d&H1&H2). exists d. rewrite Htg by done. split; [done|by apply drawn_cons]. }
  assert (Hself : forall d, (forall k, e <> EvAlloc k) -> tgt c h = Some d -> touches (EvCall c o) b (e :: h) (ep_co d)).
  { intros d Hk Hd. exists d. rewrite Htg by done. split; [done|constructor]. }
  assert (Hsk : (forall k, e <> EvAlloc k) -> forall k, starts_kill k h -> touches (EvCall c o) b (e :: h) k).
  { intros Hk k Hst. unfold starts_kill in Hst. destruct h as [|e0 b0] eqn:Eh; [done|].
    destruct l as [|e1 l1]; subst h; cbn in Eh; injection Eh as <- <-.
    - destruct o as [o|]; [|done]. destruct o; try done. apply (Hself (Outer k)); [done|]. cbn. rewrite decide_True by done. cbn. by rewrite Hst.
    - cbn in Hi. apply andb_true_iff in Hi as [Hi1 Hi]. destruct e1 as [| | | | | | | |i s| |]; cbn in Hi1; try done.
      destruct (Hmono Hk i (Hhd i eq_refl)) as (d&H1&H2). exists d. split; [done|]. eapply dr_owned; [exact H2| |exact Hst].
      by exists [e]. }
  assert (Hki : (forall k, e <> EvAlloc k) -> forall k, kills k h -> touches (EvCall c o) b (e :: h) k).
  { intros Hk k [Hst|(b0&E&_&_)]; [by apply Hsk|]. destruct l as [|e1 l1]; [by subst h|]. subst h. cbn in E. injection E as -> E.
    apply Hmono; [done|]. by apply Hhd. }
  assert (Hlr : (forall k, e <> EvAlloc k) -> forall k h1, (h1 = h \/ h = EvDel k :: h1) -> last_rites k h1 -> touches (EvCall c o) b (e :: h) k).
  { intros Hk k h1 [->|E] Hl.
    2: { destruct l as [|e1 l1]; [by subst h|]. subst h. cbn in E. injection E as -> E. apply Hmono; [done|]. by apply Hhd. }
    destruct Hl as [(s&b0&E&_)|(j&b0&s&E&Hs&Hpk)].
    - destruct l as [|e1 l1]; [by subst h|]. subst h. cbn in E. injection E as -> E. apply Hmono; [done|]. by apply Hhd.
    - apply Hmono; [done|]. apply Htt. rewrite E in Ht. cbn in Ht. rewrite Hs in Ht. rewrite decide_True in Ht by done.
      destruct t as [|i t]; cbn in Ht; [|injection Ht as <- _; apply elem_of_list_here].
      rewrite Hsb in Ht. injection Ht as -> _. rewrite E in Hpc. cbn in Hpc. congruence. }
  destruct e as [c' o'|c' o' r|c' o' x|k x|k r|k v|k|k x|k x|k|k]; cbn in He; try done; cbn in Hor.
  - (* set *)
    assert (Hk : touches (EvCall c o) b (EvSet k v :: h) k).
    { destruct (set_tgt _ _ _ _ _ _ Hr Ho) as (c'&o'&d&h'&_&Hb&<-&Hd&_). assert (c' = c) as ->; [|by apply Hself].
      destruct Hb as [Hb|Hb]; [by apply split_internal in Hb as (_&->&_)|by apply split_internal2 in Hb as (_&->&_)]. }
    split; [by intros j [= <-]|]. exists t. split; [done|]. intros i Hin. by apply Hmono, Htt.
  - (* del *)
    assert (Hk : touches (EvCall c o) b (EvDel k :: h) k).
    { destruct Hor as (_&[(c'&o'&g&b0&sd&Eb&_&Hd&_)|[[_ Hst]|[_ Hl]]]).
      - apply split_internal in Eb as (_&->&_); [|done]. pose proof (Hself _ ltac:(done) Hd) as Q. by rewrite ep_sender in Q.
      - by apply Hsk.
      - eapply Hlr; [done|by left|done]. }
    split; [by intros j [= <-]|]. exists t. split; [done|]. intros i Hin. by apply Hmono, Htt.
  - (* new *)
    assert (Hk : touches (EvCall c o) b (EvNew k x :: h) k).
    { destruct Hor as [(c'&kd&b0&E)|(Hh&_)].
      - pose proof E as E'. apply split_internal2 in E' as (_&->&<-&->); [|done|done]. apply (Hself (Outer k)); [done|]. rewrite E. cbn. by rewrite decide_True.
      - apply (Hself (Inner k)); [done|]. destruct l as [|e1 l1].
        + subst h. cbn in Hh. destruct o as [o|]; [|done]. destruct Hh as (x'&Hx'&Hd&_). cbn. rewrite decide_True by done. rewrite Hx'. cbn. by rewrite Hd.
        + cbn in Hi. apply andb_true_iff in Hi as [Hi1 Hi]. destruct e1 as [| | | | |k1 v1| | | | |]; cbn in Hi1; try done.
          destruct (set_tgt p u n k1 v1 (l1 ++ EvCall c o :: b) Hr) as (c'&o'&d&h'&_&Hb&Hk1&Hd&Hhd'). { by eapply past_tail. }
          assert (c' = c) as ->. { destruct Hb as [Hb|Hb]; [by apply split_internal in Hb as (_&->&_)|by apply split_internal2 in Hb as (_&->&_)]. }
          destruct Hh as (sd&kd&_&_&Hx). rewrite Hhd' in Hx. subst h. cbn. done. }
    split; [by intros j [= <-]|]. exists t. split; [done|]. intros i Hin. by apply Hmono, Htt.
  - (* gone *)
    assert (Hk : touches (EvCall c o) b (EvGone k x :: h) k).
    { destruct Hor as [[b0 E]|[Hk _]]; [|by apply Hki].
      exfalso. destruct l as [|e1 l1]; subst h; cbn in E; injection E as E _; [done|]. subst e1. cbn in Hi. done. }
    split; [by intros j [= <-]|]. cbn [cstack]. case_decide as Hd.
    + exists t. split; [done|]. intros i Hin. by apply Hmono, Htt.
    + exists (k :: t). split; [by rewrite Ht|]. intros i [->|Hin]%elem_of_cons; [done|by apply Hmono, Htt].
  - (* alloc *)
    destruct Hor as (Hk0&_&c'&sd&kd&b0&E). pose proof E as E'. apply split_internal in E' as (El&->&<-&->); [|done]. subst l. cbn in *. subst h. cbn in Ht.
    assert (Hk : touches (EvCall c (NNew sd kd)) b (EvAlloc k :: EvCall c (NNew sd kd) :: b) k).
    { exists (Outer k). cbn. rewrite decide_True by done. split; [done|constructor]. }
    split; [by intros j [= <-]|]. exists []. split; [done|]. intros i. by intros ?%elem_of_nil.
  - (* free *)
    assert (Hk : touches (EvCall c o) b (EvFree k :: h) k).
    { destruct Hor as [Hl|(b0&E&_&Hl)]; eapply Hlr; [done|by left|done|done|right; exact E|done]. }
    split; [by intros j [= <-]|]. cbn [cstack]. rewrite Ht. destruct t as [|i t].
    + rewrite Hsb. cbn. case_decide as E; [|rewrite <- Hsb; exists []; split; [done|]; intros i; by intros ?%elem_of_nil].
      exfalso. subst k. rewrite (free_pend _ _ _ _ _ Hr Ho) in Hpc. done.
    + cbn. case_decide as E.
      * exists t. split; [done|]. intros i0 Hin. apply Hmono; [done|]. apply Htt. by apply elem_of_list_further.
      * exists (i :: t). split; [done|]. intros i0 Hin. by apply Hmono, Htt.
Qed.

Lemma split_leave l k0 r b e b' : forallb internal l = true -> internal e = false -> l ++ EvLeave k0 r :: b = e :: b' -> l = [] /\ e = EvLeave k0 r /\ b' = b.
Proof. destruct l as [|e' l]; cbn; [by intros _ _ [= -> ->]|]. intros [He _]%andb_true_iff He' [= -> _]. congruence. Qed.

Lemma segment_leave p u n k0 r b l : respects p u n -> past (hist p u n) (l ++ EvLeave k0 r :: b) -> forallb internal l = true ->
  let h := l ++ EvLeave k0 r :: b in
  match l with [] => True | e :: l1 =>
    (forall j, concerns e = Some j -> touches (EvLeave k0 r) b h j) /\
    match e with EvGone i _ => drawn k0 h i | EvDel i => starts_kill i (l1 ++ EvLeave k0 r :: b) -> drawn k0 h i | _ => True end
  end /\
  forall i, i ∈ cstack h -> drawn k0 h i \/ i ∈ tail (cstack b).
Proof.
  intros Hr. induction l as [|e l IH]; intros Hp Hi; cbn [app] in *.
  { split; [done|]. intros i Hin. cbn [cstack] in Hin.
    assert (Hc : exists s, cstack b = k0 :: s).
    { destruct (hist_at _ _ _ _ _ Hr Hp) as ([a f]&y&Hx&Hm&Hb&Hy). cbn [fst snd] in *. subst b.
      destruct Hy as (->&Hf&Hy). cbn [fst snd] in *. subst f. destruct (stack_cur p u a MFoc Hx) as (s'&Hcs&_); [|eauto].
      cbn. destruct Hy as [(s&c&ex&E&_)|(c&en&E&_)]; rewrite E; done. }
    destruct Hc as [s Hs]. rewrite Hs in Hin |- *. apply elem_of_cons in Hin as [->|Hin]; [left; constructor|by right]. }
  cbn in Hi. apply andb_true_iff in Hi as [He Hi]. set (h := l ++ EvLeave k0 r :: b) in *.
  assert (Ho : occurs (hist p u n) e h) by done.
  assert (Hp' : past (hist p u n) h) by (by eapply past_tail).
  destruct (IH Hp' Hi) as (Hhd&Htt). clear IH.
  pose proof (history_origin _ _ _ _ _ Hr Ho) as Hor.
  assert (Hpn : forall c, pend c h = pend c b). { intros c. subst h. by rewrite internal_pend. }
  assert (Hmono : forall i, touches (EvLeave k0 r) b h i -> touches (EvLeave k0 r) b (e :: h) i).
  { intros i [H|H]; [left; by apply drawn_cons|by right]. }
  assert (Hdr : forall i, drawn k0 h i \/ i ∈ tail (cstack b) -> drawn k0 (e :: h) i \/ i ∈ tail (cstack b)).
  { intros i [H|H]; [left; by apply drawn_cons|by right]. }
  assert (Hsk : forall k, starts_kill k h -> drawn k0 (e :: h) k).
  { intros k Hst. unfold starts_kill in Hst. destruct h as [|e0 b0] eqn:Eh; [done|].
    destruct l as [|e1 l1]; subst h; cbn in Eh; injection Eh as <- <-.
    - destruct Hst as (->&_). constructor.
    - cbn in Hi. apply andb_true_iff in Hi as [Hi1 Hi]. destruct e1 as [| | | | | | | |i s| |]; cbn in Hi1; try done.
      destruct Hhd as [_ Hhd]. apply (drawn_cons _ e) in Hhd. eapply dr_owned; [exact Hhd| |exact Hst]. by exists [e]. }
  assert (Hki : forall k, kills k h -> drawn k0 (e :: h) k).
  { intros k [Hst|(b0&E&_&Hst)]; [by apply Hsk|]. destruct l as [|e1 l1]; [by subst h|]. subst h. cbn in E. injection E as -> E.
    apply drawn_cons. apply Hhd. by rewrite E. }
  assert (Hlr : forall k h1, (h1 = h \/ h = EvDel k :: h1) -> last_rites k h1 -> touches (EvLeave k0 r) b (e :: h) k).
  { intros k h1 [->|E] Hl.
    2: { destruct l as [|e1 l1]; [by subst h|]. subst h. cbn in E. injection E as -> E. apply Hmono. by apply Hhd. }
    destruct Hl as [(s&b0&E&_)|(j&b0&s&E&Hs&Hpk)].
    - destruct l as [|e1 l1]; [by subst h|]. subst h. cbn in E. injection E as -> E. apply Hmono. by apply Hhd.
    - apply Hmono. destruct (Htt k) as [H|H]; [|by left|].
      + rewrite E. cbn. rewrite Hs, decide_True by done. apply elem_of_list_here.
      + right. split; [done|]. rewrite <- Hpn, E. done. }
  destruct e as [c' o'|c' o' x|c' o' x|k x|k x|k v|k|k x|k x|k|k]; cbn in He; try done; cbn in Hor.
  - (* set *) exfalso. destruct (set_tgt _ _ _ _ _ _ Hr Ho) as (c'&o'&d&h'&_&Hb&_).
    destruct Hb as [Hb|Hb]; [by apply split_leave in Hb as (_&E&_)|]. destruct l as [|e1 l1]; [by subst h|]. subst h. cbn in Hb. injection Hb as -> Hb.
    by apply split_leave in Hb as (_&E&_).
  - (* del *)
    destruct Hor as (_&Hor). split.
    + split.
      * intros j [= <-]. destruct Hor as [(c'&o'&g&b0&sd&Eb&_&Hd&_)|[[_ Hst]|[_ Hl]]].
        -- exfalso. by apply split_leave in Eb as (_&E&_).
        -- left. by apply Hsk.
        -- eapply Hlr; [by left|done].
      * intros Hst. by apply Hsk.
    + intros i Hin. by apply Hdr, Htt.
  - (* new *) exfalso. destruct Hor as [(c'&kd&b0&E)|(Hh&_)].
    + destruct l as [|e1 l1]; [by subst h|]. subst h. cbn in E. injection E as -> E. by apply split_leave in E as (_&E&_).
    + destruct l as [|e1 l1]; [by subst h|]. cbn in Hi. apply andb_true_iff in Hi as [Hi1 Hi]. destruct e1 as [| | | | |k1 v1| | | | |]; cbn in Hi1; try done.
      destruct (set_tgt p u n k1 v1 (l1 ++ EvLeave k0 r :: b) Hr) as (c'&o'&d&h'&_&Hb&_). { by eapply past_tail. }
      destruct Hb as [Hb|Hb]; [by apply split_leave in Hb as (_&E&_)|]. destruct l1 as [|e2 l2]; [done|]. cbn in Hb. injection Hb as -> Hb.
      by apply split_leave in Hb as (_&E&_).
  - (* gone *)
    assert (Hk : drawn k0 (EvGone k x :: h) k).
    { destruct Hor as [[b0 E]|[Hk _]]; [|by apply Hki]. apply split_leave in E as (_&E&_); [|done|done]. injection E as -> _. constructor. }
    split; [split; [intros j [= <-]; by left|done]|]. cbn [cstack]. intros i. case_decide as Hd; intros Hin.
    + by apply Hdr, Htt.
    + apply elem_of_cons in Hin as [->|Hin]; [by left|by apply Hdr, Htt].
  - (* alloc *) exfalso. destruct Hor as (Hk0&_&c'&sd&kd&b0&E). by apply split_leave in E as (_&E&_).
  - (* free *)
    split; [split; [|done]|].
    + intros j [= <-]. destruct Hor as [Hl|(b0&E&_&Hl)]; eapply Hlr; [by left|done|right; exact E|done].
    + intros i Hin. apply Hdr, Htt. cbn [cstack] in Hin. destruct (cstack h) as [|m s]; [done|]. case_decide; [by apply elem_of_list_further|done].
Qed.

(** Every internal event follows a call, or the end of a function, and other internal events. *)
Lemma internal_segment p u n e h : respects p u n -> occurs (hist p u n) e h -> internal e = true ->
  exists l e0 b, h = l ++ e0 :: b /\ forallb internal l = true /\ ((exists c o, e0 = EvCall c o) \/ (exists k r, e0 = EvLeave k r)).
Proof.
  intros Hr. revert e. induction h as [|e1 h IH]; intros e Ho He.
  - pose proof (history_follows _ _ _ _ _ Hr Ho) as [[o ->]|(_&r&->)]; done.
  - destruct (internal e1) eqn:E1.
    + destruct (IH e1) as (l&e0&b&->&Hl&H); [by eapply past_tail|done|]. exists (e1 :: l), e0, b. split; [done|]. split; [by cbn; rewrite E1|done].
    + exists [], e1, h. split; [done|]. split; [done|].
      destruct e1 as [c o|c o r|c o x|k x|k r|k v|k|k x|k x|k|k]; try done; [eauto| | | |eauto];
        pose proof (history_follows _ _ _ _ _ Hr Ho) as [[o' ->]|(_&r'&->)]; done.
Qed.

(** What is known about coroutine [j]. *)
Lemma unchanged j l b : forallb internal l = true -> (forall e, e ∈ l -> concerns e <> Some j) ->
  life j (l ++ b) = life j b /\ cls j (l ++ b) = cls j b /\ slotv j (l ++ b) = slotv j b /\ pushes j (l ++ b) = pushes j b /\ ngets j (l ++ b) = ngets j b.
Proof.
  induction l as [|e l IH]; [done|]. cbn [forallb app]. intros [He Hl]%andb_true_iff Hn.
  destruct IH as (H1&H2&H3&H4&H5); [done|intros; by apply Hn, elem_of_list_further|].
  assert (Hc : concerns e <> Some j) by (apply Hn, elem_of_list_here).
  destruct e as [c' o'|c' o' x|c' o' x|k x|k x|k v|k|k x|k x|k|k]; cbn in He; try done; cbn in Hc; cbn; rewrite ?decide_False by congruence; auto.
Qed.


Lemma touched p u n e h j : respects p u n -> occurs (hist p u n) e h -> concerns e = Some j ->
  exists l e0 b, h = l ++ e0 :: b /\ forallb internal l = true /\ touches e0 b (e :: h) j.
Proof.
  intros Hr Ho Hc. assert (He : internal e = true) by (by destruct e).
  destruct (internal_segment _ _ _ _ _ Hr Ho He) as (l&e0&b&->&Hl&[(c&o&->)|(k&r&->)]).
  - exists l, (EvCall c o), b. split; [done|]. split; [done|].
    destruct (segment_call p u n c o b (e :: l) Hr Ho) as [H _]; [cbn; by rewrite He|]. by apply H.
  - exists l, (EvLeave k r), b. split; [done|]. split; [done|].
    destruct (segment_leave p u n k r b (e :: l) Hr Ho) as [[H _] _]; [cbn; by rewrite He|]. by apply H.
Qed.

Lemma alloc_first p u n k l c o b : respects p u n -> past (hist p u n) (EvAlloc k :: l ++ EvCall c o :: b) -> forallb internal l = true -> l = [].
Proof.
  intros Hr Hp Hl. destruct (history_origin p u n (EvAlloc k) (l ++ EvCall c o :: b) Hr Hp) as (_&_&c'&sd&kd&b'&E). by apply split_internal in E as (->&_).
Qed.

Lemma touches_later p u n c o b l1 l2 j : respects p u n -> past (hist p u n) (l1 ++ l2 ++ EvCall c o :: b) -> forallb internal (l1 ++ l2) = true ->
  l2 <> [] -> touches (EvCall c o) b (l2 ++ EvCall c o :: b) j -> touches (EvCall c o) b (l1 ++ l2 ++ EvCall c o :: b) j.
Proof.
  intros Hr Hp Hl Hne (d&H1&H2). revert Hp Hl. induction l1 as [|e l1 IH]; [exists d; by split|].
  intros Hp Hl. cbn in Hl. apply andb_true_iff in Hl as [He Hl]. destruct IH as (d'&H1'&H2'); [by eapply past_tail|done|].
  exists d'. split; [|by apply drawn_cons]. cbn [app]. destruct e as [| | | | | | | | |k|]; cbn in He; try done.
  exfalso. rewrite app_assoc in Hp. apply (alloc_first p u n k (l1 ++ l2)) in Hp; [|done|done]. apply app_nil in Hp as [_ ->]. done.
Qed.

Lemma tgt_later c o b l : forallb internal l = true -> tgt c (l ++ EvCall c (NOp o) :: b) = tgt c (EvCall c (NOp o) :: b).
Proof.
  induction l as [|e l IH]; [done|]. cbn [forallb app]. intros [He Hl]%andb_true_iff. rewrite <- (IH Hl).
  destruct e as [| | | | | | | | |k|]; cbn in He; try done. cbn. destruct l as [|e l]; [done|]. cbn in Hl. apply andb_true_iff in Hl as [He' _]. by destruct e.
Qed.

Lemma others_call p u n c o b l j : respects p u n -> past (hist p u n) (l ++ EvCall c o :: b) -> forallb internal l = true ->
  let h := l ++ EvCall c o :: b in
  (forall d, tgt c h = Some d -> ~ drawn (ep_co d) h j) ->
  life j h = life j b /\ cls j h = cls j b /\ slotv j h = slotv j b /\ pushes j h = pushes j b /\ ngets j h = ngets j b /\
  forall x, den h !! x = Some (Some (Outer j)) <-> den b !! x = Some (Some (Outer j)).
Proof.
  intros Hr Hp Hl h Hn.
  assert (Hev : forall l1 e l2, l = l1 ++ e :: l2 -> concerns e <> Some j).
  { intros l1 e l2 -> Hc. 
    assert (Hl2 : forallb internal (e :: l2) = true) by (rewrite forallb_app in Hl; by apply andb_true_iff in Hl as [_ Hl]).
    assert (Hp2 : past (hist p u n) ((e :: l2) ++ EvCall c o :: b)). { destruct Hp as [l0 ->]. exists (l0 ++ l1). by rewrite <- !app_assoc. }
    destruct (segment_call p u n c o b (e :: l2) Hr Hp2 Hl2) as [H _]. specialize (H _ Hc).
    destruct (touches_later p u n c o b l1 (e :: l2) j Hr) as (d&H1&H2); [by rewrite <- app_assoc in Hp|done|done|done|].
    apply (Hn d); subst h; rewrite <- app_assoc; done. }
  destruct (unchanged j l (EvCall c o :: b) Hl) as (H1&H2&H3&H4&H5).
  { intros e Hin. apply elem_of_list_split in Hin as (l1&l2&->). by eapply Hev. }
  repeat (split; [done|]). clear H1 H2 H3 H4 H5.
  assert (Hx0 : forall x, den (EvCall c o :: b) !! x = Some (Some (Outer j)) <-> den b !! x = Some (Some (Outer j))).
  { intros x. cbn. destruct o as [[| |y| | | | | | | | | | | | | | | | | |]|]; try done. rewrite lookup_delete_Some. split; [by intros [_ ?]|]. intros Hx. split; [|done]. intros ->.
    apply (Hn (Outer j)); [|constructor]. subst h. rewrite tgt_later by done. cbn. rewrite decide_True by done. cbn. by rewrite Hx. }
  assert (Hall : forall l2 l1, l = l1 ++ l2 -> forall x, den (l2 ++ EvCall c o :: b) !! x = Some (Some (Outer j)) <-> den b !! x = Some (Some (Outer j))); [|by apply (Hall l [])].
  induction l2 as [|e l2 IH]; intros l1 E x; [done|].
  rewrite <- (IH (l1 ++ [e])) by (by rewrite <- app_assoc).
  assert (Hp2 : past (hist p u n) ((e :: l2) ++ EvCall c o :: b)). { destruct Hp as [l0 ->]. exists (l0 ++ l1). by rewrite E, <- !app_assoc. }
  assert (Hl2 : forallb internal (e :: l2) = true) by (rewrite E, forallb_app in Hl; by apply andb_true_iff in Hl as [_ Hl]).
  pose proof (Hev _ _ _ E) as Hc. pose proof Hl2 as He. cbn in He. apply andb_true_iff in He as [He _].
  destruct e as [c' o'|c' o' y|c' o' y|k y|k y|k v|k|k y|k y|k|k]; cbn in He; try done; cbn in Hc; cbn [app den]; try done.
  - destruct (decide (x = y)) as [->|Hne]; [|by rewrite lookup_insert_ne]. pose proof (new_fresh _ _ _ _ _ _ Hr Hp2) as Q. fold (app l2) in Q |- *. rewrite lookup_insert. cbn in Q. rewrite Q. split; congruence.
  - rewrite lookup_delete_Some. split; [by intros [_ ?]|]. intros Hx. split; [|done]. intros ->.
    destruct (segment_call p u n c o b (EvGone k x :: l2) Hr Hp2 Hl2) as [H _]. specialize (H _ eq_refl).
    assert (H' : touches (EvCall c o) b h j).
    { subst h l. rewrite <- app_assoc in Hp |- *. apply (touches_later p u n c o b l1 (EvGone k x :: l2) j Hr); [done|done|done|].
      destruct H as (d&H1&H2). exists d. split; [done|]. eapply dr_owned; [exact H2|by exists []|done]. }
    destruct H' as (d&H1&H2). by apply (Hn d).
Qed.

Lemma others_leave p u n k r b l j : respects p u n -> past (hist p u n) (l ++ EvLeave k r :: b) -> forallb internal l = true ->
  let h := l ++ EvLeave k r :: b in
  ~ drawn k h j -> ~ (j ∈ tail (cstack b) /\ pend j b = None) ->
  life j h = life j b /\ cls j h = cls j b /\ slotv j h = slotv j b /\ pushes j h = pushes j b /\ ngets j h = ngets j b /\
  forall x, den h !! x = Some (Some (Outer j)) <-> den b !! x = Some (Some (Outer j)).
Proof.
  intros Hr Hp Hl h Hn Hd.
  assert (Hlater : forall l1 l2, drawn k l2 j -> drawn k (l1 ++ l2) j). { intros l1 l2 H. induction l1 as [|e l1 IH]; [done|]. by apply drawn_cons. }
  assert (Hev : forall l1 e l2, l = l1 ++ e :: l2 -> concerns e <> Some j).
  { intros l1 e l2 -> Hc.
    assert (Hl2 : forallb internal (e :: l2) = true) by (rewrite forallb_app in Hl; by apply andb_true_iff in Hl as [_ Hl]).
    assert (Hp2 : past (hist p u n) ((e :: l2) ++ EvLeave k r :: b)). { destruct Hp as [l0 ->]. exists (l0 ++ l1). by rewrite <- !app_assoc. }
    destruct (segment_leave p u n k r b (e :: l2) Hr Hp2 Hl2) as [[H _] _]. destruct (H _ Hc) as [H'|H']; [|done].
    apply Hn. subst h. rewrite <- app_assoc. by apply Hlater. }
  assert (Hkj : k <> j) by (intros ->; apply Hn; constructor).
  destruct (unchanged j l (EvLeave k r :: b) Hl) as (H1&H2&H3&H4&H5).
  { intros e Hin. apply elem_of_list_split in Hin as (l1&l2&->). by eapply Hev. }
  subst h. rewrite H1, H2, H3, H4, H5. split; [cbn; destruct r as [[]|]; by rewrite decide_False|]. repeat (split; [done|]). clear H1 H2 H3 H4 H5.
  assert (Hall : forall l2 l1, l = l1 ++ l2 -> forall x, den (l2 ++ EvLeave k r :: b) !! x = Some (Some (Outer j)) <-> den b !! x = Some (Some (Outer j))); [|by apply (Hall l [])].
  induction l2 as [|e l2 IH]; intros l1 E x; [done|].
  rewrite <- (IH (l1 ++ [e])) by (by rewrite <- app_assoc).
  assert (Hp2 : past (hist p u n) ((e :: l2) ++ EvLeave k r :: b)). { destruct Hp as [l0 ->]. exists (l0 ++ l1). by rewrite E, <- !app_assoc. }
  assert (Hl2 : forallb internal (e :: l2) = true) by (rewrite E, forallb_app in Hl; by apply andb_true_iff in Hl as [_ Hl]).
  pose proof (Hev _ _ _ E) as Hc. pose proof Hl2 as He. cbn in He. apply andb_true_iff in He as [He _].
  destruct e as [c' o'|c' o' y|c' o' y|k1 y|k1 y|k1 v|k1|k1 y|k1 y|k1|k1]; cbn in He; try done; cbn in Hc; cbn [app den]; try done.
  - destruct (decide (x = y)) as [->|Hne]; [|by rewrite lookup_insert_ne]. pose proof (new_fresh _ _ _ _ _ _ Hr Hp2) as Q. fold (app l2) in Q |- *. rewrite lookup_insert. cbn in Q. rewrite Q. split; congruence.
  - rewrite lookup_delete_Some. split; [by intros [_ ?]|]. intros Hx. split; [|done]. intros ->.
    destruct (segment_leave p u n k r b (EvGone k1 x :: l2) Hr Hp2 Hl2) as [[_ H] _].
    apply Hn. rewrite E, <- app_assoc. apply Hlater. eapply dr_owned; [exact H|by exists []|done].
Qed.

(** Destroying nothing but the coroutine under construction: a constructor whose function
    was left ends accordingly. *)
Lemma tgt_since c d l b : tgt c b = Some d -> Forall (fun e => ev_ctx e <> Some c) l -> tgt c (l ++ b) = Some d.
Proof.
  intros Hb. induction l as [|e l IH]; [done|]. intros [He Hl]%Forall_cons. specialize (IH Hl).
  destruct e as [c' o'|c' o' y|c' o' y|k y|k y|k v|k|k y|k y|k|k]; cbn [app tgt]; try done.
  - rewrite decide_False; [done|]. intros ->. by apply He.
  - fold (app l). destruct (l ++ b) as [|e h]; [done|]. destruct e as [c' o'| | | | | | | | | |]; try done. destruct o' as [|sd kd]; [done|].
    destruct (decide (c' = c)) as [->|]; [|done]. cbn in IH. by rewrite decide_True in IH by done.
Qed.

Lemma since_inj c o o' b b' h : since c o b h -> since c o' b' h -> o = o' /\ b = b'.
Proof.
  intros (l&->&Hl) (l'&E&Hl'). revert l' E Hl'. induction l as [|e l IH]; intros [|e' l'] E Hl'; cbn in E; simplify_eq; try done.
  - apply Forall_cons in Hl' as [H _]. by destruct H.
  - apply Forall_cons in Hl as [H _]. by destruct H.
  - apply Forall_cons in Hl as [_ H]. apply Forall_cons in Hl' as [_ H']. by eapply IH.
Qed.

Lemma ctor_leave p u n c sd kd b' k r b e h : respects p u n -> occurs (hist p u n) e h -> past h (EvLeave k r :: b) -> r <> Some XUnwind ->
  tgt c b = Some (Outer k) -> since c (NNew sd kd) b' b -> since c (NNew sd kd) b' h -> ev_ctx e = Some c ->
  match r with None => exists x, e = EvRet c (NNew sd kd) (AH x) | Some x => e = EvExn c (NNew sd kd) x end.
Proof.
  intros Hr Ho Hpast Hne Ht Hb Hh He.
  assert (Hend := pending_next _ _ _ _ _ _ _ Hr Ho He (since_pend _ _ _ _ Hh)).
  assert (Hocc : occurs h (EvLeave k r) b) by done.
  assert (Hth : tgt c h = Some (Outer k)).
  { destruct Hpast as [l ->]. destruct Hb as (l0&->&Hl0). destruct Hh as (l1&E&Hl1).
    change (EvLeave k r :: l0 ++ EvCall c (NNew sd kd) :: b') with ((EvLeave k r :: l0) ++ EvCall c (NNew sd kd) :: b') in E.
    rewrite app_assoc in E. apply app_inv_tail in E. subst l1. apply Forall_app in Hl1 as [Hl1 _].
    apply tgt_since; [|done]. done. }
  destruct sd.
  - destruct r as [[ex|]|]; [|done|].
    + by destruct (ctor_throws _ _ _ _ _ _ _ _ _ _ Hr Ho Hend Hth Hocc) as [-> _].
    + destruct (ctor_empty _ _ _ _ _ _ _ _ _ Hr Ho Hend Hth Hocc) as (x&_&->&_). eauto.
  - exfalso. assert (Hin : forall l, h = l ++ EvCall c (NNew Push kd) :: b' -> EvLeave k r ∈ l).
    { intros l El. destruct Hocc as [l1 E1]. destruct Hb as (l0&->&_). rewrite El in E1.
      change (EvLeave k r :: l0 ++ EvCall c (NNew Push kd) :: b') with ((EvLeave k r :: l0) ++ EvCall c (NNew Push kd) :: b') in E1.
      rewrite app_assoc in E1. apply app_inv_tail in E1. subst l. apply elem_of_app. right. left. }
    assert (Hs : forall l b0, h = l ++ EvCall c (NNew Push kd) :: b0 -> Forall (fun e => ev_ctx e <> Some c) l -> EvLeave k r ∈ l).
    { intros l b0 El Hl. apply Hin. rewrite El. f_equal. f_equal. destruct (since_inj c (NNew Push kd) (NNew Push kd) b0 b' h) as [_ ?]; [by exists l|done|done]. }
    destruct Hend as [[a ->]|[x ->]].
    + destruct (ret_new_push _ _ _ _ _ _ _ Hr Ho) as (k0&y&b0&_&E). pose proof (Hs [EvNew k0 y; EvAlloc k0] b0 E) as Q.
      apply elem_of_list_In in Q; [|by repeat constructor]. cbn in Q. by destruct Q as [Q|[Q|[]]].
    + destruct (exn_new _ _ _ _ _ _ _ _ Hr Ho) as (ex&->&[(b0&E)|[(k0&b0&E)|(?&_)]]); [| |done].
      * pose proof (Hs [] b0 E) as Q. apply elem_of_list_In in Q; [|by repeat constructor]. done.
      * pose proof (Hs [EvAlloc k0] b0 E) as Q. apply elem_of_list_In in Q; [|by repeat constructor]. cbn in Q. by destruct Q as [Q|[]].
Qed.

End other.
