(** FactsBack.v -- the rules of Rules.v read backwards: what must have happened just
    before an event. *)
From stdpp Require Import prelude gmap.
From Coq Require Import Lia.
From Verif Require Import Base Model Spec InvSpec Main Trace Hist FactsVal Next Rules RulesProof FactsLife FactsSeq.

Section fb.
Context {env : Env}.
Implicit Types h : list event.

(** User code in context [c] has control. *)
Definition controls (c : nat) h : Prop :=
  match h with
  | [] => c = 0
  | EvRet c' _ _ :: _ | EvExn c' _ _ :: _ | EvEnter c' _ :: _ => c' = c
  | _ => False
  end.

(** The last event hands control over through endpoint [d]. *)
Definition hands (d : ep) h : Prop :=
  match h with
  | EvCall c (NOp o) :: b => exists x, opobj o = Some x /\ den b !! x = Some (Some d) /\
      ((recv (NOp o) = true /\ exists sd kd, d = receiver sd (ep_co d) /\ cls (ep_co d) b = Some (sd, kd)) \/
       exists sd g, push_arg (NOp o) = Some g /\ d = sender sd (ep_co d) /\ cls (ep_co d) b = Some (sd, KVoid))
  | EvSet k _ :: b => exists sd kd, cls k b = Some (sd, kd) /\ d = sender sd k /\ tgt (hd 0 (cstack b)) b = Some d
  | _ => False
  end.

(** The last event starts the destruction of coroutine [k]: its owner is destroyed, the
    owner was the counterpart object of a coroutine being destroyed, or the function of
    a pull coroutine has ended inside the constructor. *)
Definition starts_kill (k : nat) h : Prop :=
  match h with
  | EvCall c (NOp (ODestroy x)) :: b => den b !! x = Some (Some (Outer k))
  | EvGone j s :: b => den b !! s = Some (Some (Outer k))
  | EvLeave j r :: b => j = k /\ r <> Some XUnwind /\ exists c sd kd s, cstack b = k :: c :: s /\ pend c b = Some (NNew sd kd) /\ tgt c b = Some (Outer k)
  | _ => False
  end.
(** ... or that has just destroyed the value in the slot. *)
Definition kills (k : nat) h : Prop :=
  starts_kill k h \/ exists b, h = EvDel k :: b /\ cls k b = Some (Pull, KVal) /\ starts_kill k b.

(** The function of [k] has just ended in the call [o] of context [c] that resumed it. *)
Definition ended_in (k : nat) (r : option exn) (c : nat) (o : opn) h : Prop :=
  exists b s, h = EvLeave k r :: b /\ cstack b = k :: c :: s /\ pend c b = Some o /\ tgt c b = Some (Outer k).

(** The stack of [k] has just been released in the call [o] of context [c]. *)
Definition freed_in (k c : nat) (o : opn) h : Prop :=
  exists b s, h = EvFree k :: b /\ cstack b = k :: c :: s /\ pend c b = Some o /\ tgt c b = Some (Outer k).

(** Nothing is left of [k] but its slot and its stack: the counterpart object is gone and
    did not own a coroutine, or the coroutine it owned is gone. *)
Definition last_rites (k : nat) h : Prop :=
  (exists s b, h = EvGone k s :: b /\ forall j, den b !! s <> Some (Some (Outer j))) \/
  (exists j b s, h = EvFree j :: b /\ cstack b = j :: k :: s /\ pend k b = None).

(** How an event can come about. *)
Definition origin (u : gmap nat T) h (e : event) : Prop :=
  match e with
  | EvCall c _ => controls c h
  | EvLeave c _ => c <> 0 /\ controls c h
  | EvAlloc k => k <> 0 /\ life k h = PNone /\ exists c sd kd b, h = EvCall c (NNew sd kd) :: b
  | EvEnter k _ =>
      (exists c kd b, h = EvAlloc k :: EvCall c (NNew Pull kd) :: b) \/ (hands (Outer k) h /\ life k h = PNew /\ k ∉ cstack h)
  | EvNew k x =>
      (exists c kd b, h = EvAlloc k :: EvCall c (NNew Push kd) :: b) \/
      (hands (Inner k) h /\ exists c kd s, cstack h = k :: c :: s /\ pend c h = Some (NNew Pull kd) /\ tgt c h = Some (Outer k))
  | EvRet c o a =>
      (exists b, h = EvCall c o :: b) \/
      (exists k x b sd kd, h = EvNew k x :: b /\ o = NNew sd kd /\ a = AH x /\ pend c h = Some o /\ tgt c h = Some (Outer k)) \/
      (hands (Outer c) h /\ life c h = PRun /\ c ∉ cstack h /\ pend c h = Some o /\ tgt c h = Some (Inner c)) \/
      (exists k s, hands (Inner k) h /\ cstack h = k :: c :: s /\ pend c h = Some o /\ tgt c h = Some (Outer k)) \/
      (exists k o', ended_in k None c o h /\ o = NOp o') \/
      (exists k x, freed_in k c o h /\ o = NOp (ODestroy x) /\ a = AUnit) \/
      (exists k kd x, freed_in k c o h /\ o = NNew Pull kd /\ life k (tail h) = PDone None /\ a = AH x)
  | EvExn c o x =>
      (exists sd kd ex b, o = NNew sd kd /\ x = XUser ex /\ (h = EvCall c o :: b \/ exists k, h = EvAlloc k :: EvCall c o :: b)) \/
      (exists g v ex b, push_arg o = Some g /\ x = XUser ex /\ argval u g b = Some v /\ arg_exn o v = Some ex /\ (h = EvCall c o :: b \/ exists k, h = EvDel k :: EvCall c o :: b)) \/
      (exists k ex o', ended_in k (Some x) c o h /\ o = NOp o' /\ x = XUser ex) \/
      (exists k ex kd, freed_in k c o h /\ o = NNew Pull kd /\ x = XUser ex /\ life k (tail h) = PDone (Some ex)) \/
      (x = XUnwind /\ kills c h /\ life c h = PRun /\ c ∉ cstack h /\ pend c h = Some o /\ tgt c h = Some (Inner c))
  | EvGone k s => (exists b, h = EvLeave k (Some XUnwind) :: b) \/ (kills k h /\ (life k h = PNew \/ exists x, life k h = PDone x))
  | EvFree k => last_rites k h \/ exists b, h = EvDel k :: b /\ cls k b = Some (Push, KVal) /\ last_rites k b
  | EvDel k => slotv k h <> None /\
      ((exists c o g b sd, h = EvCall c o :: b /\ push_arg o = Some g /\ tgt c h = Some (sender sd k) /\ cls k h = Some (sd, KVal)) \/
       (cls k h = Some (Pull, KVal) /\ starts_kill k h) \/
       (cls k h = Some (Push, KVal) /\ last_rites k h))
  | EvSet _ _ => True
  end.

Lemma acts_origin u h c e : controls c h -> acts c e -> origin u h e.
Proof. intros Hc [[o ->]|(Hz&r&->)]; done. Qed.

Lemma handover_origin u h d e : hands d h -> handover d h e -> origin u h e.
Proof.
  intros Hd H. destruct d as [k|k]; cbn in H.
  - destruct H as (Hs&[(Hl&x&->)|(Hl&o&r&Hp&Ht&->)]); cbn.
    + right. done.
    + right; right; left. done.
  - destruct H as (c&o&s&Hs&Hp&Ht&[(r&->)|(x&kd&->&->)]); cbn.
    + right; right; right; left. eauto 10.
    + right. split; [done|]. eauto 10.
Qed.

Lemma constructs_origin u c o g k h e b : push_arg o = Some g -> (h = EvCall c o :: b \/ h = EvDel k :: EvCall c o :: b) ->
  constructs u c o g k h e -> origin u h e.
Proof.
  intros Hg Hh (v&Hv&->). destruct (arg_exn o v) as [ex|] eqn:E; [|done]. cbn. right; left.
  exists g, v, ex, b. split; [done|]. split; [done|]. split; [by destruct Hh as [-> | ->]|]. split; [done|]. destruct Hh; eauto.
Qed.

Lemma dies_origin u h k e : kills k h -> dies k h e -> origin u h e.
Proof.
  intros Hk [(Hl&Hs&o&Hp&Ht&->)|(Hl&s&->)]; cbn.
  - right; right; right; right. done.
  - right. done.
Qed.
Lemma destroys_origin u h k e : starts_kill k h -> destroys k h e -> origin u h e.
Proof. intros Hk [(Hcl&Hs&->)|(_&H)]; [cbn; auto|]. eapply dies_origin; [by left|done]. Qed.
Lemma frees_origin u h k e : last_rites k h -> frees k h e -> origin u h e.
Proof. intros Hk [(Hcl&Hs&->)|(_&->)]; cbn; auto. Qed.

Theorem follows_origin u h e : (forall k b, h = EvDel k :: b -> origin u b (EvDel k)) -> follows u h e -> origin u h e.
Proof.
  intros Hdel H. destruct h as [|e0 b]; [by eapply acts_origin|].
  assert (Hpush : forall c o g x sd k kd, opobj o = Some x -> push_arg (NOp o) = Some g -> den b !! x = Some (Some (sender sd k)) -> cls k b = Some (sd, kd) ->
    push_follows u c (NOp o) g (sender sd k) kd (EvCall c (NOp o) :: b) e -> origin u (EvCall c (NOp o) :: b) e).
  { intros c o g x sd k kd Hx Hg Hd Hcl Hp. destruct kd; cbn in Hp; rewrite ?ep_sender in Hp.
    - destruct Hp as [[Hs ->]|[_ Hc]]; [cbn|].
      { split; [done|]. left. exists c, (NOp o), g, b, sd. split; [done|]. split; [done|]. split; [|done]. rewrite decide_True by done. by rewrite Hx; cbn; rewrite Hd. }
      eapply constructs_origin; eauto.
    - destruct Hp as (l&_&->). done.
    - eapply handover_origin; [|done]. exists x. split; [done|]. split; [done|]. right. exists sd, g. by rewrite ep_sender. }
  destruct e0 as [c o|c o r|c o ex|m x|m r|m p0|m|m x|m x|m|m]; cbn in H; try (by eapply acts_origin; [|done]).
  - destruct o as [o|sd kd].
    2: { destruct H as [[x ->]|(k&Hk&Hl&->)]; cbn; [left; eauto 10|]. split; [done|]. split; [done|]. eauto. }
    destruct o as [y1|x1 x2|x|x|x g|x|x|x|x| |[x|]|[x|]|i j|i j|x| |[x|] g|v|m|l|l v]; try done; try (by destruct H as [r ->]; left; eauto).
    + destruct (den b !! x) as [[[k|k]|]|] eqn:Hd; try done; try (subst e; left; by eauto).
      eapply destroys_origin; [|done]. done.
    + destruct H as (sd&k&kd&Hd&Hcl&H). eapply handover_origin; [|done]. exists x. split; [done|]. split; [done|]. left. split; [done|]. exists sd, kd. by rewrite ep_receiver.
    + destruct H as (sd&k&kd&Hd&Hcl&H). by eapply Hpush.
    + destruct H as (sd&k&kd&Hd&Hcl&H). eapply handover_origin; [|done]. exists x. split; [done|]. split; [done|]. left. split; [done|]. exists sd, kd. by rewrite ep_receiver.
    + destruct H as (sd&k&kd&Hd&Hcl&H). by eapply Hpush.
  - destruct r as [[ex|]|].
    + destruct H as (c&o&s&Hs&Hp&Ht&H). destruct o as [o|sd kd].
      * subst e. cbn. right; right; left. exists m, ex, o. split; [|done]. exists b, s. done.
      * eapply destroys_origin; [|done]. split; [done|]. split; [done|]. eauto 10.
    + destruct H as [s ->]. left. eauto.
    + destruct H as (c&o&s&Hs&Hp&Ht&H). destruct o as [o|sd kd].
      * destruct H as [a ->]. cbn. do 4 right; left. exists m, o. split; [|done]. exists b, s. done.
      * eapply destroys_origin; [|done]. split; [done|]. split; [done|]. eauto 10.
  - destruct H as (sd&kd&Hcl&Ht&H). eapply handover_origin; [|done]. exists sd, kd. done.
  - specialize (Hdel _ _ eq_refl). cbn in Hdel. destruct Hdel as (_&[(c&o&g&b'&sd&->&Hg&_&_)|[[Hcl Hk]|[Hcl Hk]]]).
    + rewrite Hg in H. eapply constructs_origin; eauto.
    + assert (Hkk : kills m (EvDel m :: b)) by (right; eauto). destruct b as [|e1 b]; [done|].
      assert (dies m (EvDel m :: e1 :: b) e) as Hd; [|by eapply dies_origin].
      destruct e1 as [c o| | | | | | | | | |]; try (by rewrite Hcl in H). destruct o as [[]|]; done.
    + assert (e = EvFree m) as ->; [|right; eauto]. destruct Hk as [(s&b'&->&_)|(j&b'&s&->&_)]; by rewrite Hcl in H.
  - destruct H as (c&sd&kd&Hp&Ht&->). right; left. eauto 15.
  - destruct (den b !! x) as [[[j|j]|]|] eqn:Hd; [by eapply destroys_origin|..];
      (eapply frees_origin; [|done]); left; exists x, b; (split; [done|]); intros; congruence.
  - destruct b as [|[c o| | | | | | | | | |] b]; try done. destruct o as [|sd kd]; [done|].
    destruct H as [[x ->]|H]; [cbn; left; by eauto 12|]. destruct sd; destruct H as [x ->]; cbn; left; eauto.
  - destruct H as (c&s&Hs&H). destruct (pend c b) as [[o|sd kd]|] eqn:Hp.
    + destruct H as (->&(x&->)&Ht). do 5 right; left. exists m, x. split; [|done]. exists b, s. done.
    + destruct H as (->&Ht&[(Hl&x&->)|(ex&Hl&->)]); cbn.
      * do 6 right. exists m, kd, x. split; [|done]. exists b, s. done.
      * do 3 right; left. exists m, ex, kd. split; [|done]. exists b, s. done.
    + eapply frees_origin; [|done]. right. eauto 10.
Qed.

Context {comp : Compiler}.
Theorem history_origin p u n e b : respects p u n -> occurs (hist p u n) e b -> origin u b e.
Proof.
  intros Hr. revert e. induction b as [|e0 b IH]; intros e Ho.
  - eapply follows_origin; [done|]. by eapply history_follows.
  - eapply follows_origin; [|by eapply history_follows]. intros k b' [= -> ->]. apply IH. by eapply occurs_tail.
Qed.

End fb.
