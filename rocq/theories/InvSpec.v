(** InvSpec.v -- structural invariants of the reference semantics. *)
From stdpp Require Import prelude gmap.
From Verif Require Import Base Spec.

Global Arguments deliver : simpl never.
Global Arguments kill : simpl never.
Global Arguments give_back : simpl never.
Global Arguments transfer : simpl never.
Global Arguments push_op : simpl never.
Global Arguments resumable : simpl never.

Section inv.
Context {env : Env}.

Definition opp (sd : side) : side := match sd with Pull => Push | Push => Pull end.

Definition unw_st (s : astatus) : bool := match s with AUnw _ => true | _ => false end.
Definition active (s : astatus) : bool := match s with ARun | AUnw _ => true | _ => false end.
Definition entered (s : astatus) : bool := match s with ANew _ | AUnw false => false | _ => true end.
Definition wtarget (w : wait) : nat := match w with WOp j _ _ _ | WKill j _ _ _ | WExit j => j end.

Definition slot_ok (kd : kind) (s : aslot) : Prop :=
  match s with
  | SlEmpty => True
  | SlFull (PVal _) | SlBad => kd = KVal
  | SlFull (PRef _) => kd = KRef
  end.

Record co_ok (c : acoro) : Prop := {
  co_slot : slot_ok (ac_kind c) (ac_slot c);
  co_push : ac_side c = Push -> ac_kind c <> KVoid -> entered (ac_st c) = true -> ac_slot c <> SlEmpty;
  co_pull : forall o po k, ac_st c = ASusp o po k -> ac_side c = Pull -> ac_kind c <> KVoid -> ac_slot c <> SlEmpty;
  co_new : forall fn, ac_st c = ANew fn -> ac_side c = Push;
  co_post : forall o h kd k, ac_st c <> ASusp o (PoNew h kd) k }.

Definition h_ok (sd : side) (kd : kind) (e : ep) (c : acoro) : Prop :=
  ac_kind c = kd /\
  match e with
  | Outer _ => ac_side c = sd /\ (sd = Pull -> kd <> KVoid -> ac_slot c <> SlEmpty \/ unw_st (ac_st c) = true)
  | Inner _ => ac_side c = opp sd
  end.

Definition ctx_ok (co : gmap nat acoro) (c : nat) : Prop :=
  c = 0 \/ exists x, co !! c = Some x /\ active (ac_st x) = true.

Definition wait_ok (co : gmap nat acoro) (c : nat) (w : wait) : Prop :=
  exists x, co !! wtarget w = Some x /\ ac_by x = c /\
  match w with
  | WOp _ _ po _ => ac_st x = ARun /\
      (forall h kd, po = PoNew h kd -> ac_side x = Pull /\ ac_kind x = kd /\ ac_slot x = SlEmpty)
  | WKill _ _ _ _ => unw_st (ac_st x) = true
  | WExit _ => unw_st (ac_st x) = true /\ exists y, co !! c = Some y /\ unw_st (ac_st y) = true
  end.

Record InvC (co : gmap nat acoro) (wt : gmap nat wait) (hs : gmap nat hobj) (cur nk : nat) : Prop := {
  ic_dom : forall k c, co !! k = Some c -> 0 < k < nk;
  ic_cur : ctx_ok co cur;
  ic_wcur : wt !! cur = None;
  ic_ctx : forall c w, wt !! c = Some w -> ctx_ok co c;
  ic_wait : forall c w, wt !! c = Some w -> wait_ok co c w;
  ic_act : forall k c, co !! k = Some c -> active (ac_st c) = true ->
             (k = cur \/ is_Some (wt !! k)) /\ exists w, wt !! ac_by c = Some w /\ wtarget w = k;
  ic_co : forall k c, co !! k = Some c -> co_ok c;
  ic_h : forall h sd kd e c, hs !! h = Some (HObj sd kd (Some e)) -> co !! ep_co e = Some c -> h_ok sd kd e c;
  ic_hd : forall h sd kd e, hs !! h = Some (HObj sd kd (Some e)) -> ep_co e < nk;
  ic_nk : 0 < nk }.

Definition foc_inv (a : astate) : Prop :=
  match a_foc a with
  | AUser _ => True
  | _ => exists c, a_co a !! a_cur a = Some c /\ unw_st (ac_st c) = true
  end.

Definition InvS (a : astate) : Prop := InvC (a_co a) (a_wait a) (a_h a) (a_cur a) (a_nk a).
Definition Inv (a : astate) : Prop := InvS a /\ foc_inv a.

Lemma unw_active s : unw_st s = true -> active s = true.
Proof. by destruct s. Qed.

Lemma cur_pos co wt hs cur nk c : InvC co wt hs cur nk -> co !! cur = Some c -> cur <> 0.
Proof. intros I H. destruct (ic_dom _ _ _ _ _ I _ _ H). lia. Qed.

Lemma cur_active co wt hs cur nk c : InvC co wt hs cur nk -> co !! cur = Some c -> active (ac_st c) = true.
Proof.
  intros I H. destruct (ic_cur _ _ _ _ _ I) as [->|(x&Hx&?)].
  - by pose proof (cur_pos _ _ _ _ _ _ I H).
  - by simplify_eq.
Qed.

Lemma inactive_not_cur co wt hs cur nk n c : InvC co wt hs cur nk -> co !! n = Some c -> active (ac_st c) = false ->
  n <> cur /\ wt !! n = None.
Proof.
  intros I H Ha. split.
  - intros ->. by rewrite (cur_active _ _ _ _ _ _ I H) in Ha.
  - destruct (wt !! n) eqn:W; [|done].
    destruct (ic_ctx _ _ _ _ _ I _ _ W) as [->|(x&Hx&?)].
    + destruct (ic_dom _ _ _ _ _ I _ _ H). lia.
    + simplify_eq. congruence.
Qed.

(** Control enters coroutine [n]. *)
Lemma InvC_switch co wt hs cur nk n c c' w :
  InvC co wt hs cur nk -> co !! n = Some c -> active (ac_st c) = false ->
  active (ac_st c') = true -> ac_by c' = cur -> wtarget w = n ->
  co_ok c' -> (forall sd kd e, ep_co e = n -> h_ok sd kd e c -> h_ok sd kd e c') ->
  match w with
  | WOp _ _ po _ => ac_st c' = ARun /\
      (forall h kd, po = PoNew h kd -> ac_side c' = Pull /\ ac_kind c' = kd /\ ac_slot c' = SlEmpty)
  | WKill _ _ _ _ => unw_st (ac_st c') = true
  | WExit _ => unw_st (ac_st c') = true /\ exists y, co !! cur = Some y /\ unw_st (ac_st y) = true
  end ->
  InvC (<[n := c']> co) (<[cur := w]> wt) hs n nk.
Proof.
  intros I Hn Ha Ha' Hby Hw Hco Hh Hm.
  destruct (inactive_not_cur _ _ _ _ _ _ _ I Hn Ha) as [Hnc Hnw].
  assert (Hctx : forall x, ctx_ok co x -> ctx_ok (<[n:=c']> co) x).
  { intros x [->|(y&Hy&?)]; [by left|]. right. destruct (decide (x = n)) as [->|].
    - eexists. by rewrite lookup_insert.
    - exists y. by rewrite lookup_insert_ne. }
  split.
  - intros k x Hx. destruct (decide (k = n)) as [->|].
    + by apply (ic_dom _ _ _ _ _ I _ _ Hn).
    + rewrite lookup_insert_ne in Hx; [|done]. by eapply ic_dom.
  - right. exists c'. by rewrite lookup_insert.
  - by rewrite lookup_insert_ne.
  - intros x w' Hw'. apply Hctx. destruct (decide (x = cur)) as [->|].
    + by apply (ic_cur _ _ _ _ _ I).
    + rewrite lookup_insert_ne in Hw'; [|done]. by eapply ic_ctx.
  - intros x w' Hw'. destruct (decide (x = cur)) as [->|].
    + rewrite lookup_insert in Hw'. injection Hw' as <-. exists c'. rewrite Hw, lookup_insert. repeat split; [done|].
      destruct w; [done|done|].
      destruct Hm as (?&y&Hy&?). split; [done|]. exists y. by rewrite lookup_insert_ne.
    + rewrite lookup_insert_ne in Hw'; [|done].
      destruct (ic_wait _ _ _ _ _ I _ _ Hw') as (y&Hy&Hyb&Hym).
      assert (wtarget w' <> n).
      { intros E. rewrite E, Hn in Hy. injection Hy as <-. destruct w' as [???? |????|?]; destruct (ac_st c) eqn:?; simplify_eq/=; naive_solver. }
      exists y. rewrite lookup_insert_ne by done. split; [done|]. split; [done|].
      destruct w'; [done|done|]. destruct Hym as (?&z&Hz&?). split; [done|].
      destruct (decide (x = n)) as [->|].
      * simplify_eq.
      * exists z. by rewrite lookup_insert_ne.
  - intros k x Hx Hax. destruct (decide (k = n)) as [->|].
    + rewrite lookup_insert in Hx. simplify_eq. split; [by left|]. exists w. by rewrite lookup_insert.
    + rewrite lookup_insert_ne in Hx by done. destruct (ic_act _ _ _ _ _ I _ _ Hx Hax) as [H1 (w'&Hw'&?)]. split.
      * right. destruct H1 as [->|?]; [by rewrite lookup_insert|]. destruct (decide (k = cur)) as [->|]; [by rewrite lookup_insert|].
        by rewrite lookup_insert_ne.
      * exists w'. rewrite lookup_insert_ne; [done|]. intros E; rewrite <- E, (ic_wcur _ _ _ _ _ I) in Hw'; done.
  - intros k x Hx. destruct (decide (k = n)) as [->|].
    + rewrite lookup_insert in Hx. by simplify_eq.
    + rewrite lookup_insert_ne in Hx by done. by eapply ic_co.
  - intros h sd kd e x He Hx. destruct (decide (ep_co e = n)) as [E|].
    + rewrite E, lookup_insert in Hx. simplify_eq. apply Hh; [done|]. eapply ic_h; [done|done|by rewrite E].
    + rewrite lookup_insert_ne in Hx by done. eapply ic_h; eauto.
  - intros. by eapply ic_hd.
  - apply I.
Qed.

(** Control leaves coroutine [n] = current context. *)
Lemma InvC_back co wt hs n nk c c' :
  InvC co wt hs n nk -> co !! n = Some c -> active (ac_st c') = false ->
  co_ok c' -> (forall h sd kd e, hs !! h = Some (HObj sd kd (Some e)) -> ep_co e = n -> h_ok sd kd e c -> h_ok sd kd e c') ->
  InvC (<[n := c']> co) (delete (ac_by c) wt) hs (ac_by c) nk.
Proof.
  intros I Hn Ha' Hco Hh.
  pose proof (cur_active _ _ _ _ _ _ I Hn) as Ha.
  destruct (ic_act _ _ _ _ _ I _ _ Hn Ha) as [_ (w&Hw&Hwt)].
  assert (Hbn : ac_by c <> n). { intros E. rewrite E, (ic_wcur _ _ _ _ _ I) in Hw. done. }
  assert (Hctx : forall x, x <> n -> ctx_ok co x -> ctx_ok (<[n:=c']> co) x).
  { intros x Hx [->|(y&Hy&?)]; [by left|]. right. exists y. by rewrite lookup_insert_ne. }
  split.
  - intros k x Hx. destruct (decide (k = n)) as [->|].
    + by apply (ic_dom _ _ _ _ _ I _ _ Hn).
    + rewrite lookup_insert_ne in Hx; [|done]. by eapply ic_dom.
  - apply Hctx; [done|]. by eapply ic_ctx.
  - by rewrite lookup_delete.
  - intros x w' Hw'. apply lookup_delete_Some in Hw' as [? Hw'].
    apply Hctx; [|by eapply ic_ctx]. intros ->. rewrite (ic_wcur _ _ _ _ _ I) in Hw'. done.
  - intros x w' Hw'. apply lookup_delete_Some in Hw' as [? Hw'].
    destruct (ic_wait _ _ _ _ _ I _ _ Hw') as (y&Hy&Hyb&Hym).
    assert (wtarget w' <> n). { intros E. rewrite E in Hy. simplify_eq. }
    exists y. rewrite lookup_insert_ne by done. split; [done|]. split; [done|].
    destruct w'; [done|done|]. destruct Hym as (?&z&Hz&?). split; [done|].
    exists z. rewrite lookup_insert_ne; [done|]. intros E; rewrite <- E, (ic_wcur _ _ _ _ _ I) in Hw'; done.
  - intros k x Hx Hax. destruct (decide (k = n)) as [->|].
    + rewrite lookup_insert in Hx. simplify_eq. congruence.
    + rewrite lookup_insert_ne in Hx by done. destruct (ic_act _ _ _ _ _ I _ _ Hx Hax) as [H1 (w'&Hw'&?)]. split.
      * destruct H1 as [->|?]; [done|]. destruct (decide (k = ac_by c)) as [->|]; [by left|]. right. by rewrite lookup_delete_ne.
      * exists w'. rewrite lookup_delete_ne; [done|]. intros E. rewrite E in Hw. simplify_eq.
  - intros k x Hx. destruct (decide (k = n)) as [->|].
    + rewrite lookup_insert in Hx. by simplify_eq.
    + rewrite lookup_insert_ne in Hx by done. by eapply ic_co.
  - intros h sd kd e x He Hx. destruct (decide (ep_co e = n)) as [E|].
    + rewrite E, lookup_insert in Hx. simplify_eq. eapply Hh; [done|done|]. eapply ic_h; [done|done|by rewrite E].
    + rewrite lookup_insert_ne in Hx by done. eapply ic_h; eauto.
  - intros. by eapply ic_hd.
  - apply I.
Qed.

(** Coroutine [n] = current context ends. *)
Lemma InvC_exit co wt hs n nk c :
  InvC co wt hs n nk -> co !! n = Some c ->
  InvC (delete n co) (delete (ac_by c) wt) hs (ac_by c) nk.
Proof.
  intros I Hn.
  pose proof (cur_active _ _ _ _ _ _ I Hn) as Ha.
  destruct (ic_act _ _ _ _ _ I _ _ Hn Ha) as [_ (w&Hw&Hwt)].
  assert (Hbn : ac_by c <> n). { intros E. rewrite E, (ic_wcur _ _ _ _ _ I) in Hw. done. }
  assert (Hctx : forall x, x <> n -> ctx_ok co x -> ctx_ok (delete n co) x).
  { intros x Hx [->|(y&Hy&?)]; [by left|]. right. exists y. by rewrite lookup_delete_ne. }
  split.
  - intros k x Hx. apply lookup_delete_Some in Hx as [? Hx]. by eapply ic_dom.
  - apply Hctx; [done|]. by eapply ic_ctx.
  - by rewrite lookup_delete.
  - intros x w' Hw'. apply lookup_delete_Some in Hw' as [? Hw'].
    apply Hctx; [|by eapply ic_ctx]. intros ->. rewrite (ic_wcur _ _ _ _ _ I) in Hw'. done.
  - intros x w' Hw'. apply lookup_delete_Some in Hw' as [? Hw'].
    destruct (ic_wait _ _ _ _ _ I _ _ Hw') as (y&Hy&Hyb&Hym).
    assert (wtarget w' <> n). { intros E. rewrite E in Hy. simplify_eq. }
    exists y. rewrite lookup_delete_ne by done. split; [done|]. split; [done|].
    destruct w'; [done|done|]. destruct Hym as (?&z&Hz&?). split; [done|].
    exists z. rewrite lookup_delete_ne; [done|]. intros E; rewrite <- E, (ic_wcur _ _ _ _ _ I) in Hw'; done.
  - intros k x Hx Hax. apply lookup_delete_Some in Hx as [? Hx].
    destruct (ic_act _ _ _ _ _ I _ _ Hx Hax) as [H1 (w'&Hw'&?)]. split.
    + destruct H1 as [->|?]; [done|]. destruct (decide (k = ac_by c)) as [->|]; [by left|]. right. by rewrite lookup_delete_ne.
    + exists w'. rewrite lookup_delete_ne; [done|]. intros E. rewrite E in Hw. simplify_eq.
  - intros k x Hx. apply lookup_delete_Some in Hx as [? Hx]. by eapply ic_co.
  - intros h sd kd e x He Hx. apply lookup_delete_Some in Hx as [? Hx]. eapply ic_h; eauto.
  - intros. by eapply ic_hd.
  - apply I.
Qed.

(** The slot of [n] changes. *)
Lemma InvC_slot co wt hs cur nk n c s :
  InvC co wt hs cur nk -> co !! n = Some c ->
  slot_ok (ac_kind c) s -> (s = SlEmpty -> ac_slot c = SlEmpty) ->
  (s <> SlEmpty -> ac_slot c <> SlEmpty \/ active (ac_st c) = false) ->
  InvC (<[n := c_slot s c]> co) wt hs cur nk.
Proof.
  intros I Hn Hs Hs1 Hs2.
  assert (Hctx : forall x, ctx_ok co x -> ctx_ok (<[n:=c_slot s c]> co) x).
  { intros x [->|(y&Hy&?)]; [by left|]. right. destruct (decide (x = n)) as [->|].
    - simplify_eq. eexists. rewrite lookup_insert. by split.
    - exists y. by rewrite lookup_insert_ne. }
  split.
  - intros k x Hx. destruct (decide (k = n)) as [->|].
    + by apply (ic_dom _ _ _ _ _ I _ _ Hn).
    + rewrite lookup_insert_ne in Hx; [|done]. by eapply ic_dom.
  - apply Hctx, I.
  - apply I.
  - intros. eapply Hctx, ic_ctx; eauto.
  - intros x w' Hw'. destruct (ic_wait _ _ _ _ _ I _ _ Hw') as (y&Hy&Hyb&Hym).
    assert (Hunw : match w' with WExit _ => exists y, <[n:=c_slot s c]> co !! x = Some y /\ unw_st (ac_st y) = true | _ => True end).
    { destruct w'; [done|done|]. destruct Hym as (?&z&Hz&?). destruct (decide (x = n)) as [->|].
      - simplify_eq. eexists. rewrite lookup_insert. by split.
      - exists z. by rewrite lookup_insert_ne. }
    destruct (decide (wtarget w' = n)) as [E|].
    + rewrite E in Hy. simplify_eq. exists (c_slot s c). rewrite lookup_insert. split; [done|]. split; [done|].
      destruct w'; cbn.
      * destruct Hym as [Hr Hym]. split; [done|]. intros h kd ->. destruct (Hym h kd) as (?&?&Hem); [done|].
        split; [done|]. split; [done|]. destruct s; [done| |].
        -- destruct Hs2 as [?|Hf]; [done|done|]. rewrite Hr in Hf. done.
        -- destruct Hs2 as [?|Hf]; [done|done|]. rewrite Hr in Hf. done.
      * done.
      * by destruct Hym.
    + exists y. rewrite lookup_insert_ne by done. split; [done|]. split; [done|].
      destruct w'; [done|done|]. by destruct Hym.
  - intros k x Hx Hax. destruct (decide (k = n)) as [->|].
    + rewrite lookup_insert in Hx. simplify_eq. eapply (ic_act _ _ _ _ _ I _ _ Hn Hax).
    + rewrite lookup_insert_ne in Hx by done. eapply (ic_act _ _ _ _ _ I _ _ Hx Hax).
  - intros k x Hx. destruct (decide (k = n)) as [->|].
    + rewrite lookup_insert in Hx. simplify_eq. destruct (ic_co _ _ _ _ _ I _ _ Hn).
      split; cbn; eauto. intros. intros ->. eapply co_push0; eauto. intros. intros ->. eapply co_pull0; eauto.
    + rewrite lookup_insert_ne in Hx by done. by eapply ic_co.
  - intros h sd kd e x He Hx. destruct (decide (ep_co e = n)) as [E|].
    + rewrite E, lookup_insert in Hx. simplify_eq.
      destruct (ic_h _ _ _ _ _ I _ _ _ _ _ He Hn) as [? H2]. split; [done|].
      destruct e; [|done]. destruct H2 as [? H2]. split; [done|]. intros. destruct H2 as [H2|H2]; [done|done| |by right].
      left. cbn. intros E'. apply H2, Hs1, E'.
    + rewrite lookup_insert_ne in Hx by done. eapply ic_h; eauto.
  - intros. by eapply ic_hd.
  - apply I.
Qed.

(** Changes of the object table. *)
Lemma InvC_hs co wt hs hs' cur nk :
  InvC co wt hs cur nk ->
  (forall h sd kd e, hs' !! h = Some (HObj sd kd (Some e)) -> exists h', hs !! h' = Some (HObj sd kd (Some e))) ->
  InvC co wt hs' cur nk.
Proof.
  intros I H. split; try apply I.
  - intros h sd kd e c He Hc. destruct (H _ _ _ _ He) as [h' ?]. eapply ic_h; eauto.
  - intros h sd kd e He. destruct (H _ _ _ _ He) as [h' ?]. eapply ic_hd; eauto.
Qed.

Lemma InvC_hdel co wt hs cur nk h : InvC co wt hs cur nk -> InvC co wt (delete h hs) cur nk.
Proof.
  intros I. eapply InvC_hs; [done|]. intros h' ??? H. apply lookup_delete_Some in H as [??]. eauto.
Qed.

Lemma InvC_hnone co wt hs cur nk h sd kd : InvC co wt hs cur nk -> InvC co wt (<[h := HObj sd kd None]> hs) cur nk.
Proof.
  intros I. eapply InvC_hs; [done|]. intros h' ??? H. destruct (decide (h = h')) as [->|].
  - by rewrite lookup_insert in H.
  - rewrite lookup_insert_ne in H by done. eauto.
Qed.

Lemma InvC_hadd co wt hs cur nk h sd kd e c :
  InvC co wt hs cur nk -> co !! ep_co e = Some c -> h_ok sd kd e c ->
  InvC co wt (<[h := HObj sd kd (Some e)]> hs) cur nk.
Proof.
  intros I Hc Hh. split; try apply I.
  - intros h' sd' kd' e' x He Hx. destruct (decide (h = h')) as [->|].
    + rewrite lookup_insert in He. by simplify_eq.
    + rewrite lookup_insert_ne in He by done. eapply ic_h; eauto.
  - intros h' sd' kd' e' He. destruct (decide (h = h')) as [->|].
    + rewrite lookup_insert in He. simplify_eq. by eapply ic_dom in Hc; [|done]; lia.
    + rewrite lookup_insert_ne in He by done. eapply ic_hd; eauto.
Qed.

Lemma InvC_nk co wt hs cur nk : InvC co wt hs cur nk -> InvC co wt hs cur (S nk).
Proof.
  intros I. split; try apply I.
  - intros ?? H. apply (ic_dom _ _ _ _ _ I) in H. lia.
  - intros ???? H. apply (ic_hd _ _ _ _ _ I) in H. lia.
  - lia.
Qed.

(** A new coroutine that is not running. *)
Lemma InvC_new co wt hs cur nk c :
  InvC co wt hs cur nk -> active (ac_st c) = false -> co_ok c ->
  InvC (<[nk := c]> co) wt hs cur (S nk).
Proof.
  intros I Ha Hc. pose proof (ic_nk _ _ _ _ _ I) as H0.
  assert (Hfresh : co !! nk = None).
  { destruct (co !! nk) eqn:E; [|done]. apply (ic_dom _ _ _ _ _ I) in E. lia. }
  assert (Hne : forall x y, co !! x = Some y -> x <> nk) by (intros; congruence).
  assert (Hctx : forall x, ctx_ok co x -> ctx_ok (<[nk:=c]> co) x).
  { intros x [->|(y&Hy&?)]; [by left|]. right. exists y. rewrite lookup_insert_ne; [done|]. by apply not_eq_sym, (Hne _ y). }
  split.
  - intros k x Hx. destruct (decide (k = nk)) as [->|]; [lia|].
    rewrite lookup_insert_ne in Hx by done. apply (ic_dom _ _ _ _ _ I) in Hx. lia.
  - apply Hctx, I.
  - apply I.
  - intros. eapply Hctx, ic_ctx; eauto.
  - intros x w' Hw'. destruct (ic_wait _ _ _ _ _ I _ _ Hw') as (y&Hy&Hyb&Hym).
    exists y. rewrite lookup_insert_ne by (by apply not_eq_sym, (Hne _ y)). split; [done|]. split; [done|].
    destruct w'; [done|done|]. destruct Hym as (?&z&Hz&?). split; [done|].
    exists z. rewrite lookup_insert_ne; [done|]. by apply not_eq_sym, (Hne _ z).
  - intros k x Hx Hax. destruct (decide (k = nk)) as [->|].
    + rewrite lookup_insert in Hx. simplify_eq. congruence.
    + rewrite lookup_insert_ne in Hx by done. eapply (ic_act _ _ _ _ _ I _ _ Hx Hax).
  - intros k x Hx. destruct (decide (k = nk)) as [->|].
    + rewrite lookup_insert in Hx. by simplify_eq.
    + rewrite lookup_insert_ne in Hx by done. by eapply ic_co.
  - intros h sd kd e x He Hx. pose proof (ic_hd _ _ _ _ _ I _ _ _ _ He).
    rewrite lookup_insert_ne in Hx by lia. eapply ic_h; eauto.
  - intros h sd kd e He. pose proof (ic_hd _ _ _ _ _ I _ _ _ _ He). lia.
  - lia.
Qed.

(** ** Preservation by every step *)

Lemma kill_inv j w a a' :
  InvS a -> wtarget w = j -> (forall x o po k, w <> WOp x o po k) ->
  (forall x, w = WExit x -> exists y, a_co a !! a_cur a = Some y /\ unw_st (ac_st y) = true) ->
  kill j w a = ANext a' -> Inv a'.
Proof.
  intros I Hw Hop Hex Hk. unfold kill in Hk.
  destruct (a_co a !! j) as [c|] eqn:Hc; [|done].
  pose proof (ic_co _ _ _ _ _ I _ _ Hc) as Hco.
  set (drop := match ac_side c with Pull => _ | _ => _ end) in Hk.
  assert (Hdrop : forall a0, drop = Some a0 ->
            a_co a0 = a_co a /\ a_wait a0 = a_wait a /\ a_h a0 = a_h a /\ a_cur a0 = a_cur a /\ a_nk a0 = a_nk a).
  { intros a0. unfold drop. destruct (ac_side c), (ac_kind c), (ac_slot c); intros; simplify_eq; done. }
  destruct drop as [a0|]; [|done]. destruct (Hdrop a0 eq_refl) as (E1&E2&E3&E4&E5). clear Hdrop.
  set (c' := ACo _ _ _ _ _ _) in Hk.
  assert (Hna : active (ac_st c) = false). { by destruct (ac_st c). }
  assert (InvC (<[j := c']> (a_co a)) (<[a_cur a := w]> (a_wait a)) (a_h a) j (a_nk a)) as I'.
  { eapply InvC_switch; eauto; subst c'; cbn; rewrite ?E4; try done.
    - destruct Hco. split; cbn; try done.
      + destruct (ac_side c), (ac_kind c); done.
      + intros Hsd ?. rewrite Hsd. destruct (ac_st c) eqn:?; simplify_eq/=; intros ?; eauto.
    - intros sd kd e _ [? Hh]. split; [done|]. destruct e; cbn in *; [|done].
      destruct Hh as [-> Hh]. split; [done|]. intros. by right.
    - destruct w; [by destruct (Hop j0 o po k)|done|]. split; [done|]. eauto. }
  destruct (ac_st c) eqn:Hst; simplify_eq/=.
  - split; [unfold InvS; cbn; by rewrite ?E1, ?E2, ?E3, ?E4, ?E5|]. unfold foc_inv; cbn.
    exists c'. rewrite lookup_insert. by subst c'.
  - unfold exn_to in Hk; simplify_eq. split; [|done]. unfold InvS; cbn; by rewrite ?E1, ?E2, ?E3, ?E4, ?E5.
  - split; [unfold InvS; cbn; by rewrite ?E1, ?E2, ?E3, ?E4, ?E5|]. unfold foc_inv; cbn.
    exists c'. rewrite lookup_insert. by subst c'.
Qed.

Lemma deliver_inv j o po k x a a' :
  InvS a ->
  (forall h kd, po = PoNew h kd -> exists c, a_co a !! j = Some c /\ ac_side c = Pull /\ ac_kind c = kd) ->
  deliver j o po k x a = ANext a' -> Inv a'.
Proof.
  intros I Hpo Hd. unfold deliver in Hd.
  destruct x as [e|].
  - destruct po; try (unfold exn_to in Hd; simplify_eq; by split).
    eapply kill_inv in Hd; eauto; done.
  - destruct po.
    + unfold ret_to in Hd; simplify_eq; by split.
    + repeat case_match; simplify_eq; unfold ret_to in Hd; simplify_eq; by split.
    + repeat case_match; simplify_eq; unfold ret_to in Hd; simplify_eq; by split.
    + destruct (Hpo _ _ eq_refl) as (c&Hc&Hs&Hkd). rewrite Hc in Hd. cbn in Hd.
      pose proof (ic_co _ _ _ _ _ I _ _ Hc) as Hco.
      destruct (ac_st c) eqn:Hst; try done.
      * unfold ret_to in Hd; simplify_eq. split; [|done].
        eapply InvC_hadd; eauto. split; [done|]. split; [done|]. intros. left. eapply (co_pull _ Hco); eauto.
      * eapply kill_inv in Hd; eauto; done.
Qed.

(** Control goes back from [n], whose slot may just have changed. *)
Lemma back_inv co wt hs nk n st c s :
  InvC co wt hs n nk -> co !! n = Some c ->
  active st = false -> co_ok (c_st st (c_slot s c)) -> (s = SlEmpty -> ac_slot c = SlEmpty) -> ac_st c = ARun ->
  InvC (<[n := c_st st (c_slot s c)]> co) (delete (ac_by c) wt) hs (ac_by c) nk.
Proof.
  intros I Hc Hst Hco Hs Hrun.
  eapply InvC_back; eauto. intros h sd kd e _ Hen [? Hh]. split; [done|]. destruct e; cbn in *; [|done].
  destruct Hh as [? Hh]. split; [done|]. intros. destruct Hh as [Hh|Hh]; [done|done| |].
  + left. auto.
  + rewrite Hrun in Hh. done.
Qed.

(** Control enters [n], whose slot may just have changed. *)
Lemma enter_inv co wt hs cur nk n sd kd o po k c s :
  InvC co wt hs cur nk -> co !! n = Some c ->
  (s = SlEmpty -> ac_slot c = SlEmpty /\ (ac_kind c = KVoid \/ sd = Pull)) -> slot_ok (ac_kind c) s ->
  h_ok sd kd (Outer n) c -> (forall h kd', po <> PoNew h kd') -> active (ac_st c) = false ->
  InvC (<[n := c_by cur (c_st ARun (c_slot s c))]> co) (<[cur := WOp n o po k]> wt) hs n nk.
Proof.
  intros I Hc Hs Hsl Hh Hpo Hna.
  pose proof (ic_co _ _ _ _ _ I _ _ Hc) as Hco.
  eapply InvC_switch; eauto; cbn; try done.
  - destruct Hco. split; cbn; try done. intros ???. intros ->. destruct Hs as [Hs1 [Hs2|Hs2]]; [done|done|].
    destruct Hh as [_ [? _]]. congruence.
  - intros sd' kd' e Hen [? Hh']. split; [done|]. destruct e; cbn in *; [|done].
    destruct Hh' as [? Hh']. split; [done|]. intros. left. intros ->. destruct Hh' as [Hh'|Hh']; [done|done| |].
    + by destruct Hs.
    + by destruct (ac_st c).
  - split; [done|]. intros h kd' ->. by destruct (Hpo h kd').
Qed.

(** [give_back] on a state that differs from one satisfying the invariant only in
    the slot of [n]. *)
Lemma give_back_inv n st x a a0 c s a' :
  InvC (a_co a0) (a_wait a) (a_h a) n (a_nk a) -> a_co a0 !! n = Some c ->
  a_co a = <[n := c_slot s c]> (a_co a0) ->
  active st = false -> co_ok (c_st st (c_slot s c)) -> (s = SlEmpty -> ac_slot c = SlEmpty) -> ac_st c = ARun ->
  give_back n st x a = ANext a' -> Inv a'.
Proof.
  intros I Hc Ha Hst Hco Hs Hrun Hg. unfold give_back in Hg. rewrite Ha, lookup_insert in Hg. cbn in Hg.
  destruct (a_wait a !! ac_by c) as [[j o po k| |]|] eqn:Hw; try done.
  pose proof (ic_wait _ _ _ _ _ I _ _ Hw) as (y&Hy&Hyb&Hyr&Hyn). cbn in *.
  assert (j = n) as ->.
  { pose proof (cur_active _ _ _ _ _ _ I Hc) as Hact.
    destruct (ic_act _ _ _ _ _ I _ _ Hc Hact) as [_ (w&Hw'&Hwt)]. by simplify_eq/=. }
  simplify_eq.
  eapply deliver_inv; [| |exact Hg].
  - unfold InvS; cbn. rewrite Ha, insert_insert. by eapply back_inv.
  - intros h kd ->. destruct (Hyn h kd eq_refl) as (?&?&?). eexists. cbn. rewrite lookup_insert. split; [done|]. by cbn.
Qed.

Lemma yield_co_ok c s sd kd n o po k :
  co_ok c -> ac_st c = ARun -> h_ok sd kd (Inner n) c -> slot_ok (ac_kind c) s ->
  (s = SlEmpty -> ac_slot c = SlEmpty /\ (ac_kind c = KVoid \/ sd = Pull)) -> (forall h kd', po <> PoNew h kd') ->
  co_ok (c_st (ASusp o po k) (c_slot s c)).
Proof.
  intros Hco Hst Hh Hsl Hs Hpo. destruct Hco. split; cbn; try done.
  * intros. intros ->. destruct Hs as [Hs _]; [done|]. rewrite Hst in *. eapply co_push0; eauto.
  * intros ???. intros. intros ->. destruct Hs as [Hs1 [Hs2|Hs2]]; [done|done|].
    destruct Hh as [_ Hh]. subst sd. cbn in Hh. congruence.
  * intros. intros E. simplify_eq. by destruct (Hpo h kd0).
Qed.

Lemma transfer_inv e kd sd o po k a a0 c s a' :
  InvC (a_co a0) (a_wait a) (a_h a) (a_cur a) (a_nk a) -> a_co a0 !! ep_co e = Some c ->
  a_co a = <[ep_co e := c_slot s c]> (a_co a0) ->
  (s = SlEmpty -> ac_slot c = SlEmpty /\ (ac_kind c = KVoid \/ sd = Pull)) -> slot_ok (ac_kind c) s ->
  h_ok sd kd e c -> (forall h kd', po <> PoNew h kd') ->
  resumable e a = true -> transfer e o po k a = ANext a' -> Inv a'.
Proof.
  intros I Hc Ha Hs Hsl Hh Hpo Hr Ht.
  pose proof (ic_co _ _ _ _ _ I _ _ Hc) as Hco.
  destruct e as [n|n]; unfold resumable in Hr; unfold transfer in Ht; cbn in *.
  - rewrite Ha, lookup_insert in *. cbn in *.
    assert (Hna : active (ac_st c) = false) by by destruct (ac_st c).
    pose proof (enter_inv _ _ _ _ _ _ _ _ o po k _ _ I Hc Hs Hsl Hh Hpo Hna) as I'.
    destruct (ac_st c) eqn:Hst; try done.
    + simplify_eq. split; [|done]. unfold InvS; cbn. by rewrite Ha, insert_insert.
    + eapply deliver_inv; [| |exact Ht].
      * unfold InvS; cbn. by rewrite Ha, insert_insert.
      * intros h kd' ->. by destruct (co_post _ Hco o0 h kd' k0).
  - rewrite Ha, lookup_insert in Hr. apply andb_true_iff in Hr as [Hr1 Hr2]. apply bool_decide_eq_true in Hr1 as ->.
    cbn in Hr2. destruct (ac_st c) eqn:Hst; try done.
    eapply (give_back_inv _ _ _ _ _ _ s); eauto; try done.
    + by eapply yield_co_ok.
    + intros ->. by destruct Hs.
Qed.

Lemma c_slot_id c : c_slot (ac_slot c) c = c.
Proof. by destruct c. Qed.

Lemma push_op_inv e kd lv g o po k a a' c :
  InvS a -> a_co a !! ep_co e = Some c -> h_ok Push kd e c -> (forall h kd', po <> PoNew h kd') ->
  push_op e kd lv g o po k a = ANext a' -> Inv a'.
Proof.
  intros I Hc Hh Hpo Hp. unfold push_op in Hp.
  destruct (resumable e a) eqn:Hr; [|done]. cbn in Hp. rewrite Hc in Hp.
  pose proof (ic_co _ _ _ _ _ I _ _ Hc) as Hco.
  assert (ac_kind c = kd) as Hkd by apply Hh.
  destruct kd.
  - assert (Hset : forall v u b, transfer e o po k
                    (alog (EvSet (ep_co e) (PVal v)) (w_user u (put_co (ep_co e) (c_slot (SlFull (PVal v)) c) b))) = ANext a' ->
                    InvS b -> a_cur b = a_cur a -> a_co b = a_co a -> Inv a').
    { intros v u b Ht Ib Eb1 Eb2.
      eapply (transfer_inv e KVal Push o po k _ b c (SlFull (PVal v))); [..|exact Ht]; cbn; try done.
      - by rewrite Eb2.
      - unfold resumable in *. cbn. rewrite Eb1, Eb2. destruct e as [n|n]; rewrite lookup_insert; cbn in Hc; rewrite Hc in Hr; done. }
    assert (Hbad : forall b f e', exn_to o (XUser e') k (put_co (ep_co e) (c_slot f c) b) = ANext a' ->
                    InvS b -> a_co b = a_co a -> (f = SlEmpty -> ac_slot c = SlEmpty) -> slot_ok KVal f ->
                    (f <> SlEmpty -> ac_slot c <> SlEmpty) -> Inv a').
    { intros b f e' He Ib Eb Hf1 Hf2 Hf3. unfold exn_to in He. simplify_eq. split; [|done].
      unfold InvS; cbn. eapply InvC_slot; eauto.
      - by rewrite Eb.
      - by rewrite Hkd. }
    destruct (ac_slot c) as [|p|] eqn:Hsl; [| |done].
    + destruct (aconstruct lv g (a_user a)) as [[e'|[v u]]|]; [| |done].
      * eapply Hbad; eauto; done.
      * eapply Hset; eauto.
    + destruct (aconstruct lv g (a_user a)) as [[e'|[v u]]|]; [| |done].
      * eapply Hbad; eauto; try done.
      * eapply Hset; eauto.
  - destruct g as [| | |l|]; try done.
    eapply (transfer_inv e KRef Push o po k _ a c (SlFull (PRef l))); [..|exact Hp]; cbn; try done.
    + unfold resumable in *. cbn. destruct e as [n|n]; rewrite lookup_insert; cbn in Hc; rewrite Hc in Hr; done.
  - eapply (transfer_inv e KVoid Push o po k _ a c (ac_slot c)); [..|exact Hp]; cbn; try done.
    + by rewrite c_slot_id, insert_id.
    + intros. auto.
    + apply Hco.
Qed.

Lemma resume_inv e kd o po k a a' h :
  InvS a -> a_h a !! h = Some (HObj Pull kd (Some e)) -> (forall h kd', po <> PoNew h kd') ->
  resumable e a = true -> transfer e o po k a = ANext a' -> Inv a'.
Proof.
  intros I Hh Hpo Hr Ht.
  destruct (a_co a !! ep_co e) as [c|] eqn:Hc.
  - pose proof (ic_co _ _ _ _ _ I _ _ Hc) as Hco.
    eapply (transfer_inv e kd Pull o po k _ a c (ac_slot c)); [..|exact Ht]; cbn; try done.
    + by rewrite c_slot_id, insert_id.
    + intros. auto.
    + apply Hco.
    + eapply ic_h; eauto.
  - unfold resumable in Hr. destruct e; cbn in *; rewrite Hc in Hr; [done|]. by rewrite andb_false_r in Hr.
Qed.

Lemma push_inv e kd lv g o po k a a' h :
  InvS a -> a_h a !! h = Some (HObj Push kd (Some e)) -> (forall h kd', po <> PoNew h kd') ->
  push_op e kd lv g o po k a = ANext a' -> Inv a'.
Proof.
  intros I Hh Hpo Hp.
  destruct (a_co a !! ep_co e) as [c|] eqn:Hc.
  - eapply push_op_inv; eauto. eapply ic_h; eauto.
  - unfold push_op in Hp. rewrite Hc in Hp. by destruct (resumable e a).
Qed.

Lemma do_op_inv o k a a' : InvS a -> do_op o k a = ANext a' -> Inv a'.
Proof.
  intros I Hd. unfold do_op in Hd. destruct o.
  - destruct (a_h a !! h) as [[sd kd e]|] eqn:Hh; [|done]. unfold ret_to in Hd. simplify_eq. split; [|done].
    unfold InvS; cbn. eapply InvC_hnone, InvC_hs; [done|]. intros h' sd' kd' e' H. destruct (decide (a_nh a = h')) as [<-|].
    + rewrite lookup_insert in H. simplify_eq. eauto.
    + rewrite lookup_insert_ne in H by done. eauto.
  - destruct (a_h a !! h1) as [[sd1 kd1 e1]|] eqn:Hh1; [|done].
    destruct (a_h a !! h2) as [[sd2 kd2 e2]|] eqn:Hh2; [|done].
    destruct (bool_decide (sd1 = sd2) && bool_decide (kd1 = kd2)) eqn:Hb; [|done].
    apply andb_true_iff in Hb as [->%bool_decide_eq_true ->%bool_decide_eq_true].
    unfold ret_to in Hd. simplify_eq. split; [|done].
    unfold InvS; cbn. eapply InvC_hs; [done|]. intros h' sd' kd' e' H.
    destruct (decide (h2 = h')) as [<-|].
    + rewrite lookup_insert in H. simplify_eq. eauto.
    + rewrite lookup_insert_ne in H by done. destruct (decide (h1 = h')) as [<-|].
      * rewrite lookup_insert in H. simplify_eq. eauto.
      * rewrite lookup_insert_ne in H by done. eauto.
  - destruct (a_h a !! h) as [[sd kd [[n|n]|]]|] eqn:Hh; [| | |done].
    + eapply kill_inv in Hd; eauto; try done. by apply InvC_hdel.
    + cbn in Hd. destruct (a_co a !! n) eqn:Hn; [|done]. unfold ret_to in Hd. simplify_eq. split; [|done]. by apply InvC_hdel.
    + unfold ret_to in Hd. simplify_eq. split; [|done]. by apply InvC_hdel.
  - destruct (a_h a !! h) as [[[] kd [e|]]|] eqn:Hh; try done.
    destruct (resumable e a) eqn:Hr; [|done]. eapply resume_inv; eauto; done.
  - destruct (a_h a !! h) as [[[] kd [e|]]|] eqn:Hh; try done.
    destruct (aarg_ok kd a0) eqn:Hr; [|done]. eapply push_inv; eauto; done.
  - repeat case_match; try done; unfold ret_to in Hd; simplify_eq; by split.
  - repeat case_match; try done; unfold ret_to in Hd; simplify_eq; by split.
  - destruct (a_h a !! h) as [[[] kd [e|]]|] eqn:Hh; try done.
    destruct (readable e a) as [c|] eqn:Hrd; [|done].
    assert (a_co a !! ep_co e = Some c) as Hc.
    { unfold readable in Hrd. destruct e; cbn in *; destruct (a_co a !! k0) as [c'|]; cbn in Hrd; try done;
        repeat case_match; by simplify_eq. }
    destruct kd; [| |done].
    + destruct (ac_slot c) as [|[v|]|] eqn:Hs; try done. destruct (move_exn v); [done|].
      unfold ret_to in Hd. simplify_eq. split; [|done]. unfold InvS; cbn.
      pose proof (ic_h _ _ _ _ _ I _ _ _ _ _ Hh Hc) as [Hk _].
      eapply InvC_slot; eauto; rewrite ?Hk, ?Hs; try done. by left.
    + repeat case_match; try done; unfold ret_to in Hd; simplify_eq; by split.
  - repeat case_match; try done; unfold ret_to in Hd; simplify_eq; by split.
  - unfold ret_to in Hd; simplify_eq; by split.
  - destruct i as [h|]; [|done].
    destruct (a_h a !! h) as [[[] kd [e|]]|] eqn:Hh; try done.
    destruct (not_void kd && resumable e a) eqn:Hr; [|done]. apply andb_true_iff in Hr as [??].
    eapply resume_inv; eauto; done.
  - repeat case_match; try done; unfold ret_to in Hd; simplify_eq; by split.
  - unfold ret_to in Hd; simplify_eq; by split.
  - unfold ret_to in Hd; simplify_eq; by split.
  - repeat case_match; try done; unfold ret_to in Hd; simplify_eq; by split.
  - unfold ret_to in Hd; simplify_eq; by split.
  - destruct i as [h|]; [|done].
    destruct (a_h a !! h) as [[[] kd [e|]]|] eqn:Hh; try done.
    destruct (aout_ok kd a0) eqn:Hr; [|done]. eapply push_inv; eauto; done.
  - unfold ret_to in Hd; simplify_eq; by split.
  - unfold ret_to in Hd; simplify_eq; by split.
  - repeat case_match; try done; unfold ret_to in Hd; simplify_eq; by split.
  - unfold ret_to in Hd; simplify_eq; by split.
Qed.

Lemma do_new_inv sd kd np fn k a a' : InvS a -> do_new sd kd np fn k a = ANext a' -> Inv a'.
Proof.
  intros I Hd. unfold do_new in Hd.
  destruct (np_alloc np); [unfold exn_to in Hd; simplify_eq; by split|].
  destruct (np_fn np); [unfold exn_to in Hd; simplify_eq; split; [by apply InvC_nk|done]|].
  destruct sd; cbn in Hd.
  - simplify_eq. split; [|done]. unfold InvS; cbn.
    set (c := ACo Pull kd ARun SlEmpty _ _).
    assert (InvC (<[a_nk a := c_st (ADone None) c]> (a_co a)) (a_wait a) (a_h a) (a_cur a) (S (a_nk a))) as I1.
    { apply InvC_new; [done|done|]. split; done. }
    assert (InvC (<[a_nk a := c]> (<[a_nk a := c_st (ADone None) c]> (a_co a))) (<[a_cur a := WOp (a_nk a) (NNew Pull kd) (PoNew (a_nh a) kd) k]> (a_wait a)) (a_h a) (a_nk a) (S (a_nk a))) as I2.
    { eapply (InvC_switch _ _ _ _ _ _ (c_st (ADone None) c)); [exact I1|..]; try done.
      - by rewrite lookup_insert.
      - split; [done|]. intros ?? [= <- <-]. done. }
    rewrite insert_insert in I2. eapply InvC_hadd; eauto.
    + cbn. by rewrite lookup_insert.
    + split; done.
  - unfold ret_to in Hd. simplify_eq. split; [|done]. unfold InvS; cbn.
    set (c := ACo Push kd (ANew fn) SlEmpty _ _).
    assert (InvC (<[a_nk a := c]> (a_co a)) (a_wait a) (a_h a) (a_cur a) (S (a_nk a))) as I1.
    { apply InvC_new; [done|done|]. split; try done. }
    eapply InvC_hadd; [eapply InvC_hadd; [done|..]|..].
    + cbn. by rewrite lookup_insert.
    + split; done.
    + cbn. by rewrite lookup_insert.
    + split; [done|]. split; done.
Qed.

Lemma do_leave_inv x a a' : InvS a -> do_leave x a = ANext a' -> Inv a'.
Proof.
  intros I Hd. unfold do_leave in Hd. destruct (decide (a_cur a = 0)).
  { destruct x as [[]|]; done. }
  destruct (a_co a !! a_cur a) as [c|] eqn:Hc; [|done].
  pose proof (ic_co _ _ _ _ _ I _ _ Hc) as Hco.
  assert (Hdone : forall r, ac_st c = ARun -> co_ok (c_st (ADone r) (c_slot (ac_slot c) c))).
  { intros r Hr. destruct Hco. rewrite Hr in *. split; cbn; try done. }
  destruct (ac_st c) eqn:Hst; try (destruct x as [[]|]; done).
  - destruct x as [[e|]|]; try done;
    (eapply (give_back_inv _ _ _ _ a _ (ac_slot c)); [..|exact Hd]; cbn; eauto; by rewrite c_slot_id, insert_id).
  - destruct x as [[e|]|]; try done. simplify_eq. split; [done|]. exists c. cbn. rewrite Hst. done.
Qed.

Lemma do_exit_inv a a' : Inv a -> a_foc a = AExit -> do_exit a = ANext a' -> Inv a'.
Proof.
  intros [I F] Hf Hd. unfold do_exit in Hd. unfold foc_inv in F. rewrite Hf in F. destruct F as (c&Hc&Hu).
  rewrite Hc in Hd.
  destruct (a_h a !! ac_syn c) as [[sd kd [[j|j]|]]|] eqn:Hh; [| | |done].
  - eapply kill_inv in Hd; eauto; try done.
    + by apply InvC_hdel.
  - cbn in Hd. destruct (a_co a !! j) eqn:Hj; [|done]. simplify_eq. split; [by apply InvC_hdel|]. exists c. done.
  - simplify_eq. split; [by apply InvC_hdel|]. exists c. done.
Qed.

Lemma do_exit2_inv a a' : InvS a -> do_exit2 a = ANext a' -> Inv a'.
Proof.
  intros I Hd. unfold do_exit2 in Hd.
  destruct (a_co a !! a_cur a) as [c|] eqn:Hc; [|done].
  set (drop := match ac_side c with Pull => _ | _ => _ end) in Hd.
  assert (Hdrop : forall a0, drop = Some a0 ->
            a_co a0 = a_co a /\ a_wait a0 = a_wait a /\ a_h a0 = a_h a /\ a_cur a0 = a_cur a /\ a_nk a0 = a_nk a).
  { intros a0. unfold drop. destruct (ac_side c), (ac_kind c), (ac_slot c); intros; simplify_eq; done. }
  destruct drop as [a0|]; [|done]. destruct (Hdrop a0 eq_refl) as (E1&E2&E3&E4&E5). clear Hdrop.
  pose proof (InvC_exit _ _ _ _ _ _ I Hc) as I'.
  cbn in Hd. rewrite E2 in Hd.
  destruct (a_wait a !! ac_by c) as [w|] eqn:Hw; [|done].
  pose proof (ic_wait _ _ _ _ _ I _ _ Hw) as (y&Hy&Hyb&Hym).
  assert (ac_by c <> a_cur a) as Hne. { intros E. rewrite E in Hw. rewrite (ic_wcur _ _ _ _ _ I) in Hw. done. }
  destruct w as [ |j o [] k|j]; unfold ret_to, exn_to in Hd; simplify_eq.
  - split; [|done]. unfold InvS; cbn. by rewrite ?E1, ?E2, ?E3, ?E5.
  - split; [|done]. unfold InvS; cbn. rewrite ?E1, ?E2, ?E3, ?E5. by apply InvC_hnone.
  - split; [|done]. unfold InvS; cbn. by rewrite ?E1, ?E2, ?E3, ?E5.
  - split; [unfold InvS; cbn; by rewrite ?E1, ?E2, ?E3, ?E5|]. unfold foc_inv; cbn.
    destruct Hym as [_ (z&Hz&?)]. exists z. rewrite ?E1, lookup_delete_ne; done.
Qed.

Theorem astep_inv a a' : Inv a -> astep a = ANext a' -> Inv a'.
Proof.
  intros I Hs. unfold astep in Hs. destruct (a_foc a) as [s| |] eqn:Hf.
  - destruct I as [I _]. destruct s.
    + eapply do_leave_inv; eauto.
    + eapply do_leave_inv; eauto.
    + destruct (forallb (known a) (op_hs o)); [|done]. eapply do_op_inv; [|exact Hs]. done.
    + eapply do_new_inv; [|exact Hs]. done.
    + simplify_eq. by split.
  - eapply do_exit_inv; eauto.
  - eapply do_exit2_inv; eauto. apply I.
Qed.

Lemma ainit_inv p u : Inv (ainit p u).
Proof.
  split; [|done]. split; cbn; try (intros *; by rewrite ?lookup_empty).
  - by left.
  - lia.
Qed.

Theorem arun_inv n a a' : Inv a -> arun n a = ANext a' -> Inv a'.
Proof.
  revert a. induction n as [|n IH]; intros a I H; cbn in H; [by simplify_eq|].
  destruct (astep a) as [a1| |] eqn:Hs; try done. eapply IH; [|done]. by eapply astep_inv.
Qed.

End inv.
