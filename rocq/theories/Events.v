(** Events.v -- what is known at the moment an event is recorded. *)
From stdpp Require Import prelude gmap relations.
From Coq Require Import Lia.
From Verif Require Import Base Model Spec InvSpec Main Micro Trace Life.

Section events.
Context {env : Env}.

(** The position in the reference semantics at which each kind of event is recorded. *)
Definition ev_at (x y : astate * mfoc) (e : event) : Prop :=
  let a := x.1 in
  match e with
  | EvCall c o => c = a_cur a /\ x.2 = MFoc /\
      ((exists o' k, o = NOp o' /\ a_foc a = AUser (SDo o' k) /\ forallb (known a) (op_hs o') = true /\ y = (alog e a, MCall o' k)) \/
       (exists sd kd np fn k, o = NNew sd kd /\ a_foc a = AUser (SNew sd kd np fn k) /\ y = (alog e a, MNew sd kd np fn k)))
  | EvRet c o r => c = a_cur a /\
      ((exists k, x.2 = MRet o r k /\ y = (w_foc (AUser (k (ROk r))) (alog e a), MFoc)) \/
       (exists o' k a', x.2 = MCall o' k /\ o = NOp o' /\ local_op o' a = Some (a', r) /\ y = (w_foc (AUser (k (ROk r))) (alog e a'), MFoc)) \/
       (exists h kd k, x.2 = MEmpty o h kd k /\ r = AH h /\
          y = (w_foc (AUser (k (ROk (AH h)))) (alog e (w_h (<[ h := HObj Pull kd None ]> (a_h a)) a)), MFoc)))
  | EvExn c o ex => c = a_cur a /\ exists k, x.2 = MExn o ex k /\ y = (w_foc (AUser (k (RExn ex))) (alog e a), MFoc)
  | EvEnter n h =>
      (exists o po k c fn, x.2 = MXfer (Outer n) o po k /\ a_co a !! n = Some c /\ ac_st c = ANew fn /\ h = ac_syn c) \/
      (exists kd np fn k h0, x.2 = MNew2 Pull kd np fn k h0 n /\ h = a_nh a)
  | EvLeave n r => n = a_cur a /\ x.2 = MFoc /\
      ((exists s c ex, a_foc a = AUser s /\ leaving s = Some ex /\ r = XUser <$> ex /\ a_co a !! n = Some c /\ ac_st c = ARun /\ y = (alog e a, MLeft ex)) \/
       (exists c en, a_foc a = AUser (SThrow XUnwind) /\ r = Some XUnwind /\ a_co a !! n = Some c /\ ac_st c = AUnw en /\ y = (w_foc AExit (alog e a), MFoc)))
  | EvSet n p =>
      (exists d lv l o po k c, x.2 = MPush d KRef lv (ARefTo l) o po k /\ n = ep_co d /\ p = PRef l /\ a_co a !! n = Some c /\
          y = (alog e (put_co n (c_slot (SlFull p) c) a), MXfer d o po k)) \/
      (exists d lv g o po k c v u, x.2 = MPush2 d lv g o po k /\ n = ep_co d /\ p = PVal v /\ a_co a !! n = Some c /\
          aconstruct lv g (a_user a) = Some (inr (v, u)) /\ y = (alog e (w_user u (put_co n (c_slot (SlFull p) c) a)), MXfer d o po k))
  | EvDel n =>
      exists c p, a_co a !! n = Some c /\ ac_slot c = SlFull p /\
      ((exists d lv g o po k, x.2 = MPush d KVal lv g o po k /\ n = ep_co d /\ y = (alog e (put_co n (c_slot SlBad c) a), MPush2 d lv g o po k)) \/
       (exists w, x.2 = MKill n w /\ ac_side c = Pull /\ ac_kind c = KVal /\ y = (alog e a, MKill2 n w)) \/
       (n = a_cur a /\ x.2 = MFoc /\ a_foc a = AExit2 /\ ac_side c = Push /\ ac_kind c = KVal /\ y = (alog e a, MExit3)))
  | EvNew n h =>
      (exists o kd k c o' po' k', x.2 = MGot n o (PoNew h kd) k None /\ a_co a !! n = Some c /\ ac_st c = ASusp o' po' k' /\
         y = (alog e (w_h (<[ h := HObj Pull kd (Some (Outer n)) ]> (a_h a)) a), MRet o (AH h) k)) \/
      (exists kd np fn k, x.2 = MNew2 Push kd np fn k h n /\ y.2 = MRet (NNew Push kd) (AH h) k)
  | EvGone n h => n = a_cur a /\ x.2 = MFoc /\ a_foc a = AExit /\
      exists c ho, a_co a !! n = Some c /\ h = ac_syn c /\ a_h a !! h = Some ho /\ y.1 = w_foc (a_foc y.1) (alog e (w_h (delete h (a_h a)) a)) /\
      (((forall j, h_ep ho <> Some (Outer j)) /\ a_foc y.1 = AExit2 /\ y.2 = MFoc) \/
       (exists j, h_ep ho = Some (Outer j) /\ y.2 = MKill j (WExit j)))
  | EvAlloc n => n = a_nk a /\ exists sd kd np fn k, x.2 = MNew sd kd np fn k /\ np_alloc np = None /\
      y = (alog e (w_nk (S n) (w_nh (S (a_nh a)) a)), MNew2 sd kd np fn k (a_nh a) n)
  | EvFree n => n = a_cur a /\ x.2 = MExit3 /\ exists c w, a_co a !! n = Some c /\ a_wait a !! ac_by c = Some w /\
      let a1 := w_cur (ac_by c) (w_wait (delete (ac_by c) (a_wait a)) (alog e (w_co (delete n (a_co a)) a))) in
      match w with
      | WExit _ => y = (w_foc AExit2 a1, MFoc)
      | WKill _ o KfDestroy k => y = (a1, MRet o AUnit k)
      | WKill _ o (KfEmpty h kd) k => y = (a1, MEmpty o h kd k)
      | WKill _ o (KfThrow ex) k => y = (a1, MExn o (XUser ex) k)
      | WOp _ _ _ _ => False
      end
  end.

Lemma cons_self {A} (e : A) l : l = e :: l -> False.
Proof. intros H. apply (f_equal length) in H. cbn in H. lia. Qed.

Theorem micro_event x y e : micro x y -> a_tr y.1 = e :: a_tr x.1 -> ev_at x y e.
Proof.
  intros Hm He. destruct Hm; cbn in He; try (by destruct (cons_self _ _ He)); try (injection He as <-); cbn; eauto 15.
  - pose proof H as H'. apply local_op_frame in H' as (E1&E2&E3&E4&E5&E6).
    split; [done|]. right; left. eauto 10.
  - right. eauto 20.
  - subst a1. destruct w as [|? ? []|]; [done|..]; subst y; cbn in He; injection He as <-; cbn;
      (split; [done|]; split; [done|]; do 2 eexists; split; [done|]; split; [done|]; done).
Qed.

(** ** Histories and positions *)
Definition silent (x y : astate * mfoc) : Prop := micro x y /\ a_tr y.1 = a_tr x.1.

Lemma micro_tr x y : micro x y -> a_tr y.1 = a_tr x.1 \/ exists e, a_tr y.1 = e :: a_tr x.1.
Proof.
  destruct 1; cbn; eauto.
  - right. eexists. f_equal. by apply local_op_frame in H as (->&_).
  - right. destruct w as [|? ? []|]; [done|..]; subst; cbn; eauto.
Qed.

Theorem occurs_at p u z e b : mreach p u z -> occurs (a_tr z.1) e b ->
  exists x y, mreach p u x /\ micro x y /\ a_tr x.1 = b /\ a_tr y.1 = e :: b /\ rtc micro y z.
Proof.
  intros Hz. revert e b. revert z Hz. apply (mreach_ind p u (fun z => forall e b, occurs (a_tr z.1) e b ->
    exists x y, mreach p u x /\ micro x y /\ a_tr x.1 = b /\ a_tr y.1 = e :: b /\ rtc micro y z)).
  - intros e b [l Hl]. cbn in Hl. by destruct l.
  - intros x y Hx IH Hm e b [l Hl]. destruct (micro_tr _ _ Hm) as [E|[e' E]].
    + rewrite E in Hl. destruct (IH e b) as (x'&y'&?&?&?&?&?); [by exists l|]. exists x', y'. repeat split; try done. by eapply rtc_r.
    + rewrite E in Hl. destruct l as [|e'' l]; cbn in Hl; injection Hl as -> Hl.
      * exists x, y. split; [done|]. split; [done|]. split; [congruence|]. split; [congruence|]. apply rtc_refl.
      * destruct (IH e b) as (x'&y'&?&?&?&?&?); [by exists l|]. exists x', y'. repeat split; try done. by eapply rtc_r.
Qed.

Lemma occurs_tail h e e' b : occurs h e (e' :: b) -> occurs h e' b.
Proof. intros [l ->]. exists (l ++ [e]). by rewrite <- app_assoc. Qed.

(** Between two consecutive events only silent steps happen. *)
Theorem occurs_next p u z e' e b : mreach p u z -> occurs (a_tr z.1) e' (e :: b) ->
  exists x y x' y', mreach p u x /\ micro x y /\ a_tr x.1 = b /\ a_tr y.1 = e :: b /\ rtc silent y x' /\
    micro x' y' /\ mreach p u x' /\ a_tr x'.1 = e :: b /\ a_tr y'.1 = e' :: e :: b.
Proof.
  intros Hz Ho. destruct (occurs_at _ _ _ _ _ Hz Ho) as (x'&y'&Hx'&Hm'&Hb'&He'&_).
  destruct (occurs_at p u x' e b Hx') as (x&y&Hx&Hm&Hb&He&Hs); [by exists []; rewrite Hb'|].
  exists x, y, x', y'. repeat split; try done.
  clear -Hs Hb' He. revert Hb'. induction Hs as [z|z1 z2 z3 H1 Hs IH]; intros Hb'; [apply rtc_refl|].
  assert (a_tr z2.1 = e :: b).
  { destruct (micro_tr _ _ H1) as [E|[e1 E]]; [congruence|]. exfalso.
    assert (exists l, a_tr z3.1 = l ++ a_tr z2.1) as [l Hl].
    { clear -Hs. induction Hs as [|? ? ? H _ [l IH]]; [by exists []|]. destruct (micro_tr _ _ H) as [E|[e E]]; rewrite IH, E; [by exists l|].
      exists (l ++ [e]). by rewrite <- app_assoc. }
    rewrite Hb', E, He in Hl. apply (f_equal length) in Hl. rewrite app_length in Hl. cbn in Hl. lia. }
  eapply rtc_l; [split; [exact H1|congruence]|]. by apply IH.
Qed.

Lemma silent_reach p u x y : mreach p u x -> rtc silent x y -> mreach p u y.
Proof. intros Hx. induction 1 as [|x y z [H _] _ IH]; [done|]. apply IH. by eapply rtc_r. Qed.

End events.
