(** Micro.v -- the steps of the reference semantics (Spec.v) cut into pieces that
    record at most one event each.  Used to prove invariants about histories. *)
From stdpp Require Import prelude gmap relations.
From Coq Require Import NArith Lia.
From Verif Require Import Base Model Spec InvSpec Main.

Section micro.
Context {env : Env}.

(** Where inside a step the reference semantics is. *)
Inductive mfoc :=
| MFoc                                                       (* between two steps                     *)
| MCall (o : op) (k : resp -> strat)                         (* call of o recorded                    *)
| MNew (sd : side) (kd : kind) (np : newp) (fn : nat -> strat) (k : resp -> strat)
| MNew2 (sd : side) (kd : kind) (np : newp) (fn : nat -> strat) (k : resp -> strat) (h n : nat)
                                                             (* stack n allocated for object h        *)
| MRet (o : opn) (r : ans) (k : resp -> strat)               (* o is about to return                  *)
| MExn (o : opn) (x : exn) (k : resp -> strat)               (* o is about to exit by exception       *)
| MPush (e : ep) (kd : kind) (lv : bool) (g : arg) (o : opn) (po : post) (k : resp -> strat)
| MPush2 (e : ep) (lv : bool) (g : arg) (o : opn) (po : post) (k : resp -> strat)
                                                             (* old value destroyed                   *)
| MXfer (e : ep) (o : opn) (po : post) (k : resp -> strat)   (* control is about to switch            *)
| MGot (j : nat) (o : opn) (po : post) (k : resp -> strat) (x : option E) (* control arrived in o    *)
| MKill (j : nat) (w : wait)                                 (* j is about to be destroyed            *)
| MKill2 (j : nat) (w : wait)                                (* its slot has been emptied             *)
| MLeft (x : option E)                                       (* the function was left                 *)
| MExit3                                                     (* destroyed coroutine: only the stack is left *)
| MEmpty (o : opn) (h : nat) (kd : kind) (k : resp -> strat) (* constructor is about to return an empty object *).

(** Operations that neither switch nor destroy nor throw. *)
Definition local_op (o : op) (a : astate) : option (astate * ans) :=
  match o with
  | OMoveCtor h =>
      match a_h a !! h with
      | Some (HObj sd kd e) =>
          Some (w_nh (S (a_nh a)) (w_h (<[ h := HObj sd kd None ]> (<[ a_nh a := HObj sd kd e ]> (a_h a))) a), AH (a_nh a))
      | None => None
      end
  | OMoveAssign h1 h2 =>
      match a_h a !! h1, a_h a !! h2 with
      | Some (HObj sd1 kd1 e1), Some (HObj sd2 kd2 e2) =>
          if bool_decide (sd1 = sd2) && bool_decide (kd1 = kd2)
          then Some (w_h (<[ h2 := HObj sd2 kd2 e1 ]> (<[ h1 := HObj sd1 kd1 e2 ]> (a_h a))) a, AUnit)
          else None
      | _, _ => None
      end
  | ODestroy h =>
      match a_h a !! h with
      | Some (HObj _ _ None) => Some (w_h (delete h (a_h a)) a, AUnit)
      | Some (HObj _ _ (Some (Inner n))) =>
          match a_co a !! n with Some _ => Some (w_h (delete h (a_h a)) a, AUnit) | None => None end
      | _ => None
      end
  | OBool h =>
      match a_h a !! h with
      | Some (HObj _ _ e) => match avalid e a with Some b => Some (a, AB b) | None => None end
      | None => None
      end
  | ONot h =>
      match a_h a !! h with
      | Some (HObj _ _ e) => match avalid e a with Some b => Some (a, AB (negb b)) | None => None end
      | None => None
      end
  | OGet h =>
      match a_h a !! h with
      | Some (HObj Pull kd (Some e)) =>
          match readable e a with
          | Some c =>
              match kd, ac_slot c with
              | KVal, SlFull (PVal v) =>
                  match move_exn v with
                  | Some _ => None
                  | None => Some (put_co (ep_co e) (c_slot (SlFull (PVal (moved_from v))) c) a, AV v)
                  end
              | KRef, SlFull (PRef l) => Some (a, ALoc l)
              | _, _ => None
              end
          | None => None
          end
      | _ => None
      end
  | OBegin h =>
      match a_h a !! h with
      | Some (HObj Pull kd e) =>
          match not_void kd, avalid e a with
          | true, Some b => Some (a, AIt (if b then Some h else None))
          | _, _ => None
          end
      | _ => None
      end
  | OEnd | OOutEnd => Some (a, AIt None)
  | OItDeref (Some h) =>
      match a_h a !! h with
      | Some (HObj Pull kd (Some e)) =>
          match readable e a with
          | Some c =>
              match kd, ac_slot c with
              | KVal, SlFull (PVal v) => Some (a, AV v)
              | KRef, SlFull (PRef l) => Some (a, ALoc l)
              | _, _ => None
              end
          | None => None
          end
      | _ => None
      end
  | OItEq i j => Some (a, AB (bool_decide (i = j)))
  | OItNe i j => Some (a, AB (bool_decide (i <> j)))
  | OOutBegin h =>
      match a_h a !! h with
      | Some (HObj Push kd _) => if not_void kd then Some (a, AIt (Some h)) else None
      | _ => None
      end
  | OEmit _ | OLog _ => Some (a, AUnit)
  | OLoad l => match a_user a !! l with Some v => Some (a, AV v) | None => None end
  | OStore l v => Some (w_user (<[ l := v ]> (a_user a)) a, AUnit)
  | _ => None
  end.

(** The function of a coroutine that is not being destroyed is left. *)
Definition leaving (s : strat) : option (option E) :=
  match s with SRet => Some None | SThrow (XUser e) => Some (Some e) | _ => None end.

Inductive micro : astate * mfoc -> astate * mfoc -> Prop :=
| m_tau a s : a_foc a = AUser (STau s) -> micro (a, MFoc) (w_foc (AUser s) a, MFoc)
| m_call a o k : a_foc a = AUser (SDo o k) -> forallb (known a) (op_hs o) = true ->
    micro (a, MFoc) (alog (EvCall (a_cur a) (NOp o)) a, MCall o k)
| m_calln a sd kd np fn k : a_foc a = AUser (SNew sd kd np fn k) ->
    micro (a, MFoc) (alog (EvCall (a_cur a) (NNew sd kd)) a, MNew sd kd np fn k)
| m_ret a o r k : micro (a, MRet o r k) (w_foc (AUser (k (ROk r))) (alog (EvRet (a_cur a) o r) a), MFoc)
| m_exn a o x k : micro (a, MExn o x k) (w_foc (AUser (k (RExn x))) (alog (EvExn (a_cur a) o x) a), MFoc)
| m_local a o k a' r : local_op o a = Some (a', r) -> micro (a, MCall o k) (w_foc (AUser (k (ROk r))) (alog (EvRet (a_cur a') (NOp o) r) a'), MFoc)
| m_empty a o h kd k :
    micro (a, MEmpty o h kd k)
          (w_foc (AUser (k (ROk (AH h)))) (alog (EvRet (a_cur a) o (AH h)) (w_h (<[ h := HObj Pull kd None ]> (a_h a)) a)), MFoc)
| m_destroy a h k sd kd n : a_h a !! h = Some (HObj sd kd (Some (Outer n))) ->
    micro (a, MCall (ODestroy h) k) (w_h (delete h (a_h a)) a, MKill n (WKill n (NOp (ODestroy h)) KfDestroy k))
| m_resume a h k kd e : a_h a !! h = Some (HObj Pull kd (Some e)) -> resumable e a = true ->
    micro (a, MCall (OResume h) k) (a, MXfer e (NOp (OResume h)) PoUnit k)
| m_inc a h k kd e : a_h a !! h = Some (HObj Pull kd (Some e)) -> not_void kd = true -> resumable e a = true ->
    micro (a, MCall (OItInc (Some h)) k) (a, MXfer e (NOp (OItInc (Some h))) (PoInc h) k)
| m_push a h g k kd e : a_h a !! h = Some (HObj Push kd (Some e)) -> aarg_ok kd g = true -> resumable e a = true ->
    micro (a, MCall (OPush h g) k) (a, MPush e kd false g (NOp (OPush h g)) PoUnit k)
| m_out a h g k kd e : a_h a !! h = Some (HObj Push kd (Some e)) -> aout_ok kd g = true -> resumable e a = true ->
    micro (a, MCall (OOutAssign (Some h) g) k) (a, MPush e kd true g (NOp (OOutAssign (Some h) g)) (PoOut h) k)
| m_push_void a e lv g o po k : micro (a, MPush e KVoid lv g o po k) (a, MXfer e o po k)
| m_push_ref a e lv l o po k c : a_co a !! ep_co e = Some c ->
    micro (a, MPush e KRef lv (ARefTo l) o po k)
          (alog (EvSet (ep_co e) (PRef l)) (put_co (ep_co e) (c_slot (SlFull (PRef l)) c) a), MXfer e o po k)
| m_push_del a e lv g o po k c p : a_co a !! ep_co e = Some c -> ac_slot c = SlFull p ->
    micro (a, MPush e KVal lv g o po k)
          (alog (EvDel (ep_co e)) (put_co (ep_co e) (c_slot SlBad c) a), MPush2 e lv g o po k)
| m_push_nodel a e lv g o po k c : a_co a !! ep_co e = Some c -> ac_slot c = SlEmpty ->
    micro (a, MPush e KVal lv g o po k) (a, MPush2 e lv g o po k)
| m_push_ok a e lv g o po k c v u : a_co a !! ep_co e = Some c -> aconstruct lv g (a_user a) = Some (inr (v, u)) ->
    micro (a, MPush2 e lv g o po k)
          (alog (EvSet (ep_co e) (PVal v)) (w_user u (put_co (ep_co e) (c_slot (SlFull (PVal v)) c) a)), MXfer e o po k)
| m_push_fail a e lv g o po k e' : aconstruct lv g (a_user a) = Some (inl e') ->
    micro (a, MPush2 e lv g o po k) (a, MExn o (XUser e') k)
| m_xfer_susp a n o po k c o' po' k' : a_co a !! n = Some c -> ac_st c = ASusp o' po' k' ->
    micro (a, MXfer (Outer n) o po k)
          (w_cur n (w_wait (<[ a_cur a := WOp n o po k ]> (a_wait a)) (put_co n (c_by (a_cur a) (c_st ARun c)) a)),
           MGot n o' po' k' None)
| m_xfer_new a n o po k c fn : a_co a !! n = Some c -> ac_st c = ANew fn ->
    micro (a, MXfer (Outer n) o po k)
          (w_foc (AUser (fn (ac_syn c))) (alog (EvEnter n (ac_syn c))
             (w_cur n (w_wait (<[ a_cur a := WOp n o po k ]> (a_wait a)) (put_co n (c_by (a_cur a) (c_st ARun c)) a)))),
           MFoc)
| m_xfer_back a n o po k c j o' po' k' : a_co a !! n = Some c -> a_wait a !! ac_by c = Some (WOp j o' po' k') ->
    micro (a, MXfer (Inner n) o po k)
          (w_cur (ac_by c) (w_wait (delete (ac_by c) (a_wait a)) (put_co n (c_st (ASusp o po k) c) a)),
           MGot n o' po' k' None)
| m_got_exn_new a j o h kd k e :
    micro (a, MGot j o (PoNew h kd) k (Some e)) (a, MKill j (WKill j o (KfThrow e) k))
| m_got_exn a j o po k e : (forall h kd, po <> PoNew h kd) ->
    micro (a, MGot j o po k (Some e)) (a, MExn o (XUser e) k)
| m_got_unit a j o k : micro (a, MGot j o PoUnit k None) (a, MRet o AUnit k)
| m_got_inc a j o h k kd e b : a_h a !! h = Some (HObj Pull kd e) -> avalid e a = Some b ->
    micro (a, MGot j o (PoInc h) k None) (a, MRet o (AIt (if b then Some h else None)) k)
| m_got_out a j o h k kd e b : a_h a !! h = Some (HObj Push kd e) -> avalid e a = Some b ->
    micro (a, MGot j o (PoOut h) k None) (a, MRet o (AIt (if b then Some h else None)) k)
| m_got_empty a j o h kd k c x : a_co a !! j = Some c -> ac_st c = ADone x ->
    micro (a, MGot j o (PoNew h kd) k None) (a, MKill j (WKill j o (KfEmpty h kd) k))
| m_got_new a j o h kd k c o' po' k' : a_co a !! j = Some c -> ac_st c = ASusp o' po' k' ->
    micro (a, MGot j o (PoNew h kd) k None)
          (alog (EvNew j h) (w_h (<[ h := HObj Pull kd (Some (Outer j)) ]> (a_h a)) a), MRet o (AH h) k)
| m_kill_del a j w c p : a_co a !! j = Some c -> ac_side c = Pull -> ac_kind c = KVal -> ac_slot c = SlFull p ->
    micro (a, MKill j w) (alog (EvDel j) a, MKill2 j w)
| m_kill_nodel a j w c : a_co a !! j = Some c -> (ac_side c = Pull -> ac_kind c = KVal -> ac_slot c = SlEmpty) ->
    micro (a, MKill j w) (a, MKill2 j w)
| m_kill_susp a j w c o po k : a_co a !! j = Some c -> ac_st c = ASusp o po k ->
    micro (a, MKill2 j w)
          (w_cur j (w_wait (<[ a_cur a := w ]> (a_wait a))
             (put_co j (ACo (ac_side c) (ac_kind c) (AUnw true) (match ac_side c with Pull => SlEmpty | Push => ac_slot c end)
                            (ac_syn c) (a_cur a)) a)),
           MExn o XUnwind k)
| m_kill_idle a j w c en : a_co a !! j = Some c ->
    match ac_st c with ANew _ => en = false | ADone _ => en = true | _ => False end ->
    micro (a, MKill2 j w)
          (w_foc AExit (w_cur j (w_wait (<[ a_cur a := w ]> (a_wait a))
             (put_co j (ACo (ac_side c) (ac_kind c) (AUnw en) (match ac_side c with Pull => SlEmpty | Push => ac_slot c end)
                            (ac_syn c) (a_cur a)) a))),
           MFoc)
| m_new_noalloc a sd kd np fn k e : np_alloc np = Some e ->
    micro (a, MNew sd kd np fn k) (w_nh (S (a_nh a)) a, MExn (NNew sd kd) (XUser e) k)
| m_new_alloc a sd kd np fn k : np_alloc np = None ->
    micro (a, MNew sd kd np fn k)
          (alog (EvAlloc (a_nk a)) (w_nk (S (a_nk a)) (w_nh (S (a_nh a)) a)), MNew2 sd kd np fn k (a_nh a) (a_nk a))
| m_new_fail a sd kd np fn k h n e : np_fn np = Some e ->
    micro (a, MNew2 sd kd np fn k h n) (a, MExn (NNew sd kd) (XUser e) k)
| m_new_pull a kd np fn k h n : np_fn np = None ->
    micro (a, MNew2 Pull kd np fn k h n)
          (w_foc (AUser (fn (a_nh a))) (alog (EvEnter n (a_nh a))
             (w_cur n (w_wait (<[ a_cur a := WOp n (NNew Pull kd) (PoNew h kd) k ]> (a_wait a))
                (put_co n (ACo Pull kd ARun SlEmpty (a_nh a) (a_cur a))
                   (w_h (<[ a_nh a := HObj Push kd (Some (Inner n)) ]> (a_h a)) (w_nh (S (a_nh a)) a)))))), MFoc)
| m_new_push a kd np fn k h n : np_fn np = None ->
    micro (a, MNew2 Push kd np fn k h n)
          (alog (EvNew n h)
             (put_co n (ACo Push kd (ANew fn) SlEmpty (a_nh a) (a_cur a))
                (w_h (<[ h := HObj Push kd (Some (Outer n)) ]> (<[ a_nh a := HObj Pull kd (Some (Inner n)) ]> (a_h a)))
                   (w_nh (S (a_nh a)) a))), MRet (NNew Push kd) (AH h) k)
| m_leave a s x c : a_foc a = AUser s -> leaving s = Some x -> a_co a !! a_cur a = Some c -> ac_st c = ARun ->
    micro (a, MFoc) (alog (EvLeave (a_cur a) (XUser <$> x)) a, MLeft x)
| m_left a x c j o po k : a_co a !! a_cur a = Some c -> a_wait a !! ac_by c = Some (WOp j o po k) ->
    micro (a, MLeft x)
          (w_cur (ac_by c) (w_wait (delete (ac_by c) (a_wait a)) (put_co (a_cur a) (c_st (ADone x) c) a)),
           MGot (a_cur a) o po k x)
| m_leave_unw a c en : a_foc a = AUser (SThrow XUnwind) -> a_co a !! a_cur a = Some c -> ac_st c = AUnw en ->
    micro (a, MFoc) (w_foc AExit (alog (EvLeave (a_cur a) (Some XUnwind)) a), MFoc)
| m_exit a c sd kd e : a_foc a = AExit -> a_co a !! a_cur a = Some c -> a_h a !! ac_syn c = Some (HObj sd kd e) ->
    (forall j, e <> Some (Outer j)) ->
    micro (a, MFoc) (w_foc AExit2 (alog (EvGone (a_cur a) (ac_syn c)) (w_h (delete (ac_syn c) (a_h a)) a)), MFoc)
| m_exit_owner a c sd kd j : a_foc a = AExit -> a_co a !! a_cur a = Some c -> a_h a !! ac_syn c = Some (HObj sd kd (Some (Outer j))) ->
    micro (a, MFoc) (alog (EvGone (a_cur a) (ac_syn c)) (w_h (delete (ac_syn c) (a_h a)) a), MKill j (WExit j))
| m_exit2_del a c p : a_foc a = AExit2 -> a_co a !! a_cur a = Some c -> ac_side c = Push -> ac_kind c = KVal -> ac_slot c = SlFull p ->
    micro (a, MFoc) (alog (EvDel (a_cur a)) a, MExit3)
| m_exit2_nodel a c : a_foc a = AExit2 -> a_co a !! a_cur a = Some c -> (ac_side c = Push -> ac_kind c = KVal -> ac_slot c = SlEmpty) ->
    micro (a, MFoc) (a, MExit3)
| m_exit3 a c w : a_co a !! a_cur a = Some c -> a_wait a !! ac_by c = Some w ->
    let a1 := w_cur (ac_by c) (w_wait (delete (ac_by c) (a_wait a)) (alog (EvFree (a_cur a)) (w_co (delete (a_cur a) (a_co a)) a))) in
    forall y,
    match w with
    | WExit _ => y = (w_foc AExit2 a1, MFoc)
    | WKill _ o KfDestroy k => y = (a1, MRet o AUnit k)
    | WKill _ o (KfEmpty h kd) k => y = (a1, MEmpty o h kd k)
    | WKill _ o (KfThrow e) k => y = (a1, MExn o (XUser e) k)
    | WOp _ _ _ _ => False
    end ->
    micro (a, MExit3) y.

Notation msteps := (rtc micro).

Lemma ms_ret a o r k a' : ret_to o r k a = ANext a' -> msteps (a, MRet o r k) (a', MFoc).
Proof. unfold ret_to. intros. simplify_eq. apply rtc_once. constructor. Qed.
Lemma ms_exn a o x k a' : exn_to o x k a = ANext a' -> msteps (a, MExn o x k) (a', MFoc).
Proof. unfold exn_to. intros. simplify_eq. apply rtc_once. constructor. Qed.

Lemma ms_kill j w a a' : kill j w a = ANext a' -> msteps (a, MKill j w) (a', MFoc).
Proof.
  intros H. unfold kill in H. destruct (a_co a !! j) as [c|] eqn:Hc; [|done].
  set (drop := match ac_side c with Pull => _ | _ => _ end) in H.
  assert (forall a1, drop = Some a1 -> msteps (a, MKill j w) (a1, MKill2 j w) /\ a_co a1 = a_co a /\ a_cur a1 = a_cur a) as Hd.
  { intros a1. unfold drop. destruct (ac_side c) eqn:E1, (ac_kind c) eqn:E2, (ac_slot c) eqn:E3; intros; simplify_eq; (split; [|done]);
      apply rtc_once; first [by eapply m_kill_del|eapply m_kill_nodel; [done|congruence]]. }
  destruct drop as [a1|]; [|done]. destruct (Hd a1 eq_refl) as (Hs&Hco&Hcur). etrans; [exact Hs|]. clear Hs Hd.
  rewrite <- Hco in Hc. destruct (ac_st c) eqn:Hst; try done.
  - simplify_eq. apply rtc_once. eapply (m_kill_idle a1 j w c false); [done|]. by rewrite Hst.
  - eapply rtc_l; [by eapply m_kill_susp|]. by apply ms_exn.
  - simplify_eq. apply rtc_once. eapply (m_kill_idle a1 j w c true); [done|]. by rewrite Hst.
Qed.

Lemma ms_deliver j o po k x a a' : deliver j o po k x a = ANext a' -> msteps (a, MGot j o po k x) (a', MFoc).
Proof.
  intros H. unfold deliver in H. destruct x as [e|].
  - destruct po; try (eapply rtc_l; [by constructor|by apply ms_exn]).
    eapply rtc_l; [by constructor|by apply ms_kill].
  - destruct po as [|h|h|h kd].
    + eapply rtc_l; [by constructor|by apply ms_ret].
    + destruct (a_h a !! h) as [[[] kd e]|] eqn:Hh; try done. destruct (avalid e a) eqn:Hv; [|done].
      eapply rtc_l; [by econstructor|by apply ms_ret].
    + destruct (a_h a !! h) as [[[] kd e]|] eqn:Hh; try done. destruct (avalid e a) eqn:Hv; [|done].
      eapply rtc_l; [by econstructor|by apply ms_ret].
    + destruct (a_co a !! j) as [c|] eqn:Hc; cbn in H; [|done]. destruct (ac_st c) eqn:Hst; try done.
      * eapply rtc_l; [by eapply m_got_new|by apply ms_ret].
      * eapply rtc_l; [by eapply m_got_empty|by apply ms_kill].
Qed.

Lemma ms_transfer e o po k a a' : transfer e o po k a = ANext a' -> msteps (a, MXfer e o po k) (a', MFoc).
Proof.
  intros H. unfold transfer in H. destruct e as [n|n].
  - destruct (a_co a !! n) as [c|] eqn:Hc; [|done]. destruct (ac_st c) eqn:Hst; try done.
    + simplify_eq. apply rtc_once. by eapply m_xfer_new.
    + eapply rtc_l; [by eapply m_xfer_susp|by apply ms_deliver].
  - unfold give_back in H. destruct (a_co a !! n) as [c|] eqn:Hc; [|done].
    destruct (a_wait a !! ac_by c) as [[]|] eqn:Hw; try done.
    eapply rtc_l; [by eapply m_xfer_back|by apply ms_deliver].
Qed.

Lemma ms_push e kd lv g o po k a a' : push_op e kd lv g o po k a = ANext a' ->
  resumable e a = true /\ msteps (a, MPush e kd lv g o po k) (a', MFoc).
Proof.
  intros H. unfold push_op in H. destruct (resumable e a) eqn:Hr; [|done]. split; [done|]. cbn in H.
  destruct (a_co a !! ep_co e) as [c|] eqn:Hc; [|done]. destruct kd.
  - destruct (ac_slot c) as [|p|] eqn:Hs; [| |done].
    + eapply rtc_l; [by eapply m_push_nodel|].
      destruct (aconstruct lv g (a_user a)) as [[e'|[v u]]|] eqn:Hk; [| |done].
      * eapply rtc_l; [by eapply m_push_fail|]. unfold put_co in H.
        rewrite insert_id in H by (rewrite Hc; f_equal; by destruct c; cbn in *; subst).
        apply ms_exn in H. by destruct a.
      * eapply rtc_l; [by eapply m_push_ok|]. by apply ms_transfer.
    + eapply rtc_l; [by eapply m_push_del|].
      destruct (aconstruct lv g (a_user a)) as [[e'|[v u]]|] eqn:Hk; [| |done].
      * eapply rtc_l; [by eapply m_push_fail|]. by apply ms_exn in H.
      * eapply rtc_l; [eapply m_push_ok; [cbn; apply lookup_insert|done]|].
        unfold put_co; cbn. rewrite insert_insert. by apply ms_transfer in H.
  - destruct g; try done. eapply rtc_l; [by eapply m_push_ref|]. by apply ms_transfer.
  - eapply rtc_l; [by eapply m_push_void|]. by apply ms_transfer.
Qed.

Lemma ms_op o k a a' : do_op o k a = ANext a' -> msteps (a, MCall o k) (a', MFoc).
Proof.
  intros H.
  assert (Hl : forall a1 r, local_op o a = Some (a1, r) -> ret_to (NOp o) r k a1 = ANext a' -> msteps (a, MCall o k) (a', MFoc)).
  { intros a1 r H1 H2. unfold ret_to in H2. simplify_eq. apply rtc_once. by eapply m_local. }
  destruct o as [h|h1 h2|h|h|h g|h|h|h|h| |[h|]|[h|]|i j|i j|h| |[h|] g|v|n|l|l v]; cbn in H, Hl; try done;
    try (by eapply Hl).
  - destruct (a_h a !! h) as [[sd kd e]|]; [|done]. by eapply Hl.
  - destruct (a_h a !! h1) as [[sd kd e]|]; [|done]. destruct (a_h a !! h2) as [[sd2 kd2 e2]|]; [|done].
    destruct (_ && _); [|done]. by eapply Hl.
  - destruct (a_h a !! h) as [[sd kd [[n|n]|]]|] eqn:Hh; [| | |done].
    + eapply rtc_l; [by eapply m_destroy|]. by apply ms_kill.
    + destruct (a_co a !! n); [|done]. by eapply Hl.
    + by eapply Hl.
  - destruct (a_h a !! h) as [[[] kd [e|]]|] eqn:Hh; try done. destruct (resumable e a) eqn:Hr; [|done].
    eapply rtc_l; [by eapply m_resume|]. by apply ms_transfer.
  - destruct (a_h a !! h) as [[[] kd [e|]]|] eqn:Hh; try done. destruct (aarg_ok kd g) eqn:Hg; [|done].
    apply ms_push in H as [Hr H]. eapply rtc_l; [by eapply m_push|]. done.
  - destruct (a_h a !! h) as [[sd kd e]|]; [|done]. destruct (avalid e a); [|done]. by eapply Hl.
  - destruct (a_h a !! h) as [[sd kd e]|]; [|done]. destruct (avalid e a); [|done]. by eapply Hl.
  - destruct (a_h a !! h) as [[[] kd [e|]]|] eqn:Hh; try done. destruct (readable e a); [|done].
    destruct kd, (ac_slot a0) as [|[]|]; try done; [destruct (move_exn v); [done|]|]; by eapply Hl.
  - destruct (a_h a !! h) as [[[] kd e]|] eqn:Hh; try done. destruct (not_void kd), (avalid e a); try done. by eapply Hl.
  - destruct (a_h a !! h) as [[[] kd [e|]]|] eqn:Hh; try done.
    destruct (not_void kd) eqn:Hv, (resumable e a) eqn:Hr; try done.
    eapply rtc_l; [by eapply m_inc|]. by apply ms_transfer.
  - destruct (a_h a !! h) as [[[] kd [e|]]|] eqn:Hh; try done. destruct (readable e a); [|done].
    destruct kd, (ac_slot a0) as [|[]|]; try done; by eapply Hl.
  - destruct (a_h a !! h) as [[[] kd e]|] eqn:Hh; try done. destruct (not_void kd); try done. by eapply Hl.
  - destruct (a_h a !! h) as [[[] kd [e|]]|] eqn:Hh; try done. destruct (aout_ok kd g) eqn:Hg; [|done].
    apply ms_push in H as [Hr H]. eapply rtc_l; [by eapply m_out|]. done.
  - destruct (a_user a !! l); [|done]. by eapply Hl.
Qed.

Lemma ms_new sd kd np fn k a a' : do_new sd kd np fn k a = ANext a' -> msteps (a, MNew sd kd np fn k) (a', MFoc).
Proof.
  intros H. unfold do_new in H. destruct (np_alloc np) eqn:Ha.
  - eapply rtc_l; [by eapply m_new_noalloc|]. by apply ms_exn.
  - eapply rtc_l; [by eapply m_new_alloc|]. destruct (np_fn np) eqn:Hf.
    + eapply rtc_l; [by eapply m_new_fail|]. by apply ms_exn.
    + destruct sd.
      * simplify_eq. apply rtc_once. by eapply m_new_pull.
      * eapply rtc_l; [by eapply m_new_push|]. by apply ms_ret in H.
Qed.

Theorem astep_micro a a' : astep a = ANext a' -> msteps (a, MFoc) (a', MFoc).
Proof.
  intros H. unfold astep in H. destruct (a_foc a) as [s| |] eqn:Hf.
  - assert (Hl : forall x, do_leave x a = ANext a' -> match x with None => s = SRet | Some x => s = SThrow x end -> msteps (a, MFoc) (a', MFoc)).
    { clear H. intros x H Hx. unfold do_leave in H. destruct (decide (a_cur a = 0)); [by destruct x as [[]|]|].
      destruct (a_co a !! a_cur a) as [c|] eqn:Hc; [|done].
      assert (Hg : forall x', give_back (a_cur a) (ADone x') x' (alog (EvLeave (a_cur a) x) a) = ANext a' -> ac_st c = ARun -> leaving s = Some x' -> x = XUser <$> x' ->
                msteps (a, MFoc) (a', MFoc)).
      { intros x' Hg Hst Hlv ->. eapply rtc_l; [by eapply m_leave|]. unfold give_back in Hg. cbn in Hg. rewrite Hc in Hg.
        destruct (a_wait a !! ac_by c) as [[]|] eqn:Hw; try done.
        eapply rtc_l; [by eapply m_left|]. by apply ms_deliver in Hg. }
      destruct (ac_st c) eqn:Hst; try done; destruct x as [[e|]|]; try done; subst s.
      - by eapply (Hg (Some e)).
      - by eapply (Hg None).
      - simplify_eq. apply rtc_once. by eapply m_leave_unw. }
    destruct s.
    + by apply (Hl None).
    + by eapply (Hl (Some x)).
    + destruct (forallb (known a) (op_hs o)) eqn:Hk; [|done]. eapply rtc_l; [by eapply m_call|]. by apply ms_op.
    + eapply rtc_l; [by eapply m_calln|]. by apply ms_new.
    + simplify_eq. apply rtc_once. by apply m_tau.
  - unfold do_exit in H. destruct (a_co a !! a_cur a) as [c|] eqn:Hc; [|done].
    destruct (a_h a !! ac_syn c) as [[sd kd e]|] eqn:Hh; [|done].
    destruct e as [[j|j]|].
    + eapply rtc_l; [by eapply m_exit_owner|]. by apply ms_kill.
    + destruct (a_co _ !! j); [|done]. simplify_eq. apply rtc_once. by eapply m_exit.
    + simplify_eq. apply rtc_once. by eapply m_exit.
  - unfold do_exit2 in H. destruct (a_co a !! a_cur a) as [c|] eqn:Hc; [|done].
    set (drop := match ac_side c with Pull => _ | _ => _ end) in H.
    assert (forall a1, drop = Some a1 -> msteps (a, MFoc) (a1, MExit3) /\ a_co a1 = a_co a /\ a_cur a1 = a_cur a) as Hd.
    { intros a1. unfold drop. destruct (ac_side c) eqn:E1, (ac_kind c) eqn:E2, (ac_slot c) eqn:E3; intros; simplify_eq; (split; [|done]);
      apply rtc_once; first [by eapply m_exit2_del|eapply m_exit2_nodel; [done|done|congruence]]. }
    destruct drop as [a1|]; [|done]. destruct (Hd a1 eq_refl) as (Hs&Hco&Hcur). etrans; [exact Hs|]. clear Hs Hd.
    cbn in H. rewrite <- Hco, <- Hcur in Hc. destruct (a_wait a1 !! ac_by c) as [w|] eqn:Hw; [|done].
    rewrite <- Hcur in H.
    destruct w as [|j o [] k|j]; try done.
    + eapply rtc_l; [by eapply m_exit3|]. by apply ms_ret in H.
    + eapply rtc_l; [by eapply m_exit3|]. unfold ret_to in H. simplify_eq. apply rtc_once. refine (m_empty (w_cur _ (w_wait _ _)) _ _ _ _).
    + eapply rtc_l; [by eapply m_exit3|]. by apply ms_exn in H.
    + simplify_eq. apply rtc_once. by eapply m_exit3.
Qed.

(** The only way to end other than by the end of main is std::terminate in get(). *)
Lemma ahalt_micro a o a' : astep a = AHalt o a' -> a' = a \/ exists k h, a_foc a = AUser (SDo (OGet h) k) /\ micro (a, MFoc) (a', MCall (OGet h) k).
Proof.
  intros H. assert (Hk : forall j w b b' r, kill j w b <> AHalt r b').
  { intros. unfold kill, exn_to. repeat case_match; done. }
  assert (Hdl : forall j o po k x b b' r, deliver j o po k x b <> AHalt r b').
  { intros. unfold deliver, exn_to, ret_to. repeat case_match; try done; apply Hk. }
  assert (Hgb : forall n st x b b' r, give_back n st x b <> AHalt r b').
  { intros. unfold give_back. repeat case_match; try done. }
  assert (Htr : forall e o po k b b' r, transfer e o po k b <> AHalt r b').
  { intros. unfold transfer. repeat case_match; try done. }
  assert (Hpu : forall e kd lv g o po k b b' r, push_op e kd lv g o po k b <> AHalt r b').
  { intros. unfold push_op, exn_to. repeat case_match; try done. }
  unfold astep in H. destruct (a_foc a) as [s| |] eqn:Hf; [destruct s| |].
  - left. unfold do_leave in H. repeat case_match; simplify_eq; auto; by destruct (Hgb _ _ _ _ _ _ H).
  - left. unfold do_leave in H. repeat case_match; simplify_eq; auto; by destruct (Hgb _ _ _ _ _ _ H).
  - destruct (forallb (known a) (op_hs o0)) eqn:Hn; [|done].
    destruct o0; cbn in H; unfold ret_to in H; repeat case_match; simplify_eq; auto;
      try (by destruct (Hk _ _ _ _ _ H)); try (by destruct (Htr _ _ _ _ _ _ _ H)); try (by destruct (Hpu _ _ _ _ _ _ _ _ _ _ H)).
    right. eexists _, _. split; [done|]. by apply m_call.
  - unfold do_new, exn_to, ret_to in H. repeat case_match; done.
  - done.
  - unfold do_exit in H. repeat case_match; try done. by destruct (Hk _ _ _ _ _ H).
  - unfold do_exit2, ret_to, exn_to in H. repeat case_match; done.
Qed.

(** ** The structural invariant inside a step *)
Definition npo (po : post) : Prop := forall h kd, po <> PoNew h kd.

Definition minv (x : astate * mfoc) : Prop :=
  let a := x.1 in
  match x.2 with
  | MFoc => Inv a
  | MCall _ _ | MNew _ _ _ _ _ | MRet _ _ _ | MExn _ _ _ | MEmpty _ _ _ _ => InvS a
  | MNew2 _ _ _ _ _ h n => InvC (a_co a) (a_wait a) (a_h a) (a_cur a) n /\ a_nk a = S n /\ a_nh a = S h
  | MPush e kd _ _ _ po _ =>
      InvS a /\ npo po /\ resumable e a = true /\ exists c, a_co a !! ep_co e = Some c /\ h_ok Push kd e c
  | MPush2 e _ _ _ po _ =>
      InvS a /\ npo po /\ resumable e a = true /\
      exists c, a_co a !! ep_co e = Some c /\ h_ok Push KVal e c /\ (ac_slot c = SlEmpty \/ ac_slot c = SlBad)
  | MXfer e _ po _ =>
      npo po /\ resumable e a = true /\
      exists co c s sd kd, InvC co (a_wait a) (a_h a) (a_cur a) (a_nk a) /\ co !! ep_co e = Some c /\
        a_co a = <[ep_co e := c_slot s c]> co /\
        (s = SlEmpty -> ac_slot c = SlEmpty /\ (ac_kind c = KVoid \/ sd = Pull)) /\ slot_ok (ac_kind c) s /\ h_ok sd kd e c
  | MGot j _ po _ _ =>
      InvS a /\ forall h kd, po = PoNew h kd -> exists c, a_co a !! j = Some c /\ ac_side c = Pull /\ ac_kind c = kd
  | MKill j w | MKill2 j w =>
      InvS a /\ wtarget w = j /\ (forall x o po k, w <> WOp x o po k) /\
      (forall x, w = WExit x -> exists y, a_co a !! a_cur a = Some y /\ unw_st (ac_st y) = true)
  | MLeft _ => InvS a /\ exists c, a_co a !! a_cur a = Some c /\ ac_st c = ARun
  | MExit3 => InvS a /\ exists c, a_co a !! a_cur a = Some c /\ unw_st (ac_st c) = true
  end.

Lemma readable_co e a c : readable e a = Some c -> a_co a !! ep_co e = Some c.
Proof.
  unfold readable. destruct e; cbn; destruct (a_co a !! k) as [c'|]; cbn; try done; intros; repeat case_match; by simplify_eq.
Qed.

Lemma local_op_inv o a a' r : InvS a -> local_op o a = Some (a', r) -> InvS a'.
Proof.
  intros I H. destruct o; cbn in H; try (repeat case_match; simplify_eq; first [done|by apply InvC_hdel]).
  - destruct (a_h a !! h) as [[sd kd e]|] eqn:Hh; simplify_eq.
    unfold InvS; cbn. eapply InvC_hnone, InvC_hs; [done|]. intros h' sd' kd' e' H. destruct (decide (a_nh a = h')) as [<-|].
    + rewrite lookup_insert in H. simplify_eq. eauto.
    + rewrite lookup_insert_ne in H by done. eauto.
  - destruct (a_h a !! h1) as [[sd1 kd1 e1]|] eqn:Hh1; [|done].
    destruct (a_h a !! h2) as [[sd2 kd2 e2]|] eqn:Hh2; [|done].
    destruct (bool_decide (sd1 = sd2) && bool_decide (kd1 = kd2)) eqn:Hb; [|done].
    apply andb_true_iff in Hb as [->%bool_decide_eq_true ->%bool_decide_eq_true]. simplify_eq.
    unfold InvS; cbn. eapply InvC_hs; [done|]. intros h' sd' kd' e' H.
    destruct (decide (h2 = h')) as [<-|].
    + rewrite lookup_insert in H. simplify_eq. eauto.
    + rewrite lookup_insert_ne in H by done. destruct (decide (h1 = h')) as [<-|].
      * rewrite lookup_insert in H. simplify_eq. eauto.
      * rewrite lookup_insert_ne in H by done. eauto.
  - destruct (a_h a !! h) as [[[] kd [e|]]|] eqn:Hh; try done.
    destruct (readable e a) as [c|] eqn:Hrd; [|done]. apply readable_co in Hrd.
    destruct kd; [| |done].
    + destruct (ac_slot c) as [|[v|]|] eqn:Hs; try done. destruct (move_exn v); [done|]. simplify_eq. unfold InvS; cbn.
      pose proof (ic_h _ _ _ _ _ I _ _ _ _ _ Hh Hrd) as [Hk _].
      eapply InvC_slot; eauto; rewrite ?Hk, ?Hs; try done. by left.
    + repeat case_match; by simplify_eq.
Qed.

Lemma resumable_co e a : resumable e a = true -> exists c, a_co a !! ep_co e = Some c.
Proof.
  unfold resumable. destruct e; cbn; destruct (a_co a !! k); rewrite ?andb_false_r; eauto; done.
Qed.

Lemma resumable_slot e a a' c s : resumable e a = true -> a_cur a' = a_cur a -> a_co a !! ep_co e = Some c ->
  a_co a' !! ep_co e = Some (c_slot s c) -> resumable e a' = true.
Proof. unfold resumable. intros Hr Hc H1 H2. destruct e; cbn in *; rewrite ?Hc, ?H1, ?H2 in *; done. Qed.

Lemma xfer_minv a h kd e : InvS a -> a_h a !! h = Some (HObj Pull kd (Some e)) -> resumable e a = true ->
  exists co c s sd kd, InvC co (a_wait a) (a_h a) (a_cur a) (a_nk a) /\ co !! ep_co e = Some c /\
        a_co a = <[ep_co e := c_slot s c]> co /\
        (s = SlEmpty -> ac_slot c = SlEmpty /\ (ac_kind c = KVoid \/ sd = Pull)) /\ slot_ok (ac_kind c) s /\ h_ok sd kd e c.
Proof.
  intros I Hh Hr. destruct (resumable_co _ _ Hr) as [c Hc].
  exists (a_co a), c, (ac_slot c), Pull, kd. split; [done|]. split; [done|]. split; [by rewrite c_slot_id, insert_id|].
  split; [auto|]. split; [|by eapply ic_h]. apply (ic_co _ _ _ _ _ I _ _ Hc).
Qed.

Lemma kill_switch a j w c en : InvS a -> a_co a !! j = Some c -> active (ac_st c) = false ->
  (entered (ac_st c) = en) ->
  wtarget w = j -> (forall x o po k, w <> WOp x o po k) ->
  (forall x, w = WExit x -> exists y, a_co a !! a_cur a = Some y /\ unw_st (ac_st y) = true) ->
  InvC (<[j := ACo (ac_side c) (ac_kind c) (AUnw en) (match ac_side c with Pull => SlEmpty | Push => ac_slot c end) (ac_syn c) (a_cur a)]> (a_co a))
       (<[a_cur a := w]> (a_wait a)) (a_h a) j (a_nk a).
Proof.
  intros I Hc Hna Hen Hw Hop Hex. pose proof (ic_co _ _ _ _ _ I _ _ Hc) as Hco.
  eapply InvC_switch; eauto; cbn; try done.
  - destruct Hco. split; cbn; try done.
    + destruct (ac_side c), (ac_kind c); done.
    + intros Hsd ?. rewrite Hsd. destruct en; intros ?; [|done]. eauto.
  - intros sd kd e _ [? Hh]. split; [done|]. destruct e; cbn in *; [|done].
    destruct Hh as [-> Hh]. split; [done|]. intros. by right.
  - destruct w; [by destruct (Hop j0 o po k)|done|]. split; [done|]. eauto.
Qed.

Lemma InvS_of_minv a f : minv (a, f) -> match f with MNew2 _ _ _ _ _ _ _ | MXfer _ _ _ _ => True | _ => InvS a end.
Proof. destruct f; cbn; try done; try (by intros [? _]). Qed.

Lemma back_target a n c w : InvC (a_co a) (a_wait a) (a_h a) n (a_nk a) -> a_co a !! n = Some c ->
  a_wait a !! ac_by c = Some w -> wtarget w = n.
Proof.
  intros I Hc Hw. destruct (ic_act _ _ _ _ _ I _ _ Hc (cur_active _ _ _ _ _ _ I Hc)) as [_ (w'&Hw'&?)]. by simplify_eq.
Qed.

Theorem micro_inv x y : minv x -> micro x y -> minv y.
Proof.
  intros M Hm. destruct Hm; cbn in M |- *.
  - destruct M. by split.
  - apply M.
  - apply M.
  - by split.
  - by split.
  - split; [|done]. exact (local_op_inv _ _ _ _ M H).
  - split; [|done]. by apply InvC_hnone.
  - split; [by apply InvC_hdel|]. done.
  - split; [done|]. split; [done|]. by eapply xfer_minv.
  - split; [done|]. split; [done|]. by eapply xfer_minv.
  - split; [done|]. split; [done|]. split; [done|]. destruct (resumable_co _ _ H1) as [c Hc]. exists c. split; [done|]. by eapply ic_h.
  - split; [done|]. split; [done|]. split; [done|]. destruct (resumable_co _ _ H1) as [c Hc]. exists c. split; [done|]. by eapply ic_h.
  - destruct M as (I&Hp&Hr&c&Hc&Hh). split; [done|]. split; [done|]. exists (a_co a), c, (ac_slot c), Push, KVoid.
    split; [done|]. split; [done|]. split; [by rewrite c_slot_id, insert_id|]. split; [intros; split; [done|left; apply Hh]|].
    split; [|done]. apply (ic_co _ _ _ _ _ I _ _ Hc).
  - destruct M as (I&Hp&Hr&c'&Hc&Hh). assert (c' = c) as -> by congruence. split; [done|].
    split; [eapply resumable_slot; eauto; cbn; by rewrite lookup_insert|].
    exists (a_co a), c, (SlFull (PRef l)), Push, KRef. repeat (split; [done|]). split; [|done]. apply Hh.
  - destruct M as (I&Hp&Hr&c'&Hc&Hh). assert (c' = c) as -> by congruence.
    assert (ac_kind c = KVal) as Hk by apply Hh.
    split; [eapply InvC_slot; eauto; try done; left; congruence|]. split; [done|].
    split; [eapply resumable_slot; eauto; cbn; by rewrite lookup_insert|].
    exists (c_slot SlBad c). cbn. rewrite lookup_insert. split; [done|]. split; [|by right].
    destruct Hh as [? Hh]. split; [done|]. destruct e; cbn in *; [|done]. by split; [apply Hh|].
  - destruct M as (I&Hp&Hr&c'&Hc&Hh). assert (c' = c) as -> by congruence. repeat (split; [done|]). exists c. auto.
  - destruct M as (I&Hp&Hr&c'&Hc&Hh&Hs). assert (c' = c) as -> by congruence. split; [done|].
    split; [eapply resumable_slot; eauto; cbn; by rewrite lookup_insert|].
    exists (a_co a), c, (SlFull (PVal v)), Push, KVal. repeat (split; [done|]). split; [|done]. apply Hh.
  - apply M.
  - destruct M as (Hp&Hr&co&c0&s&sd&kd&I&Hc0&Hco&Hs&Hsl&Hh). cbn in Hco, Hc0.
    rewrite Hco, lookup_insert in H. simplify_eq/=.
    pose proof (enter_inv _ _ _ _ _ _ _ _ o po k _ _ I Hc0 Hs Hsl Hh Hp ltac:(by rewrite H0)) as I'. split.
    + unfold InvS; cbn. by rewrite Hco, insert_insert.
    + intros h kd' ->. by destruct (co_post _ (ic_co _ _ _ _ _ I _ _ Hc0) o' h kd' k').
  - destruct M as (Hp&Hr&co&c0&s&sd&kd&I&Hc0&Hco&Hs&Hsl&Hh). cbn in Hco, Hc0.
    rewrite Hco, lookup_insert in H. simplify_eq/=.
    pose proof (enter_inv _ _ _ _ _ _ _ _ o po k _ _ I Hc0 Hs Hsl Hh Hp ltac:(by rewrite H0)) as I'. split; [|done].
    unfold InvS; cbn. by rewrite Hco, insert_insert.
  - destruct M as (Hp&Hr&co&c0&s&sd&kd&I&Hc0&Hco&Hs&Hsl&Hh). cbn in Hco, Hc0.
    rewrite Hco, lookup_insert in H. simplify_eq/=. unfold resumable in Hr. rewrite Hco, lookup_insert in Hr. cbn in Hr.
    apply andb_true_iff in Hr as [Hn%bool_decide_eq_true Hst]. subst n. destruct (ac_st c0) eqn:Hst'; try done.
    pose proof (ic_wait _ _ _ _ _ I _ _ H0) as (y&Hy&Hyb&Hyr&Hyn). cbn in Hy, Hyn.
    assert (j = a_cur a) as ->.
    { destruct (ic_act _ _ _ _ _ I _ _ Hc0) as [_ (w&Hw&Hwt)]; [by rewrite Hst'|]. simplify_eq. done. }
    simplify_eq. split.
    + unfold InvS; cbn. rewrite Hco, insert_insert. eapply back_inv; eauto.
      * eapply yield_co_ok; eauto. by apply (ic_co _ _ _ _ _ I _ _ Hc0).
      * intros E. by apply Hs.
    + intros h kd' ->. destruct (Hyn h kd' eq_refl) as (?&?&?). eexists. cbn. rewrite lookup_insert. split; [done|]. by cbn.
  - destruct M as [I M]. split; [done|]. split; [done|]. split; [done|]. done.
  - apply M.
  - apply M.
  - apply M.
  - apply M.
  - destruct M as [I M]. split; [done|]. split; [done|]. split; [done|]. done.
  - destruct M as [I M]. destruct (M h kd eq_refl) as (c'&Hc'&Hsd&Hkd). assert (c' = c) as -> by congruence. unfold InvS; cbn.
    eapply InvC_hadd; eauto. split; [done|]. split; [done|]. intros. left.
    eapply (co_pull _ (ic_co _ _ _ _ _ I _ _ H)); eauto. congruence.
  - exact M.
  - exact M.
  - destruct M as (I&Hw&Hop&Hex). unfold InvS; cbn. eapply kill_switch; eauto; by rewrite H0.
  - destruct M as (I&Hw&Hop&Hex). split.
    + unfold InvS; cbn. eapply kill_switch; eauto; destruct (ac_st c); naive_solver.
    + unfold foc_inv; cbn. rewrite lookup_insert. eexists. split; [done|]. done.
  - done.
  - done.
  - destruct M as (I&Hn&_). unfold InvS. rewrite Hn. by apply InvC_nk.
  - destruct M as (I&Hn&Hh). split; [|done]. unfold InvS; cbn. rewrite Hn.
    set (c := ACo Pull kd ARun SlEmpty _ _).
    assert (InvC (<[n := c_st (ADone None) c]> (a_co a)) (a_wait a) (a_h a) (a_cur a) (S n)) as I1.
    { apply InvC_new; [done|done|]. split; done. }
    assert (InvC (<[n := c]> (<[n := c_st (ADone None) c]> (a_co a))) (<[a_cur a := WOp n (NNew Pull kd) (PoNew h kd) k]> (a_wait a)) (a_h a) n (S n)) as I2.
    { eapply (InvC_switch _ _ _ _ _ _ (c_st (ADone None) c)); [exact I1|..]; try done.
      - by rewrite lookup_insert.
      - split; [done|]. intros ?? [= <- <-]. done. }
    rewrite insert_insert in I2. eapply InvC_hadd; eauto.
    + cbn. by rewrite lookup_insert.
    + split; done.
  - destruct M as (I&Hn&Hh). unfold InvS; cbn. rewrite Hn.
    set (c := ACo Push kd (ANew fn) SlEmpty _ _).
    assert (InvC (<[n := c]> (a_co a)) (a_wait a) (a_h a) (a_cur a) (S n)) as I1.
    { apply InvC_new; [done|done|]. split; try done. }
    eapply InvC_hadd; [eapply InvC_hadd; [done|..]|..].
    + cbn. by rewrite lookup_insert.
    + split; done.
    + cbn. by rewrite lookup_insert.
    + split; [done|]. split; done.
  - destruct M as [I _]. split; [done|]. eauto.
  - destruct M as (I&c'&Hc&Hst). assert (c' = c) as -> by congruence.
    pose proof (ic_wait _ _ _ _ _ I _ _ H0) as (y&Hy&Hyb&Hyr&Hyn). cbn in Hy, Hyn.
    assert (j = a_cur a) as ->.
    { destruct (ic_act _ _ _ _ _ I _ _ Hc) as [_ (w&Hw&Hwt)]; [by rewrite Hst|]. simplify_eq. done. }
    simplify_eq. split.
    + unfold InvS; cbn. rewrite <- (c_slot_id c) at 1. eapply back_inv; eauto.
      pose proof (ic_co _ _ _ _ _ I _ _ Hc) as Hok. rewrite c_slot_id. destruct Hok. rewrite Hst in *. split; cbn; done.
    + intros h kd' ->. destruct (Hyn h kd' eq_refl) as (?&?&?). eexists. cbn. rewrite lookup_insert. split; [done|]. by cbn.
  - destruct M as [I _]. split; [done|]. exists c. cbn. split; [done|]. by rewrite H1.
  - destruct M as [I F]. unfold foc_inv in F. rewrite H in F. split; [by apply InvC_hdel|]. done.
  - destruct M as [I F]. unfold foc_inv in F. rewrite H in F. split; [by apply InvC_hdel|]. done.
  - destruct M as [I F]. unfold foc_inv in F. rewrite H in F. done.
  - destruct M as [I F]. unfold foc_inv in F. rewrite H in F. done.
  - destruct M as (I&c'&Hc&Hu). assert (c' = c) as -> by congruence.
    pose proof (InvC_exit _ _ _ _ _ _ I Hc) as I'.
    pose proof (ic_wait _ _ _ _ _ I _ _ H0) as (z&Hz&Hzb&Hzm).
    assert (ac_by c <> a_cur a) as Hne. { intros E. rewrite E in H0. rewrite (ic_wcur _ _ _ _ _ I) in H0. done. }
    destruct w as [ |j o [] k|j]; [done| | | |]; subst y; cbn; try done.
    split; [done|]. unfold foc_inv; cbn. destruct Hzm as [_ (z'&Hz'&?)]. exists z'. by rewrite lookup_delete_ne.
Qed.

(** Facts that hold in all states, also inside a push. *)
Record basic (a : astate) : Prop := {
  ib_dom : forall k c, a_co a !! k = Some c -> 0 < k < a_nk a;
  ib_nk : 0 < a_nk a;
  ib_cur : a_cur a = 0 \/ exists c, a_co a !! a_cur a = Some c /\ active (ac_st c) = true;
  ib_wcur : a_wait a !! a_cur a = None;
  ib_ctx : forall c w, a_wait a !! c = Some w -> c = 0 \/ exists x, a_co a !! c = Some x /\ active (ac_st x) = true;
  ib_wait : forall c w, a_wait a !! c = Some w -> exists x, a_co a !! wtarget w = Some x /\ ac_by x = c /\
      match w with
      | WOp _ _ _ _ => ac_st x = ARun
      | WKill _ _ _ _ => unw_st (ac_st x) = true
      | WExit _ => unw_st (ac_st x) = true /\ exists y, a_co a !! c = Some y /\ unw_st (ac_st y) = true
      end;
  ib_act : forall k c, a_co a !! k = Some c -> active (ac_st c) = true ->
      (k = a_cur a \/ is_Some (a_wait a !! k)) /\ exists w, a_wait a !! ac_by c = Some w /\ wtarget w = k;
  ib_post : forall k c o h kd k', a_co a !! k = Some c -> ac_st c <> ASusp o (PoNew h kd) k';
  ib_new : forall k c fn, a_co a !! k = Some c -> ac_st c = ANew fn -> ac_side c = Push;
  ib_hd : forall h sd kd e, a_h a !! h = Some (HObj sd kd (Some e)) -> ep_co e < a_nk a;
  ib_h : forall h sd kd e c, a_h a !! h = Some (HObj sd kd (Some e)) -> a_co a !! ep_co e = Some c ->
      ac_kind c = kd /\ ac_side c = match e with Outer _ => sd | Inner _ => opp sd end }.

Lemma InvC_basic a nk : InvC (a_co a) (a_wait a) (a_h a) (a_cur a) nk -> nk <= a_nk a -> basic a.
Proof.
  intros [] Hle. split; try done.
  - intros k c Hk. destruct (ic_dom _ _ Hk). lia.
  - lia.
  - intros c w Hw. destruct (ic_wait _ _ Hw) as (x&?&?&Hm). exists x. split; [done|]. split; [done|]. destruct w; naive_solver.
  - intros. by apply (ic_co _ _ H).
  - intros. by eapply (ic_co _ _ H).
  - intros. eapply Nat.lt_le_trans; [by eapply ic_hd|done].
  - intros. destruct (ic_h _ _ _ _ _ H H0) as [? Hh]. split; [done|]. destruct e; [|done]. apply Hh.
Qed.

Lemma basic_slot a co n c s : a_co a = <[n := c_slot s c]> co -> co !! n = Some c -> basic (w_co co a) -> basic a.
Proof.
  intros Ha Hn [D1 D2 D3 D4 D5 D6 D7 D8 D9 D10 D11]. cbn in *.
  assert (Hl : forall k x, a_co a !! k = Some x -> exists y, co !! k = Some y /\ ac_st x = ac_st y /\ ac_by x = ac_by y /\ ac_side x = ac_side y /\ ac_kind x = ac_kind y).
  { intros k x Hk. rewrite Ha in Hk. destruct (decide (k = n)) as [->|].
    - rewrite lookup_insert in Hk. simplify_eq. exists c. done.
    - rewrite lookup_insert_ne in Hk by done. eauto 10. }
  assert (Hr : forall k y, co !! k = Some y -> exists x, a_co a !! k = Some x /\ ac_st x = ac_st y /\ ac_by x = ac_by y).
  { intros k y Hk. rewrite Ha. destruct (decide (k = n)) as [->|].
    - simplify_eq. rewrite lookup_insert. eexists. split; [done|]. done.
    - rewrite lookup_insert_ne by done. eauto. }
  assert (Hx : forall c, (c = 0 \/ exists x, co !! c = Some x /\ active (ac_st x) = true) -> c = 0 \/ exists x, a_co a !! c = Some x /\ active (ac_st x) = true).
  { intros k [->|(x&Hk&?)]; [by left|]. destruct (Hr _ _ Hk) as (y&?&E&_). right. exists y. by rewrite E. }
  split; eauto.
  - intros k x Hk. destruct (Hl _ _ Hk) as (?&?&_). eauto.
  - intros k w Hw. destruct (D6 _ _ Hw) as (x&Hk&Hb&Hm). destruct (Hr _ _ Hk) as (y&Hy&E1&E2).
    exists y. rewrite E1, E2. split; [done|]. split; [done|]. destruct w; [done|done|].
    destruct Hm as [? (z&Hz&?)]. split; [done|]. destruct (Hr _ _ Hz) as (z'&?&E3&_). exists z'. by rewrite E3.
  - intros k x Hk. destruct (Hl _ _ Hk) as (y&Hy&E1&E2&_). rewrite E1, E2. by apply D7.
  - intros k x o h kd k' Hk. destruct (Hl _ _ Hk) as (y&Hy&E1&_). rewrite E1. eauto.
  - intros k x fn Hk. destruct (Hl _ _ Hk) as (y&Hy&E1&_&E2&_). rewrite E1, E2. eauto.
  - intros h sd kd e x Hh Hk. destruct (Hl _ _ Hk) as (y&Hy&_&_&E1&E2). rewrite E1, E2. eauto.
Qed.

Lemma minv_basic x : minv x -> basic x.1.
Proof.
  destruct x as [a f]. intros M. destruct f; cbn in M |- *; try (eapply InvC_basic; [apply M|lia]).
  destruct M as (_&_&co&c&s&sd&kd&I&Hc&Ha&_). eapply basic_slot; [exact Ha|done|].
  by eapply InvC_basic.
Qed.

(** ** Reachability *)
Definition mreach (p : strat) (u : gmap nat T) (x : astate * mfoc) : Prop := msteps (ainit p u, MFoc) x.

Lemma mreach_ind p u (P : astate * mfoc -> Prop) :
  P (ainit p u, MFoc) -> (forall x y, mreach p u x -> P x -> micro x y -> P y) -> forall x, mreach p u x -> P x.
Proof. intros H0 Hs. apply (rtc_ind_r (fun x => P x) (ainit p u, MFoc)); [done|]. intros x y Hx Hm IH. by eapply Hs. Qed.

Lemma mreach_minv p u x : mreach p u x -> minv x.
Proof. apply mreach_ind; [apply ainit_inv|]. intros. by eapply micro_inv. Qed.

Lemma mreach_basic p u x : mreach p u x -> basic x.1.
Proof. intros. by eapply minv_basic, mreach_minv. Qed.

Lemma arun_mreach p u n a : arun n (ainit p u) = ANext a -> mreach p u (a, MFoc).
Proof.
  revert a. induction n as [|n IH]; intros a H; [by cbn in H; simplify_eq; apply rtc_refl|].
  rewrite arun_S in H. destruct (arun n (ainit p u)) as [a1| |]; try done.
  unfold mreach. etrans; [by apply IH|]. by apply astep_micro.
Qed.

Lemma ahalt_mreach p u n o a : arun n (ainit p u) = AHalt o a -> exists f, mreach p u (a, f).
Proof.
  revert o a. induction n as [|n IH]; intros o a H; [done|].
  rewrite arun_S in H. destruct (arun n (ainit p u)) as [a1|o1 a1|] eqn:E; try done.
  - apply arun_mreach in E. apply ahalt_micro in H as [->|(k&h&_&Hm)]; [by eexists|].
    eexists. eapply rtc_r; [exact E|exact Hm].
  - simplify_eq. by eapply IH.
Qed.

End micro.
