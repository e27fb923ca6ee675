(** Refine.v -- the model of the code (Model.v) follows the reference semantics
    (Spec.v) step by step. *)
From stdpp Require Import prelude gmap relations.
From Coq Require Import NArith.
From Verif Require Import Base Model Spec InvSpec.

Local Notation "x <-- a ;; b" := (mb a (fun x => b)) (at level 100, a at next level, right associativity).
Local Notation "a ;;; b" := (mb a (fun _ => b)) (at level 100, right associativity).

Section refine.
Context {env : Env} {comp : Compiler}.

(** A step of library code (user code is not in control). *)
Definition not_user (s : cstate) : Prop := match c_focus s with FStrat _ => False | _ => True end.
Definition cstep_rel (s s' : cstate) : Prop := step s = CNext s' /\ not_user s.
Notation steps := (rtc cstep_rel).

(** ** Names for the continuations that occur in suspended frames *)

Definition post_code (po : post) : lcode :=
  match po with
  | PoUnit => LRet (RVAns AUnit)
  | PoInc h => LDo (it_fetch h) (fun i => LRet (RVAns (AIt i)))
  | PoOut h => LDo (o <-- get_h h ;; n <-- push_not o ;; mret (if n then None else Some h))
                   (fun i => LRet (RVAns (AIt i)))
  | PoNew _ _ => LRet RVUnit
  end.

Definition back_k (e : ep) (po : post) : option nat -> lcode :=
  fun r => fiber_assign e r (rethrow_if e (post_code po)).

Definition new_pull_rest (kd : kind) (h k : nat) : lcode :=
  LDo (pull_cb_valid kd (Outer k)) (fun v =>
  if v then LDo (put_h h (HObj Pull kd (Some (Outer k))) ;;; mlog (EvNew k h)) (fun _ => LRet (RVAns (AH h)))
  else cb_deallocate Pull kd (Outer k)
         (LDo (put_h h (HObj Pull kd None)) (fun _ => LRet (RVAns (AH h))))).

Definition tail_of (sd : side) (kd : kind) (k : nat) : lcode :=
  match sd with Pull => pull_tail kd k | Push => push_tail kd k end.

Definition ret_k : option nat -> lcode := fun r => LRet (RVFiber r).
Definition assign_k (k : nat) : option nat -> lcode := fun r =>
  LDo (other_of (Outer k)) (fun o =>
  fiber_assign o r (
  LDo (o <-- other_of (Outer k) ;; take_c o) (fun f => LRet (RVFiber f)))).
Definition tail_k (sd : side) (kd : kind) (k : nat) : option nat -> lcode :=
  match sd, kd with
  | Pull, _ => ret_k
  | Push, KVal => if cxx11_lambdas then assign_k k else ret_k
  | Push, _ => assign_k k
  end.
Definition new_k (kd : kind) (k : nat) (h : nat) (fn : nat -> strat) : option nat -> lcode := fun r =>
  LDo (other_of (Outer k)) (fun o => fiber_assign o r (run_fn k h fn (push_tail kd k))).

Definition exit_fr (sd : side) (kd : kind) (k : nat) : list frame :=
  [KScope (synth_cb_dtor (opp sd) kd (Inner k)); KEntry k].
Definition scopes (sd : side) (kd : kind) (syn k : nat) : list frame :=
  KScope (synth_dtor k syn) :: exit_fr sd kd k.
Definition fnframes (sd : side) (kd : kind) (syn k : nat) : list frame :=
  KFn k :: KTry (fn_handler k) (tail_of sd kd k) :: scopes sd kd syn k.

Definition user_fr (j : nat) (o : opn) (po : post) (k : resp -> strat) : list frame :=
  match po with
  | PoNew h kd => [KTry (ctor_cleanup (Outer j)) (new_pull_rest kd h j); KUser o k]
  | _ => [KUser o k]
  end.

Definition ctxbase (co : gmap nat acoro) (c : nat) : list frame :=
  match co !! c with
  | Some x => fnframes (ac_side x) (ac_kind x) (ac_syn x) c
  | None => [KMain]
  end.

Definition wait_fr (co : gmap nat acoro) (c : nat) (w : wait) (fr : option (list frame)) : Prop :=
  match w with
  | WOp j o po k => fr = Some (KResume (back_k (Outer j) po) :: user_fr j o po k ++ ctxbase co c)
  | WKill j o KfDestroy k => fr = Some (KUnwind (LRet (RVAns AUnit)) :: KUser o k :: ctxbase co c)
  | WKill j o (KfEmpty h kd) k =>
      fr = Some (KUnwind (LDo (put_h h (HObj Pull kd None)) (fun _ => LRet (RVAns (AH h)))) :: KUser o k :: ctxbase co c)
  | WKill j o (KfThrow e) k =>
      exists kt, fr = Some (KUnwind (LThrow (XUser e)) :: KThen kt :: KUser o k :: ctxbase co c)
  | WExit j =>
      exists x, co !! c = Some x /\
      fr = Some (KUnwind (LRet RVUnit) :: KPend (inr XUnwind) :: exit_fr (ac_side x) (ac_kind x) c)
  end.

Definition fib_ok (co : gmap nat acoro) (wt : gmap nat wait) (c : nat) (fr : option (list frame)) : Prop :=
  match wt !! c with
  | Some w => wait_fr co c w fr
  | None =>
      match co !! c with
      | Some x =>
          match ac_st x with
          | ANew fn => fr = Some (KResume (new_k (ac_kind x) c (ac_syn x) fn) :: scopes (ac_side x) (ac_kind x) (ac_syn x) c)
          | ASusp o po k => fr = Some (KResume (back_k (Inner c) po) :: KUser o k :: fnframes (ac_side x) (ac_kind x) (ac_syn x) c)
          | ADone _ => fr = Some (KResume (tail_k (ac_side x) (ac_kind x) c) :: scopes (ac_side x) (ac_kind x) (ac_syn x) c)
          | _ => True
          end
      | None => True
      end
  end.

(** ** Control blocks *)

Definition slot_valid (s : aslot) : bool := match s with SlEmpty => false | _ => true end.
Definition slot_bytes (s : aslot) : slot := match s with SlFull p => StLive p | _ => StRaw end.
Definition mk_cb (c : option nat) (o : ep) (st : state_t) (x : option E) (s : aslot) : cblock :=
  CB c (Some o) st x (slot_valid s) (slot_bytes s) true.

Definition outer_slot (c : acoro) : aslot := match ac_side c with Pull => ac_slot c | Push => SlEmpty end.
Definition inner_slot (c : acoro) : aslot := match ac_side c with Pull => SlEmpty | Push => ac_slot c end.

Definition inner_cb (k : nat) (c : acoro) : cblock :=
  mk_cb (match ac_st c with ARun => Some (ac_by c) | _ => None end) (Outer k) st_none None (inner_slot c).
Definition outer_cb (k : nat) (c : acoro) : cblock :=
  mk_cb (match ac_st c with ARun => None | _ => Some k end) (Inner k)
        (match ac_st c with ADone _ => 6%N | _ => st_unwind end)
        (match ac_st c with ADone x => x | _ => None end) (outer_slot c).

Definition cb_ok (oc : option acoro) (k : nat) (oo oi : option cblock) : Prop :=
  match oc with
  | None => oo = None /\ oi = None
  | Some c =>
      oi = Some (inner_cb k c) /\
      (if unw_st (ac_st c) then exists b, oo = Some b /\ cb_alive b = false else oo = Some (outer_cb k c))
  end.

Record flat (a : astate) (m : mem) : Prop := {
  f_h : m_h m = a_h a;
  f_user : m_user m = a_user a;
  f_nh : m_nh m = a_nh a;
  f_nk : m_nk m = a_nk a;
  f_tr : m_tr m = a_tr a }.

Record Rcore (a : astate) (m : mem) (fib : gmap nat (list frame)) (unw : gmap nat nat) : Prop := {
  r_flat : flat a m;
  r_cb : forall k, cb_ok (a_co a !! k) k (m_cbs m !! Outer k) (m_cbs m !! Inner k);
  r_stk : forall k, is_Some (a_co a !! k) -> k ∈ m_stk m;
  r_fib : forall c, c <> a_cur a -> fib_ok (a_co a) (a_wait a) c (fib !! c);
  r_unw : forall k c, a_co a !! k = Some c -> unw_st (ac_st c) = true -> unw !! k = Some (ac_by c) }.

Definition foc_ok (a : astate) (f : focus) (K : list frame) : Prop :=
  match a_foc a with
  | AUser s => f = FStrat s /\ K = ctxbase (a_co a) (a_cur a)
  | AExit => exists c, a_co a !! a_cur a = Some c /\ f = FExn XUnwind /\
             K = scopes (ac_side c) (ac_kind c) (ac_syn c) (a_cur a)
  | AExit2 => exists c, a_co a !! a_cur a = Some c /\ f = FCode (LRet RVUnit) /\
             K = KPend (inr XUnwind) :: exit_fr (ac_side c) (ac_kind c) (a_cur a)
  end.

Record R (a : astate) (s : cstate) : Prop := {
  R_core : Rcore a (c_mem s) (c_fib s) (c_unw s);
  R_cur : c_cur s = a_cur a;
  R_foc : foc_ok a (c_focus s) (c_stack s) }.

(** ** Execution lemmas *)

Lemma x_do {A} (f : M A) k m m' fib unw cur K x s :
  f m = MOk x m' -> steps (CState m' fib unw cur (FCode (k x)) K) s ->
  steps (CState m fib unw cur (FCode (LDo f k)) K) s.
Proof. intros H1 H2. eapply rtc_l; [|exact H2]. split; [|done]. cbn. by rewrite H1. Qed.

Lemma x_do_throw {A} (f : M A) k m m' fib unw cur K e s :
  f m = MThrow e m' -> steps (CState m' fib unw cur (FExn (XUser e)) K) s ->
  steps (CState m fib unw cur (FCode (LDo f k)) K) s.
Proof. intros H1 H2. eapply rtc_l; [|exact H2]. split; [|done]. cbn. by rewrite H1. Qed.

Lemma x_resume g k k' K' m fib unw cur K s :
  fib !! g = Some (KResume k' :: K') ->
  steps (CState m (<[cur := KResume k :: K]> (delete g fib)) unw g (FCode (k' (Some cur))) K') s ->
  steps (CState m fib unw cur (FCode (LResume (Some g) k)) K) s.
Proof. intros H1 H2. eapply rtc_l; [|exact H2]. split; [|done]. cbn. by rewrite H1. Qed.

Lemma x_kill g k k' K' m fib unw cur K s :
  fib !! g = Some (KResume k' :: K') ->
  steps (CState m (<[cur := KUnwind k :: K]> (delete g fib)) (<[g := cur]> unw) g (FExn XUnwind) K') s ->
  steps (CState m fib unw cur (FCode (LKill (Some g) k)) K) s.
Proof. intros H1 H2. eapply rtc_l; [|exact H2]. split; [|done]. cbn. by rewrite H1. Qed.

Lemma x_kill_none k m fib unw cur K s :
  steps (CState m fib unw cur (FCode k) K) s ->
  steps (CState m fib unw cur (FCode (LKill None k)) K) s.
Proof. intros H2. eapply rtc_l; [|exact H2]. done. Qed.

Lemma mb_ok {A B} (x : M A) (f : A -> M B) m a m' r : x m = MOk a m' -> f a m' = r -> mb x f m = r.
Proof. intros H1 H2. unfold mb. by rewrite H1. Qed.

Lemma get_cb_ok e m b : m_cbs m !! e = Some b -> cb_alive b = true -> get_cb e m = MOk b m.
Proof. intros H1 H2. unfold get_cb. by rewrite H1, H2. Qed.

Lemma get_h_ok h m o : m_h m !! h = Some o -> get_h h m = MOk o m.
Proof. intros H. unfold get_h. by rewrite H. Qed.

Definition upd (e : ep) (b : cblock) (m : mem) : mem := set_cbs (<[e := b]> (m_cbs m)) m.

Lemma take_c_ok e m b : m_cbs m !! e = Some b -> cb_alive b = true ->
  take_c e m = MOk (cb_c b) (upd e (with_c None b) m).
Proof. intros. unfold take_c. eapply mb_ok; [by apply get_cb_ok|]. done. Qed.

Lemma swap_c_ok e f m b : m_cbs m !! e = Some b -> cb_alive b = true ->
  swap_c e f m = MOk (cb_c b) (upd e (with_c f b) m).
Proof. intros. unfold swap_c. eapply mb_ok; [by apply get_cb_ok|]. done. Qed.

Lemma x_fiber_assign e f k m fib unw cur K b s :
  m_cbs m !! e = Some b -> cb_alive b = true -> cb_c b = None ->
  steps (CState (upd e (with_c f b) m) fib unw cur (FCode k) K) s ->
  steps (CState m fib unw cur (FCode (fiber_assign e f k)) K) s.
Proof.
  intros H1 H2 H3 H4. eapply x_do; [by apply swap_c_ok|]. cbn beta. rewrite H3. by apply x_kill_none.
Qed.

Lemma x_resume_assign e k g k' K' m fib unw cur K b s :
  m_cbs m !! e = Some b -> cb_alive b = true -> cb_c b = Some g ->
  fib !! g = Some (KResume k' :: K') ->
  steps (CState (upd e (with_c None b) m) (<[cur := KResume (fun r => fiber_assign e r k) :: K]> (delete g fib)) unw g
                (FCode (k' (Some cur))) K') s ->
  steps (CState m fib unw cur (FCode (resume_assign e k)) K) s.
Proof.
  intros H1 H2 H3 H4 H5. eapply x_do; [by apply take_c_ok|]. cbn beta. rewrite H3. eapply x_resume; eauto.
Qed.

Lemma x_rethrow_none e k m fib unw cur K b s :
  m_cbs m !! e = Some b -> cb_alive b = true -> cb_except b = None ->
  steps (CState m fib unw cur (FCode k) K) s ->
  steps (CState m fib unw cur (FCode (rethrow_if e k)) K) s.
Proof. intros H1 H2 H3 H4. eapply x_do; [by apply get_cb_ok|]. cbn beta. by rewrite H3. Qed.

Lemma x_rethrow_some e k m fib unw cur K b x s :
  m_cbs m !! e = Some b -> cb_alive b = true -> cb_except b = Some x ->
  steps (CState m fib unw cur (FExn (XUser x)) K) s ->
  steps (CState m fib unw cur (FCode (rethrow_if e k)) K) s.
Proof.
  intros H1 H2 H3 H4. eapply x_do; [by apply get_cb_ok|]. cbn beta. rewrite H3.
  eapply rtc_l; [|exact H4]. done.
Qed.

(** ** operator bool *)

Lemma core_outer a m fib unw k c : Rcore a m fib unw -> a_co a !! k = Some c -> unw_st (ac_st c) = false ->
  m_cbs m !! Outer k = Some (outer_cb k c).
Proof. intros H1 H2 H3. pose proof (r_cb _ _ _ _ H1 k) as H. rewrite H2 in H. destruct H as [_ H]. by rewrite H3 in H. Qed.

Lemma core_inner a m fib unw k c : Rcore a m fib unw -> a_co a !! k = Some c ->
  m_cbs m !! Inner k = Some (inner_cb k c).
Proof. intros H1 H2. pose proof (r_cb _ _ _ _ H1 k) as H. rewrite H2 in H. by destruct H. Qed.

Lemma slot_valid_ne s : s <> SlEmpty -> slot_valid s = true.
Proof. by destruct s. Qed.

Lemma pull_valid_ok a m fib unw h kd e b :
  Rcore a m fib unw -> InvS a -> a_h a !! h = Some (HObj Pull kd (Some e)) -> avalid (Some e) a = Some b ->
  pull_cb_valid kd e m = MOk b m.
Proof.
  intros Rc I Hh Hv. unfold avalid in Hv. destruct e as [k|k].
  - destruct (a_co a !! k) as [c|] eqn:Hc; [|done].
    pose proof (ic_h _ _ _ _ _ I _ _ _ (Outer k) _ Hh Hc) as (Hk&Hs&Hsl).
    assert (unw_st (ac_st c) = false) as Hu. { by destruct (ac_st c). }
    unfold pull_cb_valid. eapply mb_ok; [eapply get_cb_ok; [by eapply core_outer|done]|].
    unfold mret. f_equal. unfold outer_cb, mk_cb, outer_slot; cbn [cb_other cb_state cb_bvalid]. rewrite Hs.
    destruct kd.
    + rewrite slot_valid_ne by (destruct Hsl as [?|?]; congruence). destruct (ac_st c); simplify_eq; done.
    + rewrite slot_valid_ne by (destruct Hsl as [?|?]; congruence). destruct (ac_st c); simplify_eq; done.
    + destruct (ac_st c); simplify_eq; done.
  - destruct (a_co a !! k) as [c|] eqn:Hc; [|done].
    pose proof (ic_h _ _ _ _ _ I _ _ _ (Inner k) _ Hh Hc) as (Hk&Hs). cbn in Hs.
    unfold pull_cb_valid. eapply mb_ok; [eapply get_cb_ok; [by eapply core_inner|done]|].
    unfold mret. f_equal. unfold inner_cb, mk_cb, inner_slot; cbn [cb_other cb_state cb_bvalid]. rewrite Hs.
    assert (entered (ac_st c) = true /\ b = true) as [Hent ->].
    { destruct (ac_st c) as [| | | |[]]; simplify_eq/=; done. }
    pose proof (co_push _ (ic_co _ _ _ _ _ I _ _ Hc) Hs) as Hp.
    destruct kd; [rewrite slot_valid_ne by (apply Hp; [congruence|done]); done| |done].
    rewrite slot_valid_ne by (apply Hp; [congruence|done]); done.
Qed.

Lemma push_valid_ok a m fib unw h kd e b :
  Rcore a m fib unw -> InvS a -> a_h a !! h = Some (HObj Push kd (Some e)) -> avalid (Some e) a = Some b ->
  push_cb_valid kd e m = MOk b m.
Proof.
  intros Rc I Hh Hv. unfold avalid in Hv. destruct e as [k|k].
  - destruct (a_co a !! k) as [c|] eqn:Hc; [|done].
    assert (unw_st (ac_st c) = false) as Hu. { by destruct (ac_st c). }
    unfold push_cb_valid. eapply mb_ok; [eapply get_cb_ok; [by eapply core_outer|done]|].
    unfold mret. f_equal. unfold outer_cb, mk_cb; cbn [cb_state].
    destruct (ac_st c); simplify_eq; done.
  - destruct (a_co a !! k) as [c|] eqn:Hc; [|done].
    unfold push_cb_valid. eapply mb_ok; [eapply get_cb_ok; [by eapply core_inner|done]|].
    unfold mret. f_equal. unfold inner_cb, mk_cb; cbn [cb_state].
    destruct (ac_st c) as [| | | |[]]; simplify_eq; done.
Qed.

Lemma bool_ok a m fib unw h sd kd e b :
  Rcore a m fib unw -> InvS a -> a_h a !! h = Some (HObj sd kd e) -> avalid e a = Some b ->
  coro_bool (HObj sd kd e) m = MOk b m.
Proof.
  intros Rc I Hh Hv. unfold coro_bool, pull_bool, push_bool. cbn.
  destruct e as [e|]; [|unfold avalid in Hv; simplify_eq; by destruct sd].
  destruct sd; [by eapply pull_valid_ok|by eapply push_valid_ok].
Qed.

Lemma not_ok a m fib unw h sd kd e b :
  Rcore a m fib unw -> InvS a -> a_h a !! h = Some (HObj sd kd e) -> avalid e a = Some b ->
  coro_not (HObj sd kd e) m = MOk (negb b) m.
Proof.
  intros Rc I Hh Hv. unfold coro_not, pull_not, push_not. cbn.
  destruct e as [e|]; [|unfold avalid in Hv; simplify_eq; by destruct sd].
  destruct sd; (eapply mb_ok; [|done]); [by eapply pull_valid_ok|by eapply push_valid_ok].
Qed.

Lemma fetch_ok a m fib unw h kd e b :
  Rcore a m fib unw -> InvS a -> a_h a !! h = Some (HObj Pull kd e) -> avalid e a = Some b ->
  it_fetch h m = MOk (if b then Some h else None) m.
Proof.
  intros Rc I Hh Hv. unfold it_fetch. eapply mb_ok; [apply get_h_ok; by rewrite (f_h _ _ (r_flat _ _ _ _ Rc))|].
  eapply mb_ok; [apply (not_ok a m fib unw h Pull kd e b); done|]. by destruct b.
Qed.

(** ** Changes of the state that preserve the relation *)

Lemma fib_ok_ext co co' wt wt' c fr :
  co' !! c = co !! c -> wt' !! c = wt !! c -> fib_ok co wt c fr -> fib_ok co' wt' c fr.
Proof.
  intros H1 H2. unfold fib_ok, wait_fr, ctxbase. rewrite H1, H2. done.
Qed.

(** Everything about coroutines other than [n] is unchanged in memory. *)
Definition cbs_same (n : nat) (m m' : mem) : Prop :=
  forall k, k <> n -> m_cbs m' !! Outer k = m_cbs m !! Outer k /\ m_cbs m' !! Inner k = m_cbs m !! Inner k.

Lemma cbs_same_refl n m : cbs_same n m m.
Proof. done. Qed.
Lemma cbs_same_trans n m m' m'' : cbs_same n m m' -> cbs_same n m' m'' -> cbs_same n m m''.
Proof. intros H1 H2 k Hk. destruct (H1 k Hk) as [<- <-]. by apply H2. Qed.
Lemma cbs_same_upd n e b m m' : ep_co e = n -> cbs_same n m m' -> cbs_same n m (upd e b m').
Proof.
  intros He H k Hk. destruct (H k Hk) as [<- <-]. unfold upd; cbn.
  rewrite !lookup_insert_ne; [done|destruct e; cbn in He; congruence|destruct e; cbn in He; congruence].
Qed.
Lemma cbs_same_eq n m m' m'' : m_cbs m'' = m_cbs m' -> cbs_same n m m' -> cbs_same n m m''.
Proof. intros H1 H2 k Hk. rewrite H1. by apply H2. Qed.

Lemma cb_upd n (co co' : gmap nat acoro) (m m' : mem) :
  (forall k, cb_ok (co !! k) k (m_cbs m !! Outer k) (m_cbs m !! Inner k)) ->
  cbs_same n m m' -> (forall k, k <> n -> co' !! k = co !! k) ->
  cb_ok (co' !! n) n (m_cbs m' !! Outer n) (m_cbs m' !! Inner n) ->
  forall k, cb_ok (co' !! k) k (m_cbs m' !! Outer k) (m_cbs m' !! Inner k).
Proof.
  intros H1 H2 H3 H4 k. destruct (decide (k = n)) as [->|Hk]; [done|].
  destruct (H2 k Hk) as [-> ->]. by rewrite H3.
Qed.

(** Control enters [n]. *)
Lemma Rcore_switch a m fib unw n c' w fr a' m' unw' :
  Rcore a m fib unw -> n <> a_cur a -> n ∈ m_stk m ->
  a_co a' = <[n := c']> (a_co a) -> a_wait a' = <[a_cur a := w]> (a_wait a) -> a_cur a' = n ->
  wait_fr (a_co a) (a_cur a) w (Some fr) ->
  cbs_same n m m' -> cb_ok (Some c') n (m_cbs m' !! Outer n) (m_cbs m' !! Inner n) ->
  m_stk m' = m_stk m -> flat a' m' ->
  (forall k, k <> n -> unw' !! k = unw !! k) -> (unw_st (ac_st c') = true -> unw' !! n = Some (ac_by c')) ->
  Rcore a' m' (<[a_cur a := fr]> (delete n fib)) unw'.
Proof.
  intros Rc Hn Hst Eco Ewt Ecur Hw Hcbs Hcb Estk Hf Hu1 Hu2. split.
  - done.
  - rewrite Eco. eapply (cb_upd n); [apply Rc|done| |].
    + intros k Hk. by rewrite lookup_insert_ne.
    + by rewrite lookup_insert.
  - intros k. rewrite Eco, Estk. destruct (decide (k = n)) as [->|]; [done|]. rewrite lookup_insert_ne by done. apply Rc.
  - intros c. rewrite Ecur, Eco, Ewt. intros Hc.
    destruct (decide (c = a_cur a)) as [->|].
    + unfold fib_ok. rewrite !lookup_insert. clear -Hw Hn. unfold wait_fr, ctxbase in *. by rewrite lookup_insert_ne.
    + rewrite lookup_insert_ne by done. rewrite lookup_delete_ne by done.
      eapply fib_ok_ext; [..|by apply (r_fib _ _ _ _ Rc)].
      * by rewrite lookup_insert_ne.
      * by rewrite lookup_insert_ne.
  - intros k c. rewrite Eco. destruct (decide (k = n)) as [->|].
    + rewrite lookup_insert. intros [= <-]. done.
    + rewrite lookup_insert_ne by done. intros. rewrite Hu1 by done. by eapply r_unw.
Qed.

(** Control leaves [n] = current context and goes to [b]; [co0] gives the coroutine
    table up to the entry of [n]. *)
Lemma Rcore_back a m fib unw n b c' fr a' m' :
  Rcore a m fib unw -> n = a_cur a -> n <> b -> n ∈ m_stk m ->
  a_co a' = <[n := c']> (a_co a) -> a_wait a' = delete b (a_wait a) -> a_cur a' = b -> a_wait a !! n = None ->
  fib_ok (<[n := c']> (a_co a)) (a_wait a) n (Some fr) ->
  cbs_same n m m' -> cb_ok (Some c') n (m_cbs m' !! Outer n) (m_cbs m' !! Inner n) ->
  m_stk m' = m_stk m -> flat a' m' -> unw_st (ac_st c') = false ->
  Rcore a' m' (<[n := fr]> (delete b fib)) unw.
Proof.
  intros Rc -> Hn Hst Eco Ewt Ecur Hw Hfr Hcbs Hcb Estk Hf Hu. split.
  - done.
  - rewrite Eco. eapply (cb_upd (a_cur a)); [apply Rc|done| |].
    + intros k Hk. by rewrite lookup_insert_ne.
    + by rewrite lookup_insert.
  - intros k. rewrite Eco, Estk. destruct (decide (k = a_cur a)) as [->|]; [done|]. rewrite lookup_insert_ne by done. apply Rc.
  - intros c. rewrite Ecur, Eco, Ewt. intros Hc.
    destruct (decide (c = a_cur a)) as [->|].
    + rewrite lookup_insert. eapply fib_ok_ext; [..|exact Hfr]; [done|]. by rewrite lookup_delete_ne.
    + rewrite lookup_insert_ne by done. rewrite lookup_delete_ne by done.
      eapply fib_ok_ext; [..|by apply (r_fib _ _ _ _ Rc)].
      * by rewrite lookup_insert_ne.
      * by rewrite lookup_delete_ne.
  - intros k c. rewrite Eco. destruct (decide (k = a_cur a)) as [->|].
    + rewrite lookup_insert. intros [= <-]. congruence.
    + rewrite lookup_insert_ne by done. intros. by eapply r_unw.
Qed.

Lemma Rcore_exit a m fib unw n b a' m' :
  Rcore a m fib unw -> n = a_cur a -> n <> b ->
  a_co a' = delete n (a_co a) -> a_wait a' = delete b (a_wait a) -> a_cur a' = b -> a_wait a !! n = None ->
  cbs_same n m m' -> m_cbs m' !! Outer n = None -> m_cbs m' !! Inner n = None ->
  m_stk m' = m_stk m ∖ {[ n ]} -> flat a' m' ->
  Rcore a' m' (delete b fib) (delete n unw).
Proof.
  intros Rc -> Hn Eco Ewt Ecur Hw Hcbs Hcb1 Hcb2 Estk Hf. split.
  - done.
  - rewrite Eco. eapply (cb_upd (a_cur a)); [apply Rc|done| |].
    + intros k Hk. by rewrite lookup_delete_ne.
    + by rewrite lookup_delete.
  - intros k. rewrite Eco, Estk. destruct (decide (k = a_cur a)) as [->|]; [rewrite lookup_delete; by intros []|].
    rewrite lookup_delete_ne by done. intros H. apply (r_stk _ _ _ _ Rc) in H. set_solver.
  - intros c. rewrite Ecur, Eco, Ewt. intros Hc.
    destruct (decide (c = a_cur a)) as [->|].
    + unfold fib_ok. rewrite lookup_delete_ne by done. by rewrite Hw, lookup_delete.
    + rewrite lookup_delete_ne by done.
      eapply fib_ok_ext; [..|by apply (r_fib _ _ _ _ Rc)].
      * by rewrite lookup_delete_ne.
      * by rewrite lookup_delete_ne.
  - intros k c. rewrite Eco. destruct (decide (k = a_cur a)) as [->|].
    + by rewrite lookup_delete.
    + rewrite !lookup_delete_ne by done. intros. by eapply r_unw.
Qed.

(** Only the object table, user memory, counters or the trace change. *)
Lemma Rcore_flat a m fib unw a' m' :
  Rcore a m fib unw -> a_co a' = a_co a -> a_wait a' = a_wait a -> a_cur a' = a_cur a ->
  m_cbs m' = m_cbs m -> m_stk m ⊆ m_stk m' -> flat a' m' -> Rcore a' m' fib unw.
Proof.
  intros Rc E1 E2 E3 E4 E5 Hf. split; [done|..].
  - intros k. rewrite E1, E4. apply Rc.
  - intros k. rewrite E1. intros H. apply E5. by apply Rc.
  - intros c. rewrite E1, E2, E3. apply Rc.
  - intros k c. rewrite E1. apply Rc.
Qed.

(** The slot. *)
Definition slot_ep (n : nat) (c : acoro) : ep := match ac_side c with Pull => Outer n | Push => Inner n end.

Lemma slot_block a m fib unw n c :
  Rcore a m fib unw -> a_co a !! n = Some c -> (ac_side c = Pull -> unw_st (ac_st c) = false) ->
  exists cc oo st x, m_cbs m !! slot_ep n c = Some (mk_cb cc oo st x (ac_slot c)) /\
    forall s' m', cbs_same n m m' -> m_cbs m' = <[slot_ep n c := mk_cb cc oo st x s']> (m_cbs m) ->
      cb_ok (Some (c_slot s' c)) n (m_cbs m' !! Outer n) (m_cbs m' !! Inner n).
Proof.
  intros Rc Hc Hu. pose proof (core_inner _ _ _ _ _ _ Rc Hc) as Hi.
  pose proof (r_cb _ _ _ _ Rc n) as Hcb. rewrite Hc in Hcb. destruct Hcb as [_ Hcb].
  unfold slot_ep. destruct (ac_side c) eqn:Hs.
  - pose proof (core_outer _ _ _ _ _ _ Rc Hc (Hu eq_refl)) as Ho. unfold outer_cb in Ho.
    do 4 eexists. split; [rewrite Ho; unfold outer_slot; by rewrite Hs|].
    intros s' m' _ E. rewrite E. cbn [cb_ok]. rewrite lookup_insert_ne by done. rewrite lookup_insert. split.
    + rewrite Hi. unfold inner_cb, inner_slot; cbn. by rewrite Hs.
    + cbn. rewrite Hu by done. unfold outer_cb, outer_slot; cbn. by rewrite Hs.
  - unfold inner_cb in Hi.
    do 4 eexists. split; [rewrite Hi; unfold inner_slot; by rewrite Hs|].
    intros s' m' _ E. rewrite E. cbn [cb_ok]. rewrite lookup_insert, lookup_insert_ne by done. split.
    + unfold inner_cb, inner_slot; cbn. by rewrite Hs.
    + cbn. destruct (unw_st (ac_st c)) eqn:Hun; [done|]. rewrite Hcb.
      unfold outer_cb, outer_slot; cbn. by rewrite Hs.
Qed.

Lemma Rcore_slot a m fib unw n c s a' m' :
  Rcore a m fib unw -> a_co a !! n = Some c ->
  a_co a' = <[n := c_slot s c]> (a_co a) -> a_wait a' = a_wait a -> a_cur a' = a_cur a ->
  cbs_same n m m' -> cb_ok (Some (c_slot s c)) n (m_cbs m' !! Outer n) (m_cbs m' !! Inner n) ->
  m_stk m' = m_stk m -> flat a' m' -> Rcore a' m' fib unw.
Proof.
  intros Rc Hc Eco Ewt Ecur Hcbs Hcb Estk Hf. split; [done|..].
  - rewrite Eco. eapply (cb_upd n); [apply Rc|done| |].
    + intros k Hk. by rewrite lookup_insert_ne.
    + by rewrite lookup_insert.
  - intros k. rewrite Eco, Estk. destruct (decide (k = n)) as [->|]; [intros _; by apply Rc|]. rewrite lookup_insert_ne by done. apply Rc.
  - intros x. rewrite Ecur, Eco, Ewt. intros Hx. pose proof (r_fib _ _ _ _ Rc x Hx) as H.
    destruct (decide (x = n)) as [->|].
    + unfold fib_ok, wait_fr, ctxbase in *. rewrite Hc in H. rewrite lookup_insert. cbn.
      destruct (a_wait a !! n) as [w|]; [|done].
      destruct w as [| |j]; [done|done|]. destruct H as (y&Hy&H). simplify_eq. eexists. split; [done|]. done.
    + eapply fib_ok_ext; [..|done]; [|done]. by rewrite lookup_insert_ne.
  - intros k x. rewrite Eco. destruct (decide (k = n)) as [->|].
    + rewrite lookup_insert. intros [= <-]. cbn. by eapply r_unw.
    + rewrite lookup_insert_ne by done. by eapply r_unw.
Qed.

End refine.
