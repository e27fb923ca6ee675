(** Misuse.v -- calls that break a precondition run into undefined behaviour. *)
From stdpp Require Import prelude gmap.
From Coq Require Import NArith Lia.
From Verif Require Import Base Model Spec InvSpec Refine.

Section misuse.
Context {env : Env} {comp : Compiler}.

(** The machine comes to undefined behaviour after finitely many steps. *)
Definition goes_ub (s : cstate) : Prop := exists n r m, crun n s = CHalt (Undefined r) m.

Lemma ub_step s s' : step s = CNext s' -> goes_ub s' -> goes_ub s.
Proof. intros E (n&r&m&H). exists (S n), r, m. cbn. by rewrite E. Qed.
Lemma ub_now s r m : step s = CHalt (Undefined r) m -> goes_ub s.
Proof. intros E. exists 1, r, m. cbn. by rewrite E. Qed.
Lemma ub_do {A} (f : M A) k m fib unw cur K :
  (forall e m', f m <> MThrow e m') -> (forall m', f m <> MTerm m') ->
  (forall x m', f m = MOk x m' -> goes_ub (CState m' fib unw cur (FCode (k x)) K)) ->
  goes_ub (CState m fib unw cur (FCode (LDo f k)) K).
Proof.
  intros H1 H2 H3. destruct (f m) as [x m'|e m'|r|m'] eqn:E; [|by destruct (H1 e m')| |by destruct (H2 m')].
  - eapply ub_step; [cbn; by rewrite E|]. by apply H3.
  - eapply ub_now. cbn. by rewrite E.
Qed.
Lemma ub_do_ok {A} (f : M A) k m m' x fib unw cur K : f m = MOk x m' -> goes_ub (CState m' fib unw cur (FCode (k x)) K) ->
  goes_ub (CState m fib unw cur (FCode (LDo f k)) K).
Proof. intros E H. eapply ub_step; [cbn; by rewrite E|done]. Qed.
Lemma ub_do_ub {A} (f : M A) k m r fib unw cur K : f m = MUB r -> goes_ub (CState m fib unw cur (FCode (LDo f k)) K).
Proof. intros E. eapply ub_now. cbn. by rewrite E. Qed.

(** ** The owner is used while its coroutine is active *)
Lemma ub_resume_empty e k m b fib unw cur K : m_cbs m !! e = Some b -> cb_alive b = true -> cb_c b = None ->
  goes_ub (CState m fib unw cur (FCode (resume_assign e k)) K).
Proof.
  intros H1 H2 H3. eapply ub_do_ok; [by apply take_c_ok|]. rewrite H3. by eapply ub_now.
Qed.

(** ** The owner is used after the function has ended *)
Lemma ub_after_free e k r m fib unw cur K : m_cbs m !! e = None ->
  goes_ub (CState m fib unw cur (FCode (fiber_assign e r k)) K).
Proof. intros H. eapply ub_do_ub. unfold swap_c, mb, get_cb. by rewrite H. Qed.

(** Everything of the lambda's frame is destroyed, the stack is released and the control
    block of the owner is gone when control returns to it. *)
Definition plain_obj (m : mem) (syn : nat) : Prop := forall o j, m_h m !! syn = Some o -> h_ep o <> Some (Outer j).

Lemma ub_end sd kd k syn r m fib unw cb cur0 kk K : m_cbs m !! Inner k = Some cb -> cb_alive cb = true -> cb_c cb = None ->
  (forall j b, m_cbs m !! Inner j = Some b -> cb_state b = st_none) -> plain_obj m syn ->
  fib !! cur0 = Some (KResume (fun r => fiber_assign (Outer k) r kk) :: K) -> r = Some cur0 ->
  goes_ub (CState m fib unw k (FRet (RVFiber r)) (scopes sd kd syn k)).
Proof.
  intros Hi Ha Hc Hs Hp Hf ->. eapply ub_step; [reflexivity|].
  (* the counterpart object *)
  eapply ub_do_ok; [reflexivity|]. unfold coro_dtor. set (m1 := log (EvGone k syn) m).
  destruct (m_h m !! syn) as [o|] eqn:Ho.
  2:{ eapply ub_do_ub. unfold mb, get_h. cbn. by rewrite Ho. }
  eapply ub_do_ok; [unfold mb, get_h; cbn; rewrite Ho; reflexivity|].
  set (m2 := set_h (delete syn (m_h m1)) m1).
  assert (Hcont : goes_ub (CState m2 fib unw k (FCode (LRet RVUnit)) (KPend (inl (RVFiber (Some cur0))) :: exit_fr sd kd k))).
  { eapply ub_step; [reflexivity|]. eapply ub_step; [reflexivity|]. eapply ub_step; [reflexivity|].
    (* the counterpart control block *)
    unfold synth_cb_dtor, cb_dtor. eapply ub_do.
    - intros e m'. unfold mb, get_cb. cbn. rewrite Hi, Ha. destruct (opp sd), kd; cbn; rewrite ?Hi, ?Ha; try done.
      destruct (cb_bvalid cb); cbn; rewrite ?Hi; cbn; rewrite ?Ha; try done. unfold destroy_T, mb, get_cb. cbn. rewrite Hi. cbn. rewrite Ha.
      destruct (cb_storage cb) as [|[]]; cbn; try done. rewrite lookup_insert. cbn. by rewrite Ha.
    - intros m'. unfold mb, get_cb. cbn. rewrite Hi, Ha. destruct (opp sd), kd; cbn; rewrite ?Hi, ?Ha; try done.
      destruct (cb_bvalid cb); cbn; rewrite ?Hi; cbn; rewrite ?Ha; try done. unfold destroy_T, mb, get_cb. cbn. rewrite Hi. cbn. rewrite Ha.
      destruct (cb_storage cb) as [|[]]; cbn; try done. rewrite lookup_insert. cbn. by rewrite Ha.
    - intros x m' E. assert (x = None /\ m_stk m' = m_stk m) as [-> Hstk].
      { revert E. unfold mb, get_cb. cbn. rewrite Hi, Ha. destruct (opp sd), kd; cbn; try (rewrite Hi; cbn; rewrite Ha; cbn; by intros [= <- <-]).
        destruct (cb_bvalid cb); cbn; [|rewrite Hi; cbn; rewrite Ha; cbn; by intros [= <- <-]]. unfold destroy_T, mb, get_cb. cbn. rewrite Hi. cbn. rewrite Ha.
        destruct (cb_storage cb) as [|[]]; cbn; try done. rewrite lookup_insert. cbn. rewrite Ha. cbn. by intros [= <- <-]. }
      eapply ub_step; [reflexivity|]. eapply ub_do_ok; [reflexivity|]. eapply ub_step; [reflexivity|]. eapply ub_step; [reflexivity|].
      (* fiber_exit *)
      destruct (decide (k ∈ m_stk m')) as [Hk|Hk].
      + eapply ub_step; [cbn; unfold fiber_exit; cbn; rewrite decide_True by done; rewrite Hf; reflexivity|].
        apply ub_after_free. cbn. by rewrite lookup_delete.
      + eapply ub_now. cbn. unfold fiber_exit. cbn. by rewrite decide_False. }
  destruct (h_ep o) as [[j|j]|] eqn:He; cbn; rewrite ?He; [by destruct (Hp o j Ho)| |done].
  unfold cb_deallocate. destruct (m_cbs m !! Inner j) as [b|] eqn:Hj.
  2:{ eapply ub_do_ub. unfold get_cb. cbn. by rewrite Hj. }
  destruct (cb_alive b) eqn:Hb.
  2:{ eapply ub_do_ub. unfold get_cb. cbn. by rewrite Hj, Hb. }
  eapply ub_do_ok; [unfold get_cb; cbn; rewrite Hj, Hb; reflexivity|]. rewrite (Hs _ _ Hj). exact Hcont.
Qed.

Lemma ub_resume_done sd kd k syn m fib unw cur K kk cb ob : cur <> k ->
  m_cbs m !! Outer k = Some ob -> cb_alive ob = true -> cb_c ob = Some k -> cb_other ob = Some (Inner k) ->
  m_cbs m !! Inner k = Some cb -> cb_alive cb = true -> cb_c cb = None ->
  (forall j b, m_cbs m !! Inner j = Some b -> cb_state b = st_none) -> plain_obj m syn ->
  fib !! k = Some (KResume (tail_k sd kd k) :: scopes sd kd syn k) ->
  goes_ub (CState m fib unw cur (FCode (resume_assign (Outer k) kk)) K).
Proof.
  intros Hne Ho Hoa Hoc Hoo Hi Hia Hic Hs Hp Hf. eapply ub_do_ok; [by apply take_c_ok|]. rewrite Hoc.
  eapply ub_step; [cbn; rewrite Hf; reflexivity|]. cbn beta.
  set (m1 := upd (Outer k) (with_c None ob) m).
  assert (Hi1 : m_cbs m1 !! Inner k = Some cb) by (cbn; by rewrite lookup_insert_ne).
  assert (Hs1 : forall j b, m_cbs m1 !! Inner j = Some b -> cb_state b = st_none).
  { intros j b. cbn. rewrite lookup_insert_ne by done. apply Hs. }
  set (fib1 := <[cur := _]> (delete k fib)).
  assert (Hret : goes_ub (CState m1 fib1 unw k (FRet (RVFiber (Some cur))) (scopes sd kd syn k))).
  { eapply ub_end; try done. unfold fib1. by rewrite lookup_insert. }
  unfold tail_k. destruct sd; [|destruct kd; [destruct cxx11_lambdas| |]]; try (eapply ub_step; [reflexivity|exact Hret]).
  all: unfold assign_k; eapply ub_do_ok; [unfold other_of, mb, get_cb; cbn; rewrite lookup_insert; cbn; rewrite Hoa; cbn; rewrite Hoo; reflexivity|];
    unfold fiber_assign; (eapply ub_do_ok; [apply swap_c_ok; [exact Hi1|done]|]); rewrite Hic; (eapply ub_step; [reflexivity|]);
    (eapply ub_do_ok; [unfold other_of, take_c, mb, get_cb; cbn; rewrite lookup_insert_ne by done; rewrite lookup_insert; cbn; rewrite Hoa; cbn; rewrite Hoo; cbn;
       rewrite lookup_insert; cbn; rewrite Hia; reflexivity|]); (eapply ub_step; [reflexivity|]); eapply ub_end; try done; cbn.
  all: try (by rewrite lookup_insert).
  all: try (intros j b; destruct (decide (j = k)) as [->|]; [rewrite lookup_insert; intros [= <-]; cbn; by eapply Hs|rewrite !lookup_insert_ne by congruence; apply Hs]).
  all: try (unfold fib1; by rewrite lookup_insert).
  all: rewrite lookup_insert; destruct cb; cbn in *; by subst.
Qed.

(** Storing a value through the counterpart control block. *)
Lemma set_ok kd e lv g m x m' b : pull_cb_set kd e lv g m = MOk x m' -> m_cbs m !! e = Some b ->
  m_h m' = m_h m /\ (forall e', e' <> e -> m_cbs m' !! e' = m_cbs m !! e') /\
  exists b', m_cbs m' !! e = Some b' /\ cb_alive b' = true /\ cb_c b' = cb_c b /\ cb_state b' = cb_state b.
Proof.
  intros H Hb. destruct kd; cbn in H; [| |done].
  - unfold mb, get_cb in H. rewrite Hb in H. destruct (cb_alive b) eqn:Ha; [|done]. cbn in H.
    assert (Hm : exists m1 b1, m_cbs m1 !! e = Some b1 /\ cb_alive b1 = true /\ cb_c b1 = cb_c b /\ cb_state b1 = cb_state b /\
       m_h m1 = m_h m /\ (forall e', e' <> e -> m_cbs m1 !! e' = m_cbs m !! e') /\
       match construct_T lv g m1 with
       | MOk a m'0 => match (match m_cbs m'0 !! e with Some b0 => if cb_alive b0 then MOk b0 m'0 else MUB UbDangling | None => MUB UbDangling end) with
           | MOk a0 m'1 => match put_cb e (with_bvalid true (with_storage (StLive (PVal a)) a0)) m'1 with
               | MOk _ m'2 => mlog (EvSet (ep_co e) (PVal a)) m'2 | MThrow e0 m'2 => MThrow e0 m'2 | MUB r => MUB r | MTerm m'2 => MTerm m'2 end
           | MThrow e0 m'1 => MThrow e0 m'1 | MUB r => MUB r | MTerm m'1 => MTerm m'1 end
       | MThrow e0 m'0 => MThrow e0 m'0 | MUB r => MUB r | MTerm m'0 => MTerm m'0 end = MOk x m').
    { destruct (cb_bvalid b).
      - unfold destroy_T, mb, get_cb in H. rewrite Hb, Ha in H. destruct (cb_storage b) as [|[v|]]; cbn in H; try done.
        match type of H with context [construct_T lv g ?mm] => exists mm end. eexists. cbn. rewrite lookup_insert. split; [done|]. cbn.
        repeat (split; [done|]). split; [|exact H]. intros e' Hne. by rewrite lookup_insert_ne.
      - exists m, b. repeat (split; [done|]). exact H. }
    clear H. destruct Hm as (m1&b1&H1&H2&H3&H4&H5&H6&H).
    destruct (construct_T lv g m1) as [v m2| | |] eqn:Ec; try done.
    assert (m_cbs m2 = m_cbs m1 /\ m_h m2 = m_h m1) as [E1 E2].
    { destruct g; cbn in Ec; unfold mb, user_load, mthrow, mret, user_store, mub in Ec; repeat (case_match; simplify_eq; try done). }
    rewrite E1, H1, H2 in H. cbn in H. injection H as _ <-. cbn. rewrite E1, E2, lookup_insert. split; [done|]. split.
    + intros e' Hne. rewrite lookup_insert_ne by done. auto.
    + eexists. split; [done|]. by cbn.
  - destruct g; try done. unfold mb, get_cb in H. rewrite Hb in H. destruct (cb_alive b) eqn:Ha; [|done]. cbn in H. injection H as _ <-.
    cbn. rewrite lookup_insert. split; [done|]. split; [intros e' Hne; by rewrite lookup_insert_ne|]. eexists. split; [done|]. by cbn.
Qed.
Lemma set_noterm kd e lv g m m' : pull_cb_set kd e lv g m <> MTerm m'.
Proof.
  destruct kd; cbn; [| |done].
  - unfold mb, get_cb, destroy_T, mb, get_cb, construct_T, mb, user_load, mret, mlog, put_cb, mthrow, mub, user_store. cbn.
    repeat (case_match; cbn; simplify_eq; try done).
  - destruct g; try done. unfold mb, get_cb. repeat (case_match; cbn; simplify_eq; try done).
Qed.
Lemma set_throw kd e lv g m x m' : pull_cb_set kd e lv g m = MThrow x m' -> exists v,
  match g with ACopy l | AMove l => m_user m !! l = Some v | AImm w => w = v | _ => False end /\
  match g with ACopy _ => copy_exn v | AMove _ => move_exn v | AImm _ => if lv then copy_exn v else move_exn v | _ => None end = Some x.
Proof.
  destruct kd; cbn; [| |done].
  - unfold mb, get_cb, destroy_T, mb, get_cb, construct_T, mb, user_load, mret, mlog, put_cb, mthrow, mub, user_store. cbn.
    intros H. destruct g; repeat (case_match; cbn in *; simplify_eq; try done); eauto.
  - destruct g; try done. unfold mb, get_cb. intros H. repeat (case_match; cbn in *; simplify_eq; try done).
Qed.

(** ** Calls *)

(** The calls that resume the coroutine an object denotes. *)
Definition resumes (o : op) : option nat :=
  match o with OResume x | OItInc (Some x) | OPush x _ | OOutAssign (Some x) _ => Some x | _ => None end.

(** [like m m' e]: [m'] is [m] but for the value stored in block [e] (and the history
    and user memory). *)
Definition like (m m' : mem) (e : ep) : Prop :=
  m_h m' = m_h m /\ (forall e', e' <> e -> m_cbs m' !! e' = m_cbs m !! e') /\
  (m_cbs m' !! e = m_cbs m !! e \/ exists b b', m_cbs m !! e = Some b /\ m_cbs m' !! e = Some b' /\ cb_alive b' = true /\ cb_c b' = cb_c b /\ cb_state b' = cb_state b).

(** Constructing the argument of a push in user memory [um] does not throw. *)
Definition no_throw (um : gmap nat T) (o : op) : Prop :=
  match o with
  | OPush _ (ACopy l) => forall v, um !! l = Some v -> copy_exn v = None
  | OPush _ (AMove l) => forall v, um !! l = Some v -> move_exn v = None
  | OPush _ (AImm v) => move_exn v = None
  | OOutAssign _ (AImm v) => copy_exn v = None
  | _ => True
  end.

Lemma mb_inv {A B} (x : M A) (f : A -> M B) m r : mb x f m = r ->
  match x m with MOk a m' => f a m' = r | MThrow e m' => r = MThrow e m' | MUB u => r = MUB u | MTerm m' => r = MTerm m' end.
Proof. unfold mb. by destruct (x m). Qed.

Lemma ub_push o kd e e2 lv g m0 m kk fib unw cur K cb : m_cbs m !! e = Some cb -> cb_alive cb = true -> cb_other cb = Some e2 ->
  m_h m = m_h m0 -> m_cbs m = m_cbs m0 -> m_user m = m_user m0 -> no_throw (m_user m0) o ->
  match o with OPush _ g' => g' = g /\ lv = false | OOutAssign _ g' => g' = g /\ lv = true /\ out_arg_ok kd g = true | _ => False end ->
  (forall m' k' K', like m0 m' e2 -> goes_ub (CState m' fib unw cur (FCode (resume_assign e k')) K')) ->
  goes_ub (CState m fib unw cur (FCode (push_cb_resume kd e lv g kk)) K).
Proof.
  intros Hb Ha Ho E1 E2 E3 Hn Hg Hk.
  assert (Hv : kd = KVoid \/ goes_ub (CState m fib unw cur (FCode (LDo (mb (get_cb e) (fun b => mb (nonnull (cb_other b)) (fun o => pull_cb_set kd o lv g)))
           (fun _ => resume_assign e (rethrow_if e kk)))) K)).
  { destruct (decide (kd = KVoid)) as [|Hkd]; [by left|]. right.
    assert (Er : forall r, mb (get_cb e) (fun b => mb (nonnull (cb_other b)) (fun o => pull_cb_set kd o lv g)) m = r -> pull_cb_set kd e2 lv g m = r).
    { intros r. unfold mb at 1, get_cb. rewrite Hb, Ha. cbn. by rewrite Ho. }
    apply ub_do.
    - intros x m' E%Er. apply set_throw in E as (v&Hv&Hx). rewrite E3 in Hv. unfold no_throw in Hn.
      destruct o; try done; [destruct Hg as [-> ->]|destruct Hg as (->&->&Hg)]; destruct g; cbn in *; try done.
      + by rewrite (Hn _ Hv) in Hx.
      + by rewrite (Hn _ Hv) in Hx.
      + subst. by rewrite Hn in Hx.
      + by destruct kd.
      + by destruct kd.
      + subst. by rewrite Hn in Hx.
    - intros m' E%Er. by apply set_noterm in E.
    - intros x m' E%Er. apply Hk. destruct (m_cbs m !! e2) as [b|] eqn:He2.
      + destruct (set_ok _ _ _ _ _ _ _ _ E He2) as (H1&H2&b'&H3&H4&H5&H6). rewrite E1 in H1. rewrite E2 in H2, He2. split; [done|]. split; [done|].
        right. exists b, b'. done.
      + exfalso. destruct kd; cbn in E; [| |done].
        * unfold mb, get_cb in E. by rewrite He2 in E.
        * destruct g; try done. unfold mb, get_cb in E. by rewrite He2 in E. }
  destruct kd; cbn; [destruct Hv as [?|Hv]; [done|exact Hv]..|].
  apply Hk. split; [done|]. rewrite E2. split; [done|]. by left.
Qed.

Lemma ub_call s o kk x ob e cb e2 : c_focus s = FStrat (SDo o kk) -> resumes o = Some x ->
  m_h (c_mem s) !! x = Some ob -> h_ep ob = Some e -> m_cbs (c_mem s) !! e = Some cb -> cb_alive cb = true -> cb_other cb = Some e2 ->
  no_throw (m_user (c_mem s)) o ->
  (forall m' k' K', like (c_mem s) m' e2 -> goes_ub (CState m' (c_fib s) (c_unw s) (c_cur s) (FCode (resume_assign e k')) K')) ->
  goes_ub s.
Proof.
  destruct s as [m fib unw cur fc K]. cbn. intros -> Hr Hx He Hb Ha Ho Hn Hk.
  eapply ub_step; [reflexivity|]. destruct ob as [sd kd ep]. cbn in He. subst ep.
  set (m1 := log _ m).
  assert (Hl : like m m1 e2) by (split; [done|]; split; [done|]; by left).
  destruct o as [h|h1 h2|h|h|h g|h|h|h|h| |[h|]|[h|]|i j|i j|h| |[h|] g|v|n|l|l v]; try done; cbn in Hr; injection Hr as ->; cbn [api].
  - apply ub_do; [unfold deref_h, mb, get_h, check, mub; cbn; rewrite Hx; cbn; by case_bool_decide..|].
    intros p m' E. unfold deref_h, mb, get_h, check in E. cbn in E. rewrite Hx in E. cbn in E. case_bool_decide; [|done]. cbn in E. injection E as <- <-.
    by apply Hk.
  - apply ub_do; [unfold deref_h, mb, get_h, check, mub; cbn; rewrite Hx; cbn; case_bool_decide; cbn; [|done]; by destruct (arg_ok kd g)..|].
    intros p m' E. unfold deref_h, mb, get_h, check in E. cbn in E. rewrite Hx in E. cbn in E. case_bool_decide; [|done]. cbn in E.
    destruct (arg_ok kd g) eqn:Eg; [|done]. cbn in E. injection E as <- <-. cbn.
    by eapply (ub_push (OPush x g) kd e e2 false g m m1).
  - assert (Hd : deref_h Pull x m1 = MOk (kd, e) m1 \/ exists u, deref_h Pull x m1 = MUB u).
    { unfold deref_h, mb, get_h, check. cbn. rewrite Hx. cbn. case_bool_decide; cbn; eauto. }
    assert (Hv : (exists b, pull_cb_valid kd e m1 = MOk b m1) \/ exists u, pull_cb_valid kd e m1 = MUB u).
    { unfold pull_cb_valid, mb, get_cb. cbn. rewrite Hb, Ha. destruct kd; cbn; eauto. }
    assert (Ht : exists r, (mb (get_h x) (fun o => mb (check (is_pull_range o) UbType) (fun _ => mb (pull_bool o) (fun v => mb (check v UbAssert) (fun _ => deref_h Pull x))))) m1 = r /\
       (r = MOk (kd, e) m1 \/ exists u, r = MUB u)).
    { eexists. split; [reflexivity|]. unfold mb, get_h, check. cbn. rewrite Hx. cbn. destruct (is_pull_range _); [|eauto]. cbn.
      unfold pull_bool. cbn. destruct Hv as [[b ->]|[u ->]]; [|eauto]. destruct b; cbn; eauto. }
    destruct Ht as (r&Er&[-> |[u ->]]).
    + apply ub_do; [by rewrite Er..|]. intros p m' E. rewrite Er in E. injection E as <- <-. by apply Hk.
    + by eapply ub_do_ub.
  - apply ub_do; [unfold deref_h, mb, get_h, check, mub; cbn; rewrite Hx; cbn; case_bool_decide; cbn; [|done]; by destruct (out_arg_ok kd g)..|].
    intros p m' E. unfold deref_h, mb, get_h, check in E. cbn in E. rewrite Hx in E. cbn in E. case_bool_decide; [|done]. cbn in E.
    destruct (out_arg_ok kd g) eqn:Eg; [|done]. cbn in E. injection E as <- <-. cbn.
    by eapply (ub_push (OOutAssign (Some x) g) kd e e2 true g m m1).
Qed.

(** The control block is gone. *)
Lemma ub_gone s o kk x ob e : c_focus s = FStrat (SDo o kk) -> resumes o = Some x ->
  m_h (c_mem s) !! x = Some ob -> h_ep ob = Some e -> (forall cb, m_cbs (c_mem s) !! e = Some cb -> cb_alive cb = false) ->
  goes_ub s.
Proof.
  destruct s as [m fib unw cur fc K]. cbn. intros -> Hr Hx He Hb.
  eapply ub_step; [reflexivity|]. destruct ob as [sd kd ep]. cbn in He. subst ep.
  set (m1 := log _ m). assert (Hg : get_cb e m1 = MUB UbDangling).
  { unfold get_cb. cbn. destruct (m_cbs m !! e) as [cb|]; [|done]. by rewrite Hb. }
  assert (Hp : forall kd lv g K kk, goes_ub (CState m1 fib unw cur (FCode (push_cb_resume kd e lv g kk)) K)).
  { intros kd0 lv g K0 kk0. destruct kd0; cbn; eapply ub_do_ub; [unfold mb..|unfold take_c, mb]; by rewrite Hg. }
  destruct o as [h|h1 h2|h|h|h g|h|h|h|h| |[h|]|[h|]|i j|i j|h| |[h|] g|v|n|l|l v]; try done; cbn in Hr; injection Hr as ->; cbn [api].
  - apply ub_do; [unfold deref_h, mb, get_h, check, mub; cbn; rewrite Hx; cbn; by case_bool_decide..|].
    intros p m' E. unfold deref_h, mb, get_h, check in E. cbn in E. rewrite Hx in E. cbn in E. case_bool_decide; [|done]. cbn in E. injection E as <- <-.
    eapply ub_do_ub. unfold take_c, mb. cbn [snd]. by rewrite Hg.
  - apply ub_do; [unfold deref_h, mb, get_h, check, mub; cbn; rewrite Hx; cbn; case_bool_decide; cbn; [|done]; by destruct (arg_ok kd g)..|].
    intros p m' E. unfold deref_h, mb, get_h, check in E. cbn in E. rewrite Hx in E. cbn in E. case_bool_decide; [|done]. cbn in E.
    destruct (arg_ok kd g) eqn:Eg; [|done]. cbn in E. injection E as <- <-. apply Hp.
  - destruct (is_pull_range (HObj sd kd (Some e))) eqn:Er; (eapply ub_do_ub; unfold mb, get_h, check; cbn; rewrite Hx; cbn; rewrite Er; cbn); [|done].
    unfold pull_bool. cbn. unfold pull_cb_valid, mb. by rewrite Hg.
  - apply ub_do; [unfold deref_h, mb, get_h, check, mub; cbn; rewrite Hx; cbn; case_bool_decide; cbn; [|done]; by destruct (out_arg_ok kd g)..|].
    intros p m' E. unfold deref_h, mb, get_h, check in E. cbn in E. rewrite Hx in E. cbn in E. case_bool_decide; [|done]. cbn in E.
    destruct (out_arg_ok kd g) eqn:Eg; [|done]. cbn in E. injection E as <- <-. apply Hp.
Qed.

(** The object is not-a-coroutine. *)
Lemma ub_null s o kk x ob : c_focus s = FStrat (SDo o kk) -> resumes o = Some x \/ o = OGet x \/ o = OItDeref (Some x) ->
  m_h (c_mem s) !! x = Some ob -> h_ep ob = None -> goes_ub s.
Proof.
  destruct s as [m fib unw cur fc K]. cbn. intros -> Hr Hx He.
  eapply ub_step; [reflexivity|]. destruct ob as [sd kd ep]. cbn in He. subst ep.
  assert (Hd : forall sd' o, exists r, deref_h sd' x (log (EvCall cur o) m) = MUB r).
  { intros sd' o'. unfold deref_h, mb, get_h, check. cbn. rewrite Hx. cbn. case_bool_decide; cbn; eauto. }
  destruct Hr as [Hr|[-> | ->]]; cbn [api].
  2-3: destruct (Hd Pull (NOp (OGet x))) as [r Er]; destruct (Hd Pull (NOp (OItDeref (Some x)))) as [r' Er']; eapply ub_do_ub; unfold mb; by rewrite ?Er, ?Er'.
  destruct o as [h|h1 h2|h|h|h g|h|h|h|h| |[h|]|[h|]|i j|i j|h| |[h|] g|v|n|l|l v]; try done; cbn in Hr; injection Hr as ->; cbn [api].
  - destruct (Hd Pull (NOp (OResume x))) as [r Er]. eapply ub_do_ub. by rewrite Er.
  - destruct (Hd Push (NOp (OPush x g))) as [r Er]. eapply ub_do_ub. unfold mb. by rewrite Er.
  - destruct (is_pull_range (HObj sd kd None)) eqn:Er; (eapply ub_do_ub; unfold mb, get_h, check; cbn; rewrite Hx; cbn; rewrite Er; cbn; done).
  - destruct (Hd Push (NOp (OOutAssign (Some x) g))) as [r Er]. eapply ub_do_ub. unfold mb. by rewrite Er.
Qed.

End misuse.
