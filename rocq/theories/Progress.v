(** Progress.v -- control never stays in the library: it comes back to user code, or the
    program ends. *)
From stdpp Require Import prelude gmap.
From Coq Require Import Lia.
From Verif Require Import Base Model Trace Contract Spec InvSpec Refine Sim Mono Main Micro ContractProof.
Local Opaque gmap_lookup map_insert map_delete gmap_partial_alter.

Section progress.
Context {env : Env} {comp : Compiler}.

(** What the destruction of coroutines uses up: objects and coroutines. *)
Definition fuel (a : astate) : nat := size (a_h a) + size (a_co a).

Lemma size_del {A} (m : gmap nat A) k x : m !! k = Some x -> size m = S (size (delete k m)).
Proof. intros H. rewrite (map_size_delete_Some k m) by done. assert (size m <> 0); [|lia]. intros E%map_size_empty_inv. by subst m. Qed.

Lemma kill_fuel j w a a' : kill j w a = ANext a' -> fuel a' = fuel a.
Proof.
  unfold kill. destruct (a_co a !! j) as [c|] eqn:Hc; [|done].
  intros H. destruct (ac_side c), (ac_kind c), (ac_slot c); try done; destruct (ac_st c); try done; injection H as <-; unfold fuel; cbn; f_equal; by eapply map_size_insert_Some.
Qed.

Lemma exit_fuel a a' : a_foc a = AExit -> astep a = ANext a' -> fuel a' < fuel a.
Proof.
  intros Hf. unfold astep. rewrite Hf. unfold do_exit. destruct (a_co a !! a_cur a) as [c|]; [|done].
  destruct (a_h a !! ac_syn c) as [[sd kd e]|] eqn:Hh; [|done]. pose proof (size_del _ _ _ Hh) as Hs.
  destruct e as [[j|j]|].
  - intros H%kill_fuel. rewrite H. unfold fuel. cbn. lia.
  - cbn. destruct (a_co a !! j); [|done]. intros [= <-]. unfold fuel. cbn. lia.
  - intros [= <-]. unfold fuel. cbn. lia.
Qed.

Lemma exit2_fuel a a' : a_foc a = AExit2 -> astep a = ANext a' -> (exists st, a_foc a' = AUser st) \/ fuel a' < fuel a.
Proof.
  intros Hf. unfold astep. rewrite Hf. unfold do_exit2. destruct (a_co a !! a_cur a) as [c|] eqn:Hc; [|done].
  pose proof (size_del _ _ _ Hc) as Hs.
  assert (S : forall b, a_co b = a_co a -> a_h b = a_h a ->
    match a_wait b !! ac_by c with
    | None => AViol
    | Some w =>
        let a := w_cur (ac_by c) (w_wait (delete (ac_by c) (a_wait b)) (alog (EvFree (a_cur a)) (w_co (delete (a_cur a) (a_co b)) b))) in
        match w with
        | WExit _ => ANext (w_foc AExit2 a)
        | WKill _ o KfDestroy k => ret_to o AUnit k a
        | WKill _ o (KfEmpty h kd) k => ret_to o (AH h) k (w_h (<[ h := HObj Pull kd None ]> (a_h a)) a)
        | WKill _ o (KfThrow e) k => exn_to o (XUser e) k a
        | WOp _ _ _ _ => AViol
        end
    end = ANext a' -> (exists st, a_foc a' = AUser st) \/ fuel a' < fuel a).
  { intros b E1 E2. destruct (a_wait b !! ac_by c) as [[| ? ? [] ?|]|]; try done; intros H; injection H as <-; [left; by eexists..|].
    right. unfold fuel. cbn. rewrite E1, E2. lia. }
  destruct (ac_side c), (ac_kind c), (ac_slot c); try done; by apply (S a) || by apply (S (alog _ a)).
Qed.

Lemma exit_no_halt a o b : a_foc a = AExit \/ a_foc a = AExit2 -> astep a <> AHalt o b.
Proof.
  intros Hf. unfold astep. destruct Hf as [-> | ->].
  - unfold do_exit. destruct (a_co a !! a_cur a) as [c|]; [|done]. destruct (a_h a !! ac_syn c) as [[sd kd e]|]; [|done].
    destruct e as [[j|j]|]; [|by cbn; destruct (a_co a !! j)|done]. unfold kill. destruct (a_co _ !! j) as [c0|]; [|done].
    destruct (ac_side c0), (ac_kind c0), (ac_slot c0); try done; by destruct (ac_st c0).
  - unfold do_exit2. destruct (a_co a !! a_cur a) as [c|]; [|done].
    destruct (ac_side c), (ac_kind c), (ac_slot c); try done; cbn; by destruct (a_wait a !! ac_by c) as [[| ? ? [] ?|]|].
Qed.

(** From [s] control comes to user code. *)
Definition comes_back (s : cstate) : Prop := exists m s' st, crun m s = CNext s' /\ c_focus s' = FStrat st.

Lemma comes_back_steps s s' : rtc cstep_rel s s' -> comes_back s' -> comes_back s.
Proof. intros H%steps_crun (m&s2&st&H2&Hf). destruct H as [n Hn]. exists (n + m), s2, st. split; [|done]. by rewrite crun_add, Hn. Qed.

Lemma related_comes p u k a s : arun k (ainit p u) = ANext a -> Inv a -> XI a -> R a s -> comes_back s.
Proof.
  remember (fuel a) as f eqn:Ef. revert k a s Ef. induction (lt_wf f) as [f _ IH]. intros k a s -> Ha I XX HR.
  destruct (a_foc a) as [st| |] eqn:Hf.
  { destruct HR as [_ _ HF]. unfold foc_ok in HF. rewrite Hf in HF. destruct HF as [HF _]. by exists 0, s, st. }
  all: assert (S : safe (astep a)) by first [by apply safe_end|eapply safe_exit; [by eapply arun_mreach|done..]].
  all: destruct S as [Hv HX]; destruct (astep a) as [a'|o a'|] eqn:Ea; [|exfalso; eapply exit_no_halt; [|exact Ea]; by auto|done].
  all: specialize (HX _ eq_refl); destruct (sim_step _ _ _ HR I Ea) as (s1&Hs1&s2&Hs2&HR2).
  all: assert (Ha' : arun (S k) (ainit p u) = ANext a') by (by rewrite arun_S, Ha).
  all: assert (C : comes_back s2).
  - eapply IH; [|reflexivity|exact Ha'|by eapply astep_inv|done|done]. by apply exit_fuel.
  - destruct (comes_back_steps _ _ Hs2 C) as (m&s'&st&H1&H2). exists (S m), s', st. split; [|done]. cbn. by rewrite Hs1.
  - destruct (exit2_fuel _ _ Hf Ea) as [[st Hst]|Hl].
    + destruct HR2 as [_ _ HF]. unfold foc_ok in HF. rewrite Hst in HF. destruct HF as [HF _]. by exists 0, s2, st.
    + eapply IH; [exact Hl|reflexivity|exact Ha'|by eapply astep_inv|done|done].
  - destruct (comes_back_steps _ _ Hs2 C) as (m&s'&st&H1&H2). exists (S m), s', st. split; [|done]. cbn. by rewrite Hs1.
Qed.

Theorem progress p u n s : respects p u n -> crun n (cinit p u) = CNext s ->
  comes_back s \/ exists m o mm, crun m s = CHalt o mm /\ (o = Finished \/ o = Terminated).
Proof.
  intros Hr Hc. destruct (run_located _ _ _ _ Hr Hc) as (k&a&Ha&I&XX&[[Hle HR]|[(_&Hn&a'&Ea&HX&s2&Hs2&HR2)|(_&Hn&o&a'&m&s2&Ea&Htr&Hs2&Hs3&_)]]).
  - left. by eapply related_comes.
  - left. eapply comes_back_steps; [done|]. eapply (related_comes p u (S k) a'); [by rewrite arun_S, Ha|by eapply astep_inv|done|done].
  - right. apply steps_crun in Hs2 as [m2 H2]. exists (m2 + 1), o, m. split; [rewrite crun_add, H2; cbn; by rewrite Hs3|].
    eapply ahalt_outcome. by rewrite arun_S, Ha.
Qed.

End progress.
