(** StateBits.v -- the flags of a control block (C35).

    detail/state.hpp:24-79.  [state_t], [st_none], [st_complete], [st_unwind],
    [st_destroy], [st_and], [st_or], [st_xor] and [st_not] are in Model.v, where the flags are
    used; the compound assignments are here: the value assigned to the left operand.  unsigned int is taken to have 32 bits. *)
From stdpp Require Import prelude gmap.
From Coq Require Import Lia NArith.
From Verif Require Import Base Model Spec InvSpec Refine Main Hist Micro Trace Life Examples.

(** operator&=, state.hpp:60-65 *)
Definition st_and_eq (l r : state_t) : state_t := st_and l r.
(** operator|=, state.hpp:67-72 *)
Definition st_or_eq (l r : state_t) : state_t := st_or l r.
(** operator^=, state.hpp:74-79 *)
Definition st_xor_eq (l r : state_t) : state_t := st_xor l r.

(** [is_set s f]: how the code tests a flag: state_t::none != ( state & f). *)
Definition is_set (s f : state_t) : Prop := st_none <> st_and s f.
(** The three flags. *)
Definition flag (f : state_t) : Prop := f = st_complete \/ f = st_unwind \/ f = st_destroy.
(** The values of an unsigned int. *)
Definition word (s : state_t) : Prop := (s < 2 ^ 32)%N.

Lemma testbit_pow (i j : N) : N.testbit (2 ^ i) j = N.eqb i j.
Proof. apply N.pow2_bits_eqb. Qed.
Lemma flag_pow f : flag f -> exists i, f = (2 ^ i)%N /\ (i < 32)%N.
Proof. intros [-> |[-> | ->]]; [exists 1%N|exists 2%N|exists 3%N]; done. Qed.
Lemma is_set_bit s (i : N) : is_set s (2 ^ i)%N <-> N.testbit s i = true.
Proof.
  unfold is_set, st_and, st_none. split.
  - intros H. destruct (N.testbit s i) eqn:E; [done|]. destruct H. symmetry. apply N.bits_inj. intros j.
    rewrite N.land_spec, testbit_pow, N.bits_0. destruct (N.eqb_spec i j) as [->|]; [by rewrite E|by rewrite andb_false_r].
  - intros H E. apply (f_equal (fun x => N.testbit x i)) in E. rewrite N.land_spec, testbit_pow, N.bits_0, H, N.eqb_refl in E. done.
Qed.
Lemma not_bit s i : (i < 32)%N -> N.testbit (st_not s) i = negb (N.testbit s i).
Proof. intros Hi. unfold st_not. by rewrite N.lnot_spec_low. Qed.
Lemma word_bits s : word s <-> forall i, (32 <= i)%N -> N.testbit s i = false.
Proof.
  unfold word. split.
  - intros H i Hi. destruct (N.eq_dec s 0) as [->|Hn]; [apply N.bits_0|]. apply N.bits_above_log2.
    apply N.log2_lt_pow2 in H; [|lia]. lia.
  - intros H. destruct (N.eq_dec s 0) as [->|Hn]; [done|]. apply N.log2_lt_pow2; [lia|].
    destruct (N.lt_ge_cases (N.log2 s) 32) as [|Hge]; [done|]. apply H in Hge. by rewrite N.bit_log2 in Hge.
Qed.
Lemma bool_iff b b' : (b = true <-> b' = true) <-> b = b'.
Proof. destruct b, b'; intuition congruence. Qed.

(** Setting a flag sets it and no other bit. *)
Theorem C35_set s f : word s -> flag f ->
  word (st_or_eq s f) /\ is_set (st_or_eq s f) f /\ forall g, flag g -> g <> f -> (is_set (st_or_eq s f) g <-> is_set s g).
Proof.
  intros Hs Hf. destruct (flag_pow f Hf) as (i&->&Hi). unfold st_or_eq, st_or. split; [|split].
  - apply word_bits. intros j Hj. rewrite N.lor_spec, testbit_pow, (proj1 (word_bits s)) by done. apply N.eqb_neq. lia.
  - apply is_set_bit. by rewrite N.lor_spec, testbit_pow, N.eqb_refl, orb_true_r.
  - intros g Hg Hne. destruct (flag_pow g Hg) as (j&->&Hj). rewrite !is_set_bit, N.lor_spec, testbit_pow.
    destruct (N.eqb_spec i j) as [->|]; [done|]. by rewrite orb_false_r.
Qed.
(** Clearing a flag clears it and changes no other. *)
Theorem C35_clear s f : word s -> flag f ->
  word (st_and_eq s (st_not f)) /\ ~ is_set (st_and_eq s (st_not f)) f /\
  forall g, flag g -> g <> f -> (is_set (st_and_eq s (st_not f)) g <-> is_set s g).
Proof.
  intros Hs Hf. destruct (flag_pow f Hf) as (i&->&Hi). unfold st_and_eq, st_and. split; [|split].
  - apply word_bits. intros j Hj. by rewrite N.land_spec, (proj1 (word_bits s)).
  - rewrite is_set_bit, N.land_spec, not_bit, testbit_pow, N.eqb_refl by done. by rewrite andb_false_r.
  - intros g Hg Hne. destruct (flag_pow g Hg) as (j&->&Hj). rewrite !is_set_bit, N.land_spec, not_bit, testbit_pow by done.
    destruct (N.eqb_spec i j) as [->|]; [done|]. by rewrite andb_true_r.
Qed.
(** Toggling a flag inverts it and changes no other. *)
Theorem C35_toggle s f : word s -> flag f ->
  word (st_xor_eq s f) /\ (is_set (st_xor_eq s f) f <-> ~ is_set s f) /\
  forall g, flag g -> g <> f -> (is_set (st_xor_eq s f) g <-> is_set s g).
Proof.
  intros Hs Hf. destruct (flag_pow f Hf) as (i&->&Hi). unfold st_xor_eq, st_xor. split; [|split].
  - apply word_bits. intros j Hj. rewrite N.lxor_spec, testbit_pow, (proj1 (word_bits s)) by done. destruct (N.eqb_spec i j); [lia|done].
  - rewrite !is_set_bit, N.lxor_spec, testbit_pow, N.eqb_refl. by destruct (N.testbit s i).
  - intros g Hg Hne. destruct (flag_pow g Hg) as (j&->&Hj). rewrite !is_set_bit, N.lxor_spec, testbit_pow.
    destruct (N.eqb_spec i j) as [->|]; [done|]. by rewrite xorb_false_r.
Qed.
Theorem C35_double_complement s : word s -> st_not (st_not s) = s.
Proof.
  intros Hs. apply N.bits_inj. intros i. destruct (N.lt_ge_cases i 32) as [Hi|Hi].
  - by rewrite !not_bit, negb_involutive.
  - rewrite (proj1 (word_bits s) Hs i Hi). unfold st_not. rewrite !N.lnot_spec_high by done. by apply word_bits.
Qed.

Section reach.
Context {env : Env} {comp : Compiler}.

(** What the code does with them: whenever user code is in control, the control block of
    an owner has the flag unwind, complete exactly if the function has ended, and never
    destroy; the block of a counterpart has none. *)
Theorem C35_reachable p u n s st e b : respects p u n -> crun n (cinit p u) = CNext s -> c_focus s = FStrat st ->
  m_cbs (c_mem s) !! e = Some b -> cb_alive b = true ->
  match e with
  | Inner _ => cb_state b = st_none
  | Outer k => is_set (cb_state b) st_unwind /\ ~ is_set (cb_state b) st_destroy /\
      (is_set (cb_state b) st_complete <-> exists y, life k (m_tr (c_mem s)) = PDone y)
  end.
Proof.
  intros Hr Hs Hf Hb Hal. destruct (user_state _ _ _ _ _ Hr Hs Hf) as (k0&a&_&Ha&_&HR&_).
  pose proof (mreach_life _ _ _ (arun_mreach _ _ _ _ Ha)) as L.
  destruct HR as [[[_ _ _ _ Htr] Hcb _ _ _] _ _]. rewrite Htr. destruct e as [k|k]; specialize (Hcb k); destruct (a_co a !! k) as [c|] eqn:Hc; cbn in Hcb.
  - destruct Hcb as [_ Ho]. destruct (unw_st (ac_st c)) eqn:Eu.
    + destruct Ho as (b'&Hb'&?). rewrite Hb in Hb'. injection Hb' as <-. congruence.
    + rewrite Hb in Ho. injection Ho as ->. pose proof (li_st _ L _ _ Hc) as Hl. cbn in Hl. unfold is_set.
      destruct (ac_st c) as [| | |y|] eqn:Est; try done; cbn [st_phase] in Hl; rewrite Hl; unfold outer_cb; rewrite Est; cbn;
        (split; [done|]); (split; [by intros H; apply H|]); (split; [intros H; try by destruct H|intros [? H]; done]).
      by exists y.
  - destruct Hcb. congruence.
  - destruct Hcb as [Hi _]. rewrite Hb in Hi. by injection Hi as ->.
  - destruct Hcb. congruence.
Qed.
End reach.

(** Cases meeting the hypotheses. *)
Example C35_word_example : word (st_or st_complete st_unwind) /\ flag st_destroy /\ ~ is_set (st_or st_complete st_unwind) st_destroy /\ is_set 6%N st_complete.
Proof. split; [done|]. split; [right; by right|]. split; [intros H; by apply H|done]. Qed.
Example C35_all_bits_example : word 4294967295%N /\ st_and_eq 4294967295%N (st_not st_unwind) = 4294967291%N.
Proof. by split. Qed.
Example C35_reachable_example : match crun 86 (cinit ex_pull u0) with
  | CNext s => user_op ex_pull 86 = Some (OBool 0) /\ exists b, m_cbs (c_mem s) !! Outer 1 = Some b /\ cb_alive b = true /\ cb_state b = 6%N
  | _ => False end.
Proof. vm_compute. split; [done|]. by eexists. Qed.

Print Assumptions C35_set.
Print Assumptions C35_clear.
Print Assumptions C35_toggle.
Print Assumptions C35_double_complement.
Print Assumptions C35_reachable.
