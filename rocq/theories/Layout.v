(** Layout.v -- where the control block is put on the coroutine's stack (C34).

    detail/create_control_block.ipp:29-50.  Addresses and sizes are machine words of
    [w] bits; arithmetic wraps around.  A stack of [size] bytes returned by an allocator
    occupies the addresses [top - size, top), [top] being sctx.sp (stacks grow down). *)
From stdpp Require Import prelude.
From Coq Require Import ZArith Lia.
Local Open Scope Z_scope.

Section layout.
Context (w : Z).                (* bits of std::size_t and of pointers; at least 7 *)

Definition wrap (x : Z) : Z := x mod 2 ^ w.

(** std::align ( alignment, size, ptr, space): C++11 [ptr.align].  If [size] bytes
    aligned by [al] fit into the buffer [ptr, ptr + space), the result is the first such
    address, otherwise null.  Standard library, not in /repo. *)
Definition std_align (al size ptr space : Z) : option Z :=
  let pad := (- ptr) mod al in
  if Z.leb (size + pad) space then Some (wrap (ptr + pad)) else None.

(** How libstdc++ computes it: (ptr - 1u + al) & -al, on words. *)
Definition std_align_bits (al size ptr space : Z) : option Z :=
  let aligned := Z.land (wrap (ptr - 1 + al)) (wrap (- al)) in
  let pad := wrap (aligned - ptr) in
  if Z.leb (wrap (size + pad)) space then Some aligned else None.

(** A stack and what the code makes of it. *)
Record sctx := SCtx { s_sp : Z; s_size : Z }.
Record placed := Placed { p_sp : Z; p_size : Z }.

(** create_control_block.ipp:37-46 (the branch with std::align): [csize] is
    sizeof( ControlBlock), func_alignment is 64.  [None]: sp is null. *)
Definition place (csize : Z) (s : sctx) : option placed :=
  let sp0 := wrap (s_sp s - csize - 64) in
  match std_align 64 csize sp0 (wrap (csize + 64)) with
  | None => None
  | Some sp => Some (Placed sp (wrap (s_size s - (s_sp s - sp))))
  end.

(** create_control_block.ipp:34-35 (the branch without). *)
Definition place_old (csize : Z) (s : sctx) : placed :=
  Placed (wrap (s_sp s - csize)) (wrap (s_size s - csize)).

(** What allocators return: a block of positive addresses that does not wrap around. *)
Definition stack_ok (s : sctx) : Prop := 0 <= s_size s /\ 0 < s_sp s - s_size s /\ s_sp s < 2 ^ w.

Lemma wrap_small x : 0 <= x < 2 ^ w -> wrap x = x.
Proof. apply Z.mod_small. Qed.
Lemma w128 : 7 <= w -> 128 <= 2 ^ w.
Proof. intros Hw. change 128 with (2 ^ 7). apply Z.pow_le_mono_r; lia. Qed.

(** The block is put at a non-null address that is a multiple of 64, inside the
    allocation, above the region that remains for the stack of the coroutine; the
    remaining size is exactly the size of that region: it starts where the allocation
    starts, ends at the control block and does not wrap around. *)
Theorem C34_fits csize s : 7 <= w -> 0 < csize -> stack_ok s -> csize + 64 <= s_size s ->
  exists sp size, place csize s = Some (Placed sp size) /\
    0 < sp /\ sp mod 64 = 0 /\
    sp + csize <= s_sp s /\
    sp - size = s_sp s - s_size s /\ 0 <= size.
Proof.
  intros Hw Hc (H1&H2&H3) Hs. pose proof (w128 Hw) as H128. unfold place. rewrite (wrap_small (s_sp s - csize - 64)) by lia.
  rewrite (wrap_small (csize + 64)) by lia. unfold std_align. set (q := s_sp s - csize - 64). set (pad := (- q) mod 64).
  assert (0 <= pad < 64) as Hp by (apply Z.mod_pos_bound; lia).
  destruct (Z.leb_spec (csize + pad) (csize + 64)); [|lia].
  rewrite (wrap_small (q + pad)) by (unfold q in *; lia). eexists _, _. split; [reflexivity|].
  rewrite wrap_small by (unfold q in *; lia). split; [unfold q in *; lia|]. split; [|unfold q in *; lia].
  unfold pad. rewrite Zplus_mod_idemp_r. by replace (q + - q) with 0 by lia.
Qed.

(** At most 64 bytes are lost to alignment. *)
Theorem C34_waste csize s sp size : 7 <= w -> 0 < csize -> stack_ok s -> csize + 64 <= s_size s -> place csize s = Some (Placed sp size) ->
  s_size s - csize - 64 <= size < s_size s - csize.
Proof.
  intros Hw Hc (H1&H2&H3) Hs. unfold place. rewrite (wrap_small (s_sp s - csize - 64)) by lia.
  pose proof (w128 Hw) as H128. rewrite (wrap_small (csize + 64)) by lia. unfold std_align. set (q := s_sp s - csize - 64). set (pad := (- q) mod 64).
  assert (0 <= pad < 64) as Hp by (apply Z.mod_pos_bound; lia).
  destruct (Z.leb_spec (csize + pad) (csize + 64)); [|lia]. rewrite (wrap_small (q + pad)) by (unfold q in *; lia).
  intros [= <- <-]. rewrite wrap_small by (unfold q in *; lia). unfold q in *. lia.
Qed.

(** The branch without std::align: inside, exact; aligned only if the top of the stack
    happens to be. *)
Theorem C34_fits_old csize s : 7 <= w -> 0 < csize -> stack_ok s -> csize <= s_size s ->
  let p := place_old csize s in
  0 < p_sp p /\ p_sp p + csize = s_sp s /\ p_sp p - p_size p = s_sp s - s_size s /\ 0 <= p_size p /\
  (p_sp p mod 64 = 0 <-> s_sp s mod 64 = csize mod 64).
Proof.
  intros Hw Hc (H1&H2&H3) Hs. cbn. rewrite !wrap_small by lia. do 4 (split; [lia|]). split; intros H.
  - apply Z.mod_divide in H as [q Hq]; [|lia]. replace (s_sp s) with (csize + q * 64) by lia. by rewrite Z_mod_plus_full.
  - rewrite Zminus_mod, H, Z.sub_diag. done.
Qed.

(** libstdc++'s formula computes the same in this use. *)
Lemma land_neg_pow x n : 0 <= n -> Z.land x (- 2 ^ n) = x - x mod 2 ^ n.
Proof.
  intros Hn. assert (- 2 ^ n = Z.lnot (Z.ones n)) as ->.
  { rewrite Z.ones_equiv. unfold Z.lnot. lia. }
  rewrite <- Z.ldiff_land, Z.ldiff_ones_r by done. rewrite Z.shiftl_mul_pow2, Z.shiftr_div_pow2 by done.
  rewrite (Z.mod_eq x) by (apply Z.pow_nonzero; lia). lia.
Qed.
Theorem C34_align_bits csize s : 7 <= w -> 0 < csize -> stack_ok s -> csize + 64 <= s_size s ->
  std_align_bits 64 csize (s_sp s - csize - 64) (csize + 64) = std_align 64 csize (s_sp s - csize - 64) (csize + 64).
Proof.
  intros Hw Hc (H1&H2&H3) Hs. pose proof (w128 Hw) as H128. unfold std_align, std_align_bits. set (q := s_sp s - csize - 64).
  change (- (64)) with (-64). assert (wrap (-64) = 2 ^ w - 64) as ->.
  { unfold wrap. replace (- 64) with (2 ^ w - 64 + (-1) * 2 ^ w) by lia. rewrite Z_mod_plus_full. apply Z.mod_small. lia. }
  rewrite (wrap_small (q - 1 + 64)) by (unfold q in *; lia).
  assert (Hl : Z.land (q - 1 + 64) (2 ^ w - 64) = q + (- q) mod 64).
  { assert (E : Z.land (q - 1 + 64) (2 ^ w - 64) = Z.land (q - 1 + 64) (- 2 ^ 6)).
    { assert (Em : Z.land (q - 1 + 64) (Z.ones w) = q - 1 + 64) by (rewrite Z.land_ones by lia; apply Z.mod_small; unfold q in *; lia).
      rewrite <- Em at 2. rewrite <- Z.land_assoc. f_equal. rewrite Z.land_comm, Z.land_ones by lia.
      change (- 2 ^ 6) with (-64). replace (-64) with (2 ^ w - 64 + (-1) * 2 ^ w) by lia. rewrite Z_mod_plus_full, Z.mod_small; lia. }
    rewrite E, land_neg_pow by lia. change (2 ^ 6) with 64.
    pose proof (Z.div_mod (q - 1 + 64) 64 ltac:(lia)). pose proof (Z.mod_pos_bound (q - 1 + 64) 64 ltac:(lia)).
    pose proof (Z.mod_pos_bound (- q) 64 ltac:(lia)). pose proof (Z.div_mod (- q) 64 ltac:(lia)). lia. }
  rewrite Hl. set (pad := (- q) mod 64) in *. assert (0 <= pad < 64) as Hp by (apply Z.mod_pos_bound; lia).
  rewrite (wrap_small (q + pad - q)) by lia. replace (q + pad - q) with pad by lia.
  rewrite (wrap_small (csize + pad)) by lia. rewrite (wrap_small (q + pad)) by (unfold q in *; lia). done.
Qed.
End layout.

(** Without the lower bound on the size the claim is false: a stack just as big as the
    control block gives a block outside the allocation and a remaining size that has
    wrapped around. *)
Theorem C34_small_stack_refuted : exists s, stack_ok 64 s /\ 192 <= s_size s /\
  place 64 192 s = Some (Placed (s_sp s - 256) (2 ^ 64 - 64)) /\ s_sp s - 256 < s_sp s - s_size s.
Proof. exists (SCtx 4096 192). vm_compute. intuition congruence. Qed.

(** A case meeting the hypotheses: 64 KiB at an unaligned top, a control block of 200 bytes. *)
Example C34_example : stack_ok 64 (SCtx 1065535 65536) /\ 200 + 64 <= 65536 /\ place 64 200 (SCtx 1065535 65536) = Some (Placed 1065280 65281).
Proof. vm_compute. intuition congruence. Qed.

Print Assumptions C34_fits.
Print Assumptions C34_waste.
Print Assumptions C34_fits_old.
Print Assumptions C34_align_bits.
Print Assumptions C34_small_stack_refuted.
