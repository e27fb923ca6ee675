(** Tests.v -- test/test_coroutine.cpp replayed on the model, by computation.

    These are tests, not proofs about all executions: they show that the model gives the
    results that the library's own test suite expects of the code.  [BOOST_CHECK( b)] is
    [chk b]: if it fails, the program throws and so does not come to the normal end of main.
    T is a pair of numbers: an int n is (n, 0); strings, doubles and pointers are represented
    by numbers.  Moving from a value leaves (0, 0), as moving from [movedata] does
    (test_coroutine.cpp:100-103).  Global variables live in user memory; a vector that
    is filled is the output. *)
From stdpp Require Import prelude gmap.
From Verif Require Import Base Model Trace Contract Cpp Progs.

Local Instance pair_env : Env := {|
  T := nat * nat; E := nat; moved_from := fun _ => (0, 0); copy_exn := fun _ => None; move_exn := fun _ => None |}.

Definition int (n : nat) : T := (n, 0).
(** Addresses of the global variables (test_coroutine.cpp:22-30) and of locals. *)
Definition value1 := 1. Definition value2 := 2. Definition value3 := 3. Definition value4 := 4. Definition value5 := 5.
Definition value8 := 8. Definition childp := 10. Definition local1 := 11. Definition local2 := 12. Definition local3 := 13.
Definition globals : gmap nat T := list_to_map ((fun l => (l, (0, 0))) <$> [1; 2; 3; 4; 5; 8; 10; 11; 12; 13]).

Definition chk (b : bool) (k : stm) : stm := if b then k else Throw 1.
Definition truth (x : nat) (b : bool) (k : stm) : stm :=           (* BOOST_CHECK( x), BOOST_CHECK( ! x) *)
  if b then Do (OBool x) eq_refl (fun a => match a with AB b => chk b k | _ => Throw 2 end)
  else Do (ONot x) eq_refl (fun a => match a with AB b => chk b k | _ => Throw 2 end).
Definition get (x : nat) (k : T -> stm) : stm := Do (OGet x) eq_refl (fun a => match a with AV v => k v | _ => Throw 2 end).
Definition get_ref (x : nat) (k : nat -> stm) : stm := Do (OGet x) eq_refl (fun a => match a with ALoc l => k l | _ => Throw 2 end).
Definition resume (x : nat) (k : stm) : stm := Do (OResume x) eq_refl (fun _ => k).
Definition load (l : nat) (k : T -> stm) : stm := Do (OLoad l) eq_refl (fun a => match a with AV v => k v | _ => Throw 2 end).
Definition store (l : nat) (v : T) (k : stm) : stm := Do (OStore l v) eq_refl (fun _ => k).
Definition eqv (v w : T) : bool := bool_decide (v = w).
Definition var (l : nat) (v : T) (k : stm) : stm := load l (fun w => chk (eqv w v) k).   (* BOOST_CHECK_EQUAL( v, l) *)
Definition pull (kd : kind) (fn : nat -> stm) (body : nat -> stm) (k : stm) : stm := LocalCo Pull kd plain_new fn body k.
Definition pushc (kd : kind) (fn : nat -> stm) (body : nat -> stm) (k : stm) : stm := LocalCo Push kd plain_new fn body k.

(** The program ends normally, for both variants of the code and within the contract; the
    output. *)
Definition c11 : Compiler := {| cxx11_lambdas := true |}.
Definition c14 : Compiler := {| cxx11_lambdas := false |}.
Definition result {comp : Compiler} (p : strat) : option (list T) :=
  match crun 2000 (cinit p globals) with CHalt Finished m => if obeys globals (m_tr m) then Some (output (m_tr m)) else None | _ => None end.
Definition passes (p : strat) (out : list T) : Prop := @result c11 p = Some out /\ @result c14 p = Some out.
Ltac run := split; vm_compute; reflexivity.

(** The functions f2 to f22 (test_coroutine.cpp:120-232). *)
Definition incr (l : nat) (k : stm) : stm := load l (fun v => store l (S v.1, 0) k).
Definition f2 (c : nat) : stm := incr value1 Skip.
Definition f3 (c : nat) : stm := incr value1 (push c ANone (incr value1 Skip)).
Definition f4 (c : nat) : stm := push c (AImm (int 3)) (push c (AImm (int 7)) Skip).
(** f5: the same lvalue is pushed twice *)
Definition f5 (c : nat) : stm := store local1 (int 123) (push c (ACopy local1) (store local1 (int 789) (push c (ACopy local1) Skip))).
Definition f6 (c : nat) : stm := get c (fun v => store value1 v Skip).
Definition f7 (c : nat) : stm := get c (fun v => store value2 v Skip).
Definition f8 (c : nat) : stm := get c (fun v => store value4 (v.1 + v.2, 0) (resume c (get c (fun v => store value4 (v.1 + v.2, 0) Skip)))).
Definition f9 (c : nat) : stm := get c (fun v => store value5 v Skip).
Definition f10 (c : nat) : stm := get_ref c (fun l => store value5 (int l) Skip).
Definition f11 (c : nat) : stm := get c (fun v => store value8 v Skip).
Definition f16 (c : nat) : stm := produce c (AImm ∘ int <$> [1; 2; 3; 4; 5]) Skip.
Definition f20 (c : nat) : stm := Skip.
Definition f22 (c : nat) : stm := get c (fun v => store value1 v Skip).

(** test_move (234-291); the blocks about copyable and moveable function objects are about
    the captured function object, which is not modelled. *)
Definition test_move1 : strat := cxx (
  pull KVal f20 (fun coro1 => pull KVal f16 (fun coro2 =>
    truth coro1 false (truth coro2 true (
    get coro2 (fun v => chk (eqv v (int 1)) (resume coro2 (
    get coro2 (fun v => chk (eqv v (int 2)) (
    Do (OMoveAssign coro1 coro2) eq_refl (fun _ =>
    truth coro1 true (truth coro2 false (
    resume coro1 (
    get coro1 (fun v => chk (eqv v (int 3)) (
    truth coro2 false Skip)))))))))))))) Skip) Skip).
Example test_move1_passes : passes test_move1 []. Proof. run. Qed.
Definition test_move2 : strat := cxx (
  store local1 (int 7) (var value1 (int 0) (var local1 (int 7) (
  pushc KVal f22 (fun coro => push coro (AMove local1) (var value1 (int 7) (var local1 (int 0) Skip))) Skip)))).
Example test_move2_passes : passes test_move2 []. Proof. run. Qed.

(** test_complete (293), test_bind (302: the same with a function object of another type) *)
Definition test_complete : strat := cxx (pull KVoid f2 (fun coro => truth coro false (var value1 (int 1) Skip)) Skip).
Example test_complete_passes : passes test_complete []. Proof. run. Qed.

(** test_jump (311) *)
Definition test_jump : strat := cxx (pull KVoid f3 (fun coro =>
  truth coro true (var value1 (int 1) (resume coro (truth coro false (var value1 (int 2) Skip))))) Skip).
Example test_jump_passes : passes test_jump []. Proof. run. Qed.

(** test_result_int (322), test_result_string (335) *)
Definition test_result (fn : nat -> stm) (a b : T) : strat := cxx (pull KVal fn (fun coro =>
  truth coro true (get coro (fun r => truth coro true (chk (eqv r a) (
  resume coro (get coro (fun r => truth coro true (chk (eqv r b) (
  resume coro (truth coro false Skip)))))))))) Skip).
Example test_result_int_passes : passes (test_result f4 (int 3) (int 7)) []. Proof. run. Qed.
Example test_result_string_passes : passes (test_result f5 (int 123) (int 789)) []. Proof. run. Qed.

(** test_arg_int (349), test_arg_string (360), test_ptr (388), test_const_ptr (400),
    test_tuple (441) *)
Definition test_arg (fn : nat -> stm) (v : nat) (g : arg) (a : T) : strat := cxx (
  store local1 (3, 7) (
  pushc KVal fn (fun coro => truth coro true (push coro g (truth coro false (var v a Skip)))) Skip)).
Example test_arg_int_passes : passes (test_arg f6 value1 (AImm (int 3)) (int 3)) []. Proof. run. Qed.
Example test_arg_string_passes : passes (test_arg f7 value2 (AImm (int 123)) (int 123)) []. Proof. run. Qed.
Example test_ptr_passes : passes (test_arg f9 value5 (AImm (int local2)) (int local2)) []. Proof. run. Qed.
Example test_tuple_passes : passes (test_arg f11 value8 (ACopy local1) (3, 7)) []. Proof. run. Qed.

(** test_fp (371) *)
Definition test_fp : strat := cxx (pushc KVal f8 (fun coro =>
  truth coro true (push coro (AImm (735, 314)) (truth coro true (var value4 (int 1049) (
  store value4 (int 0) (push coro (AImm (115, 314)) (truth coro false (var value4 (int 429) Skip)))))))) Skip).
Example test_fp_passes : passes test_fp []. Proof. run. Qed.

(** test_ref (412), test_const_ref (425) *)
Definition test_ref : strat := cxx (pushc KRef f10 (fun coro =>
  truth coro true (push coro (ARefTo local1) (truth coro false (var value5 (int local1) Skip)))) Skip).
Example test_ref_passes : passes test_ref []. Proof. run. Qed.

(** test_no_result (435) *)
Definition test_no_result : strat := cxx (pull KVal f20 (fun coro => truth coro false Skip) Skip).
Example test_no_result_passes : passes test_no_result []. Proof. run. Qed.

(** test_unwind (458).  X (32-39) stores 7 in value1 when constructed and 0 when destroyed:
    here written out, as the objects of Cpp.v only leave marks. *)
Definition with_X (body : (resp -> strat) -> strat) : strat :=
  SDo (OStore value1 (int 7)) (fun _ => body (fun r => SDo (OStore value1 (int 0)) (fun _ => match r with ROk _ => SRet | RExn x => SThrow x end))).
Definition seq1 (o : op) (leave : resp -> strat) (k : strat) : strat := SDo o (fun r => match r with ROk _ => k | RExn x => leave (RExn x) end).
Definition f12 (c : nat) : strat :=
  SDo (OStore value1 (int 7)) (fun _ => with_X (fun leave => seq1 (OResume c) leave (seq1 (OResume c) leave (leave (ROk AUnit))))).
Definition act (o : op) (k : ans -> strat) : strat := SDo o (fun r => match r with ROk a => k a | RExn x => SThrow x end).
Definition same (l n : nat) (k : strat) : strat := act (OLoad l) (fun a => match a with AV v => if eqv v (int n) then k else SThrow (XUser 1) | _ => SThrow (XUser 2) end).
Definition is_true (x : nat) (k : strat) : strat := act (OBool x) (fun a => match a with AB true => k | _ => SThrow (XUser 1) end).
Definition new (sd : side) (kd : kind) (fn : nat -> strat) (k : nat -> strat) : strat :=
  SNew sd kd plain_new fn (fun r => match r with ROk (AH h) => k h | ROk _ => SThrow (XUser 2) | RExn x => SThrow x end).
Definition test_unwind : strat :=
  new Push KVoid f12 (fun coro => is_true coro (same value1 0 (
    act (OPush coro ANone) (fun _ => is_true coro (same value1 7 (
    act (OPush coro ANone) (fun _ => same value1 7 (
    act (ODestroy coro) (fun _ => same value1 0 (
  new Push KVoid (fun c => act (OStore local1 (int 7)) (fun _ => SRet)) (fun coro => act (ODestroy coro) (fun _ => same local1 0 (
  new Pull KVoid (fun c => with_X (fun leave => seq1 (OPush c ANone) leave (leave (ROk AUnit)))) (fun coro =>
    same value1 7 (act (ODestroy coro) (fun _ => same value1 0 (
  new Push KVoid (fun c => with_X (fun leave => seq1 (OResume c) leave (leave (ROk AUnit)))) (fun coro =>
    act (OPush coro ANone) (fun _ => same value1 7 (act (ODestroy coro) (fun _ => same value1 0 SRet))))))))))))))))))))).
Example test_unwind_passes : passes test_unwind []. Proof. run. Qed.

(** test_exceptions (503): the checks after the throwing call are not reached *)
Definition test_exceptions : strat := cxx (
  Try (pushc KVoid (fun c => Throw 123) (fun coro => truth coro true (push coro ANone (truth coro false (chk false Skip)))) Skip)
      (fun e => store value2 (int e) Skip)
      (var value2 (int 123) Skip)).
Example test_exceptions_passes : passes test_exceptions []. Proof. run. Qed.

(** test_input_iterator (524): iterator loop and range-for are the same calls *)
Definition test_input_iterator1 : strat := cxx (pull KVal f16 (fun coro => each_of coro Skip) Skip).
Example test_input_iterator1_passes : passes test_input_iterator1 (int <$> [1; 2; 3; 4; 5]). Proof. run. Qed.
Definition each_ref (x : nat) : stm :=
  Do (OBegin x) eq_refl (fun b => Do OEnd eq_refl (fun e => match b, e with AIt b, AIt e =>
    (cofix loop (i : iter) (n : nat) : stm :=
      Do (OItNe i e) eq_refl (fun b => match b with
      | AB true => Do (OItDeref i) eq_refl (fun v => match v with
          | ALoc l => match Nat.eqb l (local1 + n) with
                      | true => Do (OItInc i) eq_refl (fun j => match j with AIt j => loop j (S n) | _ => Throw 2 end)
                      | false => Throw 1
                      end
          | _ => Throw 2 end)
      | _ => match Nat.eqb n 3 with true => Skip | false => Throw 1 end
      end)) b 0
    | _, _ => Throw 2 end)).
Definition test_input_iterator2 : strat := cxx (
  pull KRef (fun c => produce c [ARefTo local1; ARefTo local2; ARefTo local3] Skip) (fun coro => each_ref coro) Skip).
Example test_input_iterator2_passes : passes test_input_iterator2 []. Proof. run. Qed.

(** test_output_iterator (584) *)
Definition collect (c : nat) : stm :=
  get c (cofix loop (x : T) : stm := match Nat.ltb x.1 5 with
    | true => Do (OEmit x) eq_refl (fun _ => Do (OResume c) eq_refl (fun _ => Do (OGet c) eq_refl (fun a => match a with AV v => loop v | _ => Throw 2 end)))
    | false => Skip
    end).
Definition assign_ever (e : iter) : iter -> nat -> stm :=
  cofix loop (i : iter) (n : nat) : stm :=
    Do (OItNe i e) eq_refl (fun b => match b with
    | AB true => Do (OOutAssign i (AImm (int (S n)))) eq_refl (fun j => match j with AIt j => loop j (S n) | _ => Throw 2 end)
    | _ => Skip
    end).
Definition test_output_iterator : strat := cxx (pushc KVal collect (fun coro =>
  Do OOutEnd eq_refl (fun e => Do (OOutBegin coro) eq_refl (fun b => match b, e with AIt b, AIt e => assign_ever e b 0 | _, _ => Throw 2 end))) Skip).
Example test_output_iterator_passes : passes test_output_iterator (int <$> [1; 2; 3; 4]). Proof. run. Qed.

(** test_chaining (616): the child is made by the function of the parent and used by main;
    it is never destroyed *)
Definition child (c : nat) : strat :=
  Nat.iter 5 (fun k => act (OEmit (int 2)) (fun _ => act (OPush c ANone) (fun _ => k))) (act (OEmit (int 2)) (fun _ => SRet)).
Definition parent (c : nat) : strat :=
  act (OEmit (int 1)) (fun _ => new Pull KVoid child (fun x => act (OStore childp (int x)) (fun _ =>
  act (OPush c ANone) (fun _ => act (OEmit (int 1)) (fun _ => SRet))))).
Definition test_chaining : strat :=
  new Pull KVoid parent (fun p => act (OLoad childp) (fun a => match a with AV (x, _) =>
    (cofix loop : strat := SDo (OBool x) (fun r => match r with
      | ROk (AB true) => SDo (OResume x) (fun r => match r with ROk _ => loop | RExn x => SThrow x end)
      | _ => SDo (ODestroy p) (fun _ => SRet)
      end))
    | _ => SThrow (XUser 2) end)).
Example test_chaining_passes : passes test_chaining (int <$> [1; 2; 2; 2; 2; 2; 2]). Proof. run. Qed.

(** A wrong expectation fails. *)
Example wrong_fails : @result c14 (test_result f4 (int 3) (int 8)) = None. Proof. vm_compute. reflexivity. Qed.
