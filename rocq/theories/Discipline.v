(** Discipline.v -- a discipline for user code that guarantees the contract of Contract.v.

    The contract is a condition on histories; this file gives a condition on the program
    alone.  A piece of user code is followed with a _view_: the coroutine objects it can
    name, and what it knows about them.
    - A coroutine-function names its counterpart and the objects it made itself, nothing
      else; it uses the counterpart only while it is not being unwound.
    - Objects it made it resumes, pushes to or reads from only when it knows that there is
      something to resume: a push object is new, operator bool or begin() or an iterator
      said so.  Every transfer of control into the coroutine makes it forget.
    - It destroys every object it made before it ends, and ends by the unwinding exception
      if and only if that exception was thrown at it.
    - It passes on only values whose construction cannot throw: a push that fails would
      spoil the slot.
    - Objects are moved only within the function that made them; the counterpart stays
      where it is. *)
From stdpp Require Import prelude gmap.
From Verif Require Import Base Contract.

Section discipline.
Context {env : Env}.
(** The cells of user memory that exist from the beginning. *)
Context (cells : nat -> Prop).

(** An object that can be named: its class and parameter kind; [n_mine]: it is the
    counterpart given to this function. *)
Record entry := Entry { n_side : side; n_kind : kind; n_mine : bool }.
(** [v_unw]: the function is being unwound; [v_in]: the objects it can name; [v_ok]: the
    objects it made which can be resumed. *)
Record view := View { v_unw : bool; v_in : gmap nat entry; v_ok : gset nat }.

Definition v_with (x : nat) (n : entry) (w : view) : view := View (v_unw w) (<[ x := n ]> (v_in w)) (v_ok w).
Definition v_without (x : nat) (w : view) : view := View (v_unw w) (delete x (v_in w)) (v_ok w ∖ {[ x ]}).
Definition v_learn (b : bool) (x : nat) (w : view) : view :=
  View (v_unw w) (v_in w) (if b then {[ x ]} ∪ v_ok w else v_ok w ∖ {[ x ]}).
Definition v_dying (w : view) : view := View true (v_in w) (v_ok w).
Definition v_swap (x y : nat) (w : view) : view :=
  View (v_unw w) (v_in w) (v_learn (bool_decide (y ∈ v_ok w)) x (v_learn (bool_decide (x ∈ v_ok w)) y w)).(v_ok).

Definition other (sd : side) : side := match sd with Pull => Push | Push => Pull end.
(** View of a coroutine-function when it is entered. *)
Definition v_start (sd : side) (kd : kind) (x : nat) : view := View false {[ x := Entry (other sd) kd true ]} ∅.

(** Control may be transferred through [x]. *)
Definition ready (w : view) (x : nat) (n : entry) : Prop := if n_mine n then v_unw w = false else x ∈ v_ok w.
(** There is a value to read from [x]. *)
Definition filled (w : view) (x : nat) (n : entry) : Prop := n_kind n <> KVoid /\ (n_mine n = false -> x ∈ v_ok w).
Definition arg_cells (g : arg) : Prop := match g with ACopy l | AMove l | ARefTo l => cells l | _ => True end.
(** Constructing the transferred value cannot fail ([lv]: from an lvalue). *)
Definition arg_safe (lv : bool) (g : arg) : Prop :=
  match g with
  | ACopy _ => forall v, copy_exn v = None
  | AMove _ => forall v, move_exn v = None
  | AImm v => (if lv then copy_exn v else move_exn v) = None
  | _ => True
  end.
Definition named (w : view) (i : iter) : Prop := match i with Some x => is_Some (v_in w !! x) | None => True end.

(** Operation [o] may be used. *)
Definition may (w : view) (o : op) : Prop :=
  match o with
  | OMoveCtor x | ODestroy x => exists n, v_in w !! x = Some n /\ n_mine n = false
  | OMoveAssign x y => exists n, v_in w !! x = Some n /\ v_in w !! y = Some n /\ n_mine n = false
  | OResume x => exists n, v_in w !! x = Some n /\ n_side n = Pull /\ ready w x n
  | OPush x g => exists n, v_in w !! x = Some n /\ n_side n = Push /\ ready w x n /\ fits (n_kind n) g = true /\ arg_cells g /\ arg_safe false g
  | OBool x | ONot x => is_Some (v_in w !! x)
  | OGet x | OItDeref (Some x) => exists n, v_in w !! x = Some n /\ n_side n = Pull /\ filled w x n
  | OBegin x => exists n, v_in w !! x = Some n /\ n_side n = Pull /\ n_kind n <> KVoid
  | OItInc (Some x) => exists n, v_in w !! x = Some n /\ n_side n = Pull /\ n_kind n <> KVoid /\ ready w x n
  | OOutBegin x => exists n, v_in w !! x = Some n /\ n_side n = Push /\ n_kind n <> KVoid
  | OOutAssign (Some x) g => exists n, v_in w !! x = Some n /\ n_side n = Push /\ ready w x n /\ fits_out (n_kind n) g = true /\ arg_cells g /\ arg_safe true g
  | OItInc None | OItDeref None | OOutAssign None _ => False
  | OItEq i j | OItNe i j => named w i /\ named w j
  | OLoad l => cells l
  | OEnd | OOutEnd | OEmit _ | OLog _ | OStore _ _ => True
  end.

(** The object says whether it can be resumed. *)
Definition told (w : view) (x : nat) (b : bool) (w' : view) : Prop :=
  exists n, v_in w !! x = Some n /\
    if n_mine n then b = true /\ w' = w else (x ∈ v_ok w -> b = true) /\ w' = v_learn b x w.
(** Control was transferred through [x] and comes back. *)
Definition comes_back (w : view) (x : nat) (r : resp) (w' : view) : Prop :=
  exists n, v_in w !! x = Some n /\
    if n_mine n then r = ROk AUnit /\ w' = w \/ r = RExn XUnwind /\ w' = v_dying w
    else (r = ROk AUnit \/ exists e, r = RExn (XUser e)) /\ w' = v_learn false x w.
(** ... to an iterator, which looks at its object again. *)
Definition comes_back_it (w : view) (x : nat) (r : resp) (w' : view) : Prop :=
  exists n, v_in w !! x = Some n /\
    if n_mine n then r = ROk (AIt (Some x)) /\ w' = w \/ r = RExn XUnwind /\ w' = v_dying w
    else (exists b, r = ROk (AIt (if b : bool then Some x else None)) /\ w' = v_learn b x w) \/
         (exists e, r = RExn (XUser e)) /\ w' = v_learn false x w.
Definition value_of (kd : kind) (r : resp) : Prop :=
  match kd with KVal => exists v, r = ROk (AV v) | KRef => exists l, cells l /\ r = ROk (ALoc l) | KVoid => False end.

(** [o] may have result [r], which leads to view [w']. *)
Definition next (w : view) (o : op) (r : resp) (w' : view) : Prop :=
  match o with
  | OMoveCtor x => exists h n, r = ROk (AH h) /\ v_in w !! h = None /\ v_in w !! x = Some n /\
      w' = v_learn (bool_decide (x ∈ v_ok w)) h (v_learn false x (v_with h n w))
  | OMoveAssign x y => r = ROk AUnit /\ w' = v_swap x y w
  | ODestroy x => r = ROk AUnit /\ w' = v_without x w
  | OResume x | OPush x _ => comes_back w x r w'
  | OItInc (Some x) | OOutAssign (Some x) _ => comes_back_it w x r w'
  | OBool x => exists b, r = ROk (AB b) /\ told w x b w'
  | ONot x => exists b, r = ROk (AB (negb b)) /\ told w x b w'
  | OBegin x => exists b, r = ROk (AIt (if b : bool then Some x else None)) /\ told w x b w'
  | OGet x | OItDeref (Some x) => (exists n, v_in w !! x = Some n /\ value_of (n_kind n) r) /\ w' = w
  | OEnd | OOutEnd => r = ROk (AIt None) /\ w' = w
  | OItEq i j => r = ROk (AB (bool_decide (i = j))) /\ w' = w
  | OItNe i j => r = ROk (AB (bool_decide (i <> j))) /\ w' = w
  | OOutBegin x => r = ROk (AIt (Some x)) /\ w' = w
  | OLoad _ => (exists v, r = ROk (AV v)) /\ w' = w
  | OEmit _ | OLog _ | OStore _ _ => r = ROk AUnit /\ w' = w
  | OItInc None | OItDeref None | OOutAssign None _ => False
  end.

(** All objects the function made are gone. *)
Definition empty_handed (w : view) : Prop := forall x n, v_in w !! x = Some n -> n_mine n = true.

Definition made (sd : side) (kd : kind) (h : nat) (w : view) : view :=
  v_learn (match sd with Push => true | Pull => false end) h (v_with h (Entry sd kd false) w).

(** Code [s] follows the discipline, seeing [w]. *)
CoInductive scoped : view -> strat -> Prop :=
| sc_ret w : v_unw w = false -> empty_handed w -> scoped w SRet
| sc_throw w e : v_unw w = false -> empty_handed w -> scoped w (SThrow (XUser e))
| sc_unwind w : v_unw w = true -> empty_handed w -> scoped w (SThrow XUnwind)
| sc_tau w s : scoped w s -> scoped w (STau s)
| sc_do w o k : may w o -> (forall r w', next w o r w' -> scoped w' (k r)) -> scoped w (SDo o k)
| sc_new w sd kd np fn k : (forall x, scoped (v_start sd kd x) (fn x)) ->
    (forall h, v_in w !! h = None -> scoped (made sd kd h w) (k (ROk (AH h)))) ->
    (forall e, scoped w (k (RExn (XUser e)))) ->
    scoped w (SNew sd kd np fn k).

(** A program that follows the discipline: main starts without objects. *)
Definition disciplined (p : strat) : Prop := scoped (View false ∅ ∅) p.

End discipline.
