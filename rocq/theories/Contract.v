(** Contract.v -- what a program has to respect, as a condition on its history.

    [respects p u n]: in the first [n] steps program [p], started with user memory [u],
    has not broken a precondition.  This is the hypothesis of the theorems.  It is
    stated on the observable history alone: every call that user code makes, and every
    exit from a coroutine-function, is checked against what happened before.

    The preconditions come from four sources.
    - The documentation: a coroutine object that is not-a-coroutine, or whose
      function has finished, must not be resumed; get() needs a value; the function of
      a coroutine that is being destroyed must not swallow the exception that unwinds
      it (doc/asymmetric.qbk).
    - C++: objects are used and destroyed while they exist, operations exist for the
      classes and parameter kinds that declare them, user memory exists.
    - One-shot fibers: only a suspended coroutine can be resumed or destroyed, and only
      the running coroutine-function itself can suspend itself.
    - The implementation: after a push whose copy threw while a value was in the slot,
      the coroutine can neither be pushed to nor destroyed (C25); an object that owns a
      coroutine and sits where a counterpart object was is destroyed with it.

    PropsUB.v shows for the individual conditions that the model of the code runs into
    undefined behaviour when they are broken. *)
From stdpp Require Import prelude gmap.
From Verif Require Import Base Model Trace.

Section contract.
Context {env : Env}.
Implicit Types h : list event.

(** ** Objects *)

(** Class and parameter kind of the object at address [x]. *)
Fixpoint typ (x : nat) h : option (side * kind) :=
  match h with
  | [] => None
  | e :: h' =>
      match e with
      | EvNew k y => if decide (y = x) then cls k h' else typ x h'
      | EvEnter k y =>
          if decide (y = x)
          then match cls k h' with Some (Pull, kd) => Some (Push, kd) | Some (Push, kd) => Some (Pull, kd) | None => None end
          else typ x h'
      | EvRet _ (NNew sd kd) (AH y) =>
          if decide (y = x) then match den h' !! x with Some _ => typ x h' | None => Some (sd, kd) end else typ x h'
      | EvRet _ (NOp (OMoveCtor z)) (AH y) => if decide (y = x) then typ z h' else typ x h'
      | _ => typ x h'
      end
  end.

Definition is_class (sd : side) (x : nat) h : bool :=
  match typ x h with Some (sd', _) => bool_decide (sd' = sd) | None => false end.
(** ... of a parameter kind with iterators and get(). *)
Definition has_data (sd : side) (x : nat) h : bool :=
  match typ x h with Some (sd', KVal) | Some (sd', KRef) => bool_decide (sd' = sd) | _ => false end.

(** The coroutine has been constructed and its stack has not been released. *)
Definition lives (k : nat) h : bool :=
  match life k h with PNew | PRun | PDone _ | PLeft => true | PNone | PAlloc | PFreed => false end.

Definition present (x : nat) h : bool := bool_decide (is_Some (den h !! x)).
(** The object exists and refers to no coroutine, or to one that exists. *)
Definition usable (x : nat) h : bool :=
  match den h !! x with Some (Some d) => lives (ep_co d) h | Some None => true | None => false end.

(** ** Coroutines *)

(** The function of [k] is being unwound. *)
Fixpoint unwinding (k : nat) h : bool :=
  match h with
  | [] => false
  | EvExn n _ XUnwind :: h' => if decide (n = k) then true else unwinding k h'
  | _ :: h' => unwinding k h'
  end.

(** A push destroyed the value in the slot of [k] and then failed to construct the
    new one. *)
Fixpoint spoiled (k : nat) h : bool :=
  match h with
  | [] => false
  | e :: h' =>
      match e, h' with
      | EvExn _ _ (XUser _), EvDel n :: EvCall _ o :: _ =>
          match push_arg o with Some _ => bool_decide (n = k) | None => false end
      | _, _ => false
      end || spoiled k h'
  end.

(** Address of the counterpart object given to the function of [k]. *)
Fixpoint handed (k : nat) h : option nat :=
  match h with
  | [] => None
  | EvEnter n x :: h' => if decide (n = k) then Some x else handed k h'
  | _ :: h' => handed k h'
  end.

(** The object at the place of the counterpart of [k] can be destroyed; [d] says which
    coroutines can. *)
Definition counterpart_goes (d : nat -> bool) (k : nat) h : bool :=
  match handed k h with
  | Some x =>
      match den h !! x with
      | Some None => true
      | Some (Some (Inner j)) => lives j h
      | Some (Some (Outer j)) => d j
      | None => false
      end
  | None => false
  end.

(** Coroutine [k] can be destroyed: it is not running, its slot is intact, and if its
    function has finished, the object at the place of its counterpart can be destroyed
    with it ([fuel] bounds the chain of coroutines owned by such objects). *)
Fixpoint destroyable (fuel : nat) (k : nat) h : bool :=
  match fuel with
  | O => false
  | S fuel' =>
      negb (spoiled k h) &&
      match life k h with
      | PNew => true
      | PRun => bool_decide (k ∉ cstack h)
      | PDone _ => counterpart_goes (fun j => destroyable fuel' j h) k h
      | _ => false
      end
  end.
Definition disposable (k : nat) h : bool := counterpart_goes (fun j => destroyable (length h) j h) k h.

(** ** Transfer of control *)

(** The call in progress in context [c] can return: an iterator looks at its coroutine
    object again before it returns. *)
Definition returns (c : nat) h : bool :=
  match pend c h with
  | Some (NOp (OItInc (Some x))) => is_class Pull x h && usable x h
  | Some (NOp (OOutAssign (Some x) _)) => is_class Push x h && usable x h
  | _ => true
  end.

(** Context that resumed (or destroys) the running one. *)
Definition resumer h : nat := match cstack h with _ :: c :: _ => c | _ => 0 end.

(** Control can be transferred through endpoint [d]: through the owner, to a coroutine
    that is not running; through the counterpart, by the running coroutine-function,
    unless it is being unwound. *)
Definition transferable (d : ep) h : bool :=
  match d with
  | Outer k => match life k h with PNew => true | PRun => bool_decide (k ∉ cstack h) | _ => false end && returns k h
  | Inner k => is_run (life k h) && bool_decide (hd 0 (cstack h) = k) && negb (unwinding k h) && returns (resumer h) h
  end.

(** Arguments of push operator() and of assignment through an output iterator. *)
Definition fits (kd : kind) (g : arg) : bool :=
  match kd, g with
  | KVal, ACopy _ | KVal, AMove _ | KVal, AImm _ => true
  | KRef, ARefTo _ => true
  | KVoid, ANone => true
  | _, _ => false
  end.
Definition fits_out (kd : kind) (g : arg) : bool :=
  match kd, g with KVal, AImm _ | KRef, ARefTo _ => true | _, _ => false end.

Definition can_resume (x : nat) h : bool :=
  match den h !! x with Some (Some d) => transferable d h | _ => false end.
Definition can_push (u : gmap nat T) (x : nat) (g : arg) h : bool :=
  match den h !! x with
  | Some (Some d) => transferable d h && negb (spoiled (ep_co d) h) &&
      match g with ACopy l | AMove l => bool_decide (is_Some (umem u h !! l)) | _ => true end
  | _ => false
  end.
(** There is a value to read: from outside, until the function has finished. *)
Definition can_read (x : nat) h : bool :=
  match den h !! x with
  | Some (Some d) =>
      lives (ep_co d) h && bool_decide (is_Some (slotv (ep_co d) h)) &&
      match d with Outer k => match life k h with PDone _ => false | _ => true end | Inner _ => true end
  | _ => false
  end.

(** ** The contract *)

(** [o] may be called after history [h]. *)
Definition pre (u : gmap nat T) h (o : op) : bool :=
  match o with
  | OMoveCtor x => present x h
  | OMoveAssign x y => present x h && present y h && bool_decide (typ x h = typ y h)
  | ODestroy x =>
      match den h !! x with
      | Some None => true
      | Some (Some (Inner k)) => lives k h
      | Some (Some (Outer k)) => destroyable (length h) k h
      | None => false
      end
  | OBool x | ONot x => usable x h
  | OBegin x => has_data Pull x h && usable x h
  | OOutBegin x => has_data Push x h && present x h
  | OGet x | OItDeref (Some x) => has_data Pull x h && can_read x h
  | OResume x => is_class Pull x h && can_resume x h
  | OItInc (Some x) => has_data Pull x h && can_resume x h
  | OPush x g => match typ x h with Some (Push, kd) => fits kd g | _ => false end && can_push u x g h
  | OOutAssign (Some x) g => match typ x h with Some (Push, kd) => fits_out kd g | _ => false end && can_push u x g h
  | OItInc None | OItDeref None | OOutAssign None _ => false
  | OLoad l => bool_decide (is_Some (umem u h !! l))
  | OEnd | OOutEnd | OItEq _ _ | OItNe _ _ | OEmit _ | OLog _ | OStore _ _ => true
  end.

(** The function of [k] may be left with [r] after history [h]: by the unwinding
    exception exactly when it is being unwound.  If that destroys the coroutine, the
    object at the place of its counterpart goes with it. *)
Definition may_leave (k : nat) (r : option exn) h : bool :=
  match r with
  | Some XUnwind => unwinding k h && disposable k h
  | _ => negb (unwinding k h) &&
         match pend (resumer h) h with
         | Some (NNew _ _) => disposable k h
         | _ => match r with None => returns (resumer h) h | _ => true end
         end
  end.

Definition allowed (u : gmap nat T) h (e : event) : bool :=
  match e with
  | EvCall _ (NOp o) => pre u h o
  | EvLeave k r => may_leave k r h
  | _ => true
  end.

Fixpoint obeys (u : gmap nat T) h : bool :=
  match h with [] => true | e :: h' => allowed u h' e && obeys u h' end.

Context {comp : Compiler}.

(** In addition, main is not left by the unwinding exception. *)
Definition main_unwinds (p : strat) (u : gmap nat T) (n : nat) : Prop :=
  exists m s, m < n /\ crun m (cinit p u) = CNext s /\ c_cur s = 0 /\ c_focus s = FStrat (SThrow XUnwind).

Definition respects (p : strat) (u : gmap nat T) (n : nat) : Prop :=
  obeys u (hist p u n) = true /\ ~ main_unwinds p u n.

(** A program that respects the contract for ever. *)
Definition well_used (p : strat) (u : gmap nat T) : Prop := forall n, respects p u n.

End contract.
