(** Trace.v -- vocabulary for statements about histories.

    Every function here reads only the observable history (newest event first), never
    a state of the model: what a user could compute by watching the program. *)
From stdpp Require Import prelude gmap.
From Verif Require Import Base.

Section trace.
Context {env : Env}.
Implicit Types h : list event.

(** In history [h] event [e] was recorded; [b] is everything recorded before it. *)
Definition occurs h (e : event) (b : list event) : Prop := exists l, h = l ++ e :: b.

(** [b] is an earlier moment of history [h] (or [h] itself). *)
Definition past h (b : list event) : Prop := exists l, h = l ++ b.

(** The context whose user code takes part in an event. *)
Definition ev_ctx (e : event) : option nat :=
  match e with
  | EvCall c _ | EvRet c _ _ | EvExn c _ _ | EvEnter c _ | EvLeave c _ => Some c
  | _ => None
  end.

(** ** Life of a coroutine *)
Inductive phase :=
| PNone                     (* never heard of                                            *)
| PAlloc                    (* its stack is allocated, its constructor is running        *)
| PNew                      (* constructed, function not entered                         *)
| PRun                      (* function entered and not left                             *)
| PDone (x : option E)      (* function has returned, or exited by an exception          *)
| PLeft                     (* function was left by forced unwinding                     *)
| PFreed.                   (* stack released                                            *)

Fixpoint life (k : nat) h : phase :=
  match h with
  | [] => PNone
  | e :: h' =>
      match e with
      | EvAlloc n => if decide (n = k) then PAlloc else life k h'
      | EvNew n _ => if decide (n = k) then (match life k h' with PAlloc => PNew | ph => ph end) else life k h'
      | EvEnter n _ => if decide (n = k) then PRun else life k h'
      | EvLeave n None => if decide (n = k) then PDone None else life k h'
      | EvLeave n (Some (XUser x)) => if decide (n = k) then PDone (Some x) else life k h'
      | EvLeave n (Some XUnwind) => if decide (n = k) then PLeft else life k h'
      | EvFree n => if decide (n = k) then PFreed else life k h'
      | _ => life k h'
      end
  end.

(** ** What a coroutine object denotes
    [den h !! x]: object x exists and, if not not-a-coroutine, is the owner of a
    coroutine ([Outer k]) or the counterpart inside it ([Inner k]).  Objects come
    into existence by constructors (a push or pull constructor that succeeds records
    [EvNew], a pull constructor whose function did not yield does not), as counterparts
    given to coroutine-functions, and by move construction. *)
Fixpoint den h : gmap nat (option ep) :=
  match h with
  | [] => ∅
  | e :: h' =>
      match e with
      | EvNew k x => <[x := Some (Outer k)]> (den h')
      | EvEnter k x => <[x := Some (Inner k)]> (den h')
      | EvRet _ (NNew _ _) (AH x) => match den h' !! x with Some _ => den h' | None => <[x := None]> (den h') end
      | EvRet _ (NOp (OMoveCtor y)) (AH x) =>
          match den h' !! y with Some p => <[y := None]> (<[x := p]> (den h')) | None => den h' end
      | EvRet _ (NOp (OMoveAssign x y)) _ =>
          match den h' !! x, den h' !! y with
          | Some p, Some q => <[y := p]> (<[x := q]> (den h'))
          | _, _ => den h'
          end
      | EvCall _ (NOp (ODestroy x)) | EvGone _ x => delete x (den h')
      | _ => den h'
      end
  end.

(** What operator bool of object [x] has to answer; [None]: [x] does not exist. *)
Definition tests (x : nat) h : option bool :=
  match den h !! x with
  | None => None
  | Some None => Some false
  | Some (Some (Outer k)) => Some (match life k h with PDone _ => false | _ => true end)
  | Some (Some (Inner k)) => Some true
  end.

(** ** Calls
    The call that user code in context [c] has made and that has not come back. *)
Fixpoint pend (c : nat) h : option opn :=
  match h with
  | [] => None
  | EvCall n o :: h' => if decide (n = c) then Some o else pend c h'
  | EvRet n _ _ :: h' | EvExn n _ _ :: h' | EvEnter n _ :: h' => if decide (n = c) then None else pend c h'
  | _ :: h' => pend c h'
  end.

(** The object an operation is applied to. *)
Definition opobj (o : op) : option nat :=
  match o with
  | OMoveCtor x | ODestroy x | OResume x | OPush x _ | OBool x | ONot x | OGet x | OBegin x | OOutBegin x => Some x
  | OItInc i | OItDeref i | OOutAssign i _ => i
  | _ => None
  end.

(** What the call that context [c] has made last is about: the endpoint its object
    denoted when the call was made; for a constructor, the coroutine being made. *)
Fixpoint tgt (c : nat) h : option ep :=
  match h with
  | [] => None
  | EvCall n o :: h' =>
      if decide (n = c)
      then match o with NOp o => x ← opobj o; e ← den h' !! x; e | NNew _ _ => None end
      else tgt c h'
  | EvAlloc k :: h' =>
      match h' with
      | EvCall n (NNew _ _) :: _ => if decide (n = c) then Some (Outer k) else tgt c h'
      | _ => tgt c h'
      end
  | _ :: h' => tgt c h'
  end.

(** ** Stack of contexts
    The head is the context in control; each context was resumed, or is being
    destroyed, by the next one. *)
Fixpoint cstack h : list nat :=
  match h with
  | [] => [0]
  | e :: h' =>
      let s := cstack h' in
      match e with
      | EvEnter n _ => n :: s                                  (* first entry              *)
      | EvGone n _ => if decide (n ∈ s) then s else n :: s     (* an idle coroutine is being destroyed *)
      | EvRet n _ _ | EvExn n _ _ =>
          if decide (n ∈ s) then (match s with [] => [] | m :: s' => if decide (n = m) then s else s' end)
          else n :: s
      | EvFree n => match s with m :: s' => if decide (n = m) then s' else s | [] => [] end
      | _ => s
      end
  end.

(** ** Class and parameter kind of coroutine [k] (those of the object it was made for) *)
Fixpoint cls (k : nat) h : option (side * kind) :=
  match h with
  | [] => None
  | EvAlloc n :: h' =>
      if decide (n = k) then (match h' with EvCall _ (NNew sd kd) :: _ => Some (sd, kd) | _ => None end) else cls k h'
  | _ :: h' => cls k h'
  end.

(** ** Transfer slot of coroutine [k]
    What is in it: get() of a value coroutine moves the value out, so that the
    moved-from value stays. *)
Definition move_out (p : payload) : payload :=
  match p with PVal v => PVal (moved_from v) | PRef l => PRef l end.
Fixpoint slotv (k : nat) h : option payload :=
  match h with
  | [] => None
  | EvSet n p :: h' => if decide (n = k) then Some p else slotv k h'
  | EvDel n :: h' => if decide (n = k) then None else slotv k h'
  | EvRet _ (NOp (OGet x)) (AV _) :: h' =>
      match den h' !! x with
      | Some (Some e) => if decide (ep_co e = k) then move_out <$> slotv k h' else slotv k h'
      | _ => slotv k h'
      end
  | _ :: h' => slotv k h'
  end.

(** How often get() was called for [k] since the last value was put into its slot. *)
Fixpoint ngets (k : nat) h : nat :=
  match h with
  | [] => 0
  | EvSet n _ :: h' => if decide (n = k) then 0 else ngets k h'
  | EvRet _ (NOp (OGet x)) (AV _) :: h' =>
      match den h' !! x with
      | Some (Some e) => if decide (ep_co e = k) then S (ngets k h') else ngets k h'
      | _ => ngets k h'
      end
  | _ :: h' => ngets k h'
  end.

(** What get() returned for [k] when it was called for the first time after a push,
    newest first. *)
Fixpoint got (k : nat) h : list T :=
  match h with
  | [] => []
  | EvRet _ (NOp (OGet x)) (AV v) :: h' =>
      match den h' !! x with
      | Some (Some e) => if decide (ep_co e = k /\ ngets k h' = 0) then v :: got k h' else got k h'
      | _ => got k h'
      end
  | _ :: h' => got k h'
  end.

(** What was put into the slot of [k], newest first. *)
Fixpoint pushes (k : nat) h : list payload :=
  match h with
  | [] => []
  | EvSet n p :: h' => if decide (n = k) then p :: pushes k h' else pushes k h'
  | _ :: h' => pushes k h'
  end.

Definition is_run (ph : phase) : bool := match ph with PRun => true | _ => false end.

(** Operations of the receiving side that transfer control. *)
Definition recv (o : opn) : bool :=
  match o with NOp (OResume _) | NOp (OItInc _) => true | _ => false end.

(** The endpoint of a coroutine of class [sd] that receives values. *)
Definition receiver (sd : side) (k : nat) : ep := match sd with Pull => Outer k | Push => Inner k end.

(** How often the receiving side of coroutine [k], of class [sd], got control with a
    new value: the owner of a pull coroutine when the constructor succeeds and when
    a resumption returns and the function has not finished; the function of a push
    coroutine when it is entered and when one of its resumptions returns. *)
Fixpoint turns (sd : side) (k : nat) h : nat :=
  match h with
  | [] => 0
  | e :: h' =>
      match e, sd with
      | EvNew n _, Pull | EvEnter n _, Push => if decide (n = k) then S (turns sd k h') else turns sd k h'
      | EvRet c o _, _ =>
          if recv o && bool_decide (tgt c h' = Some (receiver sd k)) && is_run (life k h')
          then S (turns sd k h') else turns sd k h'
      | _, _ => turns sd k h'
      end
  end.

(** ** User memory
    Changed by the program's own stores and by pushing an object as an rvalue. *)
Fixpoint umem (u : gmap nat T) h : gmap nat T :=
  match h with
  | [] => u
  | EvRet _ (NOp (OStore l v)) _ :: h' => <[l := v]> (umem u h')
  | EvSet _ (PVal v) :: h' =>
      match pend (hd 0 (cstack h')) h' with
      | Some (NOp (OPush _ (AMove l))) => <[l := moved_from v]> (umem u h')
      | _ => umem u h'
      end
  | _ :: h' => umem u h'
  end.

(** What a push is called with, and the value of its argument when it is called. *)
Definition push_arg (o : opn) : option arg :=
  match o with NOp (OPush _ g) | NOp (OOutAssign _ g) => Some g | _ => None end.
Definition argval (u : gmap nat T) (g : arg) h : option T :=
  match g with ACopy l | AMove l => umem u h !! l | AImm v => Some v | _ => None end.
(** The exception that constructing the transferred object from [v] throws: T const&
    and the output iterator copy, T&& moves. *)
Definition arg_exn (o : opn) (v : T) : option E :=
  match o with
  | NOp (OPush _ (ACopy _)) | NOp (OOutAssign _ _) => copy_exn v
  | NOp (OPush _ _) => move_exn v
  | _ => None
  end.

(** [e] is what follows when control is handed over through endpoint [d]: through the
    owner, the function is entered, or the call by which it suspended itself returns;
    through the counterpart, the call that resumed the coroutine returns (or, if it
    was the constructor of a pull object, completes the object). *)
Definition handover (d : ep) h (e : event) : Prop :=
  match d with
  | Outer k => k ∉ cstack h /\
      ((life k h = PNew /\ exists x, e = EvEnter k x) \/
       (life k h = PRun /\ exists o r, pend k h = Some o /\ tgt k h = Some (Inner k) /\ e = EvRet k o r))
  | Inner k => exists c o s, cstack h = k :: c :: s /\ pend c h = Some o /\ tgt c h = Some (Outer k) /\
      ((exists r, e = EvRet c o r) \/ (exists x kd, o = NNew Pull kd /\ e = EvNew k x))
  end.

(** The endpoint of a coroutine of class [sd] that sends values. *)
Definition sender (sd : side) (k : nat) : ep := match sd with Pull => Inner k | Push => Outer k end.

(** A call made by the function of [k] has ended with the unwinding exception: [k] is
    being destroyed. *)
Definition unw (k : nat) (h : list event) : Prop := exists o b, occurs h (EvExn k o XUnwind) b.

End trace.
