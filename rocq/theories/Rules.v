(** Rules.v -- the rules histories obey, stated on histories only.

    [follows u h e]: after history [h] (newest event first), [e] is a possible next
    event; [u] is the initial user memory.  The rules leave open only what user code
    decides: which call comes next, when and how a function is left, and whether an
    allocation or a copy of a function object throws.  RulesProof.v proves that all
    histories of the model of the code obey them. *)
From stdpp Require Import prelude gmap.
From Verif Require Import Base Trace.

Section rules.
Context {env : Env}.
Implicit Types h : list event.

(** User code in context [c] is in control: it calls something or leaves its function. *)
Definition acts (c : nat) (e : event) : Prop :=
  (exists o, e = EvCall c o) \/ (c <> 0 /\ exists r, e = EvLeave c r).

(** Constructing the transferred object. *)
Definition constructs (u : gmap nat T) (c : nat) (o : opn) (g : arg) (k : nat) h (e : event) : Prop :=
  exists v, argval u g h = Some v /\ e = match arg_exn o v with Some ex => EvExn c o (XUser ex) | None => EvSet k (PVal v) end.

(** What follows the call of a push through endpoint [d]. *)
Definition push_follows (u : gmap nat T) (c : nat) (o : opn) (g : arg) (d : ep) (kd : kind) h (e : event) : Prop :=
  match kd with
  | KVal => (slotv (ep_co d) h <> None /\ e = EvDel (ep_co d)) \/ (slotv (ep_co d) h = None /\ constructs u c o g (ep_co d) h e)
  | KRef => exists l, g = ARefTo l /\ e = EvSet (ep_co d) (PRef l)
  | KVoid => handover d h e
  end.

(** What follows when the destruction of coroutine [k] starts: the function is unwound
    if it is suspended, otherwise the rest of its stack is. *)
Definition dies (k : nat) h (e : event) : Prop :=
  (life k h = PRun /\ k ∉ cstack h /\ exists o, pend k h = Some o /\ tgt k h = Some (Inner k) /\ e = EvExn k o XUnwind) \/
  ((life k h = PNew \/ exists x, life k h = PDone x) /\ exists s, e = EvGone k s).

(** A value in the slot of a pull coroutine is destroyed before that. *)
Definition destroys (k : nat) h (e : event) : Prop :=
  (cls k h = Some (Pull, KVal) /\ slotv k h <> None /\ e = EvDel k) \/
  ((cls k h = Some (Pull, KVal) -> slotv k h = None) /\ dies k h e).

(** A value in the slot of a push coroutine is destroyed just before its stack is released. *)
Definition frees (k : nat) h (e : event) : Prop :=
  (cls k h = Some (Push, KVal) /\ slotv k h <> None /\ e = EvDel k) \/
  ((cls k h = Some (Push, KVal) -> slotv k h = None) /\ e = EvFree k).

Definition follows (u : gmap nat T) h (e : event) : Prop :=
  match h with
  | [] => acts 0 e
  | e0 :: b =>
      match e0 with
      | EvRet c _ _ | EvExn c _ _ | EvEnter c _ => acts c e
      | EvCall c (NNew sd kd) =>
          (exists x, e = EvExn c (NNew sd kd) (XUser x)) \/ (exists k, k <> 0 /\ life k h = PNone /\ e = EvAlloc k)
      | EvCall c (NOp o) =>
          match o with
          | ODestroy x =>
              match den b !! x with
              | Some (Some (Outer k)) => destroys k h e
              | Some _ => e = EvRet c (NOp o) AUnit
              | None => False
              end
          | OResume x | OItInc (Some x) =>
              exists sd k kd, den b !! x = Some (Some (receiver sd k)) /\ cls k b = Some (sd, kd) /\ handover (receiver sd k) h e
          | OPush x g | OOutAssign (Some x) g =>
              exists sd k kd, den b !! x = Some (Some (sender sd k)) /\ cls k b = Some (sd, kd) /\ push_follows u c (NOp o) g (sender sd k) kd h e
          | OItInc None | OOutAssign None _ => False
          | _ => exists r, e = EvRet c (NOp o) r
          end
      | EvSet k _ => exists sd kd, cls k b = Some (sd, kd) /\ tgt (hd 0 (cstack b)) b = Some (sender sd k) /\ handover (sender sd k) h e
      | EvAlloc k =>
          match b with
          | EvCall c (NNew sd kd) :: _ =>
              (exists x, e = EvExn c (NNew sd kd) (XUser x)) \/
              match sd with Pull => exists s, e = EvEnter k s | Push => exists x, e = EvNew k x end
          | _ => False
          end
      | EvNew k x => exists c sd kd, pend c h = Some (NNew sd kd) /\ tgt c h = Some (Outer k) /\ e = EvRet c (NNew sd kd) (AH x)
      | EvLeave k (Some XUnwind) => exists s, e = EvGone k s
      | EvLeave k r =>
          exists c o s, cstack b = k :: c :: s /\ pend c b = Some o /\ tgt c b = Some (Outer k) /\
            match o with
            | NNew _ _ => destroys k h e
            | NOp _ => match r with None => exists a, e = EvRet c o a | Some x => e = EvExn c o x end
            end
      | EvDel k =>
          match b with
          | EvCall c o :: _ =>
              match push_arg o with
              | Some g => constructs u c o g k h e
              | None => dies k h e
              end
          | _ => match cls k b with
                 | Some (Pull, _) => dies k h e
                 | _ => e = EvFree k
                 end
          end
      | EvGone k s =>
          match den b !! s with
          | Some (Some (Outer j)) => destroys j h e       (* the counterpart object had become the owner of j *)
          | _ => frees k h e
          end
      | EvFree k =>
          exists c s, cstack b = k :: c :: s /\
            match pend c b with
            | None => frees c h e                         (* k was owned by the counterpart object of c *)
            | Some (NOp o) => e = EvRet c (NOp o) AUnit /\ (exists x, o = ODestroy x) /\ tgt c b = Some (Outer k)
            | Some (NNew sd kd) => sd = Pull /\ tgt c b = Some (Outer k) /\
                ((life k b = PDone None /\ exists x, e = EvRet c (NNew Pull kd) (AH x)) \/
                 (exists ex, life k b = PDone (Some ex) /\ e = EvExn c (NNew Pull kd) (XUser ex)))
            end
      end
  end.

(** get() of a value coroutine returns what the last push put into the slot, moved out
    as often as get() was called since; get() of a reference coroutine and the
    iterator's operator* do not change anything. *)
Definition reads (sd : side) (k : nat) h (r : ans) : Prop :=
  length (pushes k h) = turns sd k h /\
  ((exists w rest, cls k h = Some (sd, KVal) /\ pushes k h = PVal w :: rest /\ r = AV (Nat.iter (ngets k h) moved_from w)) \/
   (exists l rest, cls k h = Some (sd, KRef) /\ pushes k h = PRef l :: rest /\ r = ALoc l)).

(** [answers u h c o r]: after history [h], the call of [o] in [c] may return [r]. *)
Definition answers (u : gmap nat T) h (c : nat) (o : opn) (r : ans) : Prop :=
  match o with
  | NNew sd kd => exists x, r = AH x /\ ((exists k b, h = EvNew k x :: b) \/ (sd = Pull /\ den h !! x = None))
  | NOp o =>
      match o with
      | OBool x => exists v, tests x h = Some v /\ r = AB v
      | ONot x => exists v, tests x h = Some v /\ r = AB (negb v)
      | OBegin x | OItInc (Some x) | OOutAssign (Some x) _ => exists v, tests x h = Some v /\ r = AIt (if v then Some x else None)
      | OOutBegin x => tests x h <> None /\ r = AIt (Some x)
      | OEnd | OOutEnd => r = AIt None
      | OItEq i j => r = AB (bool_decide (i = j))
      | OItNe i j => r = AB (negb (bool_decide (i = j)))
      | OGet x | OItDeref (Some x) => exists sd k, den h !! x = Some (Some (receiver sd k)) /\ reads sd k h r
      | OMoveCtor y => exists x, r = AH x /\ den h !! x = None /\ den h !! y <> None
      | OMoveAssign x y => r = AUnit /\ den h !! x <> None /\ den h !! y <> None
      | OLoad l => exists v, umem u h !! l = Some v /\ r = AV v
      | OResume _ | OPush _ _ | ODestroy _ | OEmit _ | OLog _ | OStore _ _ => r = AUnit
      | OItInc None | OItDeref None | OOutAssign None _ => False
      end
  end.

End rules.
