(** Spec.v -- reference semantics of the coroutine2 API.

    This is what the documentation (doc/asymmetric.qbk, doc/motivation.qbk, ...)
    promises, written without fibers, control blocks, pointers, flags or stacks of
    machine frames: a coroutine is a suspended user function with a transfer slot,
    and resuming it is a call.  Calls that break a documented precondition (or one
    of the additional preconditions listed at [AViol] in DESIGN.md) have the result
    [AViol].  Refine.v proves that the model of the code (Model.v) does exactly
    what this semantics says as long as [AViol] does not occur. *)
From stdpp Require Import prelude gmap.
From Verif Require Import Base.

Section spec.
Context {env : Env}.

(** What remains to be done by an operation that transferred control when it gets
    control back: nothing; the iterator looks at its coroutine object again; the
    constructor of a pull object finishes. *)
Inductive post :=
| PoUnit
| PoInc (h : nat)
| PoOut (h : nat)
| PoNew (h : nat) (kd : kind).

(** Life of a coroutine-function. *)
Inductive astatus :=
| ANew (fn : nat -> strat)                      (* not entered yet (push objects only)          *)
| ASusp (o : opn) (po : post) (k : resp -> strat)   (* suspended in operation o on the counterpart *)
| ARun                                          (* entered, and running or waiting for a coroutine it resumed *)
| ADone (x : option E)                          (* finished, by return or by an exception       *)
| AUnw (entered : bool).                        (* being destroyed                              *)

(** Transfer slot: empty; holds a value or reference; a failed replacement has
    destroyed the value without providing a new one. *)
Inductive aslot := SlEmpty | SlFull (p : payload) | SlBad.

(** [ac_syn]: address of the counterpart object; [ac_by]: context that resumed the
    coroutine most recently (or destroys it). *)
Record acoro := ACo {
  ac_side : side; ac_kind : kind; ac_st : astatus; ac_slot : aslot; ac_syn : nat; ac_by : nat }.

(** How the operation that destroys a coroutine ends. *)
Inductive kfin :=
| KfDestroy                        (* ~pull_type(), ~push_type()                             *)
| KfEmpty (h : nat) (kd : kind)    (* pull constructor, function finished without a value    *)
| KfThrow (e : E).                 (* pull constructor, function exited by exception e       *)

(** Why a context waits for coroutine [j]: it resumed it; it destroys it in an
    operation; it destroys it because the counterpart object of a coroutine that is
    itself being destroyed owns it. *)
Inductive wait :=
| WOp (j : nat) (o : opn) (po : post) (k : resp -> strat)
| WKill (j : nat) (o : opn) (f : kfin) (k : resp -> strat)
| WExit (j : nat).

(** What the current context does: user code; the end of a destroyed coroutine
    (first the counterpart object is destroyed, then slot and stack). *)
Inductive afocus := AUser (s : strat) | AExit | AExit2.

Record astate := ASt {
  a_co : gmap nat acoro;
  a_wait : gmap nat wait;
  a_h : gmap nat hobj;
  a_user : gmap nat T;
  a_nh : nat;
  a_nk : nat;
  a_cur : nat;
  a_foc : afocus;
  a_tr : list event }.

Definition w_co x (a : astate) := ASt x (a_wait a) (a_h a) (a_user a) (a_nh a) (a_nk a) (a_cur a) (a_foc a) (a_tr a).
Definition w_wait x (a : astate) := ASt (a_co a) x (a_h a) (a_user a) (a_nh a) (a_nk a) (a_cur a) (a_foc a) (a_tr a).
Definition w_h x (a : astate) := ASt (a_co a) (a_wait a) x (a_user a) (a_nh a) (a_nk a) (a_cur a) (a_foc a) (a_tr a).
Definition w_user x (a : astate) := ASt (a_co a) (a_wait a) (a_h a) x (a_nh a) (a_nk a) (a_cur a) (a_foc a) (a_tr a).
Definition w_nh x (a : astate) := ASt (a_co a) (a_wait a) (a_h a) (a_user a) x (a_nk a) (a_cur a) (a_foc a) (a_tr a).
Definition w_nk x (a : astate) := ASt (a_co a) (a_wait a) (a_h a) (a_user a) (a_nh a) x (a_cur a) (a_foc a) (a_tr a).
Definition w_cur x (a : astate) := ASt (a_co a) (a_wait a) (a_h a) (a_user a) (a_nh a) (a_nk a) x (a_foc a) (a_tr a).
Definition w_foc x (a : astate) := ASt (a_co a) (a_wait a) (a_h a) (a_user a) (a_nh a) (a_nk a) (a_cur a) x (a_tr a).
Definition alog e (a : astate) := ASt (a_co a) (a_wait a) (a_h a) (a_user a) (a_nh a) (a_nk a) (a_cur a) (a_foc a) (e :: a_tr a).

Definition c_st x (c : acoro) := ACo (ac_side c) (ac_kind c) x (ac_slot c) (ac_syn c) (ac_by c).
Definition c_slot x (c : acoro) := ACo (ac_side c) (ac_kind c) (ac_st c) x (ac_syn c) (ac_by c).
Definition c_by x (c : acoro) := ACo (ac_side c) (ac_kind c) (ac_st c) (ac_slot c) (ac_syn c) x.
Definition put_co k c a := w_co (<[ k := c ]> (a_co a)) a.

Inductive ares := ANext (a : astate) | AHalt (o : outcome) (a : astate) | AViol.

(** Return to user code of the current context. *)
Definition ret_to (o : opn) (r : ans) (k : resp -> strat) (a : astate) : ares :=
  ANext (w_foc (AUser (k (ROk r))) (alog (EvRet (a_cur a) o r) a)).
Definition exn_to (o : opn) (x : exn) (k : resp -> strat) (a : astate) : ares :=
  ANext (w_foc (AUser (k (RExn x))) (alog (EvExn (a_cur a) o x) a)).

(** operator bool of an object denoting [e]: a coroutine is true until its function
    has finished; the counterpart is always true.  [None]: the coroutine does not
    exist (any more), or the counterpart is not in use yet. *)
Definition avalid (e : option ep) (a : astate) : option bool :=
  match e with
  | None => Some false
  | Some (Outer k) =>
      match a_co a !! k with
      | Some c => match ac_st c with ADone _ => Some false | AUnw _ => None | _ => Some true end
      | None => None
      end
  | Some (Inner k) =>
      match a_co a !! k with
      | Some c => match ac_st c with ANew _ | AUnw false => None | _ => Some true end
      | None => None
      end
  end.

(** Precondition of operator(): from outside, the coroutine is suspended; through
    the counterpart, only the coroutine-function itself may yield. *)
Definition resumable (e : ep) (a : astate) : bool :=
  match e with
  | Outer k => match a_co a !! k with
               | Some c => match ac_st c with ANew _ | ASusp _ _ _ => true | _ => false end
               | None => false
               end
  | Inner k => bool_decide (k = a_cur a) &&
               match a_co a !! k with
               | Some c => match ac_st c with ARun => true | _ => false end
               | None => false
               end
  end.

(** Precondition of get() and of dereferencing an iterator. *)
Definition readable (e : ep) (a : astate) : option acoro :=
  match e with
  | Outer k => c ← a_co a !! k; match ac_st c with ADone _ | AUnw _ => None | _ => Some c end
  | Inner k => c ← a_co a !! k; match ac_st c with ANew _ | AUnw false => None | _ => Some c end
  end.

(** The current context destroys coroutine [j] and waits ([w]) until that is done:
    the value in the slot of a pull object goes first; then a suspended function is
    unwound: its pending operation exits by forced_unwind. *)
Definition kill (j : nat) (w : wait) (a : astate) : ares :=
  match a_co a !! j with
  | None => AViol
  | Some c =>
      let drop := match ac_side c, ac_kind c, ac_slot c with
                  | Pull, KVal, SlFull _ => Some (alog (EvDel j) a)
                  | Pull, KVal, SlBad => None
                  | _, _, _ => Some a
                  end in
      match drop with
      | None => AViol
      | Some a =>
          let slot := match ac_side c with Pull => SlEmpty | Push => ac_slot c end in
          let entered := match ac_st c with ANew _ => false | _ => true end in
          let a := put_co j (ACo (ac_side c) (ac_kind c) (AUnw entered) slot (ac_syn c) (a_cur a)) a in
          let a := w_cur j (w_wait (<[ a_cur a := w ]> (a_wait a)) a) in
          match ac_st c with
          | ASusp o _ k => exn_to o XUnwind k a
          | ANew _ | ADone _ => ANext (w_foc AExit a)
          | ARun | AUnw _ => AViol
          end
      end
  end.

(** The current context gets control back in operation [o] from coroutine [j]
    ([j] suspended itself, or finished: [x] is the exception, if any; or, when the
    current context is a coroutine, it was resumed). *)
Definition deliver (j : nat) (o : opn) (po : post) (k : resp -> strat) (x : option E) (a : astate) : ares :=
  match x, po with
  | Some e, PoNew _ _ => kill j (WKill j o (KfThrow e) k) a
  | Some e, _ => exn_to o (XUser e) k a
  | None, PoUnit => ret_to o AUnit k a
  | None, PoInc h =>
      match a_h a !! h with
      | Some (HObj Pull _ e) =>
          match avalid e a with Some b => ret_to o (AIt (if b then Some h else None)) k a | None => AViol end
      | _ => AViol
      end
  | None, PoOut h =>
      match a_h a !! h with
      | Some (HObj Push _ e) =>
          match avalid e a with Some b => ret_to o (AIt (if b then Some h else None)) k a | None => AViol end
      | _ => AViol
      end
  | None, PoNew h kd =>
      match ac_st <$> a_co a !! j with
      | Some (ADone _) => kill j (WKill j o (KfEmpty h kd) k) a
      | Some (ASusp _ _ _) =>
          ret_to o (AH h) k (alog (EvNew j h) (w_h (<[ h := HObj Pull kd (Some (Outer j)) ]> (a_h a)) a))
      | _ => AViol
      end
  end.

(** Control goes from the running function of coroutine [n] (whose status becomes
    [st]) back to the context that resumed it. *)
Definition give_back (n : nat) (st : astatus) (x : option E) (a : astate) : ares :=
  match a_co a !! n with
  | None => AViol
  | Some c =>
      match a_wait a !! ac_by c with
      | Some (WOp _ o po k) =>
          deliver n o po k x
            (w_cur (ac_by c) (w_wait (delete (ac_by c) (a_wait a)) (put_co n (c_st st c) a)))
      | _ => AViol
      end
  end.

(** Transfer of control through endpoint [e] in operation [o]. *)
Definition transfer (e : ep) (o : opn) (po : post) (k : resp -> strat) (a : astate) : ares :=
  match e with
  | Inner n => give_back n (ASusp o po k) None a
  | Outer n =>
      match a_co a !! n with
      | None => AViol
      | Some c =>
          let a := put_co n (c_by (a_cur a) (c_st ARun c)) a in
          let a := w_cur n (w_wait (<[ a_cur a := WOp n o po k ]> (a_wait a)) a) in
          match ac_st c with
          | ASusp o' po' k' => deliver n o' po' k' None a
          | ANew fn => ANext (w_foc (AUser (fn (ac_syn c))) (alog (EvEnter n (ac_syn c)) a))
          | _ => AViol
          end
      end
  end.

(** Construction of a T from the argument: copy for T const& and for the output
    iterator ([lv]), move otherwise; may throw. [None]: no such user object. *)
Definition aconstruct (lv : bool) (g : arg) (u : gmap nat T) : option (E + T * gmap nat T) :=
  match g with
  | ACopy l => v ← u !! l; Some (match copy_exn v with Some e => inl e | None => inr (v, u) end)
  | AMove l => v ← u !! l; Some (match move_exn v with
                                 | Some e => inl e
                                 | None => inr (v, <[ l := moved_from v ]> u)
                                 end)
  | AImm v => Some (match (if lv then copy_exn v else move_exn v) with Some e => inl e | None => inr (v, u) end)
  | _ => None
  end.

(** A push through endpoint [e] of coroutine [n]: put the argument into the slot
    (the old value is destroyed before the new one is constructed), then transfer
    control.  If the construction throws, control stays and the exception leaves
    the push. *)
Definition push_op (e : ep) (kd : kind) (lv : bool) (g : arg) (o : opn) (po : post) (k : resp -> strat) (a : astate) : ares :=
  if negb (resumable e a) then AViol else
  let n := ep_co e in
  match a_co a !! n with
  | None => AViol
  | Some c =>
      match kd with
      | KVoid => transfer e o po k a
      | KRef =>
          match g with
          | ARefTo l =>
              transfer e o po k (alog (EvSet n (PRef l)) (put_co n (c_slot (SlFull (PRef l)) c) a))
          | _ => AViol
          end
      | KVal =>
          match ac_slot c with
          | SlBad => AViol
          | _ =>
              let a' := match ac_slot c with SlFull _ => alog (EvDel n) a | _ => a end in
              let failed := match ac_slot c with SlFull _ => SlBad | s => s end in
              match aconstruct lv g (a_user a) with
              | None => AViol
              | Some (inl e') => exn_to o (XUser e') k (put_co n (c_slot failed c) a')
              | Some (inr (v, u)) =>
                  transfer e o po k
                    (alog (EvSet n (PVal v)) (w_user u (put_co n (c_slot (SlFull (PVal v)) c) a')))
              end
          end
      end
  end.

Definition aarg_ok (kd : kind) (a : arg) : bool :=
  match kd, a with
  | KVal, ACopy _ | KVal, AMove _ | KVal, AImm _ => true
  | KRef, ARefTo _ => true
  | KVoid, ANone => true
  | _, _ => false
  end.
Definition aout_ok (kd : kind) (a : arg) : bool :=
  match kd, a with KVal, AImm _ | KRef, ARefTo _ => true | _, _ => false end.

Definition not_void (kd : kind) : bool := match kd with KVoid => false | _ => true end.

(** The operations, after the call has been recorded. *)
Definition do_op (o : op) (k : resp -> strat) (a : astate) : ares :=
  let nm := NOp o in
  match o with
  | OMoveCtor h =>
      match a_h a !! h with
      | Some (HObj sd kd e) =>
          let h' := a_nh a in
          ret_to nm (AH h') k
            (w_nh (S h') (w_h (<[ h := HObj sd kd None ]> (<[ h' := HObj sd kd e ]> (a_h a))) a))
      | None => AViol
      end
  | OMoveAssign h1 h2 =>
      match a_h a !! h1, a_h a !! h2 with
      | Some (HObj sd1 kd1 e1), Some (HObj sd2 kd2 e2) =>
          if bool_decide (sd1 = sd2) && bool_decide (kd1 = kd2)
          then ret_to nm AUnit k (w_h (<[ h2 := HObj sd2 kd2 e1 ]> (<[ h1 := HObj sd1 kd1 e2 ]> (a_h a))) a)
          else AViol
      | _, _ => AViol
      end
  | ODestroy h =>
      match a_h a !! h with
      | Some (HObj _ _ e) =>
          let a := w_h (delete h (a_h a)) a in
          match e with
          | None => ret_to nm AUnit k a
          | Some (Inner n) => match a_co a !! n with Some _ => ret_to nm AUnit k a | None => AViol end
          | Some (Outer n) => kill n (WKill n nm KfDestroy k) a
          end
      | None => AViol
      end
  | OResume h =>
      match a_h a !! h with
      | Some (HObj Pull _ (Some e)) => if resumable e a then transfer e nm PoUnit k a else AViol
      | _ => AViol
      end
  | OPush h g =>
      match a_h a !! h with
      | Some (HObj Push kd (Some e)) =>
          if aarg_ok kd g then push_op e kd false g nm PoUnit k a else AViol
      | _ => AViol
      end
  | OBool h =>
      match a_h a !! h with
      | Some (HObj _ _ e) => match avalid e a with Some b => ret_to nm (AB b) k a | None => AViol end
      | None => AViol
      end
  | ONot h =>
      match a_h a !! h with
      | Some (HObj _ _ e) => match avalid e a with Some b => ret_to nm (AB (negb b)) k a | None => AViol end
      | None => AViol
      end
  | OGet h =>
      match a_h a !! h with
      | Some (HObj Pull kd (Some e)) =>
          match readable e a with
          | Some c =>
              match kd, ac_slot c with
              | KVal, SlFull (PVal v) =>
                  match move_exn v with
                  | Some _ => AHalt Terminated a
                  | None => ret_to nm (AV v) k (put_co (ep_co e) (c_slot (SlFull (PVal (moved_from v))) c) a)
                  end
              | KRef, SlFull (PRef l) => ret_to nm (ALoc l) k a
              | _, _ => AViol
              end
          | None => AViol
          end
      | _ => AViol
      end
  | OBegin h =>
      match a_h a !! h with
      | Some (HObj Pull kd e) =>
          match not_void kd, avalid e a with
          | true, Some b => ret_to nm (AIt (if b then Some h else None)) k a
          | _, _ => AViol
          end
      | _ => AViol
      end
  | OEnd | OOutEnd => ret_to nm (AIt None) k a
  | OItInc (Some h) =>
      match a_h a !! h with
      | Some (HObj Pull kd (Some e)) =>
          if not_void kd && resumable e a then transfer e nm (PoInc h) k a else AViol
      | _ => AViol
      end
  | OItDeref (Some h) =>
      match a_h a !! h with
      | Some (HObj Pull kd (Some e)) =>
          match readable e a with
          | Some c =>
              match kd, ac_slot c with
              | KVal, SlFull (PVal v) => ret_to nm (AV v) k a
              | KRef, SlFull (PRef l) => ret_to nm (ALoc l) k a
              | _, _ => AViol
              end
          | None => AViol
          end
      | _ => AViol
      end
  | OItInc None | OItDeref None => AViol
  | OItEq i j => ret_to nm (AB (bool_decide (i = j))) k a
  | OItNe i j => ret_to nm (AB (bool_decide (i <> j))) k a
  | OOutBegin h =>
      match a_h a !! h with
      | Some (HObj Push kd _) => if not_void kd then ret_to nm (AIt (Some h)) k a else AViol
      | _ => AViol
      end
  | OOutAssign (Some h) g =>
      match a_h a !! h with
      | Some (HObj Push kd (Some e)) =>
          if aout_ok kd g then push_op e kd true g nm (PoOut h) k a else AViol
      | _ => AViol
      end
  | OOutAssign None _ => AViol
  | OEmit _ | OLog _ => ret_to nm AUnit k a
  | OLoad l => match a_user a !! l with Some v => ret_to nm (AV v) k a | None => AViol end
  | OStore l v => ret_to nm AUnit k (w_user (<[ l := v ]> (a_user a)) a)
  end.

(** Constructors.  A pull coroutine runs its function at once, a push coroutine
    waits for the first push.  If the function object cannot be copied into the
    coroutine the constructor throws (and the stack is not given back: the library
    never frees it). *)
Definition do_new (sd : side) (kd : kind) (np : newp) (fn : nat -> strat) (k : resp -> strat) (a : astate) : ares :=
  let nm := NNew sd kd in
  let h := a_nh a in
  let a := w_nh (S h) a in
  match np_alloc np with
  | Some e => exn_to nm (XUser e) k a
  | None =>
      let n := a_nk a in
      let a := alog (EvAlloc n) (w_nk (S n) a) in
      match np_fn np with
      | Some e => exn_to nm (XUser e) k a
      | None =>
          let s := a_nh a in
          let a := w_nh (S s) a in
          match sd with
          | Pull =>
              let a := w_h (<[ s := HObj Push kd (Some (Inner n)) ]> (a_h a)) a in
              let a := put_co n (ACo Pull kd ARun SlEmpty s (a_cur a)) a in
              let a := w_cur n (w_wait (<[ a_cur a := WOp n nm (PoNew h kd) k ]> (a_wait a)) a) in
              ANext (w_foc (AUser (fn s)) (alog (EvEnter n s) a))
          | Push =>
              let a := w_h (<[ h := HObj Push kd (Some (Outer n)) ]> (<[ s := HObj Pull kd (Some (Inner n)) ]> (a_h a))) a in
              let a := put_co n (ACo Push kd (ANew fn) SlEmpty s (a_cur a)) a in
              ret_to nm (AH h) k (alog (EvNew n h) a)
          end
      end
  end.

(** The function of the current context is left. *)
Definition do_leave (x : option exn) (a : astate) : ares :=
  let n := a_cur a in
  if decide (n = 0) then
    match x with
    | None => AHalt Finished a
    | Some (XUser _) => AHalt Terminated a
    | Some XUnwind => AViol
    end
  else
    match a_co a !! n with
    | None => AViol
    | Some c =>
        let a := alog (EvLeave n x) a in
        match ac_st c, x with
        | ARun, None => give_back n (ADone None) None a
        | ARun, Some (XUser e) => give_back n (ADone (Some e)) (Some e) a
        | AUnw _, Some XUnwind => ANext (w_foc AExit a)
        | _, _ => AViol
        end
    end.

(** End of a destroyed coroutine. *)
Definition do_exit (a : astate) : ares :=
  let n := a_cur a in
  match a_co a !! n with
  | None => AViol
  | Some c =>
      match a_h a !! ac_syn c with
      | None => AViol
      | Some (HObj _ _ e) =>
          let a := alog (EvGone n (ac_syn c)) (w_h (delete (ac_syn c) (a_h a)) a) in
          match e with
          | None => ANext (w_foc AExit2 a)
          | Some (Inner j) => match a_co a !! j with Some _ => ANext (w_foc AExit2 a) | None => AViol end
          | Some (Outer j) => kill j (WExit j) a
          end
      end
  end.

Definition do_exit2 (a : astate) : ares :=
  let n := a_cur a in
  match a_co a !! n with
  | None => AViol
  | Some c =>
      let drop := match ac_side c, ac_kind c, ac_slot c with
                  | Push, KVal, SlFull _ => Some (alog (EvDel n) a)
                  | Push, KVal, SlBad => None
                  | _, _, _ => Some a
                  end in
      match drop with
      | None => AViol
      | Some a =>
          let a := alog (EvFree n) (w_co (delete n (a_co a)) a) in
          match a_wait a !! ac_by c with
          | None => AViol
          | Some w =>
              let a := w_cur (ac_by c) (w_wait (delete (ac_by c) (a_wait a)) a) in
              match w with
              | WExit _ => ANext (w_foc AExit2 a)
              | WKill _ o KfDestroy k => ret_to o AUnit k a
              | WKill _ o (KfEmpty h kd) k => ret_to o (AH h) k (w_h (<[ h := HObj Pull kd None ]> (a_h a)) a)
              | WKill _ o (KfThrow e) k => exn_to o (XUser e) k a
              | WOp _ _ _ _ => AViol
              end
          end
      end
  end.

(** The coroutine objects an operation uses (iterators are compared by address alone). *)
Definition it_hs (i : iter) : list nat := match i with Some h => [h] | None => [] end.
Definition op_hs (o : op) : list nat :=
  match o with
  | OMoveCtor h | ODestroy h | OResume h | OPush h _ | OBool h | ONot h | OGet h | OBegin h | OOutBegin h => [h]
  | OMoveAssign h1 h2 => [h1; h2]
  | OItInc i | OItDeref i | OOutAssign i _ => it_hs i
  | OEnd | OOutEnd | OItEq _ _ | OItNe _ _ | OEmit _ | OLog _ | OLoad _ | OStore _ _ => []
  end.

(** User code cannot know the address of the counterpart of a coroutine whose
    function has not been entered. *)
Definition hides (h : nat) (c : acoro) : bool :=
  match ac_st c with ANew _ => Nat.eqb (ac_syn c) h | _ => false end.
Definition known (a : astate) (h : nat) : bool :=
  bool_decide (map_Forall (fun _ c => hides h c = false) (a_co a)).

Definition astep (a : astate) : ares :=
  match a_foc a with
  | AUser (STau s) => ANext (w_foc (AUser s) a)
  | AUser SRet => do_leave None a
  | AUser (SThrow x) => do_leave (Some x) a
  | AUser (SDo o k) => if negb (forallb (known a) (op_hs o)) then AViol else do_op o k (alog (EvCall (a_cur a) (NOp o)) a)
  | AUser (SNew sd kd np fn k) => do_new sd kd np fn k (alog (EvCall (a_cur a) (NNew sd kd)) a)
  | AExit => do_exit a
  | AExit2 => do_exit2 a
  end.

Definition ainit (p : strat) (u : gmap nat T) : astate := ASt ∅ ∅ ∅ u 0 1 0 (AUser p) [].

Fixpoint arun (n : nat) (a : astate) : ares :=
  match n with
  | O => ANext a
  | S n' => match astep a with ANext a' => arun n' a' | r => r end
  end.

(** A program that respects the preconditions of the API in every step. *)
Definition spec_used (p : strat) (u : gmap nat T) : Prop := forall n, arun n (ainit p u) <> AViol.

End spec.
