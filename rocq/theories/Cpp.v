(** Cpp.v -- a structured language for user code: blocks with automatic objects, coroutine
    objects as automatic objects, return, try/catch; and its meaning as a strategy.

    This is not a part of /repo: it is the part of C++ in which users write
    coroutine-functions, as far as it matters for the claims about clean-up (the
    documentation's examples are written in it: doc/motivation.qbk, class FinalEOL; see
    also example/layout.cpp:16-20,37).  Statements may be infinite (loops); variables other
    than coroutine objects are captured by Coq functions or live in user memory. *)
From stdpp Require Import prelude gmap.
From Coq Require Import Lia.
From Verif Require Import Base Trace Replay.

Section cpp.
Context {env : Env}.

(** Marks left by constructor and destructor of the automatic object [n], and by the
    handler [n] of a catch (...) block. *)
Definition ctor (n : nat) : op := OLog (3 * n).
Definition dtor (n : nat) : op := OLog (S (3 * n)).
Definition cleanup (n : nat) : op := OLog (S (S (3 * n))).

(** Operations that may be used as expressions: those that neither begin nor end the life
    of an object and leave no mark. *)
Definition plain (o : op) : bool :=
  match o with ODestroy _ | OMoveCtor _ | OLog _ => false | _ => true end.

CoInductive stm :=
| Skip                                                      (* end of the block                       *)
| Return                                                    (* return;                                *)
| Throw (e : E)                                             (* throw e;                               *)
| Do (o : op) (ok : plain o = true) (k : ans -> stm)        (* auto a = o; k(a)                       *)
| Local (n : nat) (body k : stm)                            (* { Object x( n); body } k               *)
| LocalCo (sd : side) (kd : kind) (np : newp) (fn : nat -> stm) (body : nat -> stm) (k : stm)
                                                            (* { coroutine<>::xxx_type x( fn); body } k *)
| LocalMove (h : nat) (body : nat -> stm) (k : stm)         (* { xxx_type x( std::move( h) ); body } k  *)
| Try (body : stm) (handler : E -> stm) (k : stm)           (* try { body } catch (E & e) { handler(e) } k *)
| OnExn (body : stm) (n : nat) (k : stm)                    (* try { body } catch (...) { mark n; throw; } k *)
| Block (body k : stm).                                     (* { body } k                             *)

(** What is pending around the statement being executed, innermost first. *)
Inductive frame :=
| FLocal (d : op) (k : stm)             (* an automatic object with destructor [d]; [k] follows its block *)
| FTry (handler : E -> stm) (k : stm)
| FOnExn (n : nat) (k : stm)
| FBlock (k : stm).                     (* a block *)

(** What the function is doing: executing; returning; propagating an exception. *)
Inductive ctl := Go (s : stm) | Ret | Exn (x : exn).

CoFixpoint exec (c : ctl) (fs : list frame) : strat :=
  match c with
  | Go s =>
      match s with
      | Skip =>
          match fs with
          | [] => SRet
          | FLocal d k :: fs => SDo d (fun r => match r with ROk _ => exec (Go k) fs | RExn x => exec (Exn x) fs end)
          | (FTry _ k | FOnExn _ k | FBlock k) :: fs => STau (exec (Go k) fs)
          end
      | Return => STau (exec Ret fs)
      | Throw e => STau (exec (Exn (XUser e)) fs)
      | Do o _ k => SDo o (fun r => match r with ROk a => exec (Go (k a)) fs | RExn x => exec (Exn x) fs end)
      | Local n body k => SDo (ctor n) (fun r => match r with ROk _ => exec (Go body) (FLocal (dtor n) k :: fs) | RExn x => exec (Exn x) fs end)
      | LocalCo sd kd np fn body k =>
          SNew sd kd np (fun s => exec (Go (fn s)) []) (fun r =>
            match r with ROk (AH h) => exec (Go (body h)) (FLocal (ODestroy h) k :: fs) | ROk _ => exec Ret fs | RExn x => exec (Exn x) fs end)
      | LocalMove h body k =>
          SDo (OMoveCtor h) (fun r =>
            match r with ROk (AH h) => exec (Go (body h)) (FLocal (ODestroy h) k :: fs) | ROk _ => exec Ret fs | RExn x => exec (Exn x) fs end)
      | Try body hd k => STau (exec (Go body) (FTry hd k :: fs))
      | OnExn body n k => STau (exec (Go body) (FOnExn n k :: fs))
      | Block body k => STau (exec (Go body) (FBlock k :: fs))
      end
  | Ret =>
      match fs with
      | [] => SRet
      | FLocal d _ :: fs => SDo d (fun r => match r with ROk _ => exec Ret fs | RExn x => exec (Exn x) fs end)
      | _ :: fs => STau (exec Ret fs)
      end
  | Exn x =>
      match fs with
      | [] => SThrow x
      | FLocal d _ :: fs => SDo d (fun r => match r with ROk _ => exec (Exn x) fs | RExn x => exec (Exn x) fs end)
      | FTry hd k :: fs => match x with XUser e => STau (exec (Go (hd e)) (FBlock k :: fs)) | XUnwind => STau (exec (Exn x) fs) end
      | FOnExn n _ :: fs => SDo (cleanup n) (fun r => match r with ROk _ => exec (Exn x) fs | RExn x => exec (Exn x) fs end)
      | FBlock _ :: fs => STau (exec (Exn x) fs)
      end
  end.

(** A function (or main) with body [f]. *)
Definition cxx (f : stm) : strat := exec (Go f) [].

(** ** Automatic objects, read off the history *)

(** Destructors. *)
Definition is_dtor (o : op) : bool :=
  match o with ODestroy _ => true | OLog n => Nat.eqb (n mod 3) 1 | _ => false end.
Definition is_cleanup (o : op) : bool := match o with OLog n => Nat.eqb (n mod 3) 2 | _ => false end.
(** The destructor of the object that a completed call has constructed. *)
Definition makes (o : opn) (r : resp) : option op :=
  match o, r with
  | NNew _ _, ROk (AH h) | NOp (OMoveCtor _), ROk (AH h) => Some (ODestroy h)
  | NOp (OLog n), ROk _ => if Nat.eqb (n mod 3) 0 then Some (OLog (S n)) else None
  | _, _ => None
  end.

(** The automatic objects (named by their destructors) that are alive after the completed
    calls [l] (newest first), the most recently constructed first. *)
Fixpoint alive (l : list (opn * resp)) : list op :=
  match l with
  | [] => []
  | (o, r) :: l =>
      match makes o r with
      | Some d => d :: alive l
      | None => match o with NOp o => if is_dtor o then tail (alive l) else alive l | _ => alive l end
      end
  end.
(** ... in context [c] after history [h]. *)
Definition live (c : nat) (h : list event) : list op := alive (completed c h).

(** ** Facts *)
Fixpoint objs (fs : list frame) : list op :=
  match fs with [] => [] | FLocal d _ :: fs => d :: objs fs | _ :: fs => objs fs end.
Definition frames_ok (fs : list frame) : Prop := forall d k, FLocal d k ∈ fs -> is_dtor d = true.

Lemma mod3 n : (3 * n) mod 3 = 0 /\ (S (3 * n)) mod 3 = 1 /\ (S (S (3 * n))) mod 3 = 2.
Proof.
  replace (3 * n) with (n * 3) by lia. split; [by rewrite Nat.mod_mul|].
  change (S (n * 3)) with (1 + n * 3). change (S (1 + n * 3)) with (2 + n * 3). by rewrite !Nat.mod_add.
Qed.
Lemma ctor_makes n r : makes (NOp (ctor n)) (ROk r) = Some (dtor n).
Proof. unfold makes, ctor, dtor. by rewrite (proj1 (mod3 n)). Qed.
Lemma dtor_dtor n : is_dtor (dtor n) = true.
Proof. unfold is_dtor, dtor. by rewrite (proj1 (proj2 (mod3 n))). Qed.
Lemma cleanup_cleanup n : is_cleanup (cleanup n) = true.
Proof. unfold is_cleanup, cleanup. by rewrite (proj2 (proj2 (mod3 n))). Qed.
Lemma dtor_makes d r : is_dtor d = true -> makes (NOp d) r = None.
Proof. destruct d; try done. cbn. intros E%Nat.eqb_eq. rewrite E. by destruct r. Qed.
Lemma cleanup_makes d r : is_cleanup d = true -> makes (NOp d) r = None.
Proof. destruct d; try done. cbn. intros E%Nat.eqb_eq. rewrite E. by destruct r. Qed.
Lemma cleanup_dtor d : is_cleanup d = true -> is_dtor d = false.
Proof. destruct d; try done. cbn. intros E%Nat.eqb_eq. by rewrite E. Qed.
Lemma plain_nothing o r : plain o = true -> makes (NOp o) r = None /\ is_dtor o = false.
Proof. by destruct o. Qed.
Lemma exn_makes o x : makes o (RExn x) = None.
Proof. by destruct o as [[]|]. Qed.
Lemma ctor_dtor n : is_dtor (ctor n) = false.
Proof. unfold is_dtor, ctor. by rewrite (proj1 (mod3 n)). Qed.
Lemma move_not n r : (forall h, r <> AH h) -> makes (NOp (OMoveCtor n)) (ROk r) = None.
Proof. destruct r; try done. intros H. by destruct (H h). Qed.
Lemma new_not sd kd r : (forall h, r <> AH h) -> makes (NNew sd kd) (ROk r) = None.
Proof. destruct r; try done. intros H. by destruct (H h). Qed.

Lemma alive_skip o r l : makes o r = None -> (forall o', o = NOp o' -> is_dtor o' = false) -> alive ((o, r) :: l) = alive l.
Proof. intros E H. cbn [alive]. rewrite E. destruct o as [o|]; [|done]. by rewrite (H o). Qed.
Lemma alive_dtor d r l : is_dtor d = true -> alive ((NOp d, r) :: l) = tail (alive l).
Proof. intros H. cbn [alive]. by rewrite dtor_makes, H. Qed.
Lemma alive_made o r d l : makes o r = Some d -> alive ((o, r) :: l) = d :: alive l.
Proof. intros E. cbn [alive]. by rewrite E. Qed.

Definition strat_id (s : strat) : strat :=
  match s with SRet => SRet | SThrow x => SThrow x | SDo o k => SDo o k | SNew sd kd np fn k => SNew sd kd np fn k | STau s => STau s end.
Lemma strat_eta s : s = strat_id s.
Proof. by destruct s. Qed.

Lemma frames_tail f fs : frames_ok (f :: fs) -> frames_ok fs.
Proof. intros H d k Hd. eapply H. right. exact Hd. Qed.
Lemma frames_head d k fs : frames_ok (FLocal d k :: fs) -> is_dtor d = true.
Proof. intros H. eapply H. left. Qed.
Lemma frames_cons f fs : (forall d k, f = FLocal d k -> is_dtor d = true) -> frames_ok fs -> frames_ok (f :: fs).
Proof. intros H1 H2 d k [E|Hd]%elem_of_cons; [by eapply H1|by eapply H2]. Qed.

(** The code of a function is always some point of [exec], and its pending destructors are
    those of the objects alive. *)
Definition at_point (l : list (opn * resp)) (s : strat) : Prop :=
  exists c fs, s = exec c fs /\ frames_ok fs /\ objs fs = alive l.

Local Ltac point := eexists _, _; split; [reflexivity|]; split.
Local Ltac fok := repeat (apply frames_cons; [intros ? ? ?; by first [done|simplify_eq; first [apply dtor_dtor|done]]|]); eauto using frames_tail.

Lemma point_run f l s : run_on (cxx f) l s -> at_point l s.
Proof.
  induction 1 as [|l s _ (c&fs&E&Hf&Ho)|l o k r _ (c&fs&E&Hf&Ho)|l sd kd np fn k r _ (c&fs&E&Hf&Ho)].
  - exists (Go f), []. split; [done|]. split; [by intros d k ?%elem_of_nil|done].
  - rewrite (strat_eta (exec c fs)) in E.
    destruct c as [[| | | | | | | | |]| |x]; try (destruct fs as [|[| | |] fs]); try (destruct x); cbn in E; try done; injection E as ->; point; cbn in *; try done; fok.
  - rewrite (strat_eta (exec c fs)) in E.
    destruct c as [s| |x].
    + destruct s as [| |e|o' ok k'|n body k'|sd kd np fn body k'|h body k'|body hd k'|body n k'|body k']; cbn in E; try done.
      * destruct fs as [|[d k'| | |] fs]; cbn in E; try done. injection E as -> ->. pose proof (frames_head _ _ _ Hf) as Hd. cbn in Ho.
        destruct r; point; try by eapply frames_tail; rewrite alive_dtor, <- Ho by done. 1,3: by eapply frames_tail. all: by rewrite alive_dtor, <- Ho by done.
      * injection E as -> ->. destruct (plain_nothing o' r ok) as [H1 H2]. destruct r; point; try done; rewrite alive_skip; try done; by intros ? [= <-].
      * injection E as -> ->. destruct r; point; try done; [fok|by rewrite (alive_made _ _ (dtor n)) by apply ctor_makes; cbn; f_equal|].
        rewrite alive_skip; [done|by apply exn_makes|]. intros ? [= <-]. apply ctor_dtor.
      * injection E as -> ->. destruct r as [[]|]; point; try done; try (rewrite alive_skip; [done|done|by intros ? [= <-]]); [fok|]. cbn. by f_equal.
    + destruct fs as [|[d k'| | |] fs]; cbn in E; try done. injection E as -> ->. pose proof (frames_head _ _ _ Hf) as Hd. cbn in Ho.
      destruct r; point. 1,3: by eapply frames_tail. all: by rewrite alive_dtor, <- Ho by done.
    + destruct fs as [|[d k'| |n k'|] fs]; cbn in E; try done; try (by destruct x); injection E as -> ->; cbn in Ho.
      * pose proof (frames_head _ _ _ Hf) as Hd. destruct r; point. 1,3: by eapply frames_tail. all: by rewrite alive_dtor, <- Ho by done.
      * pose proof (cleanup_cleanup n) as Hc. destruct r; point. 1,3: by eapply frames_tail.
        all: rewrite alive_skip; [done|by apply cleanup_makes|]; intros ? [= <-]; by apply cleanup_dtor.
  - rewrite (strat_eta (exec c fs)) in E.
    destruct c as [s| |x]; [|destruct fs as [|[| | |] fs]; done|destruct fs as [|[| | |] fs]; try done; by destruct x].
    destruct s as [| |e|o' ok k'|n body k'|sd' kd' np' fn' body k'|h body k'|body hd k'|body n k'|body k']; cbn in E; try done; [by destruct fs as [|[| | |] fs]|].
    injection E as -> -> -> -> ->. destruct r as [[]|]; point; try done; try (rewrite alive_skip; done); [fok|]. cbn. by f_equal.
Qed.

(** All functions of a program in this language are in this language. *)
Lemma code_cxx f c h s : code_of (cxx f) c h s -> exists g, s = cxx g.
Proof.
  induction 1 as [|h k x b c h0 sd kd np fn kk s0 _ _ _ (g&->) Hr]; [eauto|].
  apply point_run in Hr as (c'&fs&E&_). rewrite (strat_eta (exec c' fs)) in E.
  destruct c' as [s| |y]; [|destruct fs as [|[| | |] fs]; done|destruct fs as [|[| | |] fs]; try done; by destruct y].
  destruct s as [| |e|o' ok k'|n body k'|sd' kd' np' fn' body k'|h' body k'|body hd k'|body n k'|body k']; cbn in E; try done; [by destruct fs as [|[| | |] fs]|].
  injection E as -> -> -> -> ->. eexists. reflexivity.
Qed.

End cpp.
