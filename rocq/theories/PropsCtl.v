(** PropsCtl.v -- properties of the flow of control: C04, C05, C33.

    Vocabulary: Trace.v; [completed], [run_on], [code_of], [goes_on] are defined in
    Replay.v, [does] in FactsReplay.v, [transfer], [last_call], [resumed], [since] in
    Ctl.v, [slot_event] in FactsCtl.v, [internal], [concerns], [drawn], [touches] in
    FactsOther.v; except for [code_of] and [run_on], which relate code and history, all
    are functions of histories. *)
From stdpp Require Import prelude gmap.
From Coq Require Import Lia.
From Verif Require Import Base Model Spec InvSpec Main Trace Hist RulesProof FactsLife FactsBack FactsEnd Ctl FactsCtl Replay FactsReplay FactsOther Examples.

Section ctl.
Context {env : Env} {comp : Compiler}.

(** ** C04: execution continues where it stopped, with its local state *)

(** Whenever user code is in control, what is left to execute is its own code -- the
    program for main, the function passed to the constructor for a coroutine -- advanced
    by the results of the calls it made itself.  (The continuation of user code comprises
    its local state.) *)
Theorem C04_code p u n s st : respects p u n -> crun n (cinit p u) = CNext s -> c_focus s = FStrat st ->
  exists s0, code_of p (c_cur s) (m_tr (c_mem s)) s0 /\ run_on s0 (completed (c_cur s) (m_tr (c_mem s))) st.
Proof. apply user_code. Qed.

(** In terms of histories: each call, and each end of a function, is what this code does
    at that point. *)
Theorem C04_acts p u n c e b : respects p u n -> occurs (hist p u n) e b -> (exists o, e = EvCall c o) \/ (exists r, e = EvLeave c r) ->
  exists s0 s, code_of p c b s0 /\ run_on s0 (completed c b) s /\ does e s.
Proof. apply act_code. Qed.

(** Nothing else matters: two contexts, in whatever programs, that run the same code and
    got the same results do the same next. *)
Theorem C04_determined p u n c e b p' u' n' c' e' b' s0 : respects p u n -> respects p' u' n' ->
  occurs (hist p u n) e b -> occurs (hist p' u' n') e' b' ->
  (exists o, e = EvCall c o) \/ (exists r, e = EvLeave c r) -> (exists o, e' = EvCall c' o) \/ (exists r, e' = EvLeave c' r) ->
  code_of p c b s0 -> code_of p' c' b' s0 -> completed c b = completed c' b' ->
  exists s, does e s /\ does e' s.
Proof. apply act_determined. Qed.

(** The code of a context is determined by the history. *)
Theorem C04_code_unique p u n c h s s' : respects p u n -> past (hist p u n) h -> code_of p c h s -> code_of p c h s' -> s = s'.
Proof. apply code_unique. Qed.

(** While a call of [c] is in progress, [c] does nothing; the first thing that happens in
    [c] is that this call returns, or exits by an exception. *)
Theorem C04_pending p u n c o e b l : respects p u n -> occurs (hist p u n) e (l ++ EvCall c o :: b) ->
  Forall (fun e => ev_ctx e <> Some c) l -> ev_ctx e = Some c -> (exists r, e = EvRet c o r) \/ (exists x, e = EvExn c o x).
Proof.
  intros Hr Ho Hl He. eapply pending_next; [exact Hr|exact Ho|done|]. eapply since_pend, since_app; [apply since_call|done].
Qed.

(** ** C05: control returns to the most recent resumer *)

(** Coroutine [j] yields: it calls its counterpart.  The first thing that happens, apart
    from what happens to the transferred object, is that the call by which [j] was resumed
    last returns, or, if that call is the constructor of a pull object, that the object
    comes into being; the resumer did nothing in between.  Or the transferred object could
    not be copied: then the call fails and [j] keeps control. *)
Theorem C05_yield p u n k j o x b l e : respects p u n -> occurs (hist p u n) e (l ++ EvCall k (NOp o) :: b) -> transfer (NOp o) = true ->
  opobj o = Some x -> den b !! x = Some (Some (Inner j)) -> forallb slot_event l = true -> slot_event e = false ->
  (exists ex, e = EvExn k (NOp o) (XUser ex)) \/
  k = j /\ exists c o' b', resumed j b = Some (c, o', b') /\ since c o' b' (l ++ EvCall k (NOp o) :: b) /\
    ((exists r, e = EvRet c o' r) \/ exists y kd, o' = NNew Pull kd /\ e = EvNew j y).
Proof. apply yield_resumed. Qed.

(** The function of [k] returns or throws: the call by which [k] was resumed last returns,
    or exits by the same exception; if it is a constructor, the coroutine is destroyed
    first. *)
Theorem C05_end p u n k r b e : respects p u n -> occurs (hist p u n) e (EvLeave k r :: b) -> r <> Some XUnwind ->
  exists c o b', resumed k b = Some (c, o, b') /\ since c o b' b /\
    match o with
    | NOp _ => match r with None => exists a, e = EvRet c o a | Some x => e = EvExn c o x end
    | NNew _ _ => forall e' h, occurs (hist p u n) e' h -> past h (EvLeave k r :: b) -> since c o b' h -> ev_ctx e' = Some c ->
        match r with None => exists x, e' = EvRet c o (AH x) | Some x => e' = EvExn c o x end
    end.
Proof.
  intros Hr Ho Hne. assert (Hl : occurs (hist p u n) (EvLeave k r) b) by (by eapply past_tail).
  destruct (leave_resumed _ _ _ _ _ _ Hr Hl Hne) as (c&o&b'&s&Hs&Hp&Ht&H1&H2).
  exists c, o, b'. split; [done|]. split; [done|].
  destruct o as [o|sd kd]; [|by intros e' h Ho' Hpast Hh He'; eapply ctor_leave].
  pose proof (next_leave _ _ _ _ _ _ _ Hr Ho) as Hn. destruct r as [[x|]|]; [|done|]; destruct Hn as (c'&o'&s'&Hs'&Hp'&_&H); rewrite Hs in Hs'; injection Hs' as <- <-; rewrite Hp in Hp'; by injection Hp' as <-.
Qed.

(** Seen from the resumer: what ends a call that resumed coroutine [j] through its owner
    ends the call by which [j] was resumed last. *)
Theorem C05_returns_to_resumer p u n c o r b j : respects p u n -> occurs (hist p u n) (EvRet c (NOp o) r) b -> transfer (NOp o) = true ->
  tgt c b = Some (Outer j) -> exists b', resumed j b = Some (c, NOp o, b') /\ since c (NOp o) b' b.
Proof. apply ret_resumed. Qed.

Theorem C05_throws_to_resumer p u n c o e j h : respects p u n -> occurs (hist p u n) (EvExn c o (XUser e)) (EvLeave j (Some (XUser e)) :: h) ->
  tgt c (EvLeave j (Some (XUser e)) :: h) = Some (Outer j) -> exists b', resumed j h = Some (c, o, b') /\ since c o b' h.
Proof. apply exn_resumed. Qed.

Theorem C05_constructor p u n j x b : respects p u n -> occurs (hist p u n) (EvNew j x) b -> (forall b', b <> EvAlloc j :: b') ->
  exists c kd b', resumed j b = Some (c, NNew Pull kd, b') /\ since c (NNew Pull kd) b' b.
Proof. apply new_resumed. Qed.

(** ** C33: operations touch their own coroutine only *)

(** Everything that happens inside the library to a coroutine [j] -- its slot is filled or
    emptied, its objects appear or disappear, its memory is obtained or released -- is the
    effect of the call, or end of a function, of user code that precedes it; and [j] is
    the coroutine that call is applied to, the one whose function ends or one already
    being destroyed, or a coroutine owned by a counterpart object destroyed thereby. *)
Theorem C33_touched p u n e h j : respects p u n -> occurs (hist p u n) e h -> concerns e = Some j ->
  exists l e0 b, h = l ++ e0 :: b /\ forallb internal l = true /\ touches e0 b (e :: h) j.
Proof. apply touched. Qed.

(** From a call until user code acts next, all other coroutines stay as they are: their
    validity, their pending value, their progress, their owners. *)
Theorem C33_others p u n c o b l j : respects p u n -> past (hist p u n) (l ++ EvCall c o :: b) -> forallb internal l = true ->
  let h := l ++ EvCall c o :: b in
  (forall d, tgt c h = Some d -> ~ drawn (ep_co d) h j) ->
  life j h = life j b /\ cls j h = cls j b /\ slotv j h = slotv j b /\ pushes j h = pushes j b /\ ngets j h = ngets j b /\
  forall x, den h !! x = Some (Some (Outer j)) <-> den b !! x = Some (Some (Outer j)).
Proof. apply others_call. Qed.

(** Likewise from the end of a function. *)
Theorem C33_others_end p u n k r b l j : respects p u n -> past (hist p u n) (l ++ EvLeave k r :: b) -> forallb internal l = true ->
  let h := l ++ EvLeave k r :: b in
  ~ drawn k h j -> ~ (j ∈ tail (cstack b) /\ pend j b = None) ->
  life j h = life j b /\ cls j h = cls j b /\ slotv j h = slotv j b /\ pushes j h = pushes j b /\ ngets j h = ngets j b /\
  forall x, den h !! x = Some (Some (Outer j)) <-> den b !! x = Some (Some (Outer j)).
Proof. apply others_leave. Qed.

End ctl.

(** ** Non-vacuity *)

(** Main resumes coroutine 1, coroutine 2 resumes coroutine 1: the third yield of 1
    returns to 2, the second to main. *)
Definition resumer (k : nat) (h : list event) : option (nat * opn) := match resumed k h with Some (c, o, _) => Some (c, o) | None => None end.
Example C05_yield_example : happens ex_resumers (fun e b => e = EvRet 2 (NOp (OResume 0)) AUnit /\ head b = Some (EvCall 1 (NOp (OPush 1 ANone))) /\
  den b !! 1 = Some (Some (Inner 1)) /\ resumer 1 b = Some (2, NOp (OResume 0))).
Proof. by_run. Qed.
Example C05_yield_example' : happens ex_resumers (fun e b => e = EvRet 0 (NOp (OResume 0)) AUnit /\ head b = Some (EvCall 1 (NOp (OPush 1 ANone))) /\
  resumer 1 b = Some (0, NOp (OResume 0)) /\ EvRet 2 (NOp (OResume 0)) AUnit ∈ b).
Proof. by_run. Qed.
Example C05_yield_constructor_example : happens ex_resumers (fun e b => e = EvNew 1 0 /\ head b = Some (EvCall 1 (NOp (OPush 1 ANone))) /\ resumer 1 b = Some (0, NNew Pull KVoid)).
Proof. by_run. Qed.
Example C05_yield_throws_example : happens ex_badcopy (fun e b => e = EvExn 0 (NOp (OPush 0 (ACopy 9))) (XUser 13) /\ head b = Some (EvCall 0 (NOp (OPush 0 (ACopy 9))))).
Proof. by_run. Qed.
Example C05_end_example : happens ex_nested (fun e b => e = EvRet 1 (NOp (OResume 2)) AUnit /\ head b = Some (EvLeave 2 None) /\ resumer 2 b = Some (1, NOp (OResume 2))).
Proof. by_run. Qed.
Example C05_end_throws_example : happens ex_throw (fun e b => e = EvExn 0 (NOp (OResume 0)) (XUser 77) /\ head b = Some (EvLeave 1 (Some (XUser 77))) /\
  tgt 0 b = Some (Outer 1) /\ resumer 1 b = Some (0, NOp (OResume 0))).
Proof. by_run. Qed.
Example C05_end_constructor_example : happens ex_throw0 (fun e b => e = EvExn 0 (NNew Pull KVal) (XUser 77) /\ EvLeave 1 (Some (XUser 77)) ∈ b /\ resumer 1 b = Some (0, NNew Pull KVal)).
Proof. by_run. Qed.

Global Instance resp_eq : EqDecision resp. Proof. solve_decision. Defined.
(** Coroutine 1 of [ex_resumers] goes on after three calls have completed; in between,
    main and coroutine 2 made calls. *)
Example C04_example : happens ex_resumers (fun e b => e = EvCall 1 (NOp (OPush 1 ANone)) /\
  completed 1 b = [(NOp (OPush 1 ANone), ROk AUnit); (NOp (OPush 1 ANone), ROk AUnit); (NOp (OPush 1 ANone), ROk AUnit)] /\ EvCall 2 (NOp (OResume 0)) ∈ b).
Proof. by_run. Qed.
Example C04_pending_example : happens ex_nested (fun e b => e = EvRet 0 (NOp (OResume 0)) AUnit /\ pend 0 b = Some (NOp (OResume 0)) /\
  head b = Some (EvSet 1 (PVal 2)) /\ EvCall 1 (NOp (OResume 2)) ∈ b /\ EvCall 2 (NOp (OPush 3 (AImm 2))) ∈ b).
Proof. by_run. Qed.

(** Coroutine 1 holds a (moved-from) value while coroutine 2 is pushed to;
    ... while coroutine 2 is destroyed. *)
Example C33_example : happens ex_nested (fun e b => e = EvSet 2 (PVal 2) /\ slotv 1 b = Some (PVal 0) /\ slotv 2 b = None /\ life 1 b = PRun).
Proof. by_run. Qed.
Example C33_others_example : happens ex_move (fun e b => e = EvFree 2 /\ EvCall 0 (NOp (ODestroy 2)) ∈ b /\ tgt 0 b = Some (Outer 2) /\ den b !! 3 = Some (Some (Outer 1)) /\ slotv 1 b = Some (PVal 0)).
Proof. by_run. Qed.

Print Assumptions C04_code.
Print Assumptions C04_acts.
Print Assumptions C04_determined.
Print Assumptions C04_code_unique.
Print Assumptions C04_pending.
Print Assumptions C05_yield.
Print Assumptions C05_end.
Print Assumptions C05_returns_to_resumer.
Print Assumptions C05_throws_to_resumer.
Print Assumptions C05_constructor.
Print Assumptions C33_touched.
Print Assumptions C33_others.
Print Assumptions C33_others_end.
