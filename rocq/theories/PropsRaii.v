(** PropsRaii.v -- clean-up: C13.

    [cxx f] is the function with body [f] in the structured language of Cpp.v; [live c h]
    (Cpp.v) are the automatic objects alive in context [c], innermost first, [ran c l]
    (FactsCpp.v) the destructors that ran in [c] during [l], newest first: both are
    functions of the history. *)
From stdpp Require Import prelude gmap.
From Coq Require Import Lia.
From Verif Require Import Base Model Spec InvSpec Main Hist Trace Rules RulesProof FactsLife FactsBack FactsCall FactsEnd Ctl FactsCtl Replay FactsReplay Cpp FactsCpp Examples.

Section raii.
Context {env : Env} {comp : Compiler}.

(** All functions of a program written in the language are written in it: the theorems
    below apply to all contexts of such a program. *)
Theorem C13_language f c h s : code_of (cxx f) c h s -> exists g, s = cxx g.
Proof. apply code_cxx. Qed.
Theorem C13_applies f u n c o b : respects (cxx f) u n -> occurs (hist (cxx f) u n) (EvCall c o) b -> exists g, code_of (cxx f) c b (cxx g).
Proof.
  intros Hr Ho. destruct (act_code _ _ _ c _ _ Hr Ho) as (s0&s&H&_); [eauto|]. destruct (code_cxx _ _ _ _ H) as [g ->]. by exists g.
Qed.

(** Destroying an object that owns a suspended coroutine raises forced unwinding in it, at
    the call in which it is suspended, before anything else happens (except that a value
    waiting in its slot is destroyed). *)
Theorem C13_raised p u n c x b k l e : respects p u n -> occurs (hist p u n) e (l ++ EvCall c (NOp (ODestroy x)) :: b) ->
  den b !! x = Some (Some (Outer k)) -> life k b = PRun -> l = [] \/ l = [EvDel k] -> e <> EvDel k ->
  exists o, pend k b = Some o /\ e = EvExn k o XUnwind.
Proof.
  intros Hr Ho Hd Hl Hcase Hne. pose proof (history_follows _ _ _ _ _ Hr Ho) as Hf.
  assert (Hcall : occurs (hist p u n) (EvCall c (NOp (ODestroy x))) b).
  { eapply past_trans; [exact (past_tail _ _ _ Ho)|]. by exists l. }
  destruct (call_stack _ _ _ _ _ _ Hr Hcall) as [s Hs].
  assert (Hdie : dies k (l ++ EvCall c (NOp (ODestroy x)) :: b) e).
  { destruct Hcase as [-> | ->]; cbn in Hf; [|done]. rewrite Hd in Hf. by destruct Hf as [(_&_&?)|(_&?)]. }
  destruct Hdie as [(_ & Hk & o & Hp & _ & ->)|([E|[y E]]&_)]; destruct Hcase as [-> | ->]; cbn in *; try congruence; exists o; (split; [|done]);
    rewrite decide_False in Hp; try done; intros ->; apply Hk; rewrite Hs; left.
Qed.

(** Only the innermost object is ever destroyed: destructors run in reverse order of
    construction, each object is destroyed at most once. *)
Theorem C13_innermost_first p u n c f d b : respects p u n -> occurs (hist p u n) (EvCall c (NOp d)) b -> code_of p c b (cxx f) -> is_dtor d = true ->
  head (live c b) = Some d.
Proof. apply lifo. Qed.

(** When a function ends -- by return, by an exception, or unwound -- no object is left. *)
Theorem C13_none_left p u n c f r b : respects p u n -> occurs (hist p u n) (EvLeave c r) b -> code_of p c b (cxx f) -> live c b = [].
Proof. apply all_gone. Qed.

(** After forced unwinding was raised in [c] with the objects [live c b] alive: whatever
    [c] calls is the destructor of the next of these objects, or the handler of a
    catch (...) block; the function ends by forced unwinding, and when it does precisely the
    objects that were alive have been destroyed, each once, innermost first; nothing but
    destructors and handlers has been executed. *)
Theorem C13_unwinds p u n c f o b l e : respects p u n -> occurs (hist p u n) e (l ++ EvExn c o XUnwind :: b) -> code_of p c b (cxx f) ->
  (forall o', e = EvCall c o' -> exists d, o' = NOp d /\ (is_cleanup d = true \/ is_dtor d = true /\ exists L, live c b = rev (ran c l) ++ d :: L)) /\
  (forall r, e = EvLeave c r -> r = Some XUnwind /\ ran c l = rev (live c b) /\ Forall tidying (completed c l)).
Proof. apply unwinds. Qed.

(** The stack of a coroutine in which forced unwinding was raised is released only after
    all its automatic objects have been destroyed in this way. *)
Theorem C13_before_release p u n k f h o b : respects p u n -> occurs (hist p u n) (EvFree k) h -> occurs h (EvExn k o XUnwind) b -> code_of p k b (cxx f) ->
  exists l1 l2, h = l1 ++ EvLeave k (Some XUnwind) :: l2 ++ EvExn k o XUnwind :: b /\ ran k l2 = rev (live k b).
Proof.
  intros Hr Ho Hx Hc. destruct (freed_left _ _ _ _ _ _ _ Hr Ho Hx) as (l1&l2&E). exists l1, l2. split; [done|].
  assert (Hlv : occurs (hist p u n) (EvLeave k (Some XUnwind)) (l2 ++ EvExn k o XUnwind :: b)).
  { eapply past_occurs; [exact (past_tail _ _ _ Ho)|]. rewrite E. by exists l1. }
  destruct (unwinds _ _ _ _ _ _ _ _ _ Hr Hlv Hc) as [_ H]. by destruct (H _ eq_refl) as (_&?&_).
Qed.
(** When the destructor of the owner returns, all that has happened. *)
Theorem C13_before_return p u n c x r k f h o b : respects p u n -> occurs (hist p u n) (EvRet c (NOp (ODestroy x)) r) h -> tgt c h = Some (Outer k) ->
  occurs h (EvExn k o XUnwind) b -> code_of p k b (cxx f) ->
  exists l1 l2, h = l1 ++ EvLeave k (Some XUnwind) :: l2 ++ EvExn k o XUnwind :: b /\ ran k l2 = rev (live k b).
Proof.
  intros Hr Ho Ht Hx Hc. destruct (ret_destroy _ _ _ _ _ _ _ _ Hr Ho Ht) as (h'&->).
  destruct (C13_before_release p u n k f h' o b Hr (past_tail _ _ _ Ho)) as (l1&l2&->&Hl); [|done|].
  { destruct Hx as [[|e l] E]; [done|]. injection E as <- ->. by exists l. }
  by exists (EvFree k :: l1), l2.
Qed.

End raii.

(** ** Non-vacuity *)

(** Coroutine 1: { Object 1; { coroutine 2; { try { Object 3; yield 5; emit 9 } catch (...) { mark 4; throw; } } } };
    coroutine 2 (a push coroutine used once): { Object 5; in(); }.  Main reads one value and
    leaves the block. *)
Definition ex_raii : strat := cxx (
  LocalCo Pull KVal np0
    (fun s => Local 1
      (LocalCo Push KVoid np0 (fun t => Local 5 (Do (OResume t) eq_refl (fun _ => Skip)) Skip)
        (fun y => Do (OPush y ANone) eq_refl (fun _ =>
          OnExn (Local 3 (Try (Do (OPush s (AImm 5)) eq_refl (fun _ => Do (OEmit 9) eq_refl (fun _ => Skip))) (fun _ => Skip) Skip) Skip) 4 Skip)) Skip) Skip)
    (fun x => Do (OGet x) eq_refl (fun _ => Skip))
    (Do (OEmit 7) eq_refl (fun _ => Skip))).

Example C13_raised_example : happens ex_raii (fun e b => e = EvExn 1 (NOp (OPush 1 (AImm 5))) XUnwind /\ b = EvDel 1 :: EvCall 0 (NOp (ODestroy 0)) :: tail (tail b) /\
  den b !! 0 = None /\ den (tail (tail b)) !! 0 = Some (Some (Outer 1)) /\ life 1 b = PRun /\ live 1 b = [dtor 3; ODestroy 2; dtor 1]).
Proof. by_run. Qed.
Example C13_unwinds_example : happens ex_raii (fun e b => e = EvLeave 1 (Some XUnwind) /\ live 1 b = [] /\ take 3 (ran 1 b) = [dtor 1; ODestroy 2; dtor 3] /\
  EvRet 1 (NOp (cleanup 4)) AUnit ∈ b).
Proof. by_run. Qed.
(** ... coroutine 2 was unwound in the middle of that. *)
Example C13_nested_example : happens ex_raii (fun e b => e = EvFree 2 /\ ran 2 b = [dtor 5] /\ ran 1 b = [dtor 3] /\ live 1 b = [ODestroy 2; dtor 1]).
Proof. by_run. Qed.
Example C13_innermost_first_example : happens ex_raii (fun e b => e = EvCall 1 (NOp (ODestroy 2)) /\ live 1 b = [ODestroy 2; dtor 1]).
Proof. by_run. Qed.
Example C13_before_return_example : happens ex_raii (fun e b => e = EvRet 0 (NOp (ODestroy 0)) AUnit /\ tgt 0 b = Some (Outer 1)).
Proof. by_run. Qed.

Print Assumptions C13_language.
Print Assumptions C13_applies.
Print Assumptions C13_raised.
Print Assumptions C13_innermost_first.
Print Assumptions C13_none_left.
Print Assumptions C13_unwinds.
Print Assumptions C13_before_release.
Print Assumptions C13_before_return.
