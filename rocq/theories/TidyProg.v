(** TidyProg.v -- programs that are tidy: loops over coroutines, generators and consumers. *)
From stdpp Require Import prelude gmap.
From Verif Require Import Base Discipline Tidy Cpp Progs FactsProg.

Section tp.
Context {env : Env}.
Context (cells : nat -> Prop).
(** Nothing is claimed about exceptions here. *)
Notation tidy Q := (Tidy.tidy cells Q (fun _ => True)).
Local Opaque gmap_lookup map_insert map_delete gmap_partial_alter.

Lemma do_tidy Q w o ok k : may cells w o -> (forall r w', next cells w o (ROk r) w' -> tidy Q w' (k r)) -> tidy Q w (Do o ok k).
Proof. intros H1 H2. by apply td_do. Qed.
Lemma throw_tidy Q w e : tidy Q w (Throw e).
Proof. by apply td_throw. Qed.
Lemma co_tidy Q w sd kd np fn body k : (forall x, tidy (fun _ => True) (v_start sd kd x) (fn x)) ->
  (forall h, v_in w !! h = None -> tidy (fun _ => True) (made sd kd h w) (body h)) ->
  (forall h w', v_in w !! h = None -> v_in (v_without h w') = v_in w -> tidy Q (v_without h w') k) -> tidy Q w (LocalCo sd kd np fn body k).
Proof. intros H1 H2 H3. apply (td_co _ _ _ (fun _ _ => True) (fun _ _ => True)); auto. Qed.

Lemma push_tidy Q w s n g k : v_in w !! s = Some n -> n_side n = Push -> ready w s n -> Contract.fits (n_kind n) g = true -> arg_cells cells g -> arg_safe false g ->
  (forall w', v_in w' = v_in w -> (n_mine n = true -> w' = w) -> tidy Q w' k) -> tidy Q w (push s g k).
Proof.
  intros Hn Hs Hr Hf Hg Hsf Hk. apply do_tidy; [by exists n|]. intros ? w' (n'&Hn'&H). assert (n' = n) as -> by congruence.
  destruct (n_mine n) eqn:Em.
  - destruct H as [[E ->]|[? _]]; [|done]. by apply Hk.
  - destruct H as [_ ->]. apply Hk; [done|]. congruence.
Qed.
Lemma emit_tidy Q w v k : tidy Q w k -> tidy Q w (emit v k).
Proof. intros H. apply do_tidy; [done|]. by intros ? w' [_ ->]. Qed.

(** Loops: code that comes back to [R] after at least one operation. *)
Inductive loop (Q : view -> Prop) (R : view -> stm -> Prop) : view -> stm -> Prop :=
| lp_again w s : R w s -> loop Q R w s
| lp_exit w s : tidy Q w s -> loop Q R w s
| lp_do w o ok k : may cells w o -> (forall r w', next cells w o (ROk r) w' -> loop Q R w' (k r)) -> loop Q R w (Do o ok k).
Lemma loop_tidy Q (R : view -> stm -> Prop) :
  (forall w s, R w s -> exists o ok k, s = Do o ok k /\ may cells w o /\ forall r w', next cells w o (ROk r) w' -> loop Q R w' (k r)) ->
  forall w s, R w s -> tidy Q w s.
Proof.
  intros HR. assert (H : forall w s, loop Q R w s -> tidy Q w s); [|intros w s Hs; by apply H, lp_again]. cofix CH. intros w s H. destruct H as [w s H|w s H|w o ok k H1 H2].
  - destruct (HR _ _ H) as (o&ok&k&->&H1&H2). apply td_do; [done|done|]. intros r w' Hn. by apply CH, H2.
  - exact H.
  - apply td_do; [done|done|]. intros r w' Hn. by apply CH, H2.
Qed.

(** A value generator that pushes temporaries and objects in memory. *)
Lemma produce_tidy Q w s gs k : v_in w !! s = Some (Entry Push KVal true) -> v_unw w = false ->
  Forall (fun g => Contract.fits KVal g = true /\ arg_cells cells g /\ arg_safe false g) gs -> tidy Q w k -> tidy Q w (produce s gs k).
Proof.
  intros Hs Hu Hgs Hk. induction Hgs as [|g gs (H1&H2&H3) _ IH]; cbn; [done|]. eapply push_tidy; [done|done|done|done|done|done|].
  intros w' _ E. by rewrite E.
Qed.
Fixpoint nodes_in (t : tree) : Prop := match t with Null => True | Node l a _ r => cells a /\ nodes_in l /\ nodes_in r end.
Lemma traverse_tidy Q w s t : (forall v, copy_exn v = None) -> forall k, v_in w !! s = Some (Entry Push KVal true) -> v_unw w = false ->
  nodes_in t -> tidy Q w k -> tidy Q w (traverse t s k).
Proof.
  intros Hcp. induction t as [|l IHl a v r IHr]; intros k Hs Hu Hn Hk; cbn; [done|]. destruct Hn as (Ha&Hl&Hr). apply IHl; try done.
  eapply push_tidy; [done|done|done|done|done|done|]. intros w' _ E. rewrite E by done. by apply IHr.
Qed.
(** The following push temporaries. *)
Context (nomove : forall v, move_exn v = None).
Lemma parse_tidy cls perr (Q : view -> Prop) w s n : v_in w !! s = Some (Entry Push KVal true) -> v_unw w = false ->
  forall nt st k, (forall st', tidy Q w (k st')) -> Q w -> tidy Q w (parse cls perr s n nt st k).
Proof.
  intros Hs Hu. assert (P : forall c k, tidy Q w k -> tidy Q w (push s (AImm c) k)).
  { intros c k Hk. eapply push_tidy; [done|done|done|done|done|apply nomove|]. intros w' _ E. by rewrite E. }
  induction n as [|n IH]; intros nt st k Hk HQ; cbn; [by apply td_skip|].
  destruct nt; repeat (case_match; try done); eauto using throw_tidy.
  - apply P. apply IH; [|done]. intros st'. case_match; [by apply P|apply throw_tidy].
Qed.
Lemma fib_tidy int (Q : view -> Prop) w s n : v_in w !! s = Some (Entry Push KVal true) -> v_unw w = false -> Q w -> tidy Q w (fib_fn int n s).
Proof.
  intros Hs Hu HQ. assert (P : forall c k, tidy Q w k -> tidy Q w (push s (AImm c) k)).
  { intros c k Hk. eapply push_tidy; [done|done|done|done|done|apply nomove|]. intros w' _ E. by rewrite E. }
  unfold fib_fn. do 2 apply P. generalize 1 at 1. generalize 1. induction n as [|n IH]; intros a b; cbn; [by apply td_skip|]. by apply P.
Qed.
Lemma forever_tidy note val Q w s : v_in w !! s = Some (Entry Push KVal true) -> v_unw w = false -> forall i, tidy Q w (forever note val i s).
Proof.
  intros Hs Hu. cofix CH. intros i. rewrite (stm_eta (forever _ _ _ _)). cbn. apply td_do; [done|done|]. intros ? w' [_ ->].
  apply td_do; [eexists; cbn; by rewrite nomove|done|]. intros ? w' (n'&Hn'&H). assert (n' = Entry Push KVal true) as -> by congruence. cbn in H.
  destruct H as [[_ ->]|[? _]]; [|done]. apply CH.
Qed.

(** Iteration over an object. *)
Definition at_it (w : view) (x : nat) (i : iter) : Prop := i = None \/ i = Some x /\ x ∈ v_ok w.
Lemma each_tidy Q x k w i : v_in w !! x = Some (Entry Pull KVal false) -> at_it w x i ->
  (forall w', v_in w' = v_in w -> tidy Q w' k) -> tidy Q w (each i None k).
Proof using cells. clear nomove.
  intros Hx Hi Hk. apply loop_tidy with (R := fun w s => exists i, s = each i None k /\ v_in w !! x = Some (Entry Pull KVal false) /\
    at_it w x i /\ (forall w', v_in w' = v_in w -> tidy Q w' k)); [|by exists i].
  clear. intros w s (i&->&Hx&Hi&Hk). rewrite (stm_eta (each _ _ _)). cbn. exists (OItNe i None), eq_refl; eexists. split; [reflexivity|]. split.
  { split; [|done]. destruct Hi as [-> | [-> _]]; cbn; [done|by eexists]. }
  intros ? w' [E ->]. injection E as ->. destruct Hi as [-> | [-> Ho]].
  { rewrite bool_decide_eq_false_2 by (by intros []). by apply lp_exit, Hk. }
  rewrite bool_decide_eq_true_2 by done.
  apply lp_do; [exists (Entry Pull KVal false); cbn; split; [done|split; [done|]]; by split|].
  intros ? w' [(n&Hn&Hv) ->]. assert (n = Entry Pull KVal false) as -> by congruence. destruct Hv as [v E]. injection E as ->.
  apply lp_do; [done|]. intros ? w' [_ ->].
  apply lp_do; [exists (Entry Pull KVal false); cbn; done|].
  intros ? w' (n&Hn'&Hr). assert (n = Entry Pull KVal false) as -> by congruence. cbn in Hr. destruct Hr as [(b&E&->)|[[e ?] _]]; [|done]. injection E as ->.
  apply lp_again. eexists. split; [done|]. split; [done|]. split; [|done]. destruct b; [right|by left]. split; [done|]. cbn. set_solver.
Qed.
Lemma each_of_tidy Q x k w : v_in w !! x = Some (Entry Pull KVal false) ->
  (forall w', v_in w' = v_in w -> tidy Q w' k) -> tidy Q w (each_of x k).
Proof using cells. clear nomove.
  intros Hx Hk. apply do_tidy; [by eexists|]. intros ? w' (b&E&n&Hn&H). assert (n = Entry Pull KVal false) as -> by congruence. cbn in H. destruct H as [_ ->]. injection E as ->.
  apply do_tidy; [done|]. intros ? w' [E ->]. injection E as ->.
  apply each_tidy with (x := x); [done| |done]. destruct b; [right|by left]. split; [done|]. cbn. set_solver.
Qed.
Lemma each_n_tidy Q x n k w i : v_in w !! x = Some (Entry Pull KVal false) -> at_it w x i ->
  (forall w', v_in w' = v_in w -> tidy Q w' k) -> tidy Q w (each_n n i None k).
Proof.
  revert w i. induction n as [|n IH]; intros w i Hx Hi Hk; cbn; [by apply Hk|]. apply do_tidy.
  { split; [|done]. destruct Hi as [-> | [-> _]]; cbn; [done|by eexists]. }
  intros ? w' [E ->]. injection E as ->. destruct Hi as [-> | [-> Ho]].
  { rewrite bool_decide_eq_false_2 by (by intros []). by apply Hk. }
  rewrite bool_decide_eq_true_2 by done.
  apply do_tidy; [exists (Entry Pull KVal false); cbn; split; [done|split; [done|]]; by split|].
  intros ? w' [(n0&Hn&Hv) ->]. assert (n0 = Entry Pull KVal false) as -> by congruence. destruct Hv as [v E]. injection E as ->.
  apply do_tidy; [done|]. intros ? w' [_ ->]. destruct n as [|n]; [by apply Hk|].
  apply do_tidy; [exists (Entry Pull KVal false); cbn; done|].
  intros ? w' (n0&Hn'&Hr). assert (n0 = Entry Pull KVal false) as -> by congruence. cbn in Hr. destruct Hr as [(b&E&->)|[[e ?] _]]; [|done]. injection E as ->.
  apply IH; [done| |done]. destruct b; [right|by left]. split; [done|]. cbn. set_solver.
Qed.

(** Range-for over any tidy generator. *)
Lemma range_tidy fn fin caught : (forall x, tidy (fun _ => True) (v_start Pull KVal x) (fn x)) -> disciplined cells (range_main fn fin caught).
Proof using cells. clear nomove.
  intros Hf. apply tidy_disciplined. apply (td_try _ _ _ (fun _ => True) (fun _ => True)).
  - apply co_tidy; [done| |].
    + intros h Hh. apply each_of_tidy; [cbn; by rewrite lookup_insert|]. intros w' _. apply emit_tidy, td_return.
    + intros. by apply td_skip.
  - intros e w' _ _ _. apply emit_tidy, td_return.
  - intros w' _ _. by apply td_skip.
Qed.
Lemma range_produce fin caught gs : Forall (fun g => Contract.fits KVal g = true /\ arg_cells cells g /\ arg_safe false g) gs ->
  disciplined cells (range_main (fun yield => produce yield gs Skip) fin caught).
Proof using cells. clear nomove. intros H. apply range_tidy. intros x. apply produce_tidy; [apply lookup_singleton|done|done|by apply td_skip]. Qed.
Lemma parser_disc cls perr fin failed text : disciplined cells (parser_main cls perr fin failed text).
Proof. apply range_tidy. intros x. apply parse_tidy; [apply lookup_singleton|done| |done]. intros. by apply td_skip. Qed.
Lemma fib_disc int n fin : disciplined cells (fib_main int n fin).
Proof. apply range_tidy. intros x. apply fib_tidy; [apply lookup_singleton|done|done]. Qed.
Lemma take_disc note val n fin : disciplined cells (take_main note val n fin).
Proof.
  apply tidy_disciplined. apply co_tidy.
  - intros x. apply forever_tidy; [apply lookup_singleton|done].
  - intros x Hx. apply do_tidy; [eexists; cbn; by rewrite lookup_insert|]. intros ? w' (b&E&n0&Hn&H). cbn in Hn. rewrite lookup_insert in Hn. injection Hn as <-. cbn in H. destruct H as [_ ->]. injection E as ->.
    apply do_tidy; [done|]. intros ? w' [E ->]. injection E as ->.
    apply each_n_tidy with (x := x); [cbn; by rewrite lookup_insert| |intros; by apply emit_tidy, td_skip]. destruct b; [right|by left]. split; [done|]. cbn. set_solver.
  - intros. by apply td_skip.
Qed.

(** The readers of example/same_fringe.cpp, printed one after the other. *)
Lemma print_tidy ts : (forall v, copy_exn v = None) -> Forall nodes_in ts -> forall w k, (forall w', v_in w' = v_in w -> tidy (fun _ => True) w' k) -> tidy (fun _ => True) w (print_all ts k).
Proof using cells. clear nomove.
  intros Hcp. induction 1 as [|t ts Ht _ IH]; intros w k Hk; cbn; [by apply Hk|]. apply co_tidy.
  - intros x. apply traverse_tidy; [done|apply lookup_singleton|done|done|by apply td_skip].
  - intros h Hh. apply each_of_tidy; [cbn; by rewrite lookup_insert|]. intros w' _. apply IH. intros. by apply td_skip.
  - intros h w' Hh E. by apply Hk.
Qed.
Lemma print_disc ts fin : (forall v, copy_exn v = None) -> Forall nodes_in ts -> disciplined cells (cxx (print_all ts (emit fin Skip))).
Proof using cells. clear nomove. intros Hcp H. apply tidy_disciplined, print_tidy; [done|done|]. intros. by apply emit_tidy, td_skip. Qed.

(** The consumer of example/layout.cpp, fed by [for ( auto & w : words) if ( writer) writer( w);]. *)
Fixpoint feed (words : list T) (writer : nat) (k : stm) : stm :=
  match words with
  | [] => k
  | v :: words => Do (OBool writer) eq_refl (fun b =>
      match b with AB true => push writer (AImm v) (feed words writer k) | _ => feed words writer k end)
  end.
Definition feed_main (nl fin : T) (num : nat) (words : list T) : strat :=
  cxx (LocalCo Push KVal plain_new (fun inn => Local 0 (write nl num 0 inn) Skip) (fun writer => feed words writer (emit fin Skip)) Skip).
Lemma write_unfold nl num i x : write nl num i x =
  if Nat.ltb i num
  then Do (ONot x) eq_refl (fun b =>
       match b with
       | AB false => Do (OGet x) eq_refl (fun w =>
           match w with AV w => Do (OEmit w) eq_refl (fun _ => Do (OResume x) eq_refl (fun _ => write nl num (S i) x)) | _ => Skip end)
       | _ => Return
       end)
  else Do (OEmit nl) eq_refl (fun _ => write nl num 0 x).
Proof. rewrite (stm_eta (write _ _ _ _)). match goal with |- _ = ?r => transitivity (stm_id r); [reflexivity|] end. by destruct (Nat.ltb i num). Qed.
Lemma write_tidy nl num Q w x : v_in w !! x = Some (Entry Pull KVal true) -> v_unw w = false -> forall i, tidy Q w (write nl num i x).
Proof.
  intros Hx Hu i. apply loop_tidy with (R := fun w' s => w' = w /\ exists i, s = write nl num i x); [|split; [done|by exists i]]. clear i.
  intros ? s [-> [i ->]]. rewrite write_unfold. destruct (Nat.ltb i num).
  - exists (ONot x), eq_refl; eexists. split; [reflexivity|]. split; [by eexists|]. intros ? w' (b&E&n&Hn&H). assert (n = Entry Pull KVal true) as -> by congruence. cbn in H. destruct H as [-> ->]. injection E as ->. cbn.
    apply lp_do; [exists (Entry Pull KVal true); cbn; split; [done|split; [done|]]; by split|]. intros ? w' [(n&Hn'&Hv) ->].
    assert (n = Entry Pull KVal true) as -> by congruence. destruct Hv as [v E]. injection E as ->.
    apply lp_do; [done|]. intros ? w' [_ ->].
    apply lp_do; [by eexists|]. intros ? w' (n&Hn''&H). assert (n = Entry Pull KVal true) as -> by congruence. cbn in H.
    destruct H as [[_ ->]|[? _]]; [|done]. apply lp_again. split; [done|]. by eexists.
  - exists (OEmit nl), eq_refl; eexists. split; [reflexivity|]. split; [done|]. intros ? w' [_ ->]. apply lp_again. split; [done|]. by eexists.
Qed.
Lemma feed_tidy Q words x k : forall w, v_in w !! x = Some (Entry Push KVal false) -> (forall w', v_in w' = v_in w -> tidy Q w' k) -> tidy Q w (feed words x k).
Proof.
  induction words as [|v words IH]; intros w Hx Hk; cbn; [by apply Hk|]. apply do_tidy; [by eexists|].
  intros ? w' (b&E&n&Hn&H). assert (n = Entry Push KVal false) as -> by congruence. cbn in H. destruct H as [_ ->]. injection E as ->.
  destruct b; [|by apply IH]. eapply push_tidy; [exact Hx|done| |done|done|apply nomove|].
  - cbn. set_solver.
  - cbn. intros w' E _. apply IH; [by rewrite E|]. intros w'' E'. apply Hk. congruence.
Qed.
Lemma feed_disc nl fin num words : disciplined cells (feed_main nl fin num words).
Proof.
  apply tidy_disciplined. apply co_tidy.
  - intros x. apply (td_local _ _ _ (fun _ => True)); [apply write_tidy; [apply lookup_singleton|done]|]. intros. by apply td_skip.
  - intros h Hh. apply feed_tidy; [cbn; by rewrite lookup_insert|]. intros. by apply emit_tidy, td_skip.
  - intros. by apply td_skip.
Qed.

(** A generator that passes on what another generator yields:
    [source_t source( src); for ( auto v : source) out( f( v) );]; pipelines of any length. *)
CoFixpoint pass (f : T -> T) (out : nat) (i e : iter) (k : stm) : stm :=
  Do (OItNe i e) eq_refl (fun b =>
  match b with
  | AB true =>
      Do (OItDeref i) eq_refl (fun v =>
      match v with
      | AV v => Do (OPush out (AImm (f v))) eq_refl (fun _ => Do (OItInc i) eq_refl (fun j => match j with AIt j => pass f out j e k | _ => Skip end))
      | _ => Skip
      end)
  | _ => k
  end).
Definition relay (f : T -> T) (src : nat -> stm) (out : nat) : stm :=
  LocalCo Pull KVal plain_new src (fun x =>
    Do (OBegin x) eq_refl (fun b => Do OEnd eq_refl (fun e => match b, e with AIt b, AIt e => pass f out b e Skip | _, _ => Skip end))) Skip.
Fixpoint pipeline (fs : list (T -> T)) (src : nat -> stm) : nat -> stm :=
  match fs with [] => src | f :: fs => relay f (pipeline fs src) end.
Lemma pass_tidy (Q : view -> Prop) f out x w i : v_in w !! x = Some (Entry Pull KVal false) -> v_in w !! out = Some (Entry Push KVal true) -> v_unw w = false -> at_it w x i ->
  (forall w', Q w') -> tidy Q w (pass f out i None Skip).
Proof.
  intros Hx Hout Hu Hi HQ. apply loop_tidy with (R := fun w s => exists i, s = pass f out i None Skip /\ v_in w !! x = Some (Entry Pull KVal false) /\
    v_in w !! out = Some (Entry Push KVal true) /\ v_unw w = false /\ at_it w x i); [|by exists i].
  clear w i Hx Hout Hu Hi. intros w s (i&->&Hx&Hout&Hu&Hi). rewrite (stm_eta (pass _ _ _ _ _)). cbn. exists (OItNe i None), eq_refl; eexists. split; [reflexivity|]. split.
  { split; [|done]. destruct Hi as [-> | [-> _]]; cbn; [done|by eexists]. }
  intros ? w' [E ->]. injection E as ->. destruct Hi as [-> | [-> Ho]].
  { rewrite bool_decide_eq_false_2 by (by intros []). by apply lp_exit, td_skip. }
  rewrite bool_decide_eq_true_2 by done.
  apply lp_do; [exists (Entry Pull KVal false); cbn; split; [done|split; [done|]]; by split|].
  intros ? w' [(n&Hn&Hv) ->]. assert (n = Entry Pull KVal false) as -> by congruence. destruct Hv as [v E]. injection E as ->.
  apply lp_do; [exists (Entry Push KVal true); cbn; by rewrite nomove|]. intros ? w' (n&Hn1&H). assert (n = Entry Push KVal true) as -> by congruence. cbn in H.
  destruct H as [[_ ->]|[? _]]; [|done].
  apply lp_do; [exists (Entry Pull KVal false); cbn; done|].
  intros ? w' (n&Hn'&Hr). assert (n = Entry Pull KVal false) as -> by congruence. cbn in Hr. destruct Hr as [(b&E&->)|[[e ?] _]]; [|done]. injection E as ->.
  apply lp_again. eexists. split; [done|]. split; [done|]. split; [done|]. split; [done|]. destruct b; [right|by left]. split; [done|]. cbn. set_solver.
Qed.
Lemma relay_tidy f src : (forall x, tidy (fun _ => True) (v_start Pull KVal x) (src x)) -> forall out, tidy (fun _ => True) (v_start Pull KVal out) (relay f src out).
Proof.
  intros Hs out. apply co_tidy; [done| |intros; by apply td_skip].
  intros x Hx. assert (Hne : x <> out). { intros ->. cbn in Hx. by rewrite lookup_singleton in Hx. }
  apply do_tidy; [eexists; cbn; by rewrite lookup_insert|]. intros ? w' (b&E&n0&Hn&H). cbn in Hn. rewrite lookup_insert in Hn. injection Hn as <-. cbn in H. destruct H as [_ ->]. injection E as ->.
  apply do_tidy; [done|]. intros ? w' [E ->]. injection E as ->.
  apply pass_tidy with (x := x); [cbn; by rewrite lookup_insert|cbn; rewrite lookup_insert_ne by done; apply lookup_singleton|done| |done].
  destruct b; [right|by left]. split; [done|]. cbn. set_solver.
Qed.
Lemma pipeline_disc fs src fin caught : (forall x, tidy (fun _ => True) (v_start Pull KVal x) (src x)) -> disciplined cells (range_main (pipeline fs src) fin caught).
Proof. intros Hs. apply range_tidy. induction fs as [|f fs IH]; [done|]. cbn. by apply relay_tidy. Qed.
End tp.
