(** Tidy.v -- the discipline of Discipline.v for code written with blocks (Cpp.v).

    In C++ automatic objects take care of the rules about the end: they are destroyed on
    every way out of their block, and the exception that unwinds a coroutine passes every
    [catch ( E &)].  What remains is a condition on the use of objects: [tidy Q X w s], code
    [s] keeps to the names of view [w] and knows what it resumes; [Q] describes what it
    knows when it reaches the end of its block, [X] when it is left by an exception. *)
From stdpp Require Import prelude gmap.
From Verif Require Import Base Discipline Cpp.

Section tidy.
Context {env : Env}.
Context (cells : nat -> Prop).

CoInductive tidy : (view -> Prop) -> (view -> Prop) -> view -> stm -> Prop :=
| td_skip (Q X : view -> Prop) w : Q w -> tidy Q X w Skip
| td_return Q X w : tidy Q X w Return
| td_throw Q (X : view -> Prop) w e : X w -> tidy Q X w (Throw e)
| td_do Q (X : view -> Prop) w o ok k : may cells w o ->
    (forall e w', next cells w o (RExn (XUser e)) w' -> X w') ->
    (forall r w', next cells w o (ROk r) w' -> tidy Q X w' (k r)) -> tidy Q X w (Do o ok k)
| td_local Q X (Q1 : view -> Prop) w n body k : tidy Q1 X w body ->
    (forall w', Q1 w' -> v_in w' = v_in w -> tidy Q X w' k) -> tidy Q X w (Local n body k)
| td_co Q (X : view -> Prop) (Q1 X1 : nat -> view -> Prop) w sd kd np fn body k :
    (forall x, tidy (fun _ => True) (fun _ => True) (v_start sd kd x) (fn x)) -> X w ->
    (forall h, v_in w !! h = None -> tidy (Q1 h) (X1 h) (made sd kd h w) (body h)) ->
    (forall h w', v_in w !! h = None -> X1 h w' -> v_in (v_without h w') = v_in w -> X (v_without h w')) ->
    (forall h w', v_in w !! h = None -> Q1 h w' -> v_in (v_without h w') = v_in w -> tidy Q X (v_without h w') k) ->
    tidy Q X w (LocalCo sd kd np fn body k)
| td_move Q (X : view -> Prop) (Q1 X1 : nat -> view -> Prop) w x n body k : v_in w !! x = Some n -> n_mine n = false ->
    (forall h, v_in w !! h = None ->
       tidy (Q1 h) (X1 h) (v_learn (bool_decide (x ∈ v_ok w)) h (v_learn false x (v_with h n w))) (body h)) ->
    (forall h w', v_in w !! h = None -> X1 h w' -> v_in (v_without h w') = v_in w -> X (v_without h w')) ->
    (forall h w', v_in w !! h = None -> Q1 h w' -> v_in (v_without h w') = v_in w -> tidy Q X (v_without h w') k) ->
    tidy Q X w (LocalMove x body k)
| td_try Q X (Q1 X1 : view -> Prop) w body handler k : tidy Q1 X1 w body ->
    (forall e w', X1 w' -> v_in w' = v_in w -> v_unw w' = v_unw w -> tidy Q1 X w' (handler e)) ->
    (forall w', Q1 w' -> v_in w' = v_in w -> tidy Q X w' k) -> tidy Q X w (Try body handler k)
| td_onexn Q X (Q1 : view -> Prop) w body n k : tidy Q1 X w body ->
    (forall w', Q1 w' -> v_in w' = v_in w -> tidy Q X w' k) -> tidy Q X w (OnExn body n k)
| td_block Q X (Q1 : view -> Prop) w body k : tidy Q1 X w body ->
    (forall w', Q1 w' -> v_in w' = v_in w -> tidy Q X w' k) -> tidy Q X w (Block body k).

(** ** Blocks take care of the rest *)

(** The frames [fs] fit the names [N]; [Q] is what is known at the end of the block, [X] when
    an exception leaves it. *)
Fixpoint frames_fit (N : gmap nat entry) (Q X : view -> Prop) (fs : list frame) : Prop :=
  match fs with
  | [] => forall x n, N !! x = Some n -> n_mine n = true
  | FLocal (ODestroy h) k :: fs => exists N' n (Q' X' : view -> Prop), N = <[ h := n ]> N' /\ N' !! h = None /\ n_mine n = false /\
      (forall w, v_in w = N -> v_unw w = false -> X w -> X' (v_without h w)) /\
      (forall w, v_in w = N -> v_unw w = false -> Q w -> tidy Q' X' (v_without h w) k) /\ frames_fit N' Q' X' fs
  | FLocal (OLog _) k :: fs | FOnExn _ k :: fs | FBlock k :: fs => exists Q' X' : view -> Prop,
      (forall w, v_in w = N -> v_unw w = false -> X w -> X' w) /\
      (forall w, v_in w = N -> v_unw w = false -> Q w -> tidy Q' X' w k) /\ frames_fit N Q' X' fs
  | FTry hd k :: fs => exists Q' X' : view -> Prop,
      (forall e w, v_in w = N -> v_unw w = false -> X w -> tidy Q X' w (hd e)) /\
      (forall w, v_in w = N -> v_unw w = false -> Q w -> tidy Q' X' w k) /\ frames_fit N Q' X' fs
  | FLocal _ _ :: _ => False
  end.

Definition fits_ctl (w : view) (c : ctl) (fs : list frame) : Prop :=
  exists Q X : view -> Prop, frames_fit (v_in w) Q X fs /\
  match c with
  | Go s => v_unw w = false /\ tidy Q X w s
  | Ret => v_unw w = false
  | Exn (XUser _) => v_unw w = false /\ X w
  | Exn XUnwind => v_unw w = true
  end.

(** Results of an expression. *)
Lemma next_plain w o r w' : plain o = true -> next cells w o r w' -> v_in w' = v_in w /\
  match r with RExn XUnwind => v_unw w' = true | _ => v_unw w' = v_unw w end.
Proof.
  intros Hp. destruct o as [h|h1 h2|h|h|h g|h|h|h|h| |[h|]|[h|]|i j|i j|h| |[h|] g|v|n|l|l v]; cbn; try done;
    unfold told, comes_back, comes_back_it; intros H.
  all: try (by destruct H as [-> ->]).
  all: try (destruct H as (n&Hn&H); destruct (n_mine n); [destruct H as [[-> ->]|[-> ->]]; done|]).
  all: try (destruct H as [[-> | [e ->]] ->]; done).
  all: try (destruct H as [(b&->&->)|[[e ->] ->]]; done).
  all: try (destruct H as (b&->&n&Hn&H); destruct (n_mine n); destruct H as [_ ->]; done).
  - destruct H as [(n&Hn&H) ->]. unfold value_of in H. destruct (n_kind n); [destruct H as [v ->]; done|destruct H as (l&_&->); done|done].
  - destruct H as [(n&Hn&H) ->]. unfold value_of in H. destruct (n_kind n); [destruct H as [v ->]; done|destruct H as (l&_&->); done|done].
  - destruct H as [[v ->] ->]. done.
Qed.

Lemma fits_scoped w c fs : fits_ctl w c fs -> scoped cells w (exec c fs).
Proof.
  revert w c fs. cofix CH. intros w c fs (Q&X&Hfs&Hc). rewrite (strat_eta (exec c fs)).
  destruct c as [s| |x].
  - destruct Hc as [Hu Hc]. destruct s as [| |e|o ok k|n body k|sd kd np fn body k|h body k|body hd k|body n k|body k]; cbn.
    + inversion Hc as [Q0 X0 w0 HQ| | | | | | | | |]; subst. destruct fs as [|[d k|hd k|n k|k] fs]; cbn in Hfs |- *.
      * apply sc_ret; [done|]. exact Hfs.
      * destruct d; try done.
        -- destruct Hfs as (N'&n&Q'&X'&EN&HN&Hm&_&Hk&Hfs). apply sc_do; [cbn; exists n; by rewrite EN, lookup_insert|].
           intros r w' [-> ->]. apply CH. exists Q', X'. split; [cbn; by rewrite EN, delete_insert|]. cbn. split; [done|]. by apply Hk.
        -- destruct Hfs as (Q'&X'&_&Hk&Hfs). apply sc_do; [done|]. intros r w' [-> ->]. apply CH. exists Q', X'. split; [done|]. split; [done|]. by apply Hk.
      * destruct Hfs as (Q'&X'&_&Hk&Hfs). apply sc_tau, CH. exists Q', X'. split; [done|]. split; [done|]. by apply Hk.
      * destruct Hfs as (Q'&X'&_&Hk&Hfs). apply sc_tau, CH. exists Q', X'. split; [done|]. split; [done|]. by apply Hk.
      * destruct Hfs as (Q'&X'&_&Hk&Hfs). apply sc_tau, CH. exists Q', X'. split; [done|]. split; [done|]. by apply Hk.
    + apply sc_tau, CH. by exists Q, X.
    + inversion Hc; subst. apply sc_tau, CH. by exists Q, X.
    + inversion Hc as [| | |Q0 X0 w0 o0 ok0 k0 Hm Hx Hk| | | | | |]; subst. apply sc_do; [done|]. intros r w' Hn. destruct (next_plain _ _ _ _ ok Hn) as [E1 E2]. destruct r as [r|x].
      * apply CH. exists Q, X. rewrite E1. split; [done|]. split; [congruence|]. auto.
      * apply CH. exists Q, X. rewrite E1. split; [done|]. destruct x; [split; [congruence|eauto]|congruence].
    + inversion Hc as [| | | |Q0 X0 Q1 w0 n0 body0 k0 Hb Hk| | | | |]; subst. apply sc_do; [done|]. intros r w' [-> ->]. apply CH. exists Q1, X. split; [|done]. cbn. exists Q, X. split; [done|]. split; [|done]. intros; auto.
    + inversion Hc as [| | | | |Q0 X0 Q1 X1 w0 sd0 kd0 np0 fn0 body0 k0 H1 HX H2 HX1 H3| | | |]; subst. apply sc_new.
      * intros x. apply CH. exists (fun _ => True), (fun _ => True). split; [|by split]. cbn. intros y n. rewrite lookup_singleton_Some. by intros [_ <-].
      * intros h Hh. apply CH. exists (Q1 h), (X1 h). split; [|split; [done|by apply H2]]. cbn. exists (v_in w), (Entry sd kd false), Q, X. split; [done|]. split; [done|]. split; [done|].
        split; [|split; [|done]]; intros w' E _ HQ; [apply HX1|apply H3]; try done; cbn; by rewrite E, delete_insert.
      * intros e. apply CH. by exists Q, X.
    + inversion Hc as [| | | | | |Q0 X0 Q1 X1 w0 x n body0 k0 Hn Hm H2 HX1 H3| | |]; subst. apply sc_do; [by exists n|]. intros r w' (h'&n'&->&Hh&Hn'&->). assert (n' = n) as -> by congruence.
      apply CH. exists (Q1 h'), (X1 h'). split; [|split; [done|by apply H2]]. cbn. exists (v_in w), n, Q, X. split; [done|]. split; [done|]. split; [done|].
      split; [|split; [|done]]; intros w' E _ HQ; [apply HX1|apply H3]; try done; cbn; by rewrite E, delete_insert.
    + inversion Hc as [| | | | | | |Q0 X0 Q1 X1 w0 body0 hd0 k0 Hb Hh Hk| |]; subst. apply sc_tau, CH. exists Q1, X1. split; [|done]. cbn. exists Q, X. split; [|split; [|done]; intros; auto].
      intros e w' E1 E2 E3. apply Hh; congruence.
    + inversion Hc as [| | | | | | | |Q0 X0 Q1 w0 body0 n0 k0 Hb Hk|]; subst. apply sc_tau, CH. exists Q1, X. split; [|done]. cbn. exists Q, X. split; [done|]. split; [|done]. intros; auto.
    + inversion Hc as [| | | | | | | | |Q0 X0 Q1 w0 body0 k0 Hb Hk]; subst. apply sc_tau, CH. exists Q1, X. split; [|done]. cbn. exists Q, X. split; [done|]. split; [|done]. intros; auto.
  - destruct fs as [|[d k|hd k|n k|k] fs]; cbn in Hfs |- *.
    + apply sc_ret; [done|]. exact Hfs.
    + destruct d; try done.
      * destruct Hfs as (N'&n&Q'&X'&EN&HN&Hm&_&Hk&Hfs). apply sc_do; [cbn; exists n; by rewrite EN, lookup_insert|].
        intros r w' [-> ->]. apply CH. exists Q', X'. split; [cbn; by rewrite EN, delete_insert|]. done.
      * destruct Hfs as (Q'&X'&_&Hk&Hfs). apply sc_do; [done|]. intros r w' [-> ->]. apply CH. by exists Q', X'.
    + destruct Hfs as (Q'&X'&_&Hk&Hfs). apply sc_tau, CH. by exists Q', X'.
    + destruct Hfs as (Q'&X'&_&Hk&Hfs). apply sc_tau, CH. by exists Q', X'.
    + destruct Hfs as (Q'&X'&_&Hk&Hfs). apply sc_tau, CH. by exists Q', X'.
  - assert (Hx : match x with XUser _ => v_unw w = false /\ X w | XUnwind => v_unw w = true end) by (by destruct x). clear Hc.
    destruct fs as [|[d k|hd k|n k|k] fs]; cbn in Hfs |- *.
    + destruct x; [destruct Hx; by apply sc_throw|by apply sc_unwind].
    + destruct d; try done.
      * destruct Hfs as (N'&n&Q'&X'&EN&HN&Hm&HX&Hk&Hfs). apply sc_do; [cbn; exists n; by rewrite EN, lookup_insert|].
        intros r w' [-> ->]. apply CH. exists Q', X'. split; [cbn; by rewrite EN, delete_insert|]. destruct x; [|done]. destruct Hx. split; [done|]. by apply HX.
      * destruct Hfs as (Q'&X'&HX&Hk&Hfs). apply sc_do; [done|]. intros r w' [-> ->]. apply CH. exists Q', X'. split; [done|]. destruct x; [|done]. destruct Hx. split; [done|]. by apply HX.
    + destruct Hfs as (Q'&X'&Hh&Hk&Hfs). destruct x as [e|]; apply sc_tau, CH.
      * destruct Hx. exists Q, X'. split; [|split; [done|by apply Hh]]. cbn. exists Q', X'. by split.
      * by exists Q', X'.
    + destruct Hfs as (Q'&X'&HX&Hk&Hfs). apply sc_do; [done|]. intros r w' [-> ->]. apply CH. exists Q', X'. split; [done|]. destruct x; [|done]. destruct Hx. split; [done|]. by apply HX.
    + destruct Hfs as (Q'&X'&HX&Hk&Hfs). apply sc_tau, CH. exists Q', X'. split; [done|]. destruct x; [|done]. destruct Hx. split; [done|]. by apply HX.
Qed.

(** The functions of a program are blocks: main starts without names. *)
Definition tidy_main (s : stm) : Prop := tidy (fun _ => True) (fun _ => True) (View false ∅ ∅) s.

Theorem tidy_disciplined s : tidy_main s -> disciplined cells (cxx s).
Proof. intros H. apply fits_scoped. exists (fun _ => True), (fun _ => True). split; [|done]. cbn. intros x n. by rewrite lookup_empty. Qed.

End tidy.
