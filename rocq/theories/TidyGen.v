(** TidyGen.v -- generator programs (Gens.v) follow the rules of Tidy.v. *)
From stdpp Require Import prelude gmap.
From Verif Require Import Base Discipline Tidy Cpp Progs Gens FactsProg TidyProg.

Section tg.
Context {env : Env}.
Context (cells : nat -> Prop) (nomove : forall v, move_exn v = None).
Notation tidy := (Tidy.tidy cells).
Local Opaque gmap_lookup map_insert map_delete gmap_partial_alter.

(** Loops: code that comes back to [R] after at least one operation or block. *)
Inductive goes (Q X : view -> Prop) (R : view -> stm -> Prop) : view -> stm -> Prop :=
| go_again w s : R w s -> goes Q X R w s
| go_on w s : heads Q X R w s -> goes Q X R w s
with heads (Q X : view -> Prop) (R : view -> stm -> Prop) : view -> stm -> Prop :=
| hd_exit w s : tidy Q X w s -> heads Q X R w s
| hd_do w o ok k : may cells w o -> (forall e w', next cells w o (RExn (XUser e)) w' -> X w') ->
    (forall r w', next cells w o (ROk r) w' -> goes Q X R w' (k r)) -> heads Q X R w (Do o ok k)
| hd_block (Q1 : view -> Prop) w body k : tidy Q1 X w body -> (forall w', Q1 w' -> v_in w' = v_in w -> goes Q X R w' k) -> heads Q X R w (Block body k).
Lemma goes_tidy Q X (R : view -> stm -> Prop) : (forall w s, R w s -> heads Q X R w s) -> forall w s, R w s -> tidy Q X w s.
Proof.
  intros HR. assert (H : forall w s, heads Q X R w s -> tidy Q X w s); [|intros w s Hs; by apply H, HR]. cofix CH. intros w s H. destruct H as [w s H|w o ok k H1 H2 H3|Q1 w body k H1 H2].
  - exact H.
  - apply td_do; [done|done|]. intros r w' Hn. apply CH. destruct (H3 r w' Hn); [by apply HR|done].
  - apply (td_block _ _ _ Q1); [done|]. intros w' H E. apply CH. destruct (H2 w' H E); [by apply HR|done].
Qed.

(** What code of the language leaves as it is. *)
Definition keeps (w w' : view) : Prop :=
  v_unw w' = v_unw w /\ v_in w' = v_in w /\ forall x, is_Some (v_in w !! x) -> x ∈ v_ok w -> x ∈ v_ok w'.
Lemma keeps_refl w : keeps w w.
Proof. done. Qed.
Lemma keeps_trans w1 w2 w3 : keeps w1 w2 -> keeps w2 w3 -> keeps w1 w3.
Proof. intros (A1&A2&A3) (B1&B2&B3). split; [congruence|]. split; [congruence|]. intros x Hx Ho. apply B3; [by rewrite A2|]. by apply A3. Qed.
Definition knows (N : gmap nat entry) (w : view) : Prop := forall x n, N !! x = Some n -> v_in w !! x = Some n.
Lemma knows_keeps N w w' : knows N w -> keeps w w' -> knows N w'.
Proof. intros H (_&E&_) x n Hx. rewrite E. by apply H. Qed.

(** What [sink( v);] stands for. *)
Definition yields (N : gmap nat entry) (y : T -> stm) : Prop :=
  forall v w (Q X : view -> Prop), v_unw w = false -> knows N w -> Q w -> tidy Q X w (y v).

(** The loop over [h]: names of [w] are kept. *)
Definition keeps_in (w w' : view) : Prop :=
  v_unw w' = v_unw w /\ forall x, is_Some (v_in w !! x) -> x ∈ v_ok w -> x ∈ v_ok w'.

Lemma for_tidy N0 (Q X : view -> Prop) w0 h b : v_in w0 !! h = None ->
  (forall v w (Q X : view -> Prop), v_unw w = false -> knows N0 w -> (forall w', keeps w w' -> Q w') -> (forall w', keeps w w' -> X w') -> tidy Q X w (b v)) ->
  knows N0 w0 -> v_unw w0 = false ->
  (forall w', keeps_in w0 w' -> Q w') -> (forall w', keeps_in w0 w' -> X w') ->
  forall n w i, v_in w = <[ h := Entry Pull KVal false ]> (v_in w0) -> keeps_in w0 w -> at_it w h i -> tidy Q X w (for_loop n b i None).
Proof.
  intros Hh Hb HN Hu HQ HX n w i Hw Hk Hi.
  apply goes_tidy with (R := fun w s => exists n i, s = for_loop n b i None /\ v_in w = <[ h := Entry Pull KVal false ]> (v_in w0) /\ keeps_in w0 w /\ at_it w h i);
    [|by exists n, i].
  clear n w i Hw Hk Hi. intros w s (n&i&->&Hw&Hk&Hi). rewrite (stm_eta (for_loop _ _ _ _)).
  assert (Hx : v_in w !! h = Some (Entry Pull KVal false)) by (by rewrite Hw, lookup_insert).
  assert (Hkn : forall w', v_in w' = v_in w -> knows N0 w').
  { intros w' E x m Hm. rewrite E, Hw, lookup_insert_ne; [by apply HN|]. intros <-. apply HN in Hm. by rewrite Hh in Hm. }
  assert (G : heads Q X (fun w s => exists n i, s = for_loop n b i None /\ v_in w = <[ h := Entry Pull KVal false ]> (v_in w0) /\ keeps_in w0 w /\ at_it w h i) w
    (Do (OItNe i None) eq_refl (fun c =>
    match c with
    | AB true =>
        Do (OItDeref i) eq_refl (fun v =>
        match v with
        | AV v => Block (b v)
            (match n with
             | Some 1 => Skip
             | _ => Do (OItInc i) eq_refl (fun j => match j with AIt j => for_loop (pred <$> n) b j None | _ => Skip end)
             end)
        | _ => Skip
        end)
    | _ => Skip
    end))).
  { apply hd_do.
    { split; [|done]. destruct Hi as [-> | [-> _]]; cbn; [done|by eexists]. }
    { by intros e w' [? _]. }
    intros ? w' [E ->]. injection E as ->. destruct Hi as [-> | [-> Ho]].
    { rewrite bool_decide_eq_false_2 by (by intros []). apply go_on, hd_exit, td_skip. by apply HQ. }
    rewrite bool_decide_eq_true_2 by done. apply go_on, hd_do.
    { exists (Entry Pull KVal false). cbn. split; [done|split; [done|]]. by split. }
    { intros e w' [(m&Hm&Hv) _]. assert (m = Entry Pull KVal false) as -> by congruence. by destruct Hv. }
    intros ? w' [(m&Hm&Hv) ->]. assert (m = Entry Pull KVal false) as -> by congruence. destruct Hv as [v E]. injection E as ->.
    assert (Hkk : forall w', keeps w w' -> keeps_in w0 w').
    { intros w' (K1&K2&K3). destruct Hk as [K4 K5]. split; [congruence|]. intros x Hx' Hox. apply K3; [|by apply K5].
      rewrite Hw. destruct (decide (x = h)) as [->|]; [rewrite lookup_insert; by eexists|by rewrite lookup_insert_ne]. }
    assert (Huw : v_unw w = false) by (destruct Hk; congruence).
    apply go_on, (hd_block _ _ _ (fun w' => keeps w w')).
    { apply Hb; [done|by apply Hkn|done|]. intros w' Kw. by apply HX, Hkk. }
    intros w1 K1 _. assert (Hskip : heads Q X (fun w s => exists n i, s = for_loop n b i None /\ v_in w = <[ h := Entry Pull KVal false ]> (v_in w0) /\ keeps_in w0 w /\ at_it w h i) w1 Skip).
    { apply hd_exit, td_skip, HQ. by apply Hkk. }
    assert (Hdo : heads Q X (fun w s => exists n i, s = for_loop n b i None /\ v_in w = <[ h := Entry Pull KVal false ]> (v_in w0) /\ keeps_in w0 w /\ at_it w h i) w1
       (Do (OItInc (Some h)) eq_refl (fun j => match j with AIt j => for_loop (pred <$> n) b j None | _ => Skip end))).
    { destruct K1 as (E1&E2&E3). assert (Hx1 : v_in w1 !! h = Some (Entry Pull KVal false)) by congruence.
      assert (Kin : forall b, keeps_in w0 (v_learn b h w1)).
      { intros bb. destruct (Hkk w1) as [L1 L2]; [done|]. split; [done|]. intros x Hx' Hox. specialize (L2 x Hx' Hox).
        assert (x <> h) by (intros ->; rewrite Hh in Hx'; by destruct Hx'). destruct bb; cbn; set_solver. }
      apply hd_do.
      { exists (Entry Pull KVal false). cbn. split; [done|]. split; [done|]. split; [done|]. apply E3; [by eexists|done]. }
      { intros e w' (m&Hm'&Hr). assert (m = Entry Pull KVal false) as -> by congruence. cbn in Hr. destruct Hr as [(bb&?&_)|[_ ->]]; [done|]. apply HX, Kin. }
      intros ? w' (m&Hm'&Hr). assert (m = Entry Pull KVal false) as -> by congruence. cbn in Hr. destruct Hr as [(bb&E&->)|[[e ?] _]]; [|done]. injection E as ->.
      apply go_again. eexists _, _. split; [done|]. split; [cbn; congruence|]. split; [apply Kin|]. destruct bb; [right|by left]. split; [done|]. cbn. set_solver. }
    destruct n as [[|[|n]]|]; by apply go_on. }
  destruct n as [[|n]|]; [|exact G..]. cbn. apply hd_exit, td_skip. by apply HQ.
Qed.

Lemma code_tidy g : forall N y w (Q X : view -> Prop), yields N y -> v_unw w = false -> knows N w ->
  (forall w', keeps w w' -> Q w') -> (forall w', keeps w w' -> X w') -> tidy Q X w (code g y).
Proof.
  induction g as [|v|v|e| |g1 IH1 g2 IH2|g IH hd IHh|n src IHs body IHb|f IHf]; intros N y w Q X Hy Hu HN HQ HX; cbn [code].
  - by apply td_skip, HQ.
  - apply Hy; [done|done|by apply HQ].
  - apply td_do; [done|by intros ? ? [? _]|]. intros r w' [_ ->]. by apply td_skip, HQ.
  - by apply td_throw, HX.
  - apply td_return.
  - apply (td_block _ _ _ (keeps w)); [by apply (IH1 N)|]. intros w' K _. apply (IH2 N); [done|by destruct K; congruence|by eapply knows_keeps| |].
    + intros w'' K'. apply HQ. by eapply keeps_trans.
    + intros w'' K'. apply HX. by eapply keeps_trans.
  - apply (td_try _ _ _ (keeps w) (keeps w)); [by apply (IH N)| |].
    + intros e w' K _ _. apply (IHh e N); [done|by destruct K; congruence|by eapply knows_keeps| |].
      * intros w'' K'. by eapply keeps_trans.
      * intros w'' K'. apply HX. by eapply keeps_trans.
    + intros w' K _. by apply td_skip, HQ.
  - assert (Hback : forall h w', v_in w !! h = None -> keeps_in w w' -> v_in (v_without h w') = v_in w -> keeps w (v_without h w')).
    { intros h w' Hh [K1 K2] E. split; [done|]. split; [done|]. intros x Hx Ho. cbn. specialize (K2 x Hx Ho).
      assert (x <> h) by (intros ->; rewrite Hh in Hx; by destruct Hx). set_solver. }
    apply (td_co _ _ _ (fun _ => keeps_in w) (fun _ => keeps_in w)).
    + intros x. apply (IHs {[ x := Entry Push KVal true ]}); [|done|by intros ???|done|done].
      intros v w' Q' X' Hu' Hk' HQ'. specialize (Hk' x _ (lookup_singleton _ _)).
      apply td_do; [exists (Entry Push KVal true); cbn; by rewrite nomove| |].
      * intros e w'' (n'&Hn'&H). assert (n' = Entry Push KVal true) as -> by congruence. cbn in H. by destruct H as [[? _]|[? _]].
      * intros r w'' (n'&Hn'&H). assert (n' = Entry Push KVal true) as -> by congruence. cbn in H. destruct H as [[_ ->]|[? _]]; [|done]. by apply td_skip.
    + by apply HX.
    + intros h Hh. assert (Hin : v_in (made Pull KVal h w) !! h = Some (Entry Pull KVal false)) by (cbn; by rewrite lookup_insert).
      assert (Hkm : keeps_in w (made Pull KVal h w)).
      { split; [done|]. intros x Hx Ho. cbn. assert (x <> h) by (intros ->; rewrite Hh in Hx; by destruct Hx). set_solver. }
      apply td_do; [eexists; done|by intros ? ? (?&?&_)|]. intros ? w' (b&E&n0&Hn&H). rewrite Hin in Hn. injection Hn as <-. cbn in H. destruct H as [_ ->]. injection E as ->.
      apply td_do; [done|by intros ? ? [? _]|]. intros ? w' [E ->]. injection E as ->.
      apply (for_tidy N _ _ w h); try done.
      * intros v w' Q' X' ??. by apply (IHb v N).
      * split; [done|]. intros x Hx Ho. destruct Hkm as [_ Hkm]. specialize (Hkm x Hx Ho). assert (x <> h) by (intros ->; rewrite Hh in Hx; by destruct Hx).
        destruct b; cbn in *; set_solver.
      * destruct b; [right|by left]. split; [done|]. cbn. set_solver.
    + intros h w' Hh K E. by apply HX, Hback.
    + intros h w' Hh K E. by apply td_skip, HQ, Hback.
  - apply goes_tidy with (R := fun w' s => keeps w w' /\ exists i, s = forever_do (fun i => code (f i) y) i); [|split; [done|by eexists]].
    intros w' s [K [i ->]]. rewrite (stm_eta (forever_do _ _)). cbn. apply (hd_block _ _ _ (keeps w)).
    + apply (IHf i N); [done|by destruct K; congruence|by eapply knows_keeps| |].
      * intros w'' K'. by eapply keeps_trans.
      * intros w'' K'. apply HX. by eapply keeps_trans.
    + intros w'' K' _. apply go_again. split; [done|]. by eexists.
Qed.

Lemma gmain_disc g : disciplined cells (gmain g).
Proof.
  apply tidy_disciplined. apply (code_tidy g ∅); [|done|by intros ???|done|done].
  intros v w Q X _ _ HQ. apply td_do; [done|by intros ? ? [? _]|]. intros r w' [_ ->]. by apply td_skip.
Qed.
End tg.
