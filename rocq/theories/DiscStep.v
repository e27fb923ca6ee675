(** DiscStep.v -- programs that follow the discipline keep the invariant of DiscInv.v. *)
From stdpp Require Import prelude gmap relations.
From Coq Require Import Lia.
From Verif Require Import Base Model Spec InvSpec Main Micro Trace Contract Discipline Life Pend Den Own DiscInv.

Local Opaque gmap_lookup map_insert map_delete gmap_partial_alter.

Local Ltac sh := cbn [w_nh w_h w_user put_co w_co w_wait w_cur w_foc alog a_h a_co a_wait a_user a_cur a_nh a_nk a_foc].

Section ds.
Context {env : Env}.
Context (cells : nat -> Prop).
Notation scoped := (scoped cells).
Notation GI := (GI cells).

Lemma elem_learn b x w z : z ∈ v_ok (v_learn b x w) <-> z = x /\ b = true \/ z <> x /\ z ∈ v_ok w.
Proof. destruct b; cbn; set_unfold; destruct (decide (z = x)); naive_solver. Qed.
Lemma elem_swap x y w z : z ∈ v_ok (v_swap x y w) <-> z = x /\ y ∈ v_ok w \/ z = y /\ x ∈ v_ok w \/ z <> x /\ z <> y /\ z ∈ v_ok w.
Proof.
  unfold v_swap. cbn [v_ok]. rewrite !elem_learn, !bool_decide_eq_true. destruct (decide (z = x)), (decide (z = y)); subst; naive_solver.
Qed.
Lemma learn_learn b b' x w : v_learn b x (v_learn b' x w) = v_learn b x w.
Proof. unfold v_learn. cbn. f_equal. apply leibniz_equiv. intros z. destruct (decide (z = x)), b, b'; set_unfold; naive_solver. Qed.
Lemma learn_false x w : x ∉ v_ok w -> v_learn false x w = w.
Proof. intros H. destruct w as [a b c]. unfold v_learn. cbn in *. f_equal. apply leibniz_equiv. intros z. destruct (decide (z = x)) as [->|]; set_unfold; naive_solver. Qed.

(** What the user code of the current context does to its own objects. *)
Section cur.
Context (a : astate) (G : gmap nat view) (w : view).
Context (W0 : a_wait a !! a_cur a = None) (C0 : forall y, a_co a !! a_cur a = Some y -> a_cur a <> 0 /\ active (ac_st y) = true).
Context (I : GI G a None None) (Hw : G !! a_cur a = Some w).

Lemma cur_st y : a_co a !! a_cur a = Some y -> ac_st y = ARun \/ ac_st y = AUnw true.
Proof.
  intros Hy. destruct (gi_dom _ _ _ _ _ I _ _ Hw) as [E|(z&Hz&Hi)]; [by destruct (C0 _ Hy)|]. assert (z = y) as -> by congruence.
  destruct (C0 _ Hy) as [_ Ha]. destruct (ac_st y) as [| | | |[]]; try done; auto.
Qed.
Lemma cur_nsusp y o po k : a_co a !! a_cur a = Some y -> ac_st y <> ASusp o po k.
Proof. intros Hy E. destruct (cur_st _ Hy); congruence. Qed.

Lemma cur_own x n : v_in w !! x = Some n -> n_mine n = false -> exists e, a_h a !! x = Some (HObj (n_side n) (n_kind n) e) /\
    match e with
    | None => x ∉ v_ok w
    | Some (Inner _) => False
    | Some (Outer j) => a_cur a < j /\ exists y, a_co a !! j = Some y /\ (x ∈ v_ok w -> startable (ac_st y) = true) /\ active (ac_st y) = false
    end.
Proof.
  intros Hx Hm. pose proof (gi_sees _ _ _ _ _ I _ _ Hw _ _ Hx) as H. rewrite Hm in H. destruct H as (e&He&H). exists e. split; [done|].
  destruct e as [[j|j]|]; try done. destruct H as (Hl&y&Hy&H1&H2). split; [done|]. exists y. split; [done|]. split; [done|]. destruct (active (ac_st y)) eqn:Ha; [|done].
  destruct (H2 eq_refl) as (?&?&?&E). by rewrite W0 in E.
Qed.
Lemma cur_mine x n : v_in w !! x = Some n -> n_mine n = true -> a_h a !! x = Some (HObj (n_side n) (n_kind n) (Some (Inner (a_cur a)))).
Proof. intros Hx Hm. pose proof (gi_sees _ _ _ _ _ I _ _ Hw _ _ Hx) as H. by rewrite Hm in H. Qed.

Lemma cur_in x n : v_in w !! x = Some n -> exists e, a_h a !! x = Some (HObj (n_side n) (n_kind n) e).
Proof. intros Hx. destruct (n_mine n) eqn:Hm; [by eexists; apply cur_mine|]. destruct (cur_own _ _ Hx Hm) as (e&He&_). by exists e. Qed.

(** The view after a test of [x]. *)
Lemma told_ok x n e b : v_in w !! x = Some n -> a_h a !! x = Some (HObj (n_side n) (n_kind n) e) -> avalid e a = Some b ->
  exists w', told w x b w' /\ GI (<[a_cur a := w']> G) a None None.
Proof.
  intros Hx He Hb. unfold told. destruct (n_mine n) eqn:Hm.
  - exists w. rewrite insert_id by done. split; [|done]. exists n. split; [done|]. rewrite Hm. split; [|done]. rewrite (cur_mine _ _ Hx Hm) in He. injection He as <-. cbn in Hb.
    pose proof cur_st as CS. destruct (a_co a !! a_cur a) as [y|]; [|done]. destruct (CS _ eq_refl) as [E|E]; rewrite E in Hb; by simplify_eq.
  - exists (v_learn b x w). destruct (cur_own _ _ Hx Hm) as (e'&He'&H). rewrite He in He'. injection He' as <-. split.
    + exists n. split; [done|]. rewrite Hm. split; [|done]. intros Hok. destruct e as [[j|j]|]; [|done|done]. destruct H as (_&y&Hy&H1&_). specialize (H1 Hok). cbn in Hb. rewrite Hy in Hb.
      by destruct (ac_st y); simplify_eq.
    + eapply GI_view; [done|done|exact W0|intros *; apply cur_nsusp|done|done|]. intros z n' Hz Hz' Hm'. rewrite elem_learn in Hz. destruct Hz as [[-> ->]|[_ ?]]; [|by left].
      right. destruct e as [[j|j]|]; [|done|done]. destruct H as (_&y&Hy&H1&H2). exists j, y. split; [by eexists _, _|]. split; [done|]. cbn in Hb. rewrite Hy in Hb. by destruct (ac_st y); simplify_eq.
Qed.

Lemma own_dec z : (exists n, v_in w !! z = Some n /\ n_mine n = false) \/ forall n, v_in w !! z = Some n -> n_mine n = true.
Proof. destruct (v_in w !! z) as [n|] eqn:E; [|by right]. destruct (n_mine n) eqn:Em; [right|left; by exists n]. intros n' [= <-]. done. Qed.

Lemma move_ok x n : a_h a !! a_nh a = None -> v_in w !! x = Some n -> n_mine n = false -> forall sd kd e, a_h a !! x = Some (HObj sd kd e) ->
  GI (<[a_cur a := v_learn (bool_decide (x ∈ v_ok w)) (a_nh a) (v_learn false x (v_with (a_nh a) n w))]> G)
     (w_nh (S (a_nh a)) (w_h (<[ x := HObj sd kd None ]> (<[ a_nh a := HObj sd kd e ]> (a_h a))) a)) None None.
Proof.
  intros Hf Hx Hm sd kd e He. destruct (cur_own _ _ Hx Hm) as (e'&He'&Hxe). rewrite He in He'. injection He' as -> -> <-.
  assert (Hne : x <> a_nh a) by congruence.
  assert (Hfw : v_in w !! a_nh a = None). { destruct (v_in w !! a_nh a) as [m|] eqn:E; [|done]. destruct (cur_in _ _ E). congruence. }
  eapply (GI_cur _ G a _ None None None (a_cur a) w); try done; [intros *; apply cur_nsusp|..]; cbn [w_nh w_h a_h a_co a_wait a_user].
  - intros z Hz [? Hz']. rewrite !lookup_insert_ne; [done|congruence|]. intros <-. specialize (Hz _ Hx). congruence.
  - intros z m Hz Hzm. cbn in Hz. apply lookup_insert_Some in Hz as [[<- <-]|[_ Hz]]; [by right|]. left. by exists m.
  - intros z m Hz. cbn in Hz. apply lookup_insert_Some in Hz as [[<- <-]|[Hzn Hz]].
    + rewrite Hm. exists e. sh. rewrite lookup_insert_ne, lookup_insert by done. split; [done|]. destruct e as [[j|j]|]; [|done|].
      * destruct Hxe as (Hl&y&Hy&H1&H2). split; [done|]. exists y. split; [done|]. split; [|by rewrite H2]. rewrite elem_learn. intros [[_ E]|[? _]]; [|done]. apply bool_decide_eq_true in E. auto.
      * rewrite elem_learn. intros [[_ E]|[? _]]; [|done]. by apply bool_decide_eq_true in E.
    + destruct (decide (z = x)) as [->|Hzx].
      * assert (m = n) as -> by congruence. rewrite Hm. exists None. sh. rewrite lookup_insert. split; [done|]. rewrite !elem_learn. naive_solver.
      * pose proof (gi_sees _ _ _ _ _ I _ _ Hw _ _ Hz) as H. sh. rewrite !lookup_insert_ne by done. destruct (n_mine m); [done|]. destruct H as (e1&He1&H). exists e1. split; [done|].
        destruct e1 as [[j|j]|]; [|done|].
        -- destruct H as (Hl&y&Hy&H1&H2). split; [done|]. exists y. split; [done|]. split; [|done]. rewrite !elem_learn. naive_solver.
        -- rewrite !elem_learn. naive_solver.
  - intros z j (sd&kd&Hz). cbn. apply lookup_insert_Some in Hz as [[_ ?]|[Hzx Hz]]; [done|]. apply lookup_insert_Some in Hz as [[<- Hz]|[Hzn Hz]].
    + left. exists n. by rewrite lookup_insert.
    + destruct (own_dec z) as [(m&Hzm&?)|Hz']; [left; exists m; by rewrite lookup_insert_ne|right]. split; [done|by eexists _, _].
  - apply (gi_slot _ _ _ _ _ I).
  - apply (gi_mem _ _ _ _ _ I).
Qed.

Lemma swap_ok x y n : v_in w !! x = Some n -> v_in w !! y = Some n -> n_mine n = false -> forall sd1 kd1 e1 sd2 kd2 e2, a_h a !! x = Some (HObj sd1 kd1 e1) -> a_h a !! y = Some (HObj sd2 kd2 e2) ->
  GI (<[a_cur a := v_swap x y w]> G) (w_h (<[ y := HObj sd2 kd2 e1 ]> (<[ x := HObj sd1 kd1 e2 ]> (a_h a))) a) None None.
Proof.
  intros Hx Hy Hm sd1 kd1 e1 sd2 kd2 e2 Hex Hey. destruct (cur_own _ _ Hx Hm) as (e'&He'&Hxe). rewrite Hex in He'. injection He' as -> -> <-.
  destruct (cur_own _ _ Hy Hm) as (e'&He'&Hye). rewrite Hey in He'. injection He' as -> -> <-.
  eapply (GI_cur _ G a _ None None None (a_cur a) w); try done; [intros *; apply cur_nsusp|..]; cbn [w_nh w_h a_h a_co a_wait a_user].
  - intros z Hz _. rewrite !lookup_insert_ne; [done|..]; intros <-; [specialize (Hz _ Hx)|specialize (Hz _ Hy)]; congruence.
  - intros z m Hz Hzm. left. by exists m.
  - intros z m Hz. cbn in Hz. destruct (decide (z = y)) as [->|Hzy]; [|destruct (decide (z = x)) as [->|Hzx]].
    + assert (m = n) as -> by congruence. rewrite Hm. exists e1. sh. rewrite lookup_insert. split; [done|]. destruct e1 as [[j|j]|]; [|done|].
      * destruct Hxe as (Hl&z&Hz'&H1&H2). split; [done|]. exists z. split; [done|]. split; [|by rewrite H2]. rewrite elem_swap. naive_solver.
      * rewrite elem_swap. naive_solver.
    + assert (m = n) as -> by congruence. rewrite Hm. exists e2. sh. rewrite lookup_insert_ne, lookup_insert by done. split; [done|]. destruct e2 as [[j|j]|]; [|done|].
      * destruct Hye as (Hl&z&Hz'&H1&H2). split; [done|]. exists z. split; [done|]. split; [|by rewrite H2]. rewrite elem_swap. naive_solver.
      * rewrite elem_swap. naive_solver.
    + pose proof (gi_sees _ _ _ _ _ I _ _ Hw _ _ Hz) as H. sh. rewrite !lookup_insert_ne by done. destruct (n_mine m); [done|]. destruct H as (e'&He'&H). exists e'. split; [done|].
      destruct e' as [[j|j]|]; [|done|].
      * destruct H as (Hl&y'&Hy'&H1&H2). split; [done|]. exists y'. split; [done|]. split; [|done]. rewrite elem_swap. naive_solver.
      * rewrite elem_swap. naive_solver.
  - intros z j (sd&kd&Hz). cbn. destruct (decide (z = y)) as [->|Hzy]; [left; by exists n|]. destruct (decide (z = x)) as [->|Hzx]; [left; by exists n|].
    rewrite !lookup_insert_ne in Hz by done. destruct (own_dec z) as [?|Hz']; [by left|right]. split; [done|by eexists _, _].
  - apply (gi_slot _ _ _ _ _ I).
  - apply (gi_mem _ _ _ _ _ I).
Qed.

Lemma drop_ok x n : v_in w !! x = Some n -> n_mine n = false ->
  GI (<[a_cur a := v_without x w]> G) (w_h (delete x (a_h a)) a) None None.
Proof.
  intros Hx Hm.
  eapply (GI_cur _ G a _ None None None (a_cur a) w); try done; [intros *; apply cur_nsusp|..]; cbn [w_nh w_h a_h a_co a_wait a_user].
  - intros z Hz _. rewrite lookup_delete_ne; [done|]. intros <-. specialize (Hz _ Hx). congruence.
  - intros z m Hz Hzm. cbn in Hz. apply lookup_delete_Some in Hz as [_ Hz]. left. by exists m.
  - intros z m Hz. cbn in Hz. apply lookup_delete_Some in Hz as [Hne Hz]. pose proof (gi_sees _ _ _ _ _ I _ _ Hw _ _ Hz) as H. sh. rewrite lookup_delete_ne by done.
    destruct (n_mine m); [done|]. destruct H as (e'&He'&H). exists e'. split; [done|].
    destruct e' as [[j|j]|]; [|done|].
    + destruct H as (Hl&y'&Hy'&H1&H2). split; [done|]. exists y'. split; [done|]. split; [|done]. set_unfold. naive_solver.
    + set_unfold. naive_solver.
  - intros z j (sd&kd&Hz). apply lookup_delete_Some in Hz as [Hne Hz]. cbn. rewrite lookup_delete_ne by done. destruct (own_dec z) as [?|Hz']; [by left|right]. split; [done|by eexists _, _].
  - apply (gi_slot _ _ _ _ _ I).
  - apply (gi_mem _ _ _ _ _ I).
Qed.

(** A new object that is in no view yet. *)
Lemma gain_ok b x sd kd e a' : a_h a !! x = None -> a_co a' = a_co a -> a_wait a' = a_wait a -> a_user a' = a_user a -> a_h a' = <[x := HObj sd kd e]> (a_h a) ->
  match e with
  | None => b = false
  | Some (Inner _) => False
  | Some (Outer j) => a_cur a < j /\ exists y, a_co a !! j = Some y /\ (b = true -> startable (ac_st y) = true) /\ active (ac_st y) = false
  end ->
  GI (<[a_cur a := v_learn b x (v_with x (Entry sd kd false) w)]> G) a' None None.
Proof.
  intros Hf Ec Ew Eu Eh He.
  assert (Hfw : v_in w !! x = None). { destruct (v_in w !! x) as [m|] eqn:E; [|done]. destruct (cur_in _ _ E). congruence. }
  eapply (GI_cur _ G a _ None None None (a_cur a) w); try done; [intros *; apply cur_nsusp|by rewrite Ec|..].
  - intros z Hz [? Hz']. rewrite Eh, lookup_insert_ne; [done|congruence].
  - intros z m Hz Hzm. cbn in Hz. apply lookup_insert_Some in Hz as [[<- <-]|[_ Hz]]; [by right|]. left. by exists m.
  - intros z m Hz. rewrite Eh, Ec, Ew. cbn in Hz. apply lookup_insert_Some in Hz as [[<- <-]|[Hne Hz]].
    + cbn [n_mine n_side n_kind]. exists e. rewrite lookup_insert. split; [done|]. destruct e as [[j|j]|]; [|done|].
      * destruct He as (Hl&y&Hy&H1&H2). split; [done|]. exists y. split; [done|]. split; [|by rewrite H2]. rewrite elem_learn. naive_solver.
      * rewrite elem_learn. naive_solver.
    + pose proof (gi_sees _ _ _ _ _ I _ _ Hw _ _ Hz) as H. rewrite lookup_insert_ne by done. destruct (n_mine m); [done|]. destruct H as (e'&He'&H). exists e'. split; [done|].
      destruct e' as [[j|j]|]; [|done|].
      * destruct H as (Hl&y'&Hy'&H1&H2). split; [done|]. exists y'. split; [done|]. split; [|done]. rewrite elem_learn. naive_solver.
      * rewrite elem_learn. naive_solver.
  - intros z j (sd'&kd'&Hz). rewrite Eh in Hz. cbn. apply lookup_insert_Some in Hz as [[<- Hz]|[Hzn Hz]].
    + left. eexists. by rewrite lookup_insert.
    + destruct (own_dec z) as [(m&Hzm&?)|Hz']; [left; exists m; by rewrite lookup_insert_ne|right]. split; [done|by eexists _, _].
  - rewrite Ec. apply (gi_slot _ _ _ _ _ I).
  - rewrite Eu. apply (gi_mem _ _ _ _ _ I).
Qed.

Lemma local_di o a' r : InvS a -> a_h a !! a_nh a = None -> may cells w o -> local_op o a = Some (a', r) ->
  exists G' w', G' !! a_cur a = Some w' /\ next cells w o (ROk r) w' /\ GI G' a' None None.
Proof.
  intros IS Hf Hmay H.
  assert (Hsame : forall a1, a1 = a -> next cells w o (ROk r) w -> exists G' w', G' !! a_cur a = Some w' /\ next cells w o (ROk r) w' /\ GI G' a1 None None).
  { intros a1 -> Hn. by exists G, w. }
  assert (Htold : forall x b n e, v_in w !! x = Some n -> a_h a !! x = Some (HObj (n_side n) (n_kind n) e) -> avalid e a = Some b ->
    (forall w', told w x b w' -> next cells w o (ROk r) w') -> exists G' w', G' !! a_cur a = Some w' /\ next cells w o (ROk r) w' /\ GI G' a None None).
  { intros x b n e Hx He Hb Hn. destruct (told_ok _ _ _ _ Hx He Hb) as (w'&Ht&HG). eexists _, w'. split; [apply lookup_insert|]. split; [by apply Hn|exact HG]. }
  assert (Hslot : forall e c kd p, readable e a = Some c -> kd = ac_kind c -> ac_slot c = SlFull p -> match kd, p with KVal, PVal _ | KRef, PRef _ => True | _, _ => False end ->
     value_of cells kd (ROk (match p with PVal v => AV v | PRef l => ALoc l end))).
  { intros e c kd p Hr -> Hs Hk. apply readable_co in Hr. destruct (gi_slot _ _ _ _ _ I _ _ Hr) as [_ Hl]. destruct (ac_kind c), p; try done; cbn; [by eexists|]. eexists. split; [|done]. by apply Hl. }
  assert (Hkind : forall x sd kd e c, a_h a !! x = Some (HObj sd kd (Some e)) -> readable e a = Some c -> kd = ac_kind c).
  { intros x sd kd e c Hh Hr. apply readable_co in Hr. symmetry. by destruct (ic_h _ _ _ _ _ IS _ _ _ _ _ Hh Hr). }
  destruct o as [h|h1 h2|h|h|h g|h|h|h|h| |[h|]|[h|]|i j|i j|h| |[h|] g|v|n|l|l v]; cbn in H; try done; cbn in Hmay.
  - destruct Hmay as (n&Hx&Hm). destruct (a_h a !! h) as [[sd kd e]|] eqn:Hh; [|done]. simplify_eq.
    assert (v_in w !! a_nh a = None). { destruct (v_in w !! a_nh a) as [m|] eqn:E; [|done]. destruct (cur_in _ _ E). congruence. }
    eexists _, _. split; [apply lookup_insert|]. split; [|by apply move_ok]. cbn. by exists (a_nh a), n.
  - destruct Hmay as (n&Hx&Hy&Hm). destruct (a_h a !! h1) as [[sd1 kd1 e1]|] eqn:H1; [|done]. destruct (a_h a !! h2) as [[sd2 kd2 e2]|] eqn:H2; [|done].
    destruct (_ && _); [|done]. simplify_eq. eexists _, _. split; [apply lookup_insert|]. split; [|by eapply swap_ok]. done.
  - destruct Hmay as (n&Hx&Hm). eexists _, (v_without h w). split; [apply lookup_insert|]. cbn. destruct (cur_own _ _ Hx Hm) as (e&He&Hxe). rewrite He in H. destruct e as [[j|j]|]; [done|done|].
    simplify_eq. split; [done|]. by eapply drop_ok.
  - destruct Hmay as [n Hx]. destruct (cur_in _ _ Hx) as (e&He). rewrite He in H. destruct (avalid e a) as [b|] eqn:Hb; [|done]. simplify_eq. eapply Htold; try done. intros w' Hw'. by exists b.
  - destruct Hmay as [n Hx]. destruct (cur_in _ _ Hx) as (e&He). rewrite He in H. destruct (avalid e a) as [b|] eqn:Hb; [|done]. simplify_eq. eapply Htold; try done. intros w' Hw'. by exists b.
  - destruct Hmay as (n&Hx&Hs&Hm). destruct (cur_in _ _ Hx) as (e&He). rewrite He, Hs in H. destruct e as [e|]; [|done]. destruct (readable e a) as [c|] eqn:Hr; [|done].
    pose proof (Hkind _ _ _ _ _ He Hr) as Ek. destruct (n_kind n) eqn:Hk; [destruct (ac_slot c) as [|[v|l]|] eqn:Hc|destruct (ac_slot c) as [|[v|l]|] eqn:Hc|]; try done.
    + destruct (move_exn v); [done|]. simplify_eq. exists G, w. split; [done|]. split.
      * cbn. split; [|done]. exists n. split; [done|]. rewrite Hk. by eexists.
      * eapply GI_slot; [exact I|by apply readable_co in Hr|done|done|done|done|by left|by left|done].
    + simplify_eq. apply Hsame; [done|]. cbn. split; [|done]. exists n. split; [done|]. rewrite Hk. by apply (Hslot _ _ _ _ Hr Ek Hc).
  - destruct Hmay as (n&Hx&Hs&Hm). destruct (cur_in _ _ Hx) as (e&He). rewrite He, Hs in H. destruct (not_void (n_kind n)); [|done]. destruct (avalid e a) as [b|] eqn:Hb; [|done]. simplify_eq.
    eapply Htold; [done|done|done|]. intros w' Hw'. by exists b.
  - simplify_eq. by apply Hsame.
  - destruct Hmay as (n&Hx&Hs&Hm). destruct (cur_in _ _ Hx) as (e&He). rewrite He, Hs in H. destruct e as [e|]; [|done]. destruct (readable e a) as [c|] eqn:Hr; [|done].
    pose proof (Hkind _ _ _ _ _ He Hr) as Ek. destruct (n_kind n) eqn:Hk; [destruct (ac_slot c) as [|[v|l]|] eqn:Hc|destruct (ac_slot c) as [|[v|l]|] eqn:Hc|]; try done;
      simplify_eq; (apply Hsame; [done|]); cbn; (split; [|done]); exists n; (split; [done|]); rewrite Hk; by apply (Hslot _ _ _ _ Hr Ek Hc).
  - simplify_eq. by apply Hsame.
  - simplify_eq. by apply Hsame.
  - destruct Hmay as (n&Hx&Hs&Hm). destruct (cur_in _ _ Hx) as (e&He). rewrite He, Hs in H. destruct (not_void (n_kind n)); [|done]. simplify_eq. by apply Hsame.
  - simplify_eq. by apply Hsame.
  - simplify_eq. by apply Hsame.
  - simplify_eq. by apply Hsame.
  - destruct (a_user a !! l) as [v|]; [|done]. simplify_eq. apply Hsame; [done|]. cbn. split; [by eexists|done].
  - simplify_eq. exists G, w. split; [done|]. split; [done|]. eapply GI_eq; [done..|]. right. cbn. intros l' [? ?]. destruct (decide (l = l')) as [->|]; [rewrite lookup_insert|rewrite lookup_insert_ne by done]; by eexists.
Qed.

Lemma xfer_di po x n sd kd e k : v_in w !! x = Some n -> ready w x n -> a_h a !! x = Some (HObj sd kd (Some e)) ->
  po = PoUnit /\ (forall r w', comes_back w x r w' -> scoped w' (k r)) \/ (po = PoInc x \/ po = PoOut x) /\ sd = psd po /\ (forall r w', comes_back_it w x r w' -> scoped w' (k r)) ->
  exists G', GI G' a None None /\ xfocus cells G' a e po k.
Proof.
  intros Hx Hr Hh Hk. unfold ready in Hr. destruct (n_mine n) eqn:Hm.
  - rewrite (cur_mine _ _ Hx Hm) in Hh. injection Hh as <- _ <-. exists G. split; [done|]. exists w. split; [done|]. split; [done|]. unfold yields.
    destruct Hk as [[-> Hk]|(Hpo&Hsd&Hk)].
    + split; [|split; [|done]]; apply Hk; exists n; rewrite Hm; auto.
    + split; [|split; [|done]].
      * destruct Hpo as [-> | ->]; (split; [exists n; split; [done|]; by split|]); apply Hk; exists n; rewrite Hm; auto.
      * apply Hk; exists n; rewrite Hm; auto.
  - destruct (cur_own _ _ Hx Hm) as (e'&He'&H). rewrite Hh in He'. injection He' as -> -> <-. destruct e as [j|j]; [|done].
    exists (<[a_cur a := v_learn false x w]> G). split.
    + eapply GI_view; [done|done|done|intros *; apply cur_nsusp|done|done|]. intros z m Hz. rewrite elem_learn in Hz. left. naive_solver.
    + eexists. split; [apply lookup_insert|].
      assert (x ∉ v_ok (v_learn false x w)) by (rewrite elem_learn; naive_solver).
      assert (holds (a_h a) x (Outer j)) by by eexists _, _.
      destruct Hk as [[-> Hk]|(Hpo&Hsd&Hk)]; cbn.
      * exists x, n. do 4 (split; [done|]). split; [|intros e]; apply Hk; exists n; rewrite Hm; eauto.
      * assert (forall b : bool, scoped (v_learn b x (v_learn false x w)) (k (ROk (AIt (if b then Some x else None))))).
        { intros b. rewrite learn_learn. apply Hk. exists n. rewrite Hm. split; [done|]. left; eauto. }
        assert (forall e, scoped (v_learn false x w) (k (RExn (XUser e)))).
        { intros e. apply Hk. exists n. rewrite Hm. split; [done|]. right; eauto. }
        destruct Hpo as [-> | ->]; exists n; by do 6 (split; [done|]).
Qed.
End cur.

Lemma sc_do_inv w o k : scoped w (SDo o k) -> may cells w o /\ forall r w', next cells w o r w' -> scoped w' (k r).
Proof. intros H. by inversion H. Qed.
Lemma sc_new_inv w sd kd np fn k : scoped w (SNew sd kd np fn k) -> newok cells w sd kd fn k.
Proof. intros H. inversion H; subst. by split. Qed.
Lemma sc_tau_inv w s : scoped w (STau s) -> scoped w s.
Proof. intros H. by inversion H. Qed.

Lemma arg_fine lv g u e : arg_safe lv g -> aconstruct lv g u = Some (inl e) -> False.
Proof. intros Hs H. destruct g as [l|l|v|l|]; cbn in Hs, H; try done; try destruct (u !! l); cbn in H; rewrite ?Hs in H; done. Qed.

Theorem di_init p u : (forall l, cells l -> is_Some (u !! l)) -> disciplined cells p -> DI cells (ainit p u, MFoc).
Proof.
  intros Hu Hp. exists {[0 := View false ∅ ∅]}. split.
  - assert (HG : forall c w, ({[0 := View false ∅ ∅]} : gmap nat view) !! c = Some w -> c = 0 /\ w = View false ∅ ∅). { intros c w H. by apply lookup_singleton_Some in H as [<- <-]. }
    split; cbn.
    + intros c w [-> ->]%HG x n Hx. done.
    + intros c c' w w' x n n' [-> ->]%HG [-> ->]%HG. done.
    + intros x j (sd&kd&H). done.
    + intros c w [-> ->]%HG. by left.
    + intros w [_ ->]%HG. done.
    + done.
    + done.
    + done.
    + done.
    + done.
    + done.
    + done.
  - cbn. eexists. split; [apply lookup_singleton|done].
Qed.

Lemma co_cur a : basic a -> forall y, a_co a !! a_cur a = Some y -> a_cur a <> 0 /\ active (ac_st y) = true.
Proof.
  intros B y Hy. pose proof (ib_dom _ B _ _ Hy). split; [lia|]. destruct (ib_cur _ B) as [E|(z&Hz&?)]; [lia|]. by simplify_eq.
Qed.

(** Control is about to enter coroutine [n]: only the current context can name it. *)
Lemma owner_cur G a n po k gone bad : hinj (a_h a) -> GI G a gone bad -> npo po -> xfocus cells G a (Outer n) po k ->
  forall c w x m, G !! c = Some w -> v_in w !! x = Some m -> n_mine m = false -> holds (a_h a) x (Outer n) -> c = a_cur a /\ x ∉ v_ok w.
Proof.
  intros J I Hp (w0&Hw0&Hr) c w x m Hw Hx Hm (sd&kd&Hh).
  assert (exists x0 n0, v_in w0 !! x0 = Some n0 /\ n_mine n0 = false /\ holds (a_h a) x0 (Outer n) /\ x0 ∉ v_ok w0) as (x0&n0&Hx0&Hm0&(sd0&kd0&Hh0)&Hn).
  { destruct po as [|h|h|h kd']; cbn in Hr; [|..|by destruct (Hp h kd')]; naive_solver. }
  assert (x = x0) as -> by by eapply J. assert (c = a_cur a) as -> by by eapply (gi_dis _ _ _ _ _ I). split; [done|]. by simplify_eq.
Qed.

Theorem di_step p u x y : mreach p u x -> DI cells x -> micro x y -> DI cells y.
Proof.
  intros Hx HD Hm. pose proof (mreach_minv _ _ _ Hx) as M. pose proof (mreach_basic _ _ _ Hx) as B. pose proof (mreach_den _ _ _ Hx) as D. pose proof (mreach_own _ _ _ Hx) as O.
  destruct HD as (G&I&F). pose proof (co_cur _ B) as C0. pose proof (ib_wcur _ B) as W0.
  destruct Hm; cbn in M, B, I, F, C0, W0.
  - (* tau *) rewrite H in F. destruct F as (w&Hw&Hs). exists G. rewrite H in I. split; [by apply (GI_eq _ _ a _ _ _ I); try done; left|]. exists w. split; [done|]. by apply sc_tau_inv.
  - (* call *) rewrite H in F. destruct F as (w&Hw&Hs). exists G. rewrite H in I. split; [by apply (GI_eq _ _ a _ _ _ I); try done; left|]. exists w. split; [done|]. by apply sc_do_inv.
  - rewrite H in F. destruct F as (w&Hw&Hs). exists G. rewrite H in I. split; [by apply (GI_eq _ _ a _ _ _ I); try done; left|]. exists w. split; [done|]. by eapply sc_new_inv.
  - (* ret *) exists G. split; [by apply (GI_eq _ _ a _ _ _ I); try done; left|done].
  - exists G. split; [by apply (GI_eq _ _ a _ _ _ I); try done; left|done].
  - (* local *) destruct F as (w&Hw&Hmay&Hk).
    assert (Hn : a_h a !! a_nh a = None). { destruct (a_h a !! a_nh a) eqn:E; [|done]. apply (d_h _ D) in E. cbn in E. lia. }
    destruct (local_di a G w W0 C0 I Hw o a' r M Hn Hmay H) as (G'&w'&Hw'&Hnx&HG). apply local_op_frame in H as (?&?&?&?&?&?).
    exists G'. split; [by apply (GI_eq _ _ a' _ _ _ HG); try done; left|]. cbn. match goal with E : a_cur a' = a_cur a |- _ => rewrite E end. exists w'. split; [done|]. by apply Hk.
  - (* empty *) destruct F as (w&Hw&Hh&Hs). destruct (d_empty _ D _ _ _ _ eq_refl) as (Hn&_). cbn in Hn.
    eexists. split; [eapply (gain_ok a G w W0 C0 I Hw false h Pull kd None); done|]. cbn. eexists. split; [apply lookup_insert|done].
  - (* destroy *) destruct F as (w&Hw&(m&Hxm&Hm)&Hk). eexists. split.
    + eapply GI_eq; [eapply (drop_ok a G w W0 C0 I Hw h m Hxm Hm)|..]; [done|done|done|by left].
    + cbn. do 4 eexists. split; [done|]. split; [apply lookup_insert|]. cbn. by apply Hk.
  - destruct F as (w&Hw&(m&Hxm&Hs&Hr)&Hk). destruct (xfer_di a G w W0 C0 I Hw PoUnit h m _ _ e k Hxm Hr H) as (G'&HG&Hf); [left; by split|]. by exists G'.
  - destruct F as (w&Hw&(m&Hxm&Hs&Hv&Hr)&Hk). destruct (xfer_di a G w W0 C0 I Hw (PoInc h) h m _ _ e k Hxm Hr H) as (G'&HG&Hf); [right; split; [by left|done]|]. by exists G'.
  - destruct F as (w&Hw&(m&Hxm&Hs&Hr&Hfit&Hc&Hsf)&Hk). destruct (xfer_di a G w W0 C0 I Hw PoUnit h m _ _ e k Hxm Hr H) as (G'&HG&Hf); [left; by split|]. by exists G'.
  - destruct F as (w&Hw&(m&Hxm&Hs&Hr&Hfit&Hc&Hsf)&Hk). destruct (xfer_di a G w W0 C0 I Hw (PoOut h) h m _ _ e k Hxm Hr H) as (G'&HG&Hf); [right; split; [by right|done]|]. by exists G'.
  - exists G. by destruct F.
  - (* a reference is put into the slot *) destruct F as (F&Hl&Hsf). exists G. split; [|done]. cbn. eapply (GI_slot _ _ _ _ _ _ _ (ep_co e) c); [exact I|done..|by left|by left|]. intros l' [= <-]. done.
  - exists G. destruct F as (F&Hl&Fs). split; [|done]. cbn. eapply (GI_slot _ _ _ _ _ _ _ (ep_co e) c); [exact I|done..|by left|by right|done].
  - exists G. destruct F as (F&Hl&Fs). split; [|done]. by apply GI_bad.
  - destruct F as [F Fs]. exists G. split; [|done]. cbn. eapply (GI_slot _ _ _ _ _ _ _ (ep_co e) c); [exact I|done..| |by right|by left|done]. cbn. intros l Hl.
    destruct g as [l'|l'|v'|l'|]; cbn in H0; try done.
    + destruct (a_user a !! l'); cbn in H0; [|done]. rewrite (Fs _) in H0. by simplify_eq.
    + destruct (a_user a !! l'); cbn in H0; [|done]. rewrite (Fs _) in H0. simplify_eq. destruct (decide (l' = l)) as [->|]; [rewrite lookup_insert; by eexists|by rewrite lookup_insert_ne].
    + cbn in Fs. rewrite Fs in H0. by simplify_eq.
  - exfalso. destruct F as [_ Fs]. by eapply arg_fine.
  - (* resume *)
    destruct M as (Hp&_). pose proof (owner_cur _ _ _ _ _ _ _ (o_inj _ O) I Hp F) as Hown. destruct F as (w&Hw&Hr).
    destruct (basic_inactive _ _ _ B H) as [Hnc Hnw]; [by rewrite H0|]. destruct (gi_susp _ _ _ _ _ I _ _ _ _ _ H H0) as (wn&Hwn&Hy).
    exists G. split.
    + set (a1 := w_wait (<[a_cur a := WOp n o po k]> (a_wait a)) a).
      assert (I1 : GI G a1 None None) by (apply (GI_setwait _ G a a1 _ _ (a_cur a) _ _ I W0 eq_refl eq_refl eq_refl eq_refl Hw); done).
      eapply (GI_status' _ G a1 _ _ _ n c); [exact I1|done|..]; try done.
      * destruct (ib_dom _ B _ _ H). lia.
      * intros c' w' z m Hc' Hz Hmz Hh. destruct (Hown _ _ _ _ Hc' Hz Hmz Hh) as [-> Hz']. split; [done|]. intros _. cbn. rewrite lookup_insert. eauto.
      * intros _. cbn. rewrite lookup_insert_ne by done. split; [done|]. split; [done|]. by rewrite H0.
      * by left.
    + cbn. exists wn. split; [done|]. by left.
  - (* enter *)
    destruct M as (Hp&_). pose proof (owner_cur _ _ _ _ _ _ _ (o_inj _ O) I Hp F) as Hown. destruct F as (w&Hw&Hr).
    destruct (basic_inactive _ _ _ B H) as [Hnc Hnw]; [by rewrite H0|].
    assert (HGn : G !! n = None). { destruct (G !! n) eqn:E; [|done]. destruct (gi_dom _ _ _ _ _ I _ _ E) as [->|(y&Hy&Hi)]; [destruct (ib_dom _ B _ _ H); lia|]. assert (y = c) as -> by congruence. by rewrite H0 in Hi. }
    set (a1 := w_wait (<[a_cur a := WOp n o po k]> (a_wait a)) a).
    assert (I1 : GI G a1 None None) by (apply (GI_setwait _ G a a1 _ _ (a_cur a) _ _ I W0 eq_refl eq_refl eq_refl eq_refl Hw); done).
    set (a2 := put_co n (c_by (a_cur a) (c_st ARun c)) a1).
    assert (I2 : GI G a2 None None).
    { eapply (GI_status' _ G a1 a2 _ _ n c); [exact I1|done|..]; try done.
      - destruct (ib_dom _ B _ _ H). lia.
      - intros c' w' z m Hc' Hz Hmz Hh. destruct (Hown _ _ _ _ Hc' Hz Hmz Hh) as [-> Hz']. split; [done|]. intros _. cbn. rewrite lookup_insert. eauto.
      - rewrite HGn. by intros [? ?].
      - by left. }
    eexists. split.
    + eapply GI_eq; [eapply (GI_add _ G a2 None None n (c_by (a_cur a) (c_st ARun c)) I2 HGn)|..]; try done; [cbn; by rewrite lookup_insert|destruct (ib_dom _ B _ _ H); lia|by left].
    + cbn. eexists. split; [apply lookup_insert|]. by apply (gi_new _ _ _ _ _ I _ _ _ H H0).
  - (* yield *)
    destruct M as (Hp&Hr&_). unfold resumable in Hr. apply andb_true_iff in Hr as [->%bool_decide_eq_true Hr].
    rewrite H in Hr. destruct (ac_st c) eqn:Hst; try done. destruct F as (w&Hw&_&Hy).
    assert (j = a_cur a) as ->.
    { destruct (ib_act _ B _ _ H) as [_ (w'&Hw'&E)]; [by rewrite Hst|]. by simplify_eq. }
    destruct (gi_wait _ _ _ _ _ I _ _ H0) as (wb&Hwb&Hres). cbn in Hres.
    exists G. split.
    + set (a1 := put_co (a_cur a) (c_st (ASusp o po k) c) a).
      assert (I1 : GI G a1 None None).
      { eapply (GI_status' _ G a a1 _ _ (a_cur a) c); [exact I|done|..]; try done.
        - destruct (ib_dom _ B _ _ H). lia.
        - intros _. cbn. split; [done|]. split; [done|]. by rewrite Hst.
        - intros o1 po1 k1 [= <- <- <-]. by exists w.
        - by left. }
      eapply (GI_delwait _ G a1 _ _ _ (ac_by c)); [exact I1|done..|]. intros j o1 po1 k1 E. cbn in E. simplify_eq. eexists. cbn. rewrite lookup_insert. split; [done|done].
    + cbn. exists wb. split; [done|]. by right.
  - (* exception in a constructor *) destruct F as (w&Hw&[[? ?]|F]); [done|]. exists G. split; [done|]. cbn. do 4 eexists. split; [done|]. split; [done|]. destruct F as (_&_&_&F). apply F.
  - destruct F as (w&Hw&[[? ?]|F]); [done|]. exists G. split; [done|]. cbn. exists w. split; [done|]. destruct po; cbn in F; [naive_solver..|by destruct (H h kd)].
  - destruct F as (w&Hw&[[_ F]|F]); exists G; (split; [done|]); exists w; (split; [done|]); [by destruct F as (?&_)|by destruct F as (?&?&_&_&_&_&?&_)].
  - (* an iterator looks at its object *)
    destruct F as (w&Hw&[[_ F]|F]).
    + exists G. split; [done|]. exists w. split; [done|]. destruct F as (((m&Hxm&Hm&_)&F)&_). pose proof (cur_mine _ _ _ I Hw _ _ Hxm Hm) as E. rewrite H in E. injection E as _ _ ->. cbn in H0.
      pose proof (cur_st _ _ _ C0 I Hw) as CS. destruct (a_co a !! a_cur a) as [c|]; [|done]. destruct (CS _ eq_refl) as [E|E]; rewrite E in H0; by simplify_eq.
    + destruct F as (m&Hxm&Hm&(sd&kd'&Hh)&Hn&F&_). destruct (told_ok _ _ _ W0 C0 I Hw h m e b Hxm) as (w'&(m'&Hxm'&Ht)&HG); [|done|].
      { destruct (cur_in _ _ _ W0 I Hw _ _ Hxm) as [e' He']. congruence. }
      simplify_eq. rewrite Hm in Ht. destruct Ht as [_ ->]. eexists. split; [exact HG|]. eexists. split; [apply lookup_insert|]. apply F.
  - destruct F as (w&Hw&[[_ F]|F]).
    + exists G. split; [done|]. exists w. split; [done|]. destruct F as (((m&Hxm&Hm&_)&F)&_). pose proof (cur_mine _ _ _ I Hw _ _ Hxm Hm) as E. rewrite H in E. injection E as _ _ ->. cbn in H0.
      pose proof (cur_st _ _ _ C0 I Hw) as CS. destruct (a_co a !! a_cur a) as [c|]; [|done]. destruct (CS _ eq_refl) as [E|E]; rewrite E in H0; by simplify_eq.
    + destruct F as (m&Hxm&Hm&(sd&kd'&Hh)&Hn&F&_). destruct (told_ok _ _ _ W0 C0 I Hw h m e b Hxm) as (w'&(m'&Hxm'&Ht)&HG); [|done|].
      { destruct (cur_in _ _ _ W0 I Hw _ _ Hxm) as [e' He']. congruence. }
      simplify_eq. rewrite Hm in Ht. destruct Ht as [_ ->]. eexists. split; [exact HG|]. eexists. split; [apply lookup_insert|]. apply F.
  - (* nothing to construct *) destruct F as (w&Hw&[[_ [F _]]|F]); [done|]. exists G. split; [done|]. cbn. do 4 eexists. split; [done|]. split; [done|]. destruct F as (F1&_&F2&_). by split.
  - (* constructor done *) destruct F as (w&Hw&[[_ [F _]]|F]); [done|]. destruct F as (Hh&Hl&F&_).
    assert (Hres : a_h a !! h = None). { eapply (d_res _ D). by right. }
    eexists. split; [eapply (gain_ok a G w W0 C0 I Hw false h Pull kd (Some (Outer j))); try done|].
    + split; [done|]. exists c. split; [done|]. by rewrite H0.
    + cbn. eexists. split; [apply lookup_insert|done].
  - exists G. split; [by apply (GI_eq _ _ a _ _ _ I); try done; left|done].
  - exists G. done.
  - (* destroy a suspended coroutine *)
    destruct F as (o1&f1&k1&w1&->&Hw1&Hend). destruct (basic_inactive _ _ _ B H) as [Hnc Hnw]; [by rewrite H0|].
    destruct (gi_susp _ _ _ _ _ I _ _ _ _ _ H H0) as (wn&Hwn&Hy).
    eexists. split.
    + set (a1 := w_wait (<[a_cur a := WKill j o1 f1 k1]> (a_wait a)) a).
      assert (I1 : GI G a1 None None) by (apply (GI_setwait _ G a a1 _ _ (a_cur a) _ _ I W0 eq_refl eq_refl eq_refl eq_refl Hw1); done).
      eapply (GI_status _ G a1 _ _ _ j c); [exact I1|done|..]; try done.
      * destruct (ib_dom _ B _ _ H). lia.
      * intros c' w' z m Hc' Hz Hmz (sd&kd&Hh). exfalso. destruct (o_own _ O j) as [_ Hb]; [eexists _, _; split; [exact Hh|done]|]. apply Hb. by right.
      * intros _. cbn. rewrite lookup_insert_ne by done. done.
      * destruct (ac_side c); [by right|by left].
    + cbn. exists (v_dying wn). rewrite lookup_alter, Hwn. split; [done|]. by destruct Hy as (_&?&_).
  - (* destroy an idle coroutine *)
    destruct F as (o1&f1&k1&w1&->&Hw1&Hend). destruct (basic_inactive _ _ _ B H) as [Hnc Hnw]; [by destruct (ac_st c)|].
    assert (HGn : G !! j = None). { destruct (G !! j) eqn:E; [|done]. destruct (gi_dom _ _ _ _ _ I _ _ E) as [->|(y&Hy&Hi)]; [destruct (ib_dom _ B _ _ H); lia|]. assert (y = c) as -> by congruence. by destruct (ac_st c). }
    exists G. split; [|done].
    set (a1 := w_wait (<[a_cur a := WKill j o1 f1 k1]> (a_wait a)) a).
    assert (I1 : GI G a1 None None) by (apply (GI_setwait _ G a a1 _ _ (a_cur a) _ _ I W0 eq_refl eq_refl eq_refl eq_refl Hw1); done).
    eapply (GI_status' _ G a1 _ _ _ j c); [exact I1|done|..]; try done.
    + destruct (ib_dom _ B _ _ H). lia.
    + intros c' w' z m Hc' Hz Hmz (sd&kd&Hh). exfalso. destruct (o_own _ O j) as [_ Hb]; [eexists _, _; split; [exact Hh|done]|]. apply Hb. by right.
    + rewrite HGn. by intros [? ?].
    + cbn. destruct (ac_side c); [by right|by left].
  - destruct F as (w&Hw&Hn). exists G. split; [by apply (GI_eq _ _ a _ _ _ I); try done; left|]. exists w. split; [done|]. apply Hn.
  - exists G. split; [by apply (GI_eq _ _ a _ _ _ I); try done; left|done].
  - destruct F as (w&Hw&Hn). exists G. split; [done|]. exists w. split; [done|]. apply Hn.
  - (* a pull function is entered *)
    destruct F as (w&Hw&Hfn&Hk&He). destruct M as (IC&Hnk&Hnh).
    assert (Hnn : a_co a !! n = None). { destruct (a_co a !! n) eqn:E; [|done]. apply (ic_dom _ _ _ _ _ IC) in E. lia. }
    assert (Hs : a_h a !! a_nh a = None). { destruct (a_h a !! a_nh a) eqn:E; [|done]. apply (d_h _ D) in E. cbn in E. lia. }
    assert (Hs' : a_h a !! h = None). { destruct (a_h a !! h) eqn:E; [|done]. apply (d_h _ D) in E. cbn in E. lia. }
    assert (Hhw : v_in w !! h = None). { destruct (v_in w !! h) as [m|] eqn:E; [|done]. destruct (cur_in _ _ _ W0 I Hw _ _ E). congruence. }
    assert (Hcn : a_cur a < n). { destruct (ic_cur _ _ _ _ _ IC) as [->|(y&Hy&_)]; [apply (ic_nk _ _ _ _ _ IC)|apply (ic_dom _ _ _ _ _ IC) in Hy; lia]. }
    assert (HGn : G !! n = None). { destruct (G !! n) eqn:E; [|done]. destruct (gi_dom _ _ _ _ _ I _ _ E) as [?|(y&Hy&Hi)]; [lia|]. congruence. }
    set (y0 := ACo Pull kd ARun SlEmpty (a_nh a) (a_cur a)).
    set (a1 := put_co n y0 (w_h (<[ a_nh a := HObj Push kd (Some (Inner n)) ]> (a_h a)) (w_nh (S (a_nh a)) a))).
    assert (I1 : GI G a1 None None). { eapply (GI_born _ G a a1 _ _ n y0); try done. lia. }
    set (a2 := w_wait (<[ a_cur a := WOp n (NNew Pull kd) (PoNew h kd) k ]> (a_wait a)) a1).
    assert (I2 : GI G a2 None None). { apply (GI_setwait _ G a1 a2 _ _ (a_cur a) _ _ I1 W0 eq_refl eq_refl eq_refl eq_refl Hw). cbn. split; [done|]. split; [done|]. split; [by apply Hk|done]. }
    eexists. split.
    + eapply GI_eq; [eapply (GI_add _ G a2 None None n y0 I2 HGn)|..]; try done; [cbn; by rewrite lookup_insert|lia|by left].
    + cbn. eexists. split; [apply lookup_insert|]. apply Hfn.
  - (* a push object is made *)
    destruct F as (w&Hw&Hfn&Hk&He). destruct M as (IC&Hnk&Hnh).
    assert (Hnn : a_co a !! n = None). { destruct (a_co a !! n) eqn:E; [|done]. apply (ic_dom _ _ _ _ _ IC) in E. lia. }
    assert (Hs : a_h a !! a_nh a = None). { destruct (a_h a !! a_nh a) eqn:E; [|done]. apply (d_h _ D) in E. cbn in E. lia. }
    assert (Hs' : a_h a !! h = None). { destruct (a_h a !! h) eqn:E; [|done]. apply (d_h _ D) in E. cbn in E. lia. }
    assert (Hhw : v_in w !! h = None). { destruct (v_in w !! h) as [m|] eqn:E; [|done]. destruct (cur_in _ _ _ W0 I Hw _ _ E). congruence. }
    assert (Hcn : a_cur a < n). { destruct (ic_cur _ _ _ _ _ IC) as [->|(y&Hy&_)]; [apply (ic_nk _ _ _ _ _ IC)|apply (ic_dom _ _ _ _ _ IC) in Hy; lia]. }
    set (y0 := ACo Push kd (ANew fn) SlEmpty (a_nh a) (a_cur a)).
    set (a1 := put_co n y0 (w_h (<[ a_nh a := HObj Pull kd (Some (Inner n)) ]> (a_h a)) (w_nh (S (a_nh a)) a))).
    assert (I1 : GI G a1 None None). { eapply (GI_born _ G a a1 _ _ n y0); try done. lia. }
    eexists. split.
    + eapply (gain_ok a1 G w) with (b := true) (x := h) (sd := Push) (kd := kd) (e := Some (Outer n)); try done.
      * cbn. intros y. rewrite lookup_insert_ne by lia. apply C0.
      * cbn. rewrite lookup_insert_ne by lia. done.
      * split; [done|]. exists y0. cbn. rewrite lookup_insert. done.
    + cbn. eexists. split; [apply lookup_insert|]. by apply Hk.
  - (* the function is left *)
    rewrite H in F, I. destruct F as (w&Hw&Hs). exists (delete (a_cur a) G). split; [|cbn; apply lookup_delete].
    eapply GI_eq; [eapply (GI_leave _ G a _ _ _ w I Hw)|..]; try done; [|by intros *; apply (cur_nsusp _ _ _ C0 I Hw)|by left].
    destruct s as [|[]| | |]; try done; inversion Hs; done.
  - destruct M as (_&c'&Hc'&Hst). assert (c' = c) as -> by congruence.
    assert (j = a_cur a) as ->.
    { destruct (ib_act _ B _ _ H) as [_ (w'&Hw'&E)]; [by rewrite Hst|]. by simplify_eq. }
    destruct (gi_wait _ _ _ _ _ I _ _ H0) as (wb&Hwb&Hres). cbn in Hres.
    exists G. split.
    + set (a1 := put_co (a_cur a) (c_st (ADone x) c) a).
      assert (I1 : GI G a1 None None).
      { eapply (GI_status' _ G a a1 _ _ (a_cur a) c); [exact I|done|..]; try done.
        - destruct (ib_dom _ B _ _ H). lia.
        - intros c' w' z m Hc1 Hz Hmz (sd&kd&Hh). split; [|done]. intros Hok. pose proof (gi_sees _ _ _ _ _ I _ _ Hc1 _ _ Hz) as Hsee. rewrite Hmz in Hsee. destruct Hsee as (e&He&Hsee).
          simplify_eq. destruct Hsee as (_&y&Hy&H1&_). simplify_eq. rewrite Hst in H1. by specialize (H1 Hok).
        - rewrite F. by intros [? ?].
        - by left. }
      eapply (GI_delwait _ G a1 _ _ _ (ac_by c)); [exact I1|done..|]. intros j o1 po1 k1 E. cbn in E. simplify_eq. eexists. cbn. rewrite lookup_insert. split; [done|done].
    + cbn. exists wb. split; [done|]. by right.
  - rewrite H in F, I. destruct F as (w&Hw&Hs). exists (delete (a_cur a) G). split; [|cbn; apply lookup_delete].
    eapply GI_eq; [eapply (GI_leave _ G a _ _ _ w I Hw)|..]; try done; [|by intros *; apply (cur_nsusp _ _ _ C0 I Hw)|by left]. by inversion Hs.
  - (* the counterpart is destroyed *) rewrite H in F, I. exists G. split; [|done]. eapply (GI_gone _ G a _ (a_cur a) c); done.
  - exfalso. rewrite H in I. destruct (gi_syn _ _ _ _ _ I _ _ H0) as [?|E]; [done|]. congruence.
  - rewrite H in F, I. exists G. split; [by apply (GI_eq _ _ a _ _ _ I); try done; left|done].
  - rewrite H in F, I. exists G. done.
  - (* the stack is released *)
    destruct M as (_&c'&Hc'&Hst). assert (c' = c) as -> by congruence.
    destruct (gi_wait _ _ _ _ _ I _ _ H0) as (wb&Hwb&Hwt).
    set (a0 := alog (EvFree (a_cur a)) (w_co (delete (a_cur a) (a_co a)) a)).
    assert (I0 : GI G a0 None None).
    { eapply (GI_free _ G a a0 (a_cur a)); try done. intros z (sd&kd&Hz). destruct (o_own _ O (a_cur a)) as [(c'&Hc1&Hu) _]; [eexists _, _; split; [exact Hz|done]|]. cbn in Hc1. congruence. }
    assert (I1 : GI G a1 None None).
    { eapply (GI_delwait _ G a0 _ _ _ (ac_by c)); [exact I0|done..|]. intros j o1 po1 k1 E. cbn in E. rewrite H0 in E. injection E as ->. done. }
    destruct w as [|? ? []|]; [done|..]; subst y; cbn in Hwt; try done; exists G; (split; [done|]); cbn; exists wb; naive_solver.
Qed.

Theorem mreach_di p u x : (forall l, cells l -> is_Some (u !! l)) -> disciplined cells p -> mreach p u x -> DI cells x.
Proof. intros Hu Hp. apply (mreach_ind p u (DI cells)); [by apply di_init|intros ???; by eapply di_step]. Qed.
End ds.
