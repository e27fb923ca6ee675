(** FactsCtl.v -- control returns to the call that resumed the coroutine last. *)
From stdpp Require Import prelude gmap relations.
From Coq Require Import Lia.
From Verif Require Import Base Model Spec InvSpec Main Micro Trace Life Pend Den Tgt Stack Hist Next Rules RulesProof FactsLife FactsSeq FactsBack FactsCall Ctl.

Section factsctl.
Context {env : Env} {comp : Compiler}.
Implicit Types h b : list event.

(** Destruction or construction of the transferred object. *)
Definition slot_event (e : event) : bool := match e with EvSet _ _ | EvDel _ => true | _ => false end.

Lemma local_transfer o a r : local_op o a = Some r -> transfer (NOp o) = false.
Proof. destruct o as [h|h1 h2|h|h|h g|h|h|h|h| |[h|]|[h|]|i j|i j|h| |[h|] g|v|n|l|l v]; done. Qed.

Lemma ret_resumed p u n c o r b j : respects p u n -> occurs (hist p u n) (EvRet c (NOp o) r) b -> transfer (NOp o) = true ->
  tgt c b = Some (Outer j) -> exists b', resumed j b = Some (c, NOp o, b') /\ since c (NOp o) b' b.
Proof.
  intros Hr Ho Ht Hj. destruct (hist_at _ _ _ _ _ Hr Ho) as ([a f]&y&Hx&Hm&Hb&Hc&Hy). cbn [fst snd] in *. subst c b.
  destruct Hy as [(k&->&_)|[(o'&k&a'&->&E&Hl&_)|(h&kd&k&->&_)]].
  - destruct (ci_back _ (mreach_ctl _ _ _ Hx) j (NOp o)) as (b'&H1&H2); [done|]. eauto.
  - injection E as <-. apply local_transfer in Hl. congruence.
  - pose proof (pi_foc _ (mreach_pend _ _ _ Hx)) as Q. cbn in Q. done.
Qed.

Lemma exn_resumed p u n c o e j h : respects p u n -> occurs (hist p u n) (EvExn c o (XUser e)) (EvLeave j (Some (XUser e)) :: h) ->
  tgt c (EvLeave j (Some (XUser e)) :: h) = Some (Outer j) -> exists b', resumed j h = Some (c, o, b') /\ since c o b' h.
Proof.
  intros Hr Ho Hj. destruct (hist_at _ _ _ _ _ Hr Ho) as ([a f]&y&Hx&Hm&Hb&Hc&k&Hf&_). cbn [fst snd] in *. subst c f.
  destruct (ci_back _ (mreach_ctl _ _ _ Hx) j o) as (b'&H1&H2).
  { unfold back. cbn [fst snd]. rewrite Hb. eauto. }
  cbn [fst snd] in *. rewrite Hb in H1, H2. exists b'. split; [done|]. destruct H2 as ([|e0 l]&E&Hl); [done|]. injection E as <- E. exists l. split; [done|]. by inversion Hl.
Qed.

Lemma new_resumed p u n j x b : respects p u n -> occurs (hist p u n) (EvNew j x) b -> (forall b', b <> EvAlloc j :: b') ->
  exists c kd' b', resumed j b = Some (c, NNew Pull kd', b') /\ since c (NNew Pull kd') b' b.
Proof.
  intros Hr Ho Hcl. destruct (hist_at _ _ _ _ _ Hr Ho) as ([a f]&y&Hx&Hm&Hb&Hy). cbn [fst snd] in *. subst b.
  destruct Hy as [(o&kd'&k&c&o'&po'&k'&Hf&Hc&Hs&_)|(kd'&np&fn&k&Hf&_)]; cbn [fst snd] in Hf; subst f.
  - pose proof (pi_foc _ (mreach_pend _ _ _ Hx)) as Q. cbn in Q. subst o.
    pose proof (tg_foc _ (mreach_tgt _ _ _ Hx)) as F. cbn in F. destruct F as [(F&_)|(_&_&F)]; [|by destruct (F x kd')].
    destruct (ci_back _ (mreach_ctl _ _ _ Hx) j (NNew Pull kd')) as (b'&H1&H2); [done|]. eauto.
  - pose proof (tg_foc _ (mreach_tgt _ _ _ Hx)) as F. cbn in F. destruct F as [h' F]. by destruct (Hcl _ F).
Qed.

Lemma leave_resumed p u n k r b : respects p u n -> occurs (hist p u n) (EvLeave k r) b -> r <> Some XUnwind ->
  exists c o b' s, cstack b = k :: c :: s /\ pend c b = Some o /\ tgt c b = Some (Outer k) /\ resumed k b = Some (c, o, b') /\ since c o b' b.
Proof.
  intros Hr Ho Hne. destruct (hist_at _ _ _ _ _ Hr Ho) as ([a f]&y&Hx&Hm&Hb&Hy). cbn [fst snd] in *. subst b.
  destruct Hy as (->&Hf&[(s&c&ex&Hs&Hl&->&Hc&Hst&_)|(c&en&_&->&_)]); [|done]. cbn [fst snd] in *. subst f.
  destruct (ci_run _ (mreach_ctl _ _ _ Hx) _ _ Hc Hst) as (o&po&kk&b'&H1&H2&_&H4). cbn [fst snd] in *.
  destruct (stack_cur p u a MFoc Hx) as (s'&Hcs&Hch). { cbn. rewrite Hs. done. }
  assert (Hk0 : a_cur a <> 0) by (apply (ib_dom _ (mreach_basic _ _ _ Hx)) in Hc; lia).
  destruct (chain_inv _ _ _ _ Hch Hc Hk0) as (l'&E&_&Hch'). injection E as <-. destruct (chain_head _ _ _ Hch') as [l'' ->].
  assert (Hne' : ac_by c <> a_cur a). { intros E. rewrite E in H1. pose proof (ib_wcur _ (mreach_basic _ _ _ Hx)). cbn [fst snd] in *. congruence. }
  exists (ac_by c), o, b', l''. split; [done|]. split.
  - pose proof (pi_pend _ (mreach_pend _ _ _ Hx) (ac_by c)) as Q. cbn [fst snd] in Q. rewrite Q. unfold xop. cbn [fst snd]. rewrite decide_False by done. by rewrite H1.
  - split; [exact (tg_wait _ (mreach_tgt _ _ _ Hx) _ _ H1)|]. split; [|done]. apply H4. by intros [_ ?].
Qed.

Lemma hands_handover u d h e : hands d h -> follows u h e -> slot_event e = false -> (exists c o ex, e = EvExn c o (XUser ex) /\ exists b, h = EvCall c o :: b) \/ handover d h e.
Proof.
  destruct h as [|e0 b]; [done|]. destruct e0 as [c o|c o a|c o ex|m y|m r|m p0|m|m y|m y|m|m]; try done.
  - destruct o as [o|sd kd]; [|done]. intros (x&Hx&Hd&H) Hf Hs.
    assert (Hcase : (exists sd k kd, den b !! x = Some (Some (receiver sd k)) /\ cls k b = Some (sd, kd) /\ handover (receiver sd k) (EvCall c (NOp o) :: b) e /\ recv (NOp o) = true) \/
      (exists sd k kd g, den b !! x = Some (Some (sender sd k)) /\ cls k b = Some (sd, kd) /\ push_follows u c (NOp o) g (sender sd k) kd (EvCall c (NOp o) :: b) e)).
    { destruct o as [h|h1 h2|h|h|h g|h|h|h|h| |[h|]|[h|]|i j|i j|h| |[h|] g|v|n|l|l v]; cbn in Hx; try (by destruct H as [(?&?)|(?&?&?&?)]); injection Hx as ->; cbn in Hf.
      all: destruct Hf as (sd&k&kd&?&?&?); first [by left; exists sd, k, kd|by right; exists sd, k, kd, g]. }
    destruct Hcase as [(sd&k&kd&E&Hc&Hh&_)|(sd&k&kd&g&E&Hc&Hh)]; rewrite Hd in E; injection E as ->; [by right|].
    unfold push_follows in Hh. destruct kd; [|destruct Hh as (?&?&->); done|by right].
    destruct Hh as [[? ->]|(_&v&_&->)]; [done|]. destruct (arg_exn (NOp o) v); [|done]. left. eauto 10.
  - intros (sd&kd&Hc&->&_) (sd'&kd'&Hc'&_&Hh) _. right. rewrite Hc in Hc'. by injection Hc' as <- <-.
Qed.

Lemma del_del u k k' b : follows u (EvDel k :: b) (EvDel k') -> False.
Proof.
  cbn. destruct b as [|[c o|c o a|c o ex|m y|m r|m p0|m|m y|m y|m|m] b].
  - destruct (cls k []) as [[[] ?]|]; [apply dies_del|done|done].
  - destruct (push_arg o); [apply constructs_del|apply dies_del].
  - destruct (cls k _) as [[[] ?]|]; [apply dies_del|done|done].
  - destruct (cls k _) as [[[] ?]|]; [apply dies_del|done|done].
  - destruct (cls k _) as [[[] ?]|]; [apply dies_del|done|done].
  - destruct (cls k _) as [[[] ?]|]; [apply dies_del|done|done].
  - destruct (cls k _) as [[[] ?]|]; [apply dies_del|done|done].
  - destruct (cls k _) as [[[] ?]|]; [apply dies_del|done|done].
  - destruct (cls k _) as [[[] ?]|]; [apply dies_del|done|done].
  - destruct (cls k _) as [[[] ?]|]; [apply dies_del|done|done].
  - destruct (cls k _) as [[[] ?]|]; [apply dies_del|done|done].
  - destruct (cls k _) as [[[] ?]|]; [apply dies_del|done|done].
Qed.

Lemma set_tgt p u n k v b : respects p u n -> occurs (hist p u n) (EvSet k v) b ->
  exists c o d h', pushop o /\ (b = EvCall c o :: h' \/ b = EvDel k :: EvCall c o :: h') /\ ep_co d = k /\ tgt c b = Some d /\ hd 0 (cstack b) = c.
Proof.
  intros Hr Ho. destruct (hist_at _ _ _ _ _ Hr Ho) as ([a f]&y&Hx&Hm&Hb&Hy). cbn [fst snd] in *. subst b.
  destruct Hy as [(d&lv&l&o&po&kk&c&Hf&->&_)|(d&lv&g&o&po&kk&c&w&U&Hf&->&_)]; cbn [fst snd] in Hf; subst f;
    pose proof (tg_foc _ (mreach_tgt _ _ _ Hx)) as F; cbn in F; destruct F as (F1&F2&h'&F3);
    (destruct (stack_cur p u a _ Hx) as (s'&Hcs&_); [done|]); rewrite Hcs; exists (a_cur a), o, d, h'; auto.
Qed.

Lemma yield_hands p u n c o x b l e d : respects p u n -> occurs (hist p u n) e (l ++ EvCall c (NOp o) :: b) -> transfer (NOp o) = true ->
  opobj o = Some x -> den b !! x = Some (Some d) -> forallb slot_event l = true -> slot_event e = false ->
  hands d (l ++ EvCall c (NOp o) :: b) \/ exists ex, e = EvExn c (NOp o) (XUser ex).
Proof.
  intros Hr Ho Ht Hx Hd Hl He. pose proof (history_follows _ _ _ _ _ Hr Ho) as Hf.
  assert (Hr1 : forall e', occurs (hist p u n) e' (EvCall c (NOp o) :: b) ->
    (recv (NOp o) = true /\ exists sd k kd, d = receiver sd k /\ cls k b = Some (sd, kd) /\ handover d (EvCall c (NOp o) :: b) e') \/
    (exists sd k kd g, push_arg (NOp o) = Some g /\ d = sender sd k /\ cls k b = Some (sd, kd) /\ push_follows u c (NOp o) g d kd (EvCall c (NOp o) :: b) e')).
  { intros e' Ho'. pose proof (history_follows _ _ _ _ _ Hr Ho') as Hf'.
    destruct o as [h|h1 h2|h|h|h g|h|h|h|h| |[h|]|[h|]|i j|i j|h| |[h|] g|v|n0|l0|l0 v]; try done; injection Hx as ->; cbn in Hf'; destruct Hf' as (sd&k&kd&E&?&?); rewrite Hd in E; injection E as ->.
    1,3: left; split; [done|]; by exists sd, k, kd.
    all: right; by exists sd, k, kd, g. }
  destruct l as [|e1 l].
  - cbn [app] in *. destruct (Hr1 _ Ho) as [(Hv&sd&k&kd&->&Hc&_)|(sd&k&kd&g&Hg&->&Hc&Hp)].
    + left. exists x. split; [done|]. split; [done|]. left. split; [done|]. exists sd, kd. by rewrite ep_receiver.
    + unfold push_follows in Hp. destruct kd.
      * destruct Hp as [[_ ->]|(_&v&_&->)]; [done|]. destruct (arg_exn (NOp o) v); [|done]. eauto.
      * by destruct Hp as (?&_&->).
      * left. exists x. split; [done|]. split; [done|]. right. exists sd, g. by rewrite ep_sender.
  - cbn [forallb app] in *. apply andb_true_iff in Hl as [He1 Hl].
    assert (Ho1 : occurs (hist p u n) e1 (l ++ EvCall c (NOp o) :: b)) by (by eapply occurs_tail).
    destruct e1 as [| | | | |k v|k| | | |]; try done.
    + left. destruct (set_tgt _ _ _ _ _ _ Hr Ho1) as (c'&o'&d'&h'&Hp&Hb&Hk&Htg&Hhd).
      assert (c' = c /\ o' = NOp o /\ h' = b) as (->&->&->).
      { destruct Hb as [Hb|Hb].
        - destruct l as [|e2 l]; [by injection Hb as -> -> ->|]. cbn in Hb. injection Hb as -> _. done.
        - destruct l as [|e2 l]; [done|]. cbn in Hb. injection Hb as -> Hb. destruct l as [|e3 l]; [by injection Hb as -> -> ->|]. cbn in Hb, Hl. injection Hb as -> _. done. }
      assert (d' = d) as ->.
      { assert (tgt c (EvCall c (NOp o) :: b) = Some d) as E. { cbn. rewrite decide_True by done. rewrite Hx. cbn. by rewrite Hd. }
        destruct Hb as [Hb|Hb]; rewrite Hb in Htg; cbn [tgt] in Htg, E; congruence. }
      destruct (next_set _ _ _ _ _ _ _ Hr Ho) as (sd&kd&Hts&Hc&_). exists sd, kd. split; [done|]. rewrite Hhd in *. split; [congruence|done].
    + right. destruct l as [|e2 l].
      * cbn [app] in *. destruct (Hr1 _ Ho1) as [(Hv&sd&k'&kd&->&Hc&Hh)|(sd&k'&kd&g&Hg&->&Hc&Hp)].
        { by apply handover_del in Hh. }
        cbn in Hf. cbn in Hg. rewrite Hg in Hf. destruct Hf as (v&_&->). destruct (arg_exn (NOp o) v); [|done]. eauto.
      * cbn [forallb app] in *. apply andb_true_iff in Hl as [He2 Hl]. pose proof (history_follows _ _ _ _ _ Hr Ho1) as Hf1.
        destruct e2 as [| | | | |k2 v|k2| | | |]; try done.
        { destruct Hf1 as (sd&kd&_&_&Hh). by apply handover_del in Hh. }
        { by apply del_del in Hf1. }
Qed.

Lemma since_tail c o b e h : since c o b (e :: h) -> e <> EvCall c o \/ h <> b -> since c o b h.
Proof.
  intros ([|e' l]&E&Hl) Hne; cbn in E.
  - injection E as -> ->. destruct Hne; done.
  - injection E as <- ->. exists l. split; [done|]. by inversion Hl.
Qed.

Lemma resumed_slot k l b : forallb slot_event l = true -> resumed k (l ++ b) = resumed k b.
Proof. induction l as [|e l IH]; [done|]. cbn. intros [He Hl]%andb_true_iff. rewrite <- (IH Hl). by destruct e. Qed.

Lemma slot_stack l b : forallb slot_event l = true -> cstack (l ++ b) = cstack b.
Proof. induction l as [|e l IH]; [done|]. cbn. intros [He Hl]%andb_true_iff. rewrite <- (IH Hl). by destruct e. Qed.

Lemma call_stack p u n c o b : respects p u n -> occurs (hist p u n) (EvCall c o) b -> exists s, cstack b = c :: s.
Proof.
  intros Hr Ho. destruct (hist_at _ _ _ _ _ Hr Ho) as ([a f]&y&Hx&Hm&Hb&Hy). cbn [fst snd] in *. subst b.
  destruct Hy as (->&Hf&Hy). cbn [fst snd] in *. subst f. destruct (stack_cur p u a MFoc Hx) as (s'&Hcs&_); [|eauto].
  cbn. destruct Hy as [(o'&k&_&E&_)|(sd&kd&np&fn&k&_&E&_)]; rewrite E; done.
Qed.

Lemma yield_resumed p u n k j o x b l e : respects p u n -> occurs (hist p u n) e (l ++ EvCall k (NOp o) :: b) -> transfer (NOp o) = true ->
  opobj o = Some x -> den b !! x = Some (Some (Inner j)) -> forallb slot_event l = true -> slot_event e = false ->
  (exists ex, e = EvExn k (NOp o) (XUser ex)) \/
  k = j /\ exists c o' b', resumed j b = Some (c, o', b') /\ since c o' b' (l ++ EvCall k (NOp o) :: b) /\
    ((exists r, e = EvRet c o' r) \/ exists y kd, o' = NNew Pull kd /\ e = EvNew j y).
Proof.
  intros Hr Ho Ht Hx Hd Hl He. destruct (yield_hands _ _ _ _ _ _ _ _ _ _ Hr Ho Ht Hx Hd Hl He) as [Hh|[ex ->]]; [|eauto].
  set (h := l ++ EvCall k (NOp o) :: b) in *.
  assert (Hrs : resumed j h = resumed j b). { subst h. rewrite resumed_slot by done. done. }
  pose proof (history_follows _ _ _ _ _ Hr Ho) as Hf.
  destruct (hands_handover _ _ _ _ Hh Hf He) as [(c&o'&ex&->&b0&E)|Hv].
  { left. exists ex. subst h. destruct l as [|e0 l]; cbn in E, Hl; [by injection E as -> <- _|]. injection E as -> _. done. }
  right. destruct Hv as (c&o'&s&Hcs&Hp&Htg&Hv).
  assert (Hkj : k = j).
  { assert (Hcb : occurs (hist p u n) (EvCall k (NOp o)) b). { destruct Ho as [l0 ->]. exists (l0 ++ e :: l). by rewrite <- app_assoc. }
    destruct (call_stack _ _ _ _ _ _ Hr Hcb) as [s' Hs']. subst h. rewrite slot_stack in Hcs by done. cbn in Hcs. congruence. }
  split; [done|].
  assert (Hh0 : match h with EvCall _ _ :: _ | EvSet _ _ :: _ => True | _ => False end) by (clear -Hh; by destruct h as [|[] ?]).
  destruct Hv as [[r ->]|(y&kd&->&->)].
  - assert (Htr : exists o0, o' = NOp o0 /\ transfer (NOp o0) = true).
    { destruct (hist_at _ _ _ _ _ Hr Ho) as ([a f]&z&Hy&Hm&Hb&Hc&Hz). cbn [fst snd] in *. 
      pose proof (tg_foc _ (mreach_tgt _ _ _ Hy)) as F. pose proof (pi_foc _ (mreach_pend _ _ _ Hy)) as Q. cbn [fst snd] in F, Q.
      destruct Hz as [(k0&->&_)|[(o1&k0&a'&->&->&Hlo&_)|(h1&kd&k0&->&_)]].
      - cbn in F, Q. destruct o' as [o0|[] kd].
        + destruct (transfer (NOp o0)) eqn:E; [by exists o0|]. exfalso.
          destruct o0 as [h1|h1 h2|h1|h1|h1 g|h1|h1|h1|h1| |[h1|]|[h1|]|i1 j1|i1 j1|h1| |[h1|] g|v|n0|l0|l0 v]; try done; try (destruct r; naive_solver).
          cbn in F. destruct F as (j1&h2&F&_). rewrite Hb in F. rewrite F in Hh0. done.
        + exfalso. destruct F as (?&?&?&_&F&_). rewrite Hb in F. rewrite F in Hh0. done.
        + exfalso. destruct F as (?&?&?&_&F). rewrite Hb in F. rewrite F in Hh0. done.
      - exfalso. destruct F as [[h' F] _]. rewrite Hb in F. apply local_transfer in Hlo. rewrite F in Hh. destruct Hh as (x1&Hx1&_&[[Hv _]|(sd&g&Hg&_)]).
        + destruct o1; try done. destruct i; done.
        + destruct o1; try done. cbn in Hx1. subst i. done.
      - exfalso. cbn in F. destruct F as (j1&h2&F&_). rewrite Hb in F. rewrite F in Hh0. done. }
    destruct Htr as (o0&->&Htr). destruct (ret_resumed _ _ _ _ _ _ _ _ Hr Ho Htr Htg) as (b'&H1&H2).
    rewrite Hrs in H1. exists c, (NOp o0), b'. eauto.
  - destruct (new_resumed _ _ _ _ _ _ Hr Ho) as (c'&kd2&b'&H1&H2). { intros b' E. by rewrite E in Hh0. }
    rewrite Hrs in H1.
    exists c', (NNew Pull kd2), b'. eauto 10.
Qed.

(** A context with a pending call does nothing until that call ends. *)
Lemma pending_next p u n c o e h : respects p u n -> occurs (hist p u n) e h -> ev_ctx e = Some c -> pend c h = Some o ->
  (exists r, e = EvRet c o r) \/ (exists x, e = EvExn c o x).
Proof.
  intros Hr Ho Hc Hp. destruct (hist_at _ _ _ _ _ Hr Ho) as ([a f]&y&Hx&Hm&Hb&Hy). cbn [fst snd] in *. subst h.
  pose proof (pi_pend _ (mreach_pend _ _ _ Hx) c) as Q. cbn [fst snd] in Q. rewrite Hp in Q. unfold xop in Q. cbn [fst snd] in Q.
  destruct e as [c' o'|c' o' r|c' o' x|m s|m r|m v|m|m s|m s|m|m]; try done; cbn in Hc; injection Hc as ->; cbn [ev_at fst snd] in Hy.
  - destruct Hy as (->&->&_). rewrite decide_True in Q by done. done.
  - destruct Hy as (->&Hy). rewrite decide_True in Q by done. left. exists r.
    destruct Hy as [(k&->&_)|[(o1&k&a'&->&->&_)|(h&kd&k&->&->&_)]]; cbn in Q; by injection Q as ->.
  - destruct Hy as (->&k&->&_). rewrite decide_True in Q by done. cbn in Q. injection Q as ->. right. eauto.
  - pose proof (mreach_basic _ _ _ Hx) as B. cbn [fst snd] in B. exfalso. destruct Hy as [(o1&po&k&co&fn&->&Hk&Hs&_)|(kd&np&fn&k&h0&->&_)].
    + destruct (basic_inactive _ _ _ B Hk) as [Hn Hw]; [by rewrite Hs|]. rewrite decide_False, Hw, Hk in Q by done. cbn in Q. by rewrite Hs in Q.
    + pose proof (mreach_minv _ _ _ Hx) as M. cbn in M. destruct M as (I&Hn&_).
      assert (Hnn : a_co a !! c = None). { destruct (a_co a !! c) eqn:E; [|done]. apply (ic_dom _ _ _ _ _ I) in E. lia. }
      pose proof (ic_nk _ _ _ _ _ I).
      case_decide as E. { subst c. destruct (ib_cur _ B) as [E|(c'&E&_)]; [lia|congruence]. }
      destruct (a_wait a !! c) as [w|] eqn:Ew; [|by rewrite Hnn in Q].
      destruct (ib_ctx _ B _ _ Ew) as [E0|(z&Hz&_)]; [lia|congruence].
  - destruct Hy as (->&->&_). rewrite decide_True in Q by done. done.
Qed.

Lemma since_pend c o b h : since c o b h -> pend c h = Some o.
Proof.
  intros (l&->&Hl). induction Hl as [|e l He Hl IH]; cbn; [by rewrite decide_True|].
  destruct e; cbn in He; rewrite ?decide_False by congruence; done.
Qed.
Lemma since_app c o b l h : since c o b h -> Forall (fun e => ev_ctx e <> Some c) l -> since c o b (l ++ h).
Proof. intros (l'&->&Hl') Hl. exists (l ++ l'). split; [by rewrite app_assoc|]. by apply Forall_app. Qed.

End factsctl.
