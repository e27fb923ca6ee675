(** FactsMix.v -- a chain of pull coroutines whose values main pushes into a chain of push coroutines:
    proofs. *)
From stdpp Require Import prelude gmap relations.
From Coq Require Import Lia.
From Verif Require Import Base Model Spec InvSpec Main Hist Trace Cpp FactsReplay Progs Steps FactsProg Gens Sym FactsPipe FactsSym.
From Verif Require FactsGen.

Local Opaque gmap_lookup map_insert map_delete gmap_partial_alter.

Section mix.
Context {env : Env}.
Context (nothrow : forall v, move_exn v = None).
Local Arguments px : simpl never.
Local Arguments ps : simpl never.

(** ** What a source writes before its next value, that value and what is left *)
Fixpoint upto (l : list (T + T)) : list T * option (T * list (T + T)) :=
  match l with
  | [] => ([], None)
  | inl w :: l => (w :: (upto l).1, (upto l).2)
  | inr v :: l => ([], Some (v, l))
  end.
Lemma runx_upto f l x : runx f l x = ((upto l).1 ++ (match (upto l).2 with Some (v, k) => runx f (inr v :: k) x | None => ([], x) end).1,
  (match (upto l).2 with Some (v, k) => runx f (inr v :: k) x | None => ([], x) end).2).
Proof. induction l as [|[w|v] l IH]; [done|..]; cbn [upto fst snd]; [cbn [runx]; by rewrite IH|]. cbn. by destruct (f v) as [? [?|]]. Qed.
Lemma upto_less l v k : (upto l).2 = Some (v, k) -> length k < length l.
Proof. induction l as [|[w|v'] l IH]; cbn; [done|intros H; specialize (IH H); lia|]. intros [= -> ->]. lia. Qed.
Lemma upto_app k l : upto (k ++ l) = match (upto k).2 with Some (v, k') => ((upto k).1, Some (v, k' ++ l)) | None => ((upto k).1 ++ (upto l).1, (upto l).2) end.
Proof. induction k as [|[w|v] k IH]; cbn; [by destruct (upto l)| |done]. rewrite IH. by destruct (upto k).2 as [[? ?]|]. Qed.
(** What a function does with the value [v] and what follows. *)
Definition flow1 (g : fn) (v : T) (l : list (T + T)) (x : option E) : list (T + T) * option E :=
  match (g v).2 with Some e => ((g v).1, Some e) | None => ((g v).1 ++ (flow g l x).1, (flow g l x).2) end.
Lemma flow_cons g v l x : flow g (inr v :: l) x = flow1 g v l x.
Proof. unfold flow1. cbn. by destruct (g v) as [? [?|]]. Qed.
Lemma flow_upto g l x : (upto (flow g l x).1).1 = (upto l).1 ++ (match (upto l).2 with Some (v, k) => (upto (flow1 g v k x).1).1 | None => [] end) /\
  (upto (flow g l x).1).2 = (match (upto l).2 with Some (v, k) => (upto (flow1 g v k x).1).2 | None => None end) /\
  (flow g l x).2 = (match (upto l).2 with Some (v, k) => (flow1 g v k x).2 | None => x end).
Proof.
  induction l as [|[w|v] l IH]; [done|..].
  - cbn [flow upto fst snd]. destruct IH as (-> & -> & ->). done.
  - rewrite flow_cons. done.
Qed.

Section chain.
(** The pull coroutines are numbered from [B]. *)
Context (B : nat).

(** Nothing but the pull coroutines before the [d]th changed; [l] was written. *)
Record qto (d : nat) (a : astate) (l : list T) (b : astate) : Prop := {
  q_goes : goes a b;
  q_h : a_h b = a_h a;
  q_co : forall k, (forall i, i < d -> k <> S (B + i)) -> a_co b !! k = a_co a !! k;
  q_cur : a_cur b = a_cur a;
  q_wait : a_wait b = a_wait a;
  q_num : numbered b;
  q_nh : a_nh b = a_nh a;
  q_nk : a_nk b = a_nk a;
  q_out : output (a_tr b) = output (a_tr a) ++ l }.
Lemma qto_more d e a l b : qto d a l b -> d <= e -> qto e a l b.
Proof. intros [Q1 Q2 Q3 Q4 Q5 Q6 Q7 Q8 Q9] Hd. split; try done. intros k Hk. apply Q3. intros i Hi. apply Hk. lia. Qed.
Lemma qto_trans d a l b l' c : qto d a l b -> qto d b l' c -> qto d a (l ++ l') c.
Proof.
  intros [Q1 Q2 Q3 Q4 Q5 Q6 Q7 Q8 Q9] [R1 R2 R3 R4 R5 R6 R7 R8 R9]. split; try congruence; try done; [by eapply goes_trans| |by rewrite R9, Q9, app_assoc].
  intros k Hk. by rewrite R3, Q3.
Qed.
Lemma qto_nil d a b l c : qto d a [] b -> qto d b l c -> qto d a l c.
Proof. intros H1 H2. exact (qto_trans _ _ _ _ _ _ H1 H2). Qed.
Lemma qto_last d a b l c : qto d a l b -> qto d b [] c -> qto d a l c.
Proof. intros H1 H2. rewrite <- (app_nil_r l). by eapply qto_trans. Qed.
Lemma qto_refl d a : numbered a -> qto d a [] a.
Proof. intros N. split; try done; [apply goes_refl|by rewrite app_nil_r]. Qed.
Lemma q_tau a s s' : numbered a -> a_foc a = AUser s -> rtc tau s s' -> exists b, qto 0 a [] b /\ a_foc b = AUser s'.
Proof. intros N Hf Ht. destruct (goes_tau _ _ _ Hf Ht) as (b&G&->). exists (w_foc (AUser s') a). split; [|done]. split; try done. by rewrite app_nil_r. Qed.
Lemma q_look a o ok k fs r l : numbered a -> a_foc a = AUser (exec (Go (Do o ok k)) fs) -> forallb (known a) (op_hs o) = true ->
  (forall kk, do_op o kk (alog (EvCall (a_cur a) (NOp o)) a) = ret_to (NOp o) r kk (alog (EvCall (a_cur a) (NOp o)) a)) ->
  output [EvCall (a_cur a) (NOp o)] = l -> exists b, qto 0 a l b /\ a_foc b = AUser (exec (Go (k r)) fs).
Proof.
  intros N Hf Hk E Hl. rewrite exec_do in Hf. eexists. split.
  - split; [apply goes_step; rewrite (astep_op _ _ _ Hf Hk), E; unfold ret_to; cbn; reflexivity|..]; try done. cbn. rewrite <- Hl. destruct o; cbn; by rewrite ?app_nil_r.
  - done.
Qed.
Lemma to_of_q a l b : qto 0 a l b -> to 0 a l b.
Proof. intros [Q1 Q2 Q3 Q4 Q5 Q6 Q7 Q8 Q9]. split; [done|]. split; [|done]. split; try done. intros k _. apply Q3. lia. Qed.

(** The current context can advance the pull coroutines before the [d]th. *)
Definition free (d : nat) (a : astate) : Prop := numbered a /\ a_wait a !! a_cur a = None /\ forall i, i < d -> a_wait a !! S (B + i) = None /\ a_cur a <> S (B + i).
Lemma free_q d a l b e : free d a -> qto e a l b -> free d b.
Proof. intros (F1&F2&F3) [Q1 Q2 Q3 Q4 Q5 Q6 Q7 Q8 Q9]. unfold free. rewrite Q4, Q5. done. Qed.

(** ** A pull coroutine *)
Definition give (m : nat) (v : T) : stm := push (ps m) (AImm v) Skip.
Definition rest (m : nat) (k : list (T + T)) (x : option E) (fs : list frame) : list frame := FBlock (code (gwork k) (give m)) :: FBlock (code (fin x) (give m)) :: fs.
(** Its function goes on until it yields or the piece of code ends. *)
Lemma src_run m k x fs : forall a, numbered a -> a_foc a = AUser (exec (Go (code (gwork k) (give m))) (FBlock (code (fin x) (give m)) :: fs)) ->
  exists b, qto 0 a (upto k).1 b /\ a_foc b = AUser (match (upto k).2 with Some (v, k') => exec (Go (give m v)) (rest m k' x fs) | None => exec (ctl_of x) fs end).
Proof.
  induction k as [|[w|v] k IH]; intros a N Hf.
  - cbn [gwork foldr code] in Hf. destruct (q_tau a _ _ N Hf (FactsGen.tau_after _ _)) as (a1&T1&F1). cbn [upto fst snd].
    destruct x as [e|]; cbn [fin code ctl_of] in *; [|by exists a1].
    rewrite exec_throw in F1. destruct (q_tau a1 _ (exec (Exn (XUser e)) fs) (q_num _ _ _ _ T1) F1) as (a2&T2&F2); [eapply rtc_l; constructor|].
    exists a2. split; [by eapply qto_nil|done].
  - cbn [gwork foldr code] in Hf. fold (gwork k) in Hf. destruct (q_tau a _ _ N Hf (FactsGen.tau_in _ _ _)) as (a1&T1&F1). cbn [code] in F1.
    destruct (q_look a1 _ _ _ _ AUnit [w] (q_num _ _ _ _ T1) F1) as (a2&T2&F2); [done|done|done|]. destruct (q_tau a2 _ _ (q_num _ _ _ _ T2) F2 (FactsGen.tau_after _ _)) as (a3&T3&F3).
    destruct (IH a3 (q_num _ _ _ _ T3) F3) as (b&T4&F4). exists b. split; [|done]. cbn [upto fst].
    eapply qto_nil; [exact T1|]. eapply (qto_trans _ _ [w]); [exact T2|]. by eapply qto_nil.
  - cbn [gwork foldr code] in Hf. fold (gwork k) in Hf. destruct (q_tau a _ _ N Hf (FactsGen.tau_in _ _ _)) as (a1&T1&F1). exists a1. by split.
Qed.

(** The function of [m] runs; context [c] waits for it in operation [o]. *)
Record inside (m : nat) (a : astate) (sl : aslot) (c : nat) (o : opn) (po : post) (kk : resp -> strat) : Prop := {
  i_num : numbered a;
  i_cur : a_cur a = S m;
  i_wait : a_wait a !! c = Some (WOp (S m) o po kk);
  i_h : a_h a !! ps m = Some (HObj Push KVal (Some (Inner (S m))));
  i_co : a_co a !! S m = Some (ACo Pull KVal ARun sl (ps m) c);
  i_sl : sl <> SlBad }.
Lemma inside_q d m a sl c o po kk l b : inside m a sl c o po kk -> qto d a l b -> (forall i, i < d -> m <> B + i) -> inside m b sl c o po kk.
Proof. intros [I1 I2 I3 I4 I5 I6] [Q1 Q2 Q3 Q4 Q5 Q6 Q7 Q8 Q9] Hm. split; try done; try congruence. rewrite Q3; [done|]. intros i Hi. specialize (Hm i Hi). lia. Qed.
Lemma numbered_ins m a b c : numbered a -> ac_syn c = ps m -> a_co b = <[ S m := c ]> (a_co a) -> numbered b.
Proof. intros N Hc E k c'. rewrite E. intros [[<- <-]|[_ H]]%lookup_insert_Some; [by exists m|by apply N]. Qed.

(** It is resumed. *)
Lemma resumed m a v fs D kk : numbered a -> a_wait a !! a_cur a = None -> reader a (px m) (S m) (ps m) v (exec (Go Skip) fs) D -> a_foc a = AUser (SDo (OItInc (Some (px m))) kk) ->
  exists b, goes a b /\ inside m b (SlFull (PVal v)) (a_cur a) (NOp (OItInc (Some (px m)))) (PoInc (px m)) kk /\ a_h b = a_h a /\ (forall j, j <> S m -> a_co b !! j = a_co a !! j) /\
    a_wait b = <[ a_cur a := WOp (S m) (NOp (OItInc (Some (px m)))) (PoInc (px m)) kk ]> (a_wait a) /\ a_nh b = a_nh a /\ a_nk b = a_nk a /\ output (a_tr b) = output (a_tr a) /\ a_foc b = AUser (exec (Go Skip) fs).
Proof.
  intros N W (Hx&Hs&Hxs&o&kp0&b0&Hc&HK&HD) Hf.
  pose proof (astep_op _ _ _ Hf) as E. cbn [op_hs it_hs forallb] in E. rewrite (known_x _ _ N) in E. specialize (E eq_refl). cbn in E. rewrite Hx in E. cbn in E.
  unfold resumable in E. cbn in E. rewrite Hc in E. cbn in E. unfold transfer in E. cbn in E. rewrite Hc in E. cbn in E. unfold deliver, ret_to in E. cbn in E.
  rewrite HK in E. match type of E with _ = ANext ?b => remember b as a1 eqn:Ea end. exists a1. split; [by apply goes_step|]. rewrite Ea. cbn. split; [|split; [done|split; [|done]]].
  - split; cbn; try done; [eapply numbered_ins; [exact N| |reflexivity]; done|by rewrite lookup_insert|by rewrite lookup_insert].
  - intros j Hj. by rewrite lookup_insert_ne.
Qed.

(** It yields. *)
Lemma back_yield (md : bool) m a sl c o kk v fs : inside m a sl c o (if md then PoNew (px m) KVal else PoInc (px m)) kk ->
  (if md then True else a_h a !! px m = Some (HObj Pull KVal (Some (Outer (S m))))) -> a_foc a = AUser (exec (Go (give m v)) fs) ->
  exists b, goes a b /\ numbered b /\ a_cur b = c /\ a_wait b = delete c (a_wait a) /\ a_h b = (if md then <[ px m := HObj Pull KVal (Some (Outer (S m))) ]> (a_h a) else a_h a) /\
    (forall j, j <> S m -> a_co b !! j = a_co a !! j) /\ a_nh b = a_nh a /\ a_nk b = a_nk a /\ output (a_tr b) = output (a_tr a) /\
    reader b (px m) (S m) (ps m) v (exec (Go Skip) fs) (exec (Exn XUnwind) fs) /\ a_foc b = AUser (kk (ROk (if md then AH (px m) else AIt (Some (px m))))).
Proof.
  intros [N3 C3 W3 S3 D3 Hsl] Hx3 F3. assert (Hxs : px m <> ps m) by (unfold px, ps; lia).
  unfold give, push in F3. rewrite exec_do in F3. set (kp := fun r => match r with ROk a => _ | RExn x => _ end) in F3.
  pose proof (astep_op _ _ _ F3) as E. cbn [op_hs forallb] in E. rewrite (known_s a m _ N3 D3) in E by done. specialize (E eq_refl). cbn in E. rewrite S3 in E. cbn in E.
  unfold push_op, resumable in E. cbn in E. rewrite C3, bool_decide_eq_true_2 in E by done. rewrite D3 in E. cbn in E.
  destruct sl as [|pl|]; [| |done]; cbn in E; rewrite nothrow in E; unfold transfer, give_back in E; cbn in E;
  rewrite lookup_insert in E; cbn in E; rewrite W3 in E; destruct md; cbn in E; unfold deliver in E; cbn in E.
  all: try (rewrite Hx3 in E; cbn in E); rewrite lookup_insert in E; cbn in E; unfold ret_to in E; cbn in E.
  all: match type of E with _ = ANext ?b => remember b as a4 eqn:Ea end; exists a4; (split; [by apply goes_step|]); rewrite Ea; cbn.
  all: (split; [eapply numbered_ins; [exact N3| |cbn; by rewrite insert_insert]; done|]); (split; [done|]); (split; [done|]); (split; [done|]).
  all: (split; [intros j Hj; by rewrite !lookup_insert_ne|]); (split; [done|]); (split; [done|]); (split; [done|]); (split; [|done]).
  all: unfold reader; cbn; rewrite ?lookup_insert; rewrite ?lookup_insert_ne by done; (split; [done|]); (split; [done|]); (split; [done|]); rewrite ?lookup_insert; by eexists _, _, _.
Qed.

(** It ends. *)
Definition last_ (x : option E) : strat := match x with None => SRet | Some e => SThrow (XUser e) end.
Lemma last_of x : exec (ctl_of x) [] = last_ x.
Proof. destruct x; cbn; [apply exec_exn0|apply exec_skip0]. Qed.
Lemma back_end m a v c o kk x : inside m a (SlFull (PVal v)) c o (PoInc (px m)) kk -> a_h a !! px m = Some (HObj Pull KVal (Some (Outer (S m)))) -> a_foc a = AUser (last_ x) ->
  exists b, goes a b /\ numbered b /\ a_cur b = c /\ a_wait b = delete c (a_wait a) /\ a_h b = a_h a /\
    (forall j, j <> S m -> a_co b !! j = a_co a !! j) /\ a_nh b = a_nh a /\ a_nk b = a_nk a /\ output (a_tr b) = output (a_tr a) /\
    finished b (px m) (S m) (ps m) /\ a_foc b = AUser (kk (match x with None => ROk (AIt None) | Some e => RExn (XUser e) end)).
Proof.
  intros [N3 C3 W3 S3 D3 Hsl] Hx3 F3. assert (Hxs : px m <> ps m) by (unfold px, ps; lia).
  destruct x as [e|]; cbn in F3.
  - assert (E : astep a = do_leave (Some (XUser e)) a) by (unfold astep; by rewrite F3). unfold do_leave in E. rewrite C3 in E. rewrite decide_False in E by lia. cbn in E. rewrite D3 in E. cbn in E. unfold give_back in E. cbn in E.
    rewrite D3 in E. cbn in E. rewrite W3 in E. cbn in E. unfold deliver, exn_to in E. cbn in E.
    match type of E with _ = ANext ?b => remember b as a4 eqn:Ea end. exists a4. split; [by apply goes_step|]. rewrite Ea. cbn.
    split; [eapply numbered_ins; [exact N3| |reflexivity]; done|]. split; [done|]. split; [done|]. split; [done|]. split; [intros j Hj; by rewrite lookup_insert_ne|].
    split; [done|]. split; [done|]. split; [done|]. split; [|done]. unfold finished. cbn. rewrite lookup_insert. split; [done|]. split; [done|]. split; [done|]. by eexists _, _, _.
  - assert (E : astep a = do_leave None a) by (unfold astep; by rewrite F3). unfold do_leave in E. rewrite C3 in E. rewrite decide_False in E by lia. cbn in E. rewrite D3 in E. cbn in E. unfold give_back in E. cbn in E.
    rewrite D3 in E. cbn in E. rewrite W3 in E. cbn in E. unfold deliver, ret_to in E. cbn in E. rewrite Hx3 in E. cbn in E. rewrite lookup_insert in E. cbn in E.
    match type of E with _ = ANext ?b => remember b as a4 eqn:Ea end. exists a4. split; [by apply goes_step|]. rewrite Ea. cbn.
    split; [eapply numbered_ins; [exact N3| |reflexivity]; done|]. split; [done|]. split; [done|]. split; [done|]. split; [intros j Hj; by rewrite lookup_insert_ne|].
    split; [done|]. split; [done|]. split; [done|]. split; [|done]. unfold finished. cbn. rewrite lookup_insert. split; [done|]. split; [done|]. split; [done|]. by eexists _, _, _.
Qed.
(** ... before the constructor has returned. *)
Lemma back_new m a c kk x : inside m a SlEmpty c (NNew Pull KVal) (PoNew (px m) KVal) kk -> a_foc a = AUser (last_ x) ->
  exists b, goes a b /\ numbered b /\ a_cur b = c /\ a_wait b = delete c (a_wait a) /\ a_h b = (match x with None => <[ px m := HObj Pull KVal None ]> (delete (ps m) (a_h a)) | Some _ => delete (ps m) (a_h a) end) /\
    (forall j, j <> S m -> a_co b !! j = a_co a !! j) /\ a_nh b = a_nh a /\ a_nk b = a_nk a /\ output (a_tr b) = output (a_tr a) /\
    a_foc b = AUser (kk (match x with None => ROk (AH (px m)) | Some e => RExn (XUser e) end)).
Proof.
  intros [N3 C3 W3 S3 D3 Hsl] F3.
  assert (E : exists a4 kf, astep a = ANext a4 /\ kf = match x with None => KfEmpty (px m) KVal | Some e => KfThrow e end /\ a_foc a4 = AExit /\ a_cur a4 = S m /\ a_h a4 = a_h a /\
    a_co a4 = <[ S m := ACo Pull KVal (AUnw true) SlEmpty (ps m) c ]> (a_co a) /\ a_wait a4 = <[ c := WKill (S m) (NNew Pull KVal) kf kk ]> (delete c (a_wait a)) /\ a_nh a4 = a_nh a /\ a_nk a4 = a_nk a /\ output (a_tr a4) = output (a_tr a)).
  { destruct x as [e|]; cbn in F3.
    - eexists _, _. split; [|split; [reflexivity|]].
      + unfold astep. rewrite F3. unfold do_leave. rewrite C3. rewrite decide_False by lia. cbn. rewrite D3. cbn. unfold give_back. cbn.
        rewrite D3. cbn. rewrite W3. cbn. unfold deliver, kill. cbn. rewrite lookup_insert. cbn. reflexivity.
      + cbn. by rewrite insert_insert.
    - eexists _, _. split; [|split; [reflexivity|]].
      + unfold astep. rewrite F3. unfold do_leave. rewrite C3. rewrite decide_False by lia. cbn. rewrite D3. cbn. unfold give_back. cbn.
        rewrite D3. cbn. rewrite W3. cbn. unfold deliver. cbn. rewrite lookup_insert. cbn. unfold kill. cbn. rewrite lookup_insert. cbn. reflexivity.
      + cbn. by rewrite insert_insert. }
  destruct E as (a4&kf&E4&Ekf&B1&B2&B3&B4&B5&B6&B7&B8).
  destruct (exit_pull a4 (S m) (ACo Pull KVal (AUnw true) SlEmpty (ps m) c) (S m) (NNew Pull KVal) kf kk Push KVal) as (b&G4&R1&R2&R3&R4&R5&_&R7&R8&R9); try done.
  { by rewrite B4, lookup_insert. } { cbn. by rewrite B3. } { cbn. by rewrite B5, lookup_insert. }
  cbn in R2, R3, R4, R5. rewrite B3 in R2. rewrite B4 in R3. rewrite B5, delete_insert_delete, delete_idemp in R4.
  exists b. split; [eapply goes_trans; [by apply goes_step|done]|]. split; [|split; [done|split; [done|split; [|split; [|split; [congruence|split; [congruence|split; [congruence|]]]]]]]].
  - intros k' c'. rewrite R3, delete_insert_delete. intros [_ H]%lookup_delete_Some. by apply N3.
  - rewrite R2, Ekf. by destruct x.
  - intros j Hj. by rewrite R3, lookup_delete_ne, lookup_insert_ne.
  - rewrite R1, Ekf. by destruct x.
Qed.

(** ** A chain of pull coroutines, each suspended with a value; what is left of the piece of code
    that yielded it *)
Inductive pch := Src (v : T) (k : list (T + T)) (x : option E) | Stg (p : pch) (g : fn) (v : T) (k : list (T + T)) (x : option E).
Fixpoint depth (p : pch) : nat := match p with Src _ _ _ => 0 | Stg p _ _ _ _ => S (depth p) end.
Definition pcur (p : pch) : T := match p with Src v _ _ | Stg _ _ v _ _ => v end.
(** What the last one does after its value. *)
Definition tot (g : fn) (r : list (T + T) * option E) (k : list (T + T)) (x : option E) : list (T + T) * option E :=
  match x with Some e => (k, Some e) | None => (k ++ (flow g r.1 r.2).1, (flow g r.1 r.2).2) end.
Fixpoint rem (p : pch) : list (T + T) * option E := match p with Src _ k x => (k, x) | Stg p g _ k x => tot g (rem p) k x end.

Definition again (y m : nat) (g : fn) : stm :=
  Do (OItInc (Some (px y))) eq_refl (fun j => match j with AIt j => for_loop None (fun v => code (gbody g v) (give m)) j None | _ => Skip end).
Definition cellp (a : astate) (m : nat) (v : T) (fs : list frame) : Prop := reader a (px m) (S m) (ps m) v (exec (Go Skip) fs) (exec (Exn XUnwind) fs).
Fixpoint pheld (a : astate) (p : pch) : Prop :=
  match p with
  | Src v k x => cellp a B v (rest B k x [])
  | Stg q g v k x => pheld a q /\ cellp a (B + S (depth q)) v (rest (B + S (depth q)) k x [FBlock (again (B + depth q) (B + S (depth q)) g)])
  end.
(** However it is, it can be destroyed. *)
Definition loose (a : astate) (m : nat) : Prop :=
  (exists v fs, cellp a m v fs /\ onto fs []) \/ finished a (px m) (S m) (ps m) \/ a_h a !! px m = Some (HObj Pull KVal None).
Definition loose_all (d : nat) (a : astate) : Prop := forall i, i < d -> loose a (B + i).

Lemma reader_eq a b x k s v K D : reader a x k s v K D -> a_h b !! x = a_h a !! x -> a_h b !! s = a_h a !! s -> a_co b !! k = a_co a !! k -> reader b x k s v K D.
Proof. intros (H1&H2&H3&H4) E1 E2 E3. unfold reader. by rewrite E1, E2, E3. Qed.
Lemma finished_eq a b x k s : finished a x k s -> a_h b !! x = a_h a !! x -> a_h b !! s = a_h a !! s -> a_co b !! k = a_co a !! k -> finished b x k s.
Proof. intros (H1&H2&H3&H4) E1 E2 E3. unfold finished. by rewrite E1, E2, E3. Qed.
Definition same_at (a b : astate) (m : nat) : Prop := a_h b !! px m = a_h a !! px m /\ a_h b !! ps m = a_h a !! ps m /\ a_co b !! S m = a_co a !! S m.
Lemma cellp_eq a b m v fs : cellp a m v fs -> same_at a b m -> cellp b m v fs.
Proof. intros H (E1&E2&E3). by eapply reader_eq. Qed.
Lemma loose_eq a b m : loose a m -> same_at a b m -> loose b m.
Proof.
  intros [(v&fs&H&Ho)|[H|H]] S.
  - left. exists v, fs. split; [by eapply cellp_eq|done].
  - right. left. destruct S as (E1&E2&E3). by eapply finished_eq.
  - right. right. destruct S as (E1&_). by rewrite E1.
Qed.
Lemma pheld_eq a b p : pheld a p -> (forall i, i <= depth p -> same_at a b (B + i)) -> pheld b p.
Proof.
  induction p as [v k x|q IH g v k x]; cbn.
  - intros H E. eapply cellp_eq; [done|]. specialize (E 0 ltac:(lia)). by rewrite Nat.add_0_r in E.
  - intros [H1 H2] E. split; [apply IH; [done|]; intros i Hi; apply E; lia|]. eapply cellp_eq; [done|]. apply E. lia.
Qed.
Lemma onto_rest m k x fs : onto fs [] -> onto (rest m k x fs) [].
Proof. intros H. by apply onto_block, onto_block. Qed.
Lemma pheld_loose a p : pheld a p -> loose_all (S (depth p)) a.
Proof.
  induction p as [v k x|q IH g v k x]; cbn.
  - intros H i Hi. assert (i = 0) as -> by lia. rewrite Nat.add_0_r. left. eexists _, _. split; [exact H|]. apply onto_rest, onto_refl.
  - intros [H1 H2] i Hi. destruct (decide (i = S (depth q))) as [->|]; [|apply IH; [done|lia]]. left. eexists _, _. split; [exact H2|]. apply onto_rest, onto_block, onto_refl.
Qed.
Lemma same_q d a l b m : qto d a l b -> (forall i, i < d -> m <> B + i) -> same_at a b m.
Proof. intros [Q1 Q2 Q3 Q4 Q5 Q6 Q7 Q8 Q9] H. unfold same_at. rewrite Q2, Q3; [done|]. intros i Hi. specialize (H i Hi). lia. Qed.
Lemma pheld_q a l b p : pheld a p -> qto 0 a l b -> pheld b p.
Proof. intros H Q. eapply pheld_eq; [done|]. intros i _. eapply same_q; [done|]. lia. Qed.
Lemma loose_q d a l b : loose_all d a -> qto 0 a l b -> loose_all d b.
Proof. intros H Q i Hi. eapply loose_eq; [by apply H|]. eapply same_q; [done|]. lia. Qed.
Lemma pheld_cur a p : pheld a p -> exists o kp b, a_h a !! px (B + depth p) = Some (HObj Pull KVal (Some (Outer (S (B + depth p))))) /\
  a_co a !! S (B + depth p) = Some (ACo Pull KVal (ASusp o PoUnit kp) (SlFull (PVal (pcur p))) (ps (B + depth p)) b).
Proof.
  destruct p as [v k x|q g v k x]; cbn; [intros (H1&_&_&o&kp&b&H2&_)|intros [_ (H1&_&_&o&kp&b&H2&_)]]; exists o, kp, b; [by rewrite Nat.add_0_r|done].
Qed.

(** The next value of a chain. *)
Definition advances (d : nat) : Prop := forall p a kk, depth p = d -> free (S d) a -> pheld a p -> a_foc a = AUser (SDo (OItInc (Some (px (B + d)))) kk) ->
  exists b, qto (S d) a (upto (rem p).1).1 b /\
    match (upto (rem p).1).2 with
    | Some (v, k) => exists p', depth p' = d /\ pcur p' = v /\ rem p' = (k, (rem p).2) /\ pheld b p' /\ a_foc b = AUser (kk (ROk (AIt (Some (px (B + d))))))
    | None => loose_all (S d) b /\ finished b (px (B + d)) (S (B + d)) (ps (B + d)) /\ a_foc b = AUser (kk (match (rem p).2 with None => ROk (AIt None) | Some e => RExn (XUser e) end))
    end.

(** The loop of a function over a chain: from the beginning of a round ... *)
Lemma enter_round a p (b : T -> stm) fs : numbered a -> pheld a p ->
  a_foc a = AUser (exec (Go (for_loop None b (Some (px (B + depth p))) None)) fs) ->
  exists d, qto 0 a [] d /\ a_foc d = AUser (exec (Go (b (pcur p))) (FBlock (Do (OItInc (Some (px (B + depth p)))) eq_refl (fun j => match j with AIt j => for_loop None b j None | _ => Skip end)) :: fs)).
Proof.
  intros N H Hf. rewrite FactsGen.for_loop_eq in Hf. cbn [fmap option_fmap option_map] in Hf.
  destruct (q_look a _ _ _ _ (AB true) [] N Hf) as (a1&T1&F1); [done|done|done|]. cbv beta iota in F1.
  destruct (pheld_cur _ _ (pheld_q _ _ _ _ H T1)) as (o&kp&b0&X1&X2).
  destruct (q_look a1 _ _ _ _ (AV (pcur p)) [] (q_num _ _ _ _ T1) F1) as (a2&T2&F2).
  { cbn. rewrite known_x by apply T1. done. }
  { intros kk. cbn. rewrite X1. unfold readable. cbn. by rewrite X2. }
  { done. }
  cbv beta iota in F2. destruct (q_tau a2 _ _ (q_num _ _ _ _ T2) F2 (FactsGen.tau_in _ _ _)) as (a3&T3&F3).
  exists a3. split; [eapply qto_nil; [exact T1|]; by eapply qto_nil|done].
Qed.
Lemma leave_loop a (b : T -> stm) fs : numbered a -> a_foc a = AUser (exec (Go (for_loop None b None None)) fs) -> exists d, qto 0 a [] d /\ a_foc d = AUser (exec (Go Skip) fs).
Proof.
  intros N Hf. rewrite FactsGen.for_loop_eq in Hf. cbn [fmap option_fmap option_map] in Hf.
  destruct (q_look a _ _ _ _ (AB false) [] N Hf) as (a1&T1&F1); [done|done|done|]. by exists a1.
Qed.

(** ... from within a round until the function yields or ends. *)
Lemma stage_go g m d : advances d -> forall N q k x a, length (rem q).1 < N -> depth q = d -> free (S d) a -> pheld a q ->
  a_foc a = AUser (exec (Go (code (gwork k) (give m))) (FBlock (code (fin x) (give m)) :: [FBlock (again (B + d) m g)])) ->
  exists b, qto (S d) a (upto (tot g (rem q) k x).1).1 b /\
    match (upto (tot g (rem q) k x).1).2 with
    | Some (v, k2) => exists q' k' x', depth q' = d /\ tot g (rem q') k' x' = (k2, (tot g (rem q) k x).2) /\ pheld b q' /\ a_foc b = AUser (exec (Go (give m v)) (rest m k' x' [FBlock (again (B + d) m g)]))
    | None => loose_all (S d) b /\ a_foc b = AUser (last_ (tot g (rem q) k x).2)
    end.
Proof.
  intros HA. induction N as [|N IH]; intros q k x a HN Hd Fr H Hf; [lia|].
  destruct (src_run m k x _ a (proj1 Fr) Hf) as (a1&T1&F1). pose proof (qto_more _ (S d) _ _ _ T1 ltac:(lia)) as T1'.
  pose proof (pheld_q _ _ _ _ H T1) as H1. destruct (upto k).2 as [[v k1]|] eqn:Ek.
  - exists a1. destruct x as [e|]; cbn [tot fst snd].
    + rewrite Ek. split; [done|]. exists q, k1, (Some e). done.
    + rewrite upto_app, Ek. cbn [fst snd]. split; [done|]. exists q, k1, None. done.
  - destruct x as [e|]; cbn [tot fst snd ctl_of] in *.
    + rewrite Ek. destruct (q_tau a1 _ _ (q_num _ _ _ _ T1) F1 (tau_exn _ _ _)) as (a2&T2&F2). rewrite exec_exn0 in F2. exists a2.
      split; [eapply qto_last; [exact T1'|by eapply qto_more; [exact T2|lia]]|]. split; [|done]. rewrite <- Hd. apply pheld_loose. by eapply pheld_q.
    + rewrite upto_app, Ek. cbn [fst snd].
      destruct (q_tau a1 _ _ (q_num _ _ _ _ T1) F1 (FactsGen.tau_after _ _)) as (a2&T2&F2). pose proof (pheld_q _ _ _ _ H1 T2) as H2.
      assert (Fr2 : free (S d) a2) by (eapply free_q; [eapply free_q; [exact Fr|exact T1]|exact T2]).
      unfold again in F2. rewrite exec_do in F2. destruct (HA q a2 _ Hd Fr2 H2 F2) as (a3&T3&R3).
      assert (T : qto (S d) a ((upto k).1 ++ (upto (rem q).1).1) a3).
      { eapply qto_trans; [exact T1'|]. eapply qto_nil; [eapply qto_more; [exact T2|lia]|exact T3]. }
      assert (Fr3 : free (S d) a3) by (eapply free_q; [exact Fr|exact T]).
      destruct (flow_upto g (rem q).1 (rem q).2) as (Eu1&Eu2&Eu3). rewrite Eu1, Eu2, Eu3. clear Eu1 Eu2 Eu3 T1 T1' T2 T3 F1 F2 H1 H2 Fr2.
      destruct (upto (rem q).1).2 as [[v1 k1]|] eqn:Eq.
      * destruct R3 as (q1&D1&<-&Er&H3&F3). cbv beta iota in F3. rewrite <- D1 in F3. destruct (enter_round a3 q1 _ _ (proj1 Fr3) H3 F3) as (a4&T4&F4). rewrite D1 in F4.
        unfold gbody at 1, source_of in F4. cbn [code] in F4. destruct (q_tau a4 _ _ (q_num _ _ _ _ T4) F4 (FactsGen.tau_in _ _ _)) as (a5&T5&F5).
        pose proof (qto_nil _ _ _ _ _ T4 T5) as T6. assert (Hlt : length (rem q1).1 < N). { rewrite Er. cbn. pose proof (upto_less _ _ _ Eq). lia. }
        destruct (IH q1 _ _ a5 Hlt D1 ltac:(eapply free_q; [exact Fr3|exact T6]) (pheld_q _ _ _ _ H3 T6) F5) as (b&T7&R7).
        assert (Et : tot g (rem q1) (g (pcur q1)).1 (g (pcur q1)).2 = flow1 g (pcur q1) k1 (rem q).2). { rewrite Er. unfold tot, flow1. done. }
        rewrite Et in T7, R7. exists b. split; [|exact R7]. rewrite app_assoc. eapply qto_trans; [exact T|]. eapply qto_nil; [eapply qto_more; [exact T6|lia]|exact T7].
      * destruct R3 as (L3&_&F3). destruct (rem q).2 as [e|]; cbn [last_].
        -- cbv beta iota in F3. rewrite exec_exn0 in F3. exists a3. rewrite app_nil_r. done.
        -- cbv beta iota in F3. destruct (leave_loop _ _ _ (proj1 Fr3) F3) as (a4&T4&F4). rewrite exec_skip0 in F4. exists a4. rewrite app_nil_r.
           split; [eapply qto_last; [exact T|eapply qto_more; [exact T4|lia]]|]. split; [by eapply loose_q|done].
Qed.

Lemma advances_all d : advances d.
Proof.
  induction d as [|d IH]; intros p a kk Hd Fr H Hf.
  - destruct p as [v k x|]; [|done]. cbn [pheld rem fst snd] in *. rewrite Nat.add_0_r in Hf. pose proof Fr as (N&W&Fi). destruct (Fi 0 ltac:(lia)) as [Fi1 Fi2]. rewrite Nat.add_0_r in Fi1, Fi2.
    destruct (resumed B a v _ _ kk N W H Hf) as (a1&G1&I1&A1&A2&A3&A4&A5&A6&F1).
    destruct (q_tau a1 _ _ (i_num _ _ _ _ _ _ _ I1) F1 (FactsGen.tau_after _ _)) as (a2&T2&F2).
    destruct (src_run B k x [] a2 (q_num _ _ _ _ T2) F2) as (a3&T3&F3). pose proof (qto_nil _ _ _ _ _ T2 T3) as T.
    pose proof (inside_q _ _ _ _ _ _ _ _ _ _ I1 T ltac:(lia)) as I3. destruct T as [Q1 Q2 Q3 Q4 Q5 Q6 Q7 Q8 Q9].
    assert (Hx3 : a_h a3 !! px B = Some (HObj Pull KVal (Some (Outer (S B))))). { rewrite Q2, A1. apply H. }
    destruct (upto k).2 as [[v' k']|] eqn:Eu.
    + destruct (back_yield false _ _ _ _ _ _ _ _ I3 Hx3 F3) as (b&G4&N4&C4&W4&H4&D4&Nh4&Nk4&O4&R4&F4). exists b. split.
      * split; try done; try congruence.
        -- eapply goes_trans; [exact G1|]. by eapply goes_trans.
        -- intros j Hj. specialize (Hj 0 ltac:(lia)). rewrite Nat.add_0_r in Hj. by rewrite D4, Q3, A2 by (done || lia).
        -- rewrite W4, Q5, A3. by rewrite delete_insert.
      * exists (Src v' k' x). rewrite Nat.add_0_r. done.
    + rewrite last_of in F3. destruct (back_end _ _ _ _ _ _ _ I3 Hx3 F3) as (b&G4&N4&C4&W4&H4&D4&Nh4&Nk4&O4&R4&F4). exists b. split.
      * split; try done; try congruence.
        -- eapply goes_trans; [exact G1|]. by eapply goes_trans.
        -- intros j Hj. specialize (Hj 0 ltac:(lia)). rewrite Nat.add_0_r in Hj. by rewrite D4, Q3, A2 by (done || lia).
        -- rewrite W4, Q5, A3. by rewrite delete_insert.
      * split; [|rewrite Nat.add_0_r; done]. intros i Hi. assert (i = 0) as -> by lia. rewrite Nat.add_0_r. right. by left.
  - destruct p as [|q g v k x]; [done|]. cbn [depth] in Hd. injection Hd as Hd. cbn [pheld rem] in *. destruct H as [Hq H]. rewrite Hd in H. set (m := B + S d) in *.
    pose proof Fr as (N&W&Fi). destruct (Fi (S d) ltac:(lia)) as [Fi1 Fi2]. fold m in Fi1, Fi2.
    destruct (resumed m a v _ _ kk N W H Hf) as (a1&G1&I1&A1&A2&A3&A4&A5&A6&F1).
    destruct (q_tau a1 _ _ (i_num _ _ _ _ _ _ _ I1) F1 (FactsGen.tau_after _ _)) as (a2&T2&F2).
    assert (Hq1 : pheld a1 q). { eapply pheld_eq; [exact Hq|]. intros i Hi. unfold same_at. rewrite A1, A2; [done|unfold m; lia]. }
    assert (Fr1 : free (S d) a1).
    { split; [apply I1|]. rewrite (i_cur _ _ _ _ _ _ _ I1), A3. split; [by rewrite lookup_insert_ne|]. intros i Hi. destruct (Fi i ltac:(lia)) as [Fi3 Fi4]. rewrite lookup_insert_ne by done. split; [done|unfold m; lia]. }
    destruct (stage_go g m d IH (S (length (rem q).1)) q k x a2 ltac:(lia) Hd ltac:(eapply free_q; [exact Fr1|exact T2]) (pheld_q _ _ _ _ Hq1 T2) F2) as (a3&T3&R3).
    pose proof (qto_nil _ _ _ _ _ (qto_more _ (S d) _ _ _ T2 ltac:(lia)) T3) as T.
    pose proof (inside_q _ _ _ _ _ _ _ _ _ _ I1 T ltac:(unfold m; lia)) as I3. destruct T as [Q1 Q2 Q3 Q4 Q5 Q6 Q7 Q8 Q9].
    assert (Hx3 : a_h a3 !! px m = Some (HObj Pull KVal (Some (Outer (S m))))). { rewrite Q2, A1. apply H. }
    destruct (upto (tot g (rem q) k x).1).2 as [[v' k']|] eqn:Eu.
    + destruct R3 as (q'&k1&x1&D1&Er&H3&F3).
      destruct (back_yield false _ _ _ _ _ _ _ _ I3 Hx3 F3) as (b&G4&N4&C4&W4&H4&D4&Nh4&Nk4&O4&R4&F4). exists b. split.
      * split; try done; try congruence.
        -- eapply goes_trans; [exact G1|]. by eapply goes_trans.
        -- intros j Hj. pose proof (Hj (S d) ltac:(lia)) as Hj1. fold m in Hj1. rewrite D4, Q3, A2 by (done || (intros i Hi; apply Hj; lia)). done.
        -- rewrite W4, Q5, A3. by rewrite delete_insert.
      * exists (Stg q' g v' k1 x1). cbn [depth pcur rem pheld]. rewrite D1. fold m. split; [done|]. split; [done|]. split; [done|]. split; [|done]. split; [|exact R4].
        eapply pheld_eq; [exact H3|]. intros i Hi. unfold same_at. rewrite H4, D4; [done|unfold m; lia].
    + destruct R3 as [L3 F3]. destruct (back_end _ _ _ _ _ _ _ I3 Hx3 F3) as (b&G4&N4&C4&W4&H4&D4&Nh4&Nk4&O4&R4&F4). exists b. split.
      * split; try done; try congruence.
        -- eapply goes_trans; [exact G1|]. by eapply goes_trans.
        -- intros j Hj. pose proof (Hj (S d) ltac:(lia)) as Hj1. fold m in Hj1. rewrite D4, Q3, A2 by (done || (intros i Hi; apply Hj; lia)). done.
        -- rewrite W4, Q5, A3. by rewrite delete_insert.
      * split; [|done]. intros i Hi. destruct (decide (i = S d)) as [->|]; [right; by left|]. eapply loose_eq; [apply L3; lia|]. unfold same_at. rewrite H4, D4; [done|unfold m; lia].
Qed.
End chain.

(** ** Programs *)
(** main runs. *)
Definition mainly (a : astate) : Prop := numbered a /\ a_cur a = 0 /\ a_wait a = ∅.
Lemma mainly_q d a l b : mainly a -> qto 0 d a l b -> mainly b.
Proof. intros (N&C&W) [Q1 Q2 Q3 Q4 Q5 Q6 Q7 Q8 Q9]. split; [done|]. split; congruence. Qed.
Lemma mainly_tou off n a l b : mainly a -> tou off n a l b -> mainly b.
Proof. intros (N&C&W) ((_&[K1 K2 K3 K4 K5]&_)&_). split; [done|]. split; congruence. Qed.
Lemma mainly_free d a : mainly a -> free 0 d a.
Proof. intros (N&C&W). split; [done|]. rewrite C, W. split; [apply lookup_empty|]. intros i Hi. split; [apply lookup_empty|lia]. Qed.
(** The program goes on writing [r.1] and ends as [r.2] says. *)
Definition halts (a : astate) (r : list T * option E) : Prop :=
  exists n b, arun n a = AHalt (match r.2 with None => Finished | Some _ => Terminated end) b /\ output (a_tr b) = output (a_tr a) ++ r.1 /\
    forall y sd kd k, a_h b !! y <> Some (HObj sd kd (Some (Outer k))).
Lemma halts_goes a b w r : goes a b -> output (a_tr b) = output (a_tr a) ++ w -> halts b r -> halts a (w ++ r.1, r.2).
Proof.
  intros [k G] O (n&c&H1&H2&H3). exists (k + n), c. split; [by rewrite (arun_add _ _ _ _ G)|]. split; [|done]. cbn. by rewrite H2, O, app_assoc.
Qed.
Lemma halts_nil a b r : goes a b -> output (a_tr b) = output (a_tr a) -> halts b r -> halts a r.
Proof. intros G O H. destruct r as [l x]. apply (halts_goes a b [] (l, x) G); [by rewrite app_nil_r|done]. Qed.

(** *** Pull coroutines are destroyed *)
Lemma unmake m a kk : mainly a -> loose a m -> owners (S m) a -> a_foc a = AUser (SDo (ODestroy (px m)) kk) ->
  exists b, goes a b /\ mainly b /\ (forall i, i < m -> same_at a b i) /\ output (a_tr b) = output (a_tr a) /\ owners m b /\ a_foc b = AUser (kk (ROk AUnit)).
Proof.
  intros (N&C&W) Hs Ow Hf. assert (Hxs : px m <> ps m) by (unfold px, ps; lia).
  pose proof (astep_op _ _ _ Hf) as E. cbn [op_hs forallb] in E. rewrite (known_x _ _ N) in E. specialize (E eq_refl).
  assert (Hend : forall a3, goes a a3 -> a_foc a3 = AExit -> a_cur a3 = S m -> a_h a3 = delete (px m) (a_h a) -> a_h a !! ps m = Some (HObj Push KVal (Some (Inner (S m)))) ->
    a_co a3 = <[ S m := ACo Pull KVal (AUnw true) SlEmpty (ps m) 0 ]> (a_co a) -> a_wait a3 = <[ 0 := WKill (S m) (NOp (ODestroy (px m))) KfDestroy kk ]> ∅ -> output (a_tr a3) = output (a_tr a) ->
    exists b, goes a b /\ mainly b /\ (forall i, i < m -> same_at a b i) /\ output (a_tr b) = output (a_tr a) /\ owners m b /\ a_foc b = AUser (kk (ROk AUnit))).
  { clear E. intros a3 G B1 B2 B3 H B4 B5 B6.
    destruct (exit_pull a3 (S m) (ACo Pull KVal (AUnw true) SlEmpty (ps m) 0) (S m) (NOp (ODestroy (px m))) KfDestroy kk Push KVal) as (b&G4&R1&R2&R3&R4&R5&_&_&_&R9); try done.
    { by rewrite B4, lookup_insert. } { cbn. by rewrite B3, lookup_delete_ne. } { cbn. by rewrite B5, lookup_insert. }
    cbn in R2, R3, R4, R5. rewrite B3 in R2. rewrite B4 in R3. rewrite B5 in R4. rewrite B6 in R9.
    exists b. split; [by eapply goes_trans|]. split; [|split; [|split; [|split]]]; try done.
    + split; [|split; [done|by rewrite R4, delete_insert]]. intros k' c'. rewrite R3, delete_insert_delete. intros [_ H']%lookup_delete_Some. by apply N.
    + intros i Hi. unfold same_at. rewrite R2, R3. rewrite !lookup_delete_ne by (unfold px, ps; lia). rewrite lookup_insert_ne by lia. done.
    + intros y sd kd j. rewrite R2. intros [? [? Ha]%lookup_delete_Some]%lookup_delete_Some. destruct (Ow _ _ _ _ Ha) as (i&Hi&->). exists i. split; [|done]. destruct (decide (i = m)) as [->|]; [done|lia]. }
  destruct Hs as [(v&fs&(Hx&Hs&_&o&kp0&b&Hc&HK&HD)&Ho)|[(Hx&Hs&_&ex&v&b&Hc)|Hx]].
  - cbn in E. rewrite Hx in E. cbn in E. unfold kill in E. cbn in E. rewrite Hc in E. cbn in E. unfold exn_to in E. cbn in E. rewrite HD in E.
    match type of E with _ = ANext ?b => remember b as a1 eqn:E1 in E end. apply goes_step in E as G1.
    pose proof (proj2 Ho XUnwind) as Ht. rewrite exec_exn0 in Ht.
    destruct (goes_tau a1 (exec (Exn XUnwind) fs) _ ltac:(by rewrite E1) Ht) as (a2&G2&E2).
    assert (G3 : goes a2 (w_foc AExit (alog (EvLeave (S m) (Some XUnwind)) a2))).
    { apply goes_step. rewrite E2, E1. unfold astep. cbn. unfold do_leave. cbn. by rewrite lookup_insert. }
    apply (Hend (w_foc AExit (alog (EvLeave (S m) (Some XUnwind)) a2))); try (by rewrite E2, E1; cbn; rewrite ?C, ?W).
    + eapply goes_trans; [exact G1|]. by eapply goes_trans.
    + done.
  - cbn in E. rewrite Hx in E. cbn in E. unfold kill in E. cbn in E. rewrite Hc in E. cbn in E.
    match type of E with _ = ANext ?b => remember b as a1 eqn:E1 in E end. apply goes_step in E as G1.
    apply (Hend a1); try (by rewrite E1; cbn; rewrite ?C, ?W); done.
  - cbn in E. rewrite Hx in E. cbn in E. unfold ret_to in E. cbn in E.
    eexists. split; [apply goes_step; exact E|]. split; [done|]. split; [|split; [|split]]; cbn; try done.
    + intros i Hi. unfold same_at. cbn. rewrite !lookup_delete_ne by (unfold px, ps; lia). done.
    + intros y sd kd j. cbn. intros [? Ha]%lookup_delete_Some. destruct (Ow _ _ _ _ Ha) as (i&Hi&->). exists i. split; [|done]. destruct (decide (i = m)) as [->|]; [done|lia].
Qed.
Lemma unmake_all x d : forall a, mainly a -> loose_all 0 d a -> owners d a -> a_foc a = AUser (exec (ctl_of x) (owned d)) -> halts a ([], x).
Proof.
  induction d as [|d IH]; intros a M L Ow Hf.
  - cbn [owned] in Hf. destruct M as (N&C&W).
    destruct (goes_halt a a (match x with None => Finished | Some _ => Terminated end) a (goes_refl a)) as [n H].
    { unfold astep. rewrite Hf. destruct x; cbn; rewrite ?exec_exn0; unfold do_leave; by rewrite C. }
    exists n, a. split; [done|]. split; [by rewrite app_nil_r|]. intros y sd kd j Hy. destruct (Ow _ _ _ _ Hy) as (?&?&_). lia.
  - assert (Hd : exists k, exec (ctl_of x) (FLocal (ODestroy (px d)) Skip :: owned d) = SDo (ODestroy (px d)) k /\ k (ROk AUnit) = exec (ctl_of x) (owned d)).
    { rewrite (strat_eta (exec _ _)). destruct x; cbn; by eexists. }
    destruct Hd as (k&E1&E2). cbn [owned] in Hf. rewrite E1 in Hf. destruct (unmake d a k M (L d ltac:(lia)) Ow Hf) as (b&G&M1&S1&O1&Ow1&F1). rewrite E2 in F1.
    apply (halts_nil a b); [done|done|]. apply IH; try done. intros i Hi. eapply loose_eq; [apply L; lia|]. by apply S1.
Qed.

(** *** Everything is destroyed *)
Lemma finish d hs x a : mainly a -> sline (S d) true a hs -> loose_all 0 (S d) a -> owners (S d + length hs) a -> a_foc a = AUser (exec (ctl_of x) (owned (S d + length hs))) -> halts a ([], x).
Proof.
  intros (N&C&W) L Lo Ow Hf. destruct (destroy_stages (S d) true x hs a L N C ltac:(rewrite W; apply lookup_empty) Ow Hf) as (b&G&N1&C1&W1&Ow1&Bl&O1&F1).
  apply (halts_nil a b); [done|done|]. eapply unmake_all; [split; [done|split; [done|congruence]]| |exact Ow1|exact F1].
  intros i Hi. eapply loose_eq; [by apply Lo|]. by apply Bl.
Qed.

(** *** The loop of main *)
Lemma sline_q d e off hs a l b : sline off d a hs -> qto 0 e a l b -> e <= off -> sline off d b hs.
Proof. intros L [Q1 Q2 Q3 Q4 Q5 Q6 Q7 Q8 Q9] He. eapply sline_same; [done| |done]. intros m Hm. apply Q3. lia. Qed.
Lemma main_loop d g hs N : forall p a, length (rem p).1 < N -> depth p = d -> mainly a -> pheld 0 a p -> sline (S d) false a hs -> owners (S d + length hs) a ->
  a_foc a = AUser (exec (Go (for_loop None (fun v => code (gbody g v) (yl (S d) (length hs))) (Some (px d)) None)) (owned (S d + length hs))) ->
  halts a (runx (out (g :: hs)) (inr (pcur p) :: (rem p).1) (rem p).2).
Proof.
  induction N as [|N IH]; intros p a HN Hd M H L Ow Hf; [lia|].
  assert (Hf' : a_foc a = AUser (exec (Go (for_loop None (fun v => code (gbody g v) (yl (S d) (length hs))) (Some (px (0 + depth p))) None)) (owned (S d + length hs)))) by (rewrite Hd; exact Hf).
  destruct (enter_round 0 a p _ _ (proj1 M) H Hf') as (a3&T&F3). rewrite Hd in F3. cbn [Nat.add] in F3.
  assert (M3 : mainly a3) by (by eapply mainly_q). assert (L3 : sline (S d) false a3 hs) by (eapply sline_q; [done|done|lia]). pose proof (pheld_q _ _ _ _ _ H T) as H3.
  destruct (source_yields (S d) hs (g (pcur p)).1 (g (pcur p)).2 (yields_all nothrow (S d) hs) a3 _ ltac:(destruct M3 as (N3&C3&W3); split; [done|rewrite C3, W3; split; [apply lookup_empty|split; [intros; apply lookup_empty|by left]]]) L3 F3) as (a4&T4&L4&F4).
  assert (M4 : mainly a4) by (by eapply mainly_tou). pose proof T4 as ((G4&[K4 _ _ _ _]&O4)&Lo4).
  assert (H4 : pheld 0 a4 p). { eapply pheld_eq; [exact H3|]. intros i Hi. unfold same_at. rewrite K4, Lo4 by lia. done. }
  assert (Ow4 : owners (S d + length hs) a4). { intros y sd kd j. rewrite K4, (q_h _ _ _ _ _ T). apply Ow. }
  assert (G : goes a a4) by (eapply goes_trans; [apply T|exact G4]).
  assert (O : output (a_tr a4) = output (a_tr a) ++ (runx (out hs) (g (pcur p)).1 (g (pcur p)).2).1). { rewrite O4, (q_out _ _ _ _ _ T). by rewrite app_nil_r. }
  clear T T4 G4 O4 K4 Lo4 F3 L3 M3 H3 H Hf Hf' L M Ow a3. cbn [runx out].
  destruct (runx (out hs) (g (pcur p)).1 (g (pcur p)).2) as [o [e|]]; cbn [fst snd ctl_of after_] in *.
  - assert (Hh : halts a4 ([], Some e)). { 
      destruct (q_tau 0 a4 _ _ (proj1 M4) F4 (tau_exn _ _ _)) as (a5&T5&F5). apply (halts_nil a4 a5); [apply T5|rewrite (q_out _ _ _ _ _ T5); by rewrite app_nil_r|].
      apply (finish d hs (Some e)); try done; [by eapply mainly_q|eapply sline_q; [done|done|lia]| |].
      - eapply loose_q; [|exact T5]. rewrite <- Hd. by apply pheld_loose.
      - intros y sd kd j. rewrite (q_h _ _ _ _ _ T5). apply Ow4. }
    pose proof (halts_goes a a4 o _ G O Hh) as R. cbn in R. by rewrite app_nil_r in R.
  - destruct (q_tau 0 a4 _ _ (proj1 M4) F4 (FactsGen.tau_after _ _)) as (a5&T5&F5). rewrite exec_do in F5.
    destruct (advances_all 0 d p a5 _ Hd ltac:(apply mainly_free; by eapply mainly_q) (pheld_q _ _ _ _ _ H4 T5) F5) as (a6&T6&R6). cbn [Nat.add] in R6.
    pose proof (qto_nil _ _ _ _ _ _ (qto_more _ _ (S d) _ _ _ T5 ltac:(lia)) T6) as T. clear T5 T6 F5 F4 a5.
    assert (M6 : mainly a6) by (by eapply mainly_q). assert (L6 : sline (S d) false a6 hs) by (eapply sline_q; [exact L4|exact T|lia]).
    assert (Ow6 : owners (S d + length hs) a6). { intros y sd kd j. rewrite (q_h _ _ _ _ _ T). apply Ow4. }
    assert (G6 : goes a a6) by (eapply goes_trans; [exact G|apply T]).
    assert (O6 : output (a_tr a6) = output (a_tr a) ++ (o ++ (upto (rem p).1).1)). { rewrite (q_out _ _ _ _ _ T), O. by rewrite app_assoc. }
    rewrite (runx_upto _ (rem p).1). cbn [fst snd]. rewrite app_assoc. destruct (upto (rem p).1).2 as [[v' k']|] eqn:Eu.
    + destruct R6 as (p'&D'&<-&Er&H6&F6). cbv beta iota in F6. pose proof (upto_less _ _ _ Eu) as Hlt.
      pose proof (IH p' a6 ltac:(rewrite Er; cbn; lia) D' M6 H6 L6 Ow6 F6) as Hh. rewrite Er in Hh. cbn [fst snd] in Hh.
      exact (halts_goes a a6 _ _ G6 O6 Hh).
    + destruct R6 as (Lo6&_&F6). apply (halts_goes a a6 _ _ G6 O6). destruct (rem p).2 as [e|]; cbv beta iota in F6.
      * apply (finish d hs (Some e)); try done. by apply sline_more.
      * destruct (leave_loop 0 _ _ _ (proj1 M6) F6) as (a7&T7&F7). apply (halts_nil a6 a7); [apply T7|rewrite (q_out _ _ _ _ _ T7); by rewrite app_nil_r|].
        apply (finish d hs None); try done; [by eapply mainly_q|eapply sline_q; [by apply sline_more|done|lia]|by eapply loose_q|].
        intros y sd kd j. rewrite (q_h _ _ _ _ _ T7). apply Ow6.
Qed.

(** *** Pull coroutines are made *)
(** The last pull coroutine is going to do [L] and end as [X] says. *)
Definition pend (a : astate) (d : nat) (L : list (T + T)) (X : option E) : Prop :=
  (exists p, depth p = d /\ pheld 0 a p /\ L = inr (pcur p) :: (rem p).1 /\ X = (rem p).2) \/ (L = [] /\ X = None /\ loose_all 0 (S d) a /\ a_h a !! px d = Some (HObj Pull KVal None)).
Lemma pend_eq a b d L X : pend a d L X -> (forall i, i <= d -> same_at a b i) -> pend b d L X.
Proof.
  intros [(p&Hd&H&E1&E2)|(E1&E2&Lo&H)] S.
  - left. exists p. split; [done|]. split; [|done]. eapply pheld_eq; [done|]. intros i Hi. apply S. lia.
  - right. split; [done|]. split; [done|]. split; [|by rewrite (proj1 (S d ltac:(lia)))]. intros i Hi. eapply loose_eq; [by apply Lo|]. apply S. lia.
Qed.
Lemma pend_loose a d L X : pend a d L X -> loose_all 0 (S d) a.
Proof. intros [(p&<-&H&_)|(_&_&H&_)]; [by apply pheld_loose|done]. Qed.
Lemma begin a d L X g yield fs : numbered a -> pend a d L X -> a_foc a = AUser (exec (Go (stage g (px d) yield)) fs) ->
  exists b, qto 0 0 a [] b /\ a_foc b = AUser (exec (Go (for_loop None (fun v => code (gbody g v) yield) (match L with [] => None | _ => Some (px d) end) None)) fs).
Proof.
  intros N H Hf. unfold stage in Hf. destruct (q_look 0 a _ _ _ _ (AIt (match L with [] => None | _ => Some (px d) end)) [] N Hf) as (d2&T2&F2); [..|done|].
  { cbn. rewrite known_x by done. done. }
  { destruct H as [(p&Hd&H&->&->)|(->&->&_&Hx)]; intros kk; cbn.
    - destruct (pheld_cur _ _ _ H) as (o&kp&b&X1&X2). rewrite Hd in X1, X2. cbn in X1, X2. rewrite X1. cbn. by rewrite X2.
    - rewrite Hx. done. }
  destruct (q_look 0 d2 _ _ _ _ (AIt None) [] (q_num _ _ _ _ _ T2) F2) as (d3&T3&F3); [done|done|done|]. exists d3. split; [by eapply qto_nil|done].
Qed.

(** The constructor of pull coroutine [m], whose function does [F]. *)
Definition made (m : nat) (a : astate) (F : list (T + T) * option E) (kk : resp -> strat) : Prop :=
  exists b, goes a b /\ mainly b /\ output (a_tr b) = output (a_tr a) ++ (upto F.1).1 /\ a_nh b = px (S m) /\ a_nk b = S (S m) /\
    match (upto F.1).2, F.2 with
    | Some (v, k), X => pend b m (inr v :: k) X /\ owners (S m) b /\ a_foc b = AUser (kk (ROk (AH (px m))))
    | None, None => pend b m [] None /\ owners (S m) b /\ a_foc b = AUser (kk (ROk (AH (px m))))
    | None, Some e => loose_all 0 m b /\ owners m b /\ a_foc b = AUser (kk (RExn (XUser e)))
    end.
Lemma entered m a fn kk : mainly a -> a_nh a = px m -> a_nk a = S m -> a_foc a = AUser (SNew Pull KVal (NewP None None) fn kk) ->
  exists b, goes a b /\ inside m b SlEmpty 0 (NNew Pull KVal) (PoNew (px m) KVal) kk /\ a_wait b = <[ 0 := WOp (S m) (NNew Pull KVal) (PoNew (px m) KVal) kk ]> ∅ /\
    a_h b = <[ ps m := HObj Push KVal (Some (Inner (S m))) ]> (a_h a) /\ (forall j, j <> S m -> a_co b !! j = a_co a !! j) /\
    a_nh b = px (S m) /\ a_nk b = S (S m) /\ output (a_tr b) = output (a_tr a) /\ a_foc b = AUser (fn (ps m)).
Proof.
  intros (N&C&W) Nh Nk Hf. destruct (new_enter a fn kk Hf) as (a1&G1&Ea). rewrite Nh, Nk, C, W in Ea. assert (Hsp : S (px m) = ps m) by done. rewrite Hsp in Ea.
  exists a1. split; [done|]. rewrite Ea. cbn. split; [|split; [done|split; [done|split; [|split; [|done]]]]].
  - split; cbn; try done; [eapply numbered_ins; [exact N| |reflexivity]; done|by rewrite lookup_insert..].
  - intros j Hj. by rewrite lookup_insert_ne.
  - unfold ps, px. lia.
Qed.
(** The end of the constructor. *)
Lemma made_yield m a v fs kk : inside m a SlEmpty 0 (NNew Pull KVal) (PoNew (px m) KVal) kk -> a_wait a = <[ 0 := WOp (S m) (NNew Pull KVal) (PoNew (px m) KVal) kk ]> ∅ ->
  a_foc a = AUser (exec (Go (give m v)) fs) -> owners m a ->
  exists b, goes a b /\ mainly b /\ output (a_tr b) = output (a_tr a) /\ a_nh b = a_nh a /\ a_nk b = a_nk a /\ (forall i, i < m -> same_at a b i) /\ owners (S m) b /\ cellp b m v fs /\ a_foc b = AUser (kk (ROk (AH (px m)))).
Proof.
  intros I W Hf Ow. destruct (back_yield true _ _ _ _ _ _ _ _ I Logic.I Hf) as (b&G4&N4&C4&W4&H4&D4&Nh4&Nk4&O4&R4&F4). exists b. split; [done|].
  split; [split; [done|split; [done|by rewrite W4, W, delete_insert]]|]. split; [done|]. split; [done|]. split; [done|]. split; [|split; [|done]].
  - intros i Hi. unfold same_at. rewrite H4, D4 by lia. rewrite !lookup_insert_ne by (unfold px, ps; lia). done.
  - intros y sd kd j. rewrite H4. intros [[<- _]|[_ Ha]]%lookup_insert_Some; [exists m; split; [lia|done]|]. destruct (Ow _ _ _ _ Ha) as (i&Hi&->). exists i. split; [lia|done].
Qed.
Lemma made_end m a x kk : inside m a SlEmpty 0 (NNew Pull KVal) (PoNew (px m) KVal) kk -> a_wait a = <[ 0 := WOp (S m) (NNew Pull KVal) (PoNew (px m) KVal) kk ]> ∅ ->
  a_foc a = AUser (last_ x) -> owners m a -> loose_all 0 m a ->
  exists b, goes a b /\ mainly b /\ output (a_tr b) = output (a_tr a) /\ a_nh b = a_nh a /\ a_nk b = a_nk a /\
    match x with None => pend b m [] None /\ owners (S m) b /\ a_foc b = AUser (kk (ROk (AH (px m)))) | Some e => loose_all 0 m b /\ owners m b /\ a_foc b = AUser (kk (RExn (XUser e))) end.
Proof.
  intros I W Hf Ow Lo. destruct (back_new _ _ _ _ _ I Hf) as (b&G4&N4&C4&W4&H4&D4&Nh4&Nk4&O4&F4). exists b. split; [done|].
  split; [split; [done|split; [done|by rewrite W4, W, delete_insert]]|]. split; [done|]. split; [done|]. split; [done|].
  assert (Lo4 : loose_all 0 m b).
  { intros i Hi. eapply loose_eq; [by apply Lo|]. unfold same_at. cbn [Nat.add]. rewrite H4, D4 by lia. destruct x; [|rewrite !lookup_insert_ne by (unfold px, ps; lia)]; rewrite !lookup_delete_ne by (unfold px, ps; lia); done. }
  assert (Ow4 : forall y sd kd j, y <> px m -> a_h b !! y = Some (HObj sd kd (Some (Outer j))) -> exists i, i < m /\ y = px i).
  { intros y sd kd j Hy. rewrite H4. destruct x; [|rewrite lookup_insert_ne by done]; intros [_ Ha]%lookup_delete_Some; by apply (Ow _ _ _ _ Ha). }
  destruct x as [e|].
  - split; [done|]. split; [|done]. intros y sd kd j. rewrite H4. intros [_ Ha]%lookup_delete_Some. by apply (Ow _ _ _ _ Ha).
  - assert (Hx : a_h b !! px m = Some (HObj Pull KVal None)) by (by rewrite H4, lookup_insert). split; [|split; [|done]].
    + right. split; [done|]. split; [done|]. split; [|done]. intros i Hi. destruct (decide (i = m)) as [->|]; [right; by right|apply Lo4; lia].
    + intros y sd kd j Hy. destruct (decide (y = px m)) as [->|Hn]; [by rewrite Hx in Hy|]. destruct (Ow4 _ _ _ _ Hn Hy) as (i&Hi&->). exists i. split; [lia|done].
Qed.
Lemma owners_in m a b : a_h b = <[ ps m := HObj Push KVal (Some (Inner (S m))) ]> (a_h a) -> owners m a -> owners m b.
Proof. intros E Ow y sd kd j. rewrite E. intros [[_ ?]|[_ Ha]]%lookup_insert_Some; [done|]. by apply (Ow _ _ _ _ Ha). Qed.

Lemma make_src a l x kk : mainly a -> a_nh a = px 0 -> a_nk a = 1 -> owners 0 a -> a_foc a = AUser (SNew Pull KVal (NewP None None) (fun s => exec (Go (generator (source_of l x) s)) []) kk) -> made 0 a (l, x) kk.
Proof.
  intros M Nh Nk Ow Hf. destruct (entered 0 a _ kk M Nh Nk Hf) as (a1&G1&I1&W1&H1&D1&Nh1&Nk1&O1&F1). unfold generator, source_of in F1. cbn [code] in F1.
  destruct (q_tau 0 a1 _ _ (i_num _ _ _ _ _ _ _ I1) F1 (FactsGen.tau_in _ _ _)) as (a2&T2&F2).
  destruct (src_run 0 0 l x [] a2 (q_num _ _ _ _ _ T2) F2) as (a3&T3&F3). pose proof (qto_nil _ _ _ _ _ _ T2 T3) as T. clear T2 T3 F2 F1.
  pose proof (inside_q _ _ _ _ _ _ _ _ _ _ _ I1 T ltac:(lia)) as I3. destruct T as [Q1 Q2 Q3 Q4 Q5 Q6 Q7 Q8 Q9].
  assert (Ow3 : owners 0 a3). { eapply (owners_in 0 a); [|done]. congruence. } assert (W3 : a_wait a3 = <[ 0 := WOp 1 (NNew Pull KVal) (PoNew (px 0) KVal) kk ]> ∅) by congruence.
  assert (G3 : goes a a3) by (by eapply goes_trans). unfold made. cbn [fst snd]. destruct (upto l).2 as [[v k]|] eqn:Eu.
  - destruct (made_yield 0 a3 v _ kk I3 W3 F3 Ow3) as (b&G4&M4&O4&Nh4&Nk4&_&Ow4&R4&F4). exists b. split; [by eapply goes_trans|]. split; [done|]. split; [congruence|]. split; [congruence|]. split; [congruence|].
    split; [|done]. left. exists (Src v k x). done.
  - rewrite last_of in F3. destruct (made_end 0 a3 x kk I3 W3 F3 Ow3) as (b&G4&M4&O4&Nh4&Nk4&R4); [intros i Hi; lia|]. exists b. split; [by eapply goes_trans|]. split; [done|]. split; [congruence|]. split; [congruence|]. split; [congruence|]. by destruct x.
Qed.
Lemma make_stage a d L X g kk : mainly a -> a_nh a = px (S d) -> a_nk a = S (S d) -> owners (S d) a -> pend a d L X ->
  a_foc a = AUser (SNew Pull KVal (NewP None None) (fun s => exec (Go (stage g (px d) (fun v => push s (AImm v) Skip))) []) kk) -> made (S d) a (flow g L X) kk.
Proof.
  intros M Nh Nk Ow P Hf. set (m := S d) in *. destruct (entered m a _ kk M Nh Nk Hf) as (a1&G1&I1&W1&H1&D1&Nh1&Nk1&O1&F1).
  assert (P1 : pend a1 d L X). { eapply pend_eq; [exact P|]. intros i Hi. unfold same_at. rewrite H1, D1 by (unfold m; lia). rewrite !lookup_insert_ne by (unfold px, ps, m; lia). done. }
  destruct (begin a1 d L X g _ _ (i_num _ _ _ _ _ _ _ I1) P1 F1) as (a2&T2&F2). clear F1 P.
  assert (P2 : pend a2 d L X). { eapply pend_eq; [exact P1|]. intros i Hi. eapply same_q; [exact T2|lia]. } clear P1.
  assert (Fr2 : free 0 (S d) a2).
  { split; [apply T2|]. rewrite (q_cur _ _ _ _ _ T2), (q_wait _ _ _ _ _ T2), (i_cur _ _ _ _ _ _ _ I1), W1. split; [by rewrite lookup_insert_ne|]. intros i Hi. rewrite lookup_insert_ne by done. split; [apply lookup_empty|unfold m; lia]. }
  assert (Hgo : exists a3, qto 0 (S d) a1 (upto (flow g L X).1).1 a3 /\
    match (upto (flow g L X).1).2 with
    | Some (v, k2) => exists q' k' x', depth q' = d /\ tot g (rem q') k' x' = (k2, (flow g L X).2) /\ pheld 0 a3 q' /\ a_foc a3 = AUser (exec (Go (give m v)) (rest m k' x' [FBlock (again (0 + d) m g)]))
    | None => loose_all 0 (S d) a3 /\ a_foc a3 = AUser (last_ (flow g L X).2)
    end).
  { destruct P2 as [(p&Hd&H&->&->)|(->&->&Lo&Hx)].
    - cbv beta iota in F2. assert (F2' : a_foc a2 = AUser (exec (Go (for_loop None (fun v => code (gbody g v) (give m)) (Some (px (0 + depth p))) None)) [])) by (rewrite Hd; exact F2).
      destruct (enter_round 0 a2 p _ _ (proj1 Fr2) H F2') as (a4&T4&F4). rewrite Hd in F4.
      unfold gbody at 1, source_of in F4. cbn [code] in F4. destruct (q_tau 0 a4 _ _ (q_num _ _ _ _ _ T4) F4 (FactsGen.tau_in _ _ _)) as (a5&T5&F5).
      pose proof (qto_nil _ _ _ _ _ _ T4 T5) as T6.
      destruct (stage_go 0 g m d (advances_all 0 d) (S (length (rem p).1)) p _ _ a5 ltac:(lia) Hd ltac:(eapply free_q; [exact Fr2|exact T6]) (pheld_q _ _ _ _ _ H T6) F5) as (a3&T3&R3).
      assert (Et : tot g (rem p) (g (pcur p)).1 (g (pcur p)).2 = flow g (inr (pcur p) :: (rem p).1) (rem p).2) by (rewrite flow_cons; done).
      rewrite Et in T3, R3. exists a3. split; [|exact R3]. eapply qto_nil; [|exact T3]. eapply qto_more; [eapply qto_nil; [exact T2|exact T6]|lia].
    - destruct (leave_loop 0 _ _ _ (proj1 Fr2) F2) as (a3&T3&F3). rewrite exec_skip0 in F3. exists a3. cbn. split; [eapply qto_more; [eapply qto_nil; [exact T2|exact T3]|lia]|]. split; [by eapply loose_q|done]. }
  destruct Hgo as (a3&T&R3). pose proof (inside_q _ _ _ _ _ _ _ _ _ _ _ I1 T ltac:(unfold m; lia)) as I3. destruct T as [Q1 Q2 Q3 Q4 Q5 Q6 Q7 Q8 Q9].
  assert (Ow3 : owners m a3). { eapply (owners_in m a); [|done]. congruence. } assert (W3 : a_wait a3 = <[ 0 := WOp (S m) (NNew Pull KVal) (PoNew (px m) KVal) kk ]> ∅) by congruence.
  assert (G3 : goes a a3) by (by eapply goes_trans). unfold made. destruct (upto (flow g L X).1).2 as [[v k]|] eqn:Eu.
  - destruct R3 as (q'&k'&x'&Dq&Er&H3&F3). destruct (made_yield m a3 v _ kk I3 W3 F3 Ow3) as (b&G4&M4&O4&Nh4&Nk4&S4&Ow4&R4&F4). exists b. split; [by eapply goes_trans|]. split; [done|]. split; [congruence|]. split; [congruence|]. split; [congruence|].
    split; [|done]. left. exists (Stg q' g v k' x'). cbn [depth pheld pcur rem]. rewrite Dq, Er. cbn [fst snd]. split; [done|]. split; [|done]. split; [|exact R4]. eapply pheld_eq; [exact H3|]. intros i Hi. apply S4. unfold m. cbn. lia.
  - destruct R3 as [Lo3 F3]. destruct (made_end m a3 _ kk I3 W3 F3 Ow3 Lo3) as (b&G4&M4&O4&Nh4&Nk4&R4). exists b. split; [by eapply goes_trans|]. split; [done|]. split; [congruence|]. split; [congruence|]. split; [congruence|]. exact R4.
Qed.

(** *** The whole *)
Lemma pulls_run g hs gs : forall d a L X, mainly a -> a_nh a = px (S d) -> a_nk a = S (S d) -> owners (S d) a -> pend a d L X ->
  a_foc a = AUser (exec (Go (pulls gs (px d) (fun y => sinks (rev hs) (fun v => emit v Skip) (fun yield => stage g y yield)))) (owned (S d))) ->
  halts a (runx (out (gs ++ g :: hs)) L X).
Proof.
  induction gs as [|g1 gs IH]; intros d a L X M Nh Nk Ow P Hf.
  - cbn [pulls app] in *. pose proof M as (N&C&W).
    destruct (sinks_run (S d) (fun yield => stage g (px d) yield) (rev hs) a []) as (b&p&Ep&G1&L1&N1&C1&W1&Ow1&O1&F1&Bl); try done; cbn [length]; rewrite ?Nat.add_0_r; try done.
    rewrite app_nil_r, rev_involutive in Ep. subst p. apply (halts_nil a b); [done|done|]. assert (M1 : mainly b) by done.
    assert (P1 : pend b d L X). { eapply pend_eq; [exact P|]. intros i Hi. apply Bl. lia. }
    destruct (begin b d L X g _ _ N1 P1 F1) as (c&T&F2). apply (halts_nil b c); [apply T|rewrite (q_out _ _ _ _ _ T); by rewrite app_nil_r|].
    assert (M2 : mainly c) by (by eapply mainly_q). assert (L2 : sline (S d) false c hs) by (eapply sline_q; [done|done|lia]).
    assert (Ow2 : owners (S d + length hs) c). { intros y sd kd j. rewrite (q_h _ _ _ _ _ T). apply Ow1. }
    destruct P1 as [(p&Hd&H&->&->)|(->&->&Lo&Hx)].
    + eapply (main_loop d g hs (S (length (rem p).1))); try done; [lia|by eapply pheld_q].
    + destruct (leave_loop 0 _ _ _ (proj1 M2) F2) as (e&T3&F3). apply (halts_nil c e); [apply T3|rewrite (q_out _ _ _ _ _ T3); by rewrite app_nil_r|].
      cbn [runx]. apply (finish d hs None); try done; [by eapply mainly_q|eapply sline_q; [by apply sline_more|done|lia]|eapply loose_q; [by eapply loose_q|done]|].
      intros y sd kd j. rewrite (q_h _ _ _ _ _ T3). apply Ow2.
  - cbn [pulls app] in *. rewrite exec_new in Hf. destruct (make_stage a d L X g1 _ M Nh Nk Ow P Hf) as (b&G1&M1&O1&Nh1&Nk1&R1). rewrite <- runx_flow, runx_upto.
    apply (halts_goes a b _ _ G1 O1). destruct (upto (flow g1 L X).1).2 as [[v k]|].
    + destruct R1 as (P1&Ow1&F1). by apply (IH (S d)).
    + destruct (flow g1 L X).2 as [e|].
      * destruct R1 as (Lo1&Ow1&F1). by apply (unmake_all (Some e) (S d)).
      * destruct R1 as (P1&Ow1&F1). exact (IH (S d) b [] None M1 Nh1 Nk1 Ow1 P1 F1).
Qed.

Lemma mixed_run gs g hs l x u : exists n a, arun n (ainit (mixed gs g hs l x) u) = AHalt (match (runx (out (gs ++ g :: hs)) l x).2 with None => Finished | Some _ => Terminated end) a /\
  output (a_tr a) = (runx (out (gs ++ g :: hs)) l x).1 /\ forall y sd kd k, a_h a !! y <> Some (HObj sd kd (Some (Outer k))).
Proof.
  set (a := ainit (mixed gs g hs l x) u). enough (halts a (runx (out (gs ++ g :: hs)) l x)) as (n&b&H1&H2&H3) by (by exists n, b).
  assert (M : mainly a) by done. assert (Ow : owners 0 a) by done.
  assert (Hf : a_foc a = AUser (exec (Go (LocalCo Pull KVal plain_new (generator (source_of l x)) (fun y => pulls gs y (fun y => sinks (rev hs) (fun v => emit v Skip) (fun yield => stage g y yield))) Skip)) [])) by done.
  rewrite exec_new in Hf. destruct (make_src a l x _ M eq_refl eq_refl Ow Hf) as (b&G1&M1&O1&Nh1&Nk1&R1). cbn [fst snd] in R1, O1. rewrite runx_upto.
  apply (halts_goes a b _ _ G1 O1). destruct (upto l).2 as [[v k]|].
  - destruct R1 as (P1&Ow1&F1). by apply (pulls_run g hs gs 0).
  - destruct x as [e|].
    + destruct R1 as (Lo1&Ow1&F1). by apply (unmake_all (Some e) 0).
    + destruct R1 as (P1&Ow1&F1). exact (pulls_run g hs gs 0 b [] None M1 Nh1 Nk1 Ow1 P1 F1).
Qed.
End mix.
