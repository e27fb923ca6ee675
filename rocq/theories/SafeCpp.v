(** SafeCpp.v -- programs in the language of Cpp.v that use certain operations only: those that
    push no values whose construction can fail (the condition of C53), for pipelines (C52)
    and chains (C55); those that do not move coroutine objects (C56). *)
From stdpp Require Import prelude gmap.
From Verif Require Import Base Model Trace Contract Discipline Uses Cpp FactsReplay FactsProg Progs Gens Pipes Many Chain.

Section only.
Context {env : Env} (P : op -> Prop) (Pdestroy : forall h, P (ODestroy h)) (Plog : forall n, P (OLog n)).

Definition strat_ok (R : strat -> Prop) (s : strat) : Prop :=
  match s with
  | SDo o k => P o /\ forall r, R (k r)
  | SNew _ _ _ fn k => (forall h, R (fn h)) /\ forall r, R (k r)
  | STau s => R s
  | _ => True
  end.
Lemma only_coind (R : strat -> Prop) : (forall s, R s -> strat_ok R s) -> forall s, R s -> only P s.
Proof.
  intros H. cofix IH. intros s Hs. specialize (H s Hs).
  destruct s as [|x|o k|sd kd np fn k|s]; cbn in H; [apply on_ret|apply on_throw|destruct H as [H1 H2]; apply on_do; [done|intros r; by apply IH]|destruct H as [H1 H2]; apply on_new; intros; by apply IH|by apply on_tau, IH].
Qed.

(** The same for statements. *)
Definition stm_ok (R : stm -> Prop) (s : stm) : Prop :=
  match s with
  | Skip | Return | Throw _ => True
  | Do o _ k => P o /\ forall a, R (k a)
  | Local _ body k | OnExn body _ k | Block body k => R body /\ R k
  | LocalCo _ _ _ fn body k => (forall h, R (fn h)) /\ (forall h, R (body h)) /\ R k
  | LocalMove h body k => P (OMoveCtor h) /\ (forall h, R (body h)) /\ R k
  | Try body hd k => R body /\ (forall e, R (hd e)) /\ R k
  end.
Definition stm_only (s : stm) : Prop := exists R : stm -> Prop, R s /\ forall s, R s -> stm_ok R s.
Lemma stm_ok_mono (R R' : stm -> Prop) s : (forall s, R s -> R' s) -> stm_ok R s -> stm_ok R' s.
Proof. intros H. destruct s; cbn; try done; intros; destruct_and?; split_and?; eauto. Qed.
Lemma only_unfold s : stm_only s -> stm_ok stm_only s.
Proof. intros (R&H1&H2). eapply stm_ok_mono; [|by apply H2]. intros s' Hs'. by exists R. Qed.
Lemma only_fold s : stm_ok stm_only s -> stm_only s.
Proof.
  intros H. exists (fun s => stm_ok stm_only s). split; [done|]. intros s' Hs'. eapply stm_ok_mono; [|exact Hs']. apply only_unfold.
Qed.

Definition frame_only (f : frame) : Prop :=
  match f with FLocal d k => P d /\ stm_only k | FTry hd k => (forall e, stm_only (hd e)) /\ stm_only k | FOnExn _ k | FBlock k => stm_only k end.
Definition ctl_only (c : ctl) : Prop := match c with Go s => stm_only s | _ => True end.
Lemma exec_only c fs : ctl_only c -> Forall frame_only fs -> only P (exec c fs).
Proof.
  intros Hc Hf. apply (only_coind (fun s => exists c fs, s = exec c fs /\ ctl_only c /\ Forall frame_only fs)); [|by exists c, fs].
  clear - Plog Pdestroy. intros s (c&fs&->&Hc&Hf). rewrite (strat_eta (exec c fs)).
  assert (Hx : forall x fs, Forall frame_only fs -> exists c' fs', exec (Exn x) fs = exec c' fs' /\ ctl_only c' /\ Forall frame_only fs') by (intros x fs' H; by exists (Exn x), fs').
  assert (Hr : forall fs, Forall frame_only fs -> exists c' fs', exec Ret fs = exec c' fs' /\ ctl_only c' /\ Forall frame_only fs') by (intros fs' H; by exists Ret, fs').
  assert (Hg : forall s fs, stm_only s -> Forall frame_only fs -> exists c' fs', exec (Go s) fs = exec c' fs' /\ ctl_only c' /\ Forall frame_only fs') by (intros s fs' H H'; by exists (Go s), fs').
  destruct c as [s| |x].
  - apply only_unfold in Hc. destruct s as [| |e|o ok k|n body k|sd kd np fn body k|h body k|body hd k|body n k|body k]; cbn in Hc |- *.
    + destruct fs as [|[d k|hd k|n k|k] fs]; cbn; try exact I; apply Forall_cons in Hf as [H1 H2]; cbn in H1; [|apply Hg; [apply H1|exact H2]|apply Hg; [exact H1|exact H2]..].
      split; [apply H1|]. intros [a|x]; [apply Hg; [apply H1|done]|by apply Hx].
    + by apply Hr.
    + by apply Hx.
    + split; [apply Hc|]. intros [a|x]; [apply Hg; [apply Hc|done]|by apply Hx].
    + split; [apply Plog|]. intros [a|x]; [|by apply Hx]. apply Hg; [apply Hc|]. apply Forall_cons. split; [|done]. split; [apply Plog|apply Hc].
    + destruct Hc as (H1&H2&H3). split; [intros s; by apply Hg|]. intros [[]|x]; try (by apply Hr); [|by apply Hx]. apply Hg; [apply H2|]. apply Forall_cons. split; [|done]. by split.
    + destruct Hc as (H1&H2&H3). split; [done|]. intros [[]|x]; try (by apply Hr); [|by apply Hx]. apply Hg; [apply H2|]. apply Forall_cons. split; [|done]. by split.
    + apply Hg; [apply Hc|]. apply Forall_cons. split; [|done]. split; apply Hc.
    + apply Hg; [apply Hc|]. apply Forall_cons. split; [|done]. apply Hc.
    + apply Hg; [apply Hc|]. apply Forall_cons. split; [|done]. apply Hc.
  - destruct fs as [|[d k|hd k|n k|k] fs]; cbn; try exact I; apply Forall_cons in Hf as [H1 H2]; cbn in H1; [|by apply Hr..].
    split; [apply H1|]. intros [a|x]; [by apply Hr|by apply Hx].
  - destruct fs as [|[d k|hd k|n k|k] fs]; cbn; try exact I; apply Forall_cons in Hf as [H1 H2]; cbn in H1.
    + split; [apply H1|]. intros [a|x']; by apply Hx.
    + destruct x; cbn; [|by apply Hx]. apply Hg; [apply H1|]. apply Forall_cons. split; [|done]. apply H1.
    + split; [apply Plog|]. intros [a|x']; by apply Hx.
    + by apply Hx.
Qed.
Lemma cxx_only s : stm_only s -> only P (cxx s).
Proof. intros H. by apply exec_only. Qed.

End only.
Arguments only_fold {env} {P}.
Lemma only_mono `{env : Env} (P Q : op -> Prop) s : (forall o, P o -> Q o) -> only P s -> only Q s.
Proof.
  intros H. revert s. cofix IH. intros s Hs. destruct Hs as [|x|o k Ho Hk|sd kd np fn k Hf Hk|s Hs];
    [apply on_ret|apply on_throw|apply on_do; [by apply H|intros r; apply IH, Hk]|apply on_new; intros; apply IH; auto|apply on_tau, IH, Hs].
Qed.

(** ** Values moved into the slot *)
Section safe.
Context {env : Env} (nomove : forall v, move_exn v = None).
Definition good (o : op) : Prop := push_safe o /\ moves_no o.
Ltac fold_safe := apply only_fold; cbn.
Lemma skip_safe : stm_only good Skip.
Proof. by fold_safe. Qed.
Lemma push_imm_safe s v k : stm_only good k -> stm_only good (push s (AImm v) k).
Proof. intros H. fold_safe. split; [split; [apply nomove|done]|done]. Qed.
Lemma emit_safe v k : stm_only good k -> stm_only good (emit v k).
Proof. intros H. fold_safe. by split. Qed.

Lemma forever_safe (b : nat -> stm) j : (forall j, stm_only good (b j)) -> stm_only good (forever_do b j).
Proof.
  intros Hb. exists (fun s => stm_only good s \/ exists j, s = forever_do b j). split; [right; by exists j|].
  intros s [Hs|[i ->]]; [eapply stm_ok_mono; [|by apply only_unfold]; auto|]. rewrite (stm_eta (forever_do b i)). cbn. split; [by left|right; by eexists].
Qed.
Lemma while_safe x (b : nat -> stm) j : (forall j, stm_only good (b j)) -> stm_only good (while_do x b j).
Proof.
  intros Hb. exists (fun s => stm_only good s \/ exists j, s = while_do x b j \/ s = Block (b j) (while_do x b (S j))). split; [right; exists j; by left|].
  intros s [Hs|[i [-> | ->]]]; [eapply stm_ok_mono; [|by apply only_unfold]; auto| |].
  - rewrite (stm_eta (while_do x b i)). cbn. split; [done|]. intros [|[]| | | |]; try (left; apply skip_safe). right. exists i. by right.
  - cbn. split; [by left|]. right. eexists. by left.
Qed.

(** ** Chains *)
Lemma declare_safe (c : list nat -> (T -> stm) -> stm) ys k : (forall xs yield, (forall v, stm_only good (yield v)) -> stm_only good (c xs yield)) -> (forall x, stm_only good (k x)) -> stm_only good (declare c ys k).
Proof. intros Hc Hk. fold_safe. split; [intros s; apply Hc; intros v'; apply push_imm_safe, skip_safe|split; [done|apply skip_safe]]. Qed.
Lemma both_safe up p : (forall xs yield, (forall v, stm_only good (yield v)) -> stm_only good (ccode up p xs yield)) /\ (forall ys k, (forall x, stm_only good (k x)) -> stm_only good (chain up p ys k)).
Proof.
  induction p as [|v|w|e| |p1 [IH1 _] p2 [IH2 _]|p [IHp _] h IHh|src [IHs0 IHs] body [IHb IHb0]|i f IHf q [IHq _]|i f IHf q [IHq _]|i|i f IHf|f IHf].
  all: refine ((fun H => conj H (fun ys k Hk => _)) _).
  all: unfold chain, ccode in *; cbn [both fst snd] in *.
  all: try (apply declare_safe; [exact H|exact Hk]).
  all: try (match goal with |- stm_only good ((if ?b then _ else _) _ _) => destruct b | |- stm_only good (if ?b then _ else _) => destruct b end; [apply IHs; intros y; by apply IHb0|apply declare_safe; [exact H|exact Hk]]).
  all: intros xs yield Hy.
  - apply skip_safe.
  - apply Hy.
  - apply emit_safe, skip_safe.
  - by fold_safe.
  - by fold_safe.
  - fold_safe. split; [by apply IH1|by apply IH2].
  - fold_safe. split; [by apply IHp|]. split; [intros e; by apply (proj1 (IHh e))|apply skip_safe].
  - apply IHs. intros x. by apply IHb.
  - destruct (xs !! i) as [x|]; [|by apply IHq]. fold_safe. split; [done|]. intros [|[]| | | |]; try (by apply IHq). fold_safe. split; [done|]. intros [| | | |v|]; try (by fold_safe). by apply (proj1 (IHf v)).
  - destruct (xs !! i) as [x|]; [|by apply IHq]. fold_safe. split; [done|]. intros it. fold_safe. split; [done|]. intros e.
    destruct it as [| | |it| |]; try (by fold_safe). destruct e as [| | |e| |]; try (by fold_safe). fold_safe. split; [done|]. intros [|[]| | | |]; try (by apply IHq).
    fold_safe. split; [done|]. intros [| | | |v|]; try (by fold_safe). by apply (proj1 (IHf v)).
  - destruct (xs !! i) as [x|]; [|apply skip_safe]. fold_safe. split; [done|]. intros [|[]| | | |]; try (apply skip_safe). fold_safe. split; [done|]. intros _. apply skip_safe.
  - destruct (xs !! i) as [x|]; [|apply skip_safe]. apply while_safe. intros j. by apply (proj1 (IHf j)).
  - apply forever_safe. intros j. by apply (proj1 (IHf j)).
Qed.
Lemma cmain_good up p : only good (cmain up p).
Proof. apply cxx_only; [done..|]. apply both_safe. intros v. apply emit_safe, skip_safe. Qed.

(** ** Pipelines *)
Definition giver (give : T -> stm -> stm) : Prop := forall v k, stm_only good k -> stm_only good (give v k).
Lemma pass_giver x : giver (pass x).
Proof. intros v k Hk. fold_safe. split; [done|]. intros [|[]| | | |]; try done. by apply push_imm_safe. Qed.
Lemma work_safe give l : giver give -> stm_only good (work give l).
Proof. intros Hg. induction l as [|[w|v] l IH]; cbn; [apply skip_safe|by apply emit_safe|by apply Hg]. Qed.
Lemma writes_safe l : stm_only good (writes l).
Proof. induction l as [|w l IH]; cbn; [apply skip_safe|by apply emit_safe]. Qed.
Lemma consume_safe give s c : giver give -> stm_only good (consume give s c).
Proof.
  intros Hg. set (fin := fun n : after => match n with Again c' => Do (OResume s) eq_refl (fun _ => consume give s c') | Done => Return | Fails e => Throw e end).
  set (hnd := fun (c : consumer) v e => Block (writes (rescue c v e).1) (fin (rescue c v e).2)).
  exists (fun t => stm_only good t \/ (exists c, t = consume give s c) \/ (exists n, t = fin n) \/ (exists c v e, t = hnd c v e) \/ (exists c v, t = Try (work give (react c v)) (hnd c v) (fin (next c v)))).
  split; [right; left; by exists c|]. clear c. intros t [Ht|[[c ->]|[[n ->]|[(c&v&e&->)|(c&v&->)]]]].
  - eapply stm_ok_mono; [|by apply only_unfold]. auto.
  - rewrite (stm_eta (consume give s c)). cbn. split; [done|]. intros [| | | |v|]; [left; by fold_safe..| |left; by fold_safe]. do 4 right. by exists c, v.
  - destruct n as [c'| |e]; cbn; [|done..]. split; [done|]. intros _. right. left. by exists c'.
  - cbn. split; [left; apply writes_safe|]. right. right. left. by eexists.
  - cbn. split; [left; by apply work_safe|]. split; [intros e; do 3 right; left; by exists c, v, e|]. right. right. left. by eexists.
Qed.
Lemma drive_safe give ins : giver give -> forall c, stm_only good (drive give c ins).
Proof.
  intros Hg. induction ins as [|v ins IH]; intros c; cbn; [by fold_safe|].
  assert (Hfin : forall n : after, stm_only good (match n with Again c' => drive give c' ins | Done => Return | Fails e => Throw e end)) by (intros [c'| |e]; [apply IH|by fold_safe..]).
  fold_safe. split; [by apply work_safe|]. split; [|apply Hfin]. intros e. fold_safe. split; [apply writes_safe|apply Hfin].
Qed.
Lemma setup_safe cs body : (forall give, giver give -> stm_only good (body give)) -> forall give, giver give -> stm_only good (setup give cs body).
Proof.
  intros Hb. induction cs as [|c cs IH]; intros give Hg; cbn; [by apply Hb|]. fold_safe.
  split; [intros s; by apply consume_safe|]. split; [intros x; apply IH, pass_giver|apply skip_safe].
Qed.
Lemma pipe_good c ins cs : only good (pipe_main c ins cs).
Proof. apply cxx_only; [done..|]. apply setup_safe; [intros give Hg; by apply drive_safe|]. intros v k Hk. by apply emit_safe. Qed.
Lemma cmain_safe up p : pushes_safe (cmain up p).
Proof. eapply only_mono; [|apply cmain_good]. by intros o [? _]. Qed.
Lemma pipe_safe c ins cs : pushes_safe (pipe_main c ins cs).
Proof. eapply only_mono; [|apply pipe_good]. by intros o [? _]. Qed.
Lemma cmain_still up p : only moves_no (cmain up p).
Proof. eapply only_mono; [|apply cmain_good]. by intros o [_ ?]. Qed.
Lemma pipe_still c ins cs : only moves_no (pipe_main c ins cs).
Proof. eapply only_mono; [|apply pipe_good]. by intros o [_ ?]. Qed.
End safe.
