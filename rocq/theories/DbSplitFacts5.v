(** Splits on database data sets return. *)
From Coq Require Import String Ascii.
From Coq Require Import List ZArith QArith Qcanon Qround Bool Permutation Sorted Lia.
From Verif Require Import Py PyFacts MemModel MemSpec SplitModel SplitSpec
  DbModel DbFacts DbSpec SampModel DbGenModel DbGenSpec DbSplitModel DbSplitSpec DbSplitFacts DbSplitFacts2 DbSplitFacts3 DbSplitFacts4.
Import ListNotations.
Open Scope string_scope.
Open Scope Z_scope.
Open Scope list_scope.

Section Returns.
Variable inode : string -> nat.
Variable pl : Z -> option value -> nat -> plan.
Variables (i : nat) (temps : list nat) (verbose : bool).
Variable sched : nat -> option nat.
Variable ords : nat -> list trow -> list trow.
Variable g0 : prog.
Notation state t := (prog_run inode pl i temps verbose sched ords t g0).

Definition rank (t : task) : nat :=
  match t with
  | Waiting _ _ => 6 | Holding _ _ _ => 5 | Reading _ _ => 4 | Adding _ _ _ => 3 | Counting _ => 2 | Leaving _ _ => 1
  | Ended | Failed => 0
  end.
Definition next_task (ord : list trow -> list trow) (t : task) (w : world) : task :=
  snd (fst (fst (fst (task_step inode pl i ord t w)))).
Lemma rank_step ord t w : (rank (next_task ord t w) <= pred (rank t))%nat.
Proof.
  unfold next_task. destruct t; cbn [task_step rank].
  - destruct (select _ _ _ _ _) as [w' [j|e]]; cbn; lia.
  - destruct (ds_len j w) as [w' [n|e]]; [|cbn; lia]. destruct (pl _ _ _); [cbn; lia|]. destruct (values _ _ _ _ _ _) as [w'' [r|e]]; cbn; lia.
  - destruct r as [[]|]; cbn; lia.
  - cbn. lia.
  - cbn. lia.
  - destruct ok; cbn; lia.
  - cbn. lia.
  - cbn. lia.
Qed.
Definition returned (g : prog) : Prop := exists r, g_main g = Returned r.
Lemma returned_dec g : returned g \/ forall r, g_main g <> Returned r.
Proof. destruct (g_main g) eqn:E; [right|right|right|left; exists r; auto]; intros; congruence. Qed.
Lemma returned_step ord e g : returned g -> prog_step inode pl i temps verbose ord e g = g.
Proof. intros [r E]. unfold prog_step, main_step. destruct e as [k|]; rewrite E; [|auto]. destruct (nth_error _ _); auto. Qed.
Lemma returned_stays n m : (n <= m)%nat -> returned (state n) -> state m = state n.
Proof. intros L R. induction L as [|m L IH]; [auto|]. cbn [prog_run]. rewrite IH. apply returned_step. auto. Qed.

Lemma set_nth_nth {A} k (t : A) l k' : nth_error (Conc.set_nth k t l) k' =
  if Nat.eqb k' k then match nth_error l k with Some _ => Some t | None => None end else nth_error l k'.
Proof.
  revert k k'. induction l as [|a l IH]; intros [|k] [|k']; cbn; auto.
  destruct (Nat.eqb k' k); auto.
Qed.
Lemma main_tasks g : g_tasks (main_step inode i temps verbose g) = g_tasks g.
Proof.
  unfold main_step. destruct (g_main g); auto.
  - destruct (Nat.leb _ _); auto.
  - destruct (forallb _ _); auto. destruct (finish _ _ _ _ _ _) as [w r]. auto.
Qed.
(** what one step does to the list of tasks *)
Lemma step_tasks ord e g k t' : nth_error (g_tasks (prog_step inode pl i temps verbose ord e g)) k = Some t' ->
  exists t, nth_error (g_tasks g) k = Some t /\
    (t' = t \/ e = Some k /\ t' = next_task ord t (g_world g)) /\
    (e = Some k -> returned g \/ t' = next_task ord t (g_world g)).
Proof.
  unfold prog_step. destruct e as [j|].
  2:{ rewrite main_tasks. intro H. exists t'. split; [auto|]. split; [auto|]. discriminate. }
  destruct (nth_error (g_tasks g) j) as [t|] eqn:E.
  2:{ intro H. exists t'. split; [auto|]. split; [auto|]. intro X. injection X as ->. congruence. }
  destruct (returned_dec g) as [[r Hr]|Nr].
  { rewrite Hr. intro H. exists t'. split; [auto|]. split; [auto|]. intros _. left. exists r. auto. }
  assert (Em : forall X Y : prog, match g_main g with Returned _ => X | _ => Y end = Y) by (intros; destruct (g_main g); auto; exfalso; eapply Nr; eauto).
  rewrite Em. destruct (task_step inode pl i ord t (g_world g)) as [[[[w t2] rem] test] n] eqn:Et. cbn [g_tasks].
  unfold set_nth_task. rewrite set_nth_nth. destruct (Nat.eqb_spec k j) as [->|N].
  - rewrite E. intro H. injection H as <-. exists t. split; [auto|].
    assert (X : t2 = next_task ord t (g_world g)) by (unfold next_task; rewrite Et; auto). auto.
  - intro H. exists t'. split; [auto|]. split; [auto|]. congruence.
Qed.
Lemma rank_down n m k t' : (n <= m)%nat -> nth_error (g_tasks (state m)) k = Some t' ->
  exists t, nth_error (g_tasks (state n)) k = Some t /\ (rank t' <= rank t)%nat.
Proof.
  intro L. revert t'. induction L as [|m L IH]; intros t' H; [eauto|]. cbn [prog_run] in H.
  destruct (step_tasks _ _ _ _ _ H) as (t1 & H1 & Ht & _). destruct (IH t1 H1) as (t & Hn & Lr). exists t. split; [auto|].
  destruct Ht as [->|[_ ->]]; [auto|]. pose proof (rank_step (ords m) t1 (g_world (state m))). lia.
Qed.

Section Fair.
Hypothesis Fair : fair_threads sched.
Lemma task_over k : forall r n, (forall t, nth_error (g_tasks (state n)) k = Some t -> (rank t <= r)%nat) ->
  exists n', (n <= n')%nat /\ (returned (state n') \/ forall t, nth_error (g_tasks (state n')) k = Some t -> rank t = 0%nat).
Proof.
  induction r as [|r IH]; intros n H.
  - exists n. split; [auto|]. right. intros t Ht. specialize (H t Ht). lia.
  - destruct (Fair (Some k) n) as (m & L & Es). destruct (returned_dec (state m)) as [R|Nr]; [exists m; auto|].
    destruct (IH (Datatypes.S m)) as (n' & L' & D).
    + intros t' Ht. cbn [prog_run] in Ht. rewrite Es in Ht. destruct (step_tasks _ _ _ _ _ Ht) as (t1 & H1 & _ & K).
      destruct (K eq_refl) as [[r0 R]| ->]; [exfalso; eapply Nr; eauto|].
      destruct (rank_down _ _ _ _ L H1) as (t & Hn & Lr). specialize (H t Hn).
      pose proof (rank_step (ords m) t1 (g_world (state m))). lia.
    + exists n'. split; [lia|auto].
Qed.
Lemma tasks_over m : exists n, returned (state n) \/ forall k t, (k < m)%nat -> nth_error (g_tasks (state n)) k = Some t -> rank t = 0%nat.
Proof.
  induction m as [|m (n & [R|IH])].
  - exists 0%nat. right. intros; lia.
  - exists n. auto.
  - destruct (task_over m 6 n) as (n' & L & [R|D]).
    + intros t _. destruct t; cbn; lia.
    + exists n'. auto.
    + exists n'. right. intros k t Hk Ht. destruct (Nat.eq_dec k m) as [->|N]; [auto|].
      destruct (rank_down _ _ _ _ L Ht) as (t1 & H1 & Lr). rewrite (IH k t1) in Lr by (auto; lia). lia.
Qed.
Hypothesis Count : forall t, (forall r, g_main (state t) <> Returned r) -> forallb over (g_tasks (state t)) = true ->
  (length (g_tasks (state t)) <= g_done (state t))%nat.

Lemma all_over g : (forall k t, nth_error (g_tasks g) k = Some t -> rank t = 0%nat) -> forallb over (g_tasks g) = true.
Proof.
  intro H. apply forallb_forall. intros t Ht. apply In_nth_error in Ht. destruct Ht as [k Hk]. specialize (H k t Hk).
  destruct t; try discriminate; auto.
Qed.
(** once all tasks are over, a turn of the main thread brings it forward *)
Definition mrank (m : main) : nat := match m with Submitting => 3 | Polling => 2 | Joining => 1 | Returned _ => 0 end.
Lemma main_returns r : forall n, (forall k t m, (n <= m)%nat -> nth_error (g_tasks (state m)) k = Some t -> rank t = 0%nat) ->
  (mrank (g_main (state n)) <= r)%nat -> exists n', returned (state n').
Proof.
  induction r as [|r IH]; intros n Ov Hr.
  - exists n. unfold returned. destruct (g_main (state n)); cbn in Hr; try lia. eauto.
  - assert (Nx : forall m e, g_main (prog_step inode pl i temps verbose (ords m) (Some e) (state m)) = g_main (state m)).
    { intros m e. unfold prog_step. destruct (nth_error _ _); [|auto]. destruct (g_main (state m)) eqn:E; auto;
        destruct (task_step _ _ _ _ _ _) as [[[[? ?] ?] ?] ?]; auto. }
    assert (Mm : forall m, (n <= m)%nat -> (mrank (g_main (state m)) <= mrank (g_main (state n)))%nat).
    { intros m L. induction L as [|m L IHm]; [auto|]. cbn [prog_run]. destruct (sched m) as [e|]; [rewrite Nx; auto|].
      eapply Nat.le_trans; [|exact IHm]. unfold prog_step, main_step. destruct (g_main (state m)) eqn:E; cbn [g_main]; rewrite ?E.
      - destruct verbose; cbn; lia.
      - destruct (Nat.leb _ _); cbn; rewrite ?E; cbn; lia.
      - destruct (forallb _ _); [destruct (finish _ _ _ _ _ _); cbn; lia|rewrite E; cbn; lia].
      - cbn. lia. }
    destruct (Fair None n) as (m & L & Es). apply (IH (Datatypes.S m)).
    + intros k t m' L'. apply Ov. lia.
    + cbn [prog_run]. rewrite Es. specialize (Mm m L).
      assert (Ao : forallb over (g_tasks (state m)) = true) by (apply all_over; intros k t; apply Ov; auto).
      unfold prog_step, main_step. destruct (g_main (state m)) eqn:E; cbn in Mm.
      * cbn [g_main]. destruct verbose; cbn; lia.
      * assert (Ld : Nat.leb (length (g_tasks (state m))) (g_done (state m)) = true).
        { apply Nat.leb_le. apply Count; [rewrite E; discriminate|auto]. }
        rewrite Ld. cbn. lia.
      * rewrite Ao. destruct (finish _ _ _ _ _ _). cbn. lia.
      * rewrite E. cbn. lia.
Qed.
Theorem run_returns : exists n, forall t, (n <= t)%nat -> returned (state t).
Proof.
  assert (Ln : forall m, length (g_tasks (state m)) = length (g_tasks g0)).
  { induction m as [|m IH]; [auto|]. cbn [prog_run]. unfold prog_step. destruct (sched m) as [k|]; [|rewrite main_tasks; auto].
    destruct (nth_error _ _); [|auto]. destruct (g_main (state m)); auto; destruct (task_step _ _ _ _ _ _) as [[[[? ?] ?] ?] ?]; cbn [g_tasks];
      unfold set_nth_task; rewrite <- IH; clear; generalize (g_tasks (state m)) as l; revert k; intros k l; revert k;
      induction l as [|a l IHl]; intros [|k]; cbn; auto. }
  assert (G : exists n, returned (state n)).
  { destruct (tasks_over (length (g_tasks g0))) as (n & [R|Ov]); [eauto|].
    apply (main_returns 3 n).
    - intros k t m L Ht. destruct (rank_down _ _ _ _ L Ht) as (t1 & H1 & Lr). rewrite (Ov k t1) in Lr; [lia| |auto].
      rewrite <- (Ln n). apply nth_error_Some. congruence.
    - destruct (g_main (state n)); cbn; lia. }
  destruct G as [n R]. exists n. intros t L. rewrite (returned_stays n t L R). auto.
Qed.
End Fair.
End Returns.

(** The condition on the counter holds in a good run. *)
Lemma good_count inode w0 b0 d temps contrib us0 g l bt : Good inode w0 b0 d temps contrib us0 g l bt ->
  forallb over (g_tasks g) = true -> (length (g_tasks g) <= g_done g)%nat.
Proof.
  intros G Ov. rewrite (go_done _ _ _ _ _ _ _ _ _ _ G), (go_tasks _ _ _ _ _ _ _ _ _ _ G), map_length.
  rewrite (go_tasks _ _ _ _ _ _ _ _ _ _ G) in Ov. pose proof (go_slots _ _ _ _ _ _ _ _ _ _ G) as F. clear - F Ov.
  induction l as [|s l IH]; [auto|]. inversion F as [|? ? F1 F2]; subst. cbn [map forallb] in Ov. apply andb_true_iff in Ov.
  destruct Ov as [O1 O2]. specialize (IH O2 F2). change (list_sum (map (fun s => counted1 (s_task s)) (s :: l)))
    with (counted1 (s_task s) + list_sum (map (fun s => counted1 (s_task s)) l))%nat.
  unfold slot_ok in F1. destruct (s_task s); try discriminate; [cbn in *; lia|destruct F1].
Qed.
