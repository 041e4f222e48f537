(** Facts about the thread pool: every schedule applies exactly the updates of the
    tasks, in some order; fair schedules finish. *)
From Coq Require Import List ZArith Bool Lia Permutation.
From Verif Require Import Py PyFacts Conc.
Import ListNotations.
Open Scope nat_scope.

Section Facts.
Variable V : Type.
Notation sec := (section V).
Notation pool := (pool V).

(** the updates of variable [l] in a list of blocks *)
Definition updates (l : nat) (ss : list sec) : list (V -> V) :=
  flat_map (fun s => if Nat.eqb (sec_lock s) l then match sec_upd s with Some f => [f] | None => [] end else []) ss.
Definition run_updates (fs : list (V -> V)) (v : V) : V := fold_left (fun v f => f v) fs v.

Definition pending_of (l : nat) (x : worker V) : list (V -> V) :=
  match x with
  | Idle => []
  | Run (_ :: ss) Stored => updates l ss
  | Run ss _ => updates l ss
  end.
Definition pending (l : nat) (p : pool) : list (V -> V) :=
  flat_map (pending_of l) (workers p) ++ flat_map (updates l) (queue p).

Lemma updates_app l a b : updates l (a ++ b) = updates l a ++ updates l b.
Proof. apply flat_map_app. Qed.

(** set_nth *)
Lemma nth_set_same {A} n (x y : A) l : nth_error l n = Some y -> nth_error (set_nth n x l) n = Some x.
Proof. revert l; induction n; intros [|z l]; simpl; try discriminate; auto. Qed.
Lemma nth_set_other {A} n k (x : A) l : n <> k -> nth_error (set_nth n x l) k = nth_error l k.
Proof.
  revert k l; induction n; intros [|k] [|z l] H; simpl; auto; try congruence.
Qed.
Lemma set_nth_length {A} n (x : A) l : length (set_nth n x l) = length l.
Proof. revert l; induction n; intros [|z l]; simpl; auto. Qed.

Lemma flat_map_set_nth {A B} (g : A -> list B) n x y l :
  nth_error l n = Some y ->
  exists a b, flat_map g l = a ++ g y ++ b /\ flat_map g (set_nth n x l) = a ++ g x ++ b.
Proof.
  revert l; induction n; intros [|z l]; simpl; try discriminate.
  - intros H; injection H as ->. exists [], (flat_map g l). auto.
  - intros H. destruct (IHn l H) as (a & b & E1 & E2). exists (g z ++ a), b.
    rewrite E1, E2, <- !app_assoc. auto.
Qed.

Record inv (init : nat -> V) (all : nat -> list (V -> V)) (p : pool) : Prop := {
  i_held : forall l w, holder p l = Some w ->
     exists s ss ph, nth_error (workers p) w = Some (Run (s :: ss) ph) /\ ph <> Outside /\ sec_lock s = l;
  i_in : forall w ss ph, nth_error (workers p) w = Some (Run ss ph) -> ph <> Outside ->
     exists s ss', ss = s :: ss' /\ holder p (sec_lock s) = Some w;
  i_loaded : forall w s ss v, nth_error (workers p) w = Some (Run (s :: ss) (Loaded v)) ->
     sec_upd s <> None /\ v = shared p (sec_lock s);
  i_perm : forall l, exists fs, shared p l = run_updates fs (init l) /\
     Permutation (fs ++ pending l p) (all l) }.

Lemma upd_same {A} (f : nat -> A) k v : upd f k v k = v.
Proof. unfold upd. rewrite Nat.eqb_refl. reflexivity. Qed.
Lemma upd_other {A} (f : nat -> A) k v i : i <> k -> upd f k v i = f i.
Proof. unfold upd. intros H. apply Nat.eqb_neq in H. rewrite H. reflexivity. Qed.

(** change of one worker that keeps the pending updates *)
Lemma pending_same l p w x y q :
  nth_error (workers p) w = Some y -> pending_of l x = pending_of l y -> q = queue p ->
  pending l (mkPool (shared p) (holder p) (set_nth w x (workers p)) q) = pending l p.
Proof.
  intros H E ->. unfold pending; simpl.
  destruct (flat_map_set_nth (pending_of l) w x y _ H) as (a & b & -> & ->). rewrite E. reflexivity.
Qed.

Lemma run_updates_app fs gs v : run_updates (fs ++ gs) v = run_updates gs (run_updates fs v).
Proof. apply fold_left_app. Qed.

Lemma step_inv init all w p : inv init all p -> inv init all (step w p).
Proof.
  intros I. unfold step. destruct (nth_error (workers p) w) as [x|] eqn:W; auto.
  destruct x as [|[|s ss] ph].
  - (* take a task *)
    destruct (queue p) as [|t q] eqn:Q; auto. constructor; simpl.
    + intros l w' H. destruct (i_held _ _ _ I l w' H) as (s & ss & ph & E & N & L).
      exists s, ss, ph. rewrite nth_set_other; [auto|]. intros <-. congruence.
    + intros w' ss ph. destruct (Nat.eq_dec w w') as [<-|D].
      * rewrite (nth_set_same _ _ _ _ W). intros E; injection E as <- <-. congruence.
      * rewrite nth_set_other by auto. apply (i_in _ _ _ I).
    + intros w' s ss v. destruct (Nat.eq_dec w w') as [<-|D].
      * rewrite (nth_set_same _ _ _ _ W). discriminate.
      * rewrite nth_set_other by auto. apply (i_loaded _ _ _ I).
    + intros l. destruct (i_perm _ _ _ I l) as (fs & E & P). exists fs. split; auto.
      rewrite <- P. apply Permutation_app_head. unfold pending; simpl. rewrite Q. simpl.
      destruct (flat_map_set_nth (pending_of l) w (Run t Outside) Idle _ W) as (a & b & -> & ->).
      simpl. replace (match t with [] => updates l t | _ :: _ => updates l t end) with (updates l t) by (destruct t; auto).
      rewrite <- !app_assoc. apply Permutation_app_head.
      rewrite (Permutation_app_comm (updates l t)), <- !app_assoc. apply Permutation_app_head.
      rewrite Permutation_app_comm. reflexivity.
  - (* task over *)
    constructor; simpl.
    + intros l w' H. destruct (i_held _ _ _ I l w' H) as (s & ss & ph' & E & N & L).
      exists s, ss, ph'. rewrite nth_set_other; [auto|]. intros <-. congruence.
    + intros w' ss ph'. destruct (Nat.eq_dec w w') as [<-|D].
      * rewrite (nth_set_same _ _ _ _ W). discriminate.
      * rewrite nth_set_other by auto. apply (i_in _ _ _ I).
    + intros w' s ss v. destruct (Nat.eq_dec w w') as [<-|D].
      * rewrite (nth_set_same _ _ _ _ W). discriminate.
      * rewrite nth_set_other by auto. apply (i_loaded _ _ _ I).
    + intros l. destruct (i_perm _ _ _ I l) as (fs & E & P). exists fs. split; auto.
      unfold set_worker. rewrite (pending_same l p w Idle (Run [] ph)); auto.
  - destruct ph as [| |v|].
    + (* acquire *)
      destruct (holder p (sec_lock s)) eqn:H0; auto. constructor; simpl.
      * intros l w' H. destruct (Nat.eq_dec l (sec_lock s)) as [->|D].
        -- rewrite upd_same in H. injection H as <-. exists s, ss, Inside.
           rewrite (nth_set_same _ _ _ _ W). repeat split. discriminate.
        -- rewrite upd_other in H by auto.
           destruct (i_held _ _ _ I l w' H) as (s' & ss' & ph' & E & N & L).
           exists s', ss', ph'. rewrite nth_set_other; [auto|]. intros <-. congruence.
      * intros w' ss' ph'. destruct (Nat.eq_dec w w') as [<-|D].
        -- rewrite (nth_set_same _ _ _ _ W). intros E; injection E as <- <-. intros _.
           exists s, ss. split; auto. apply upd_same.
        -- rewrite nth_set_other by auto. intros E N. destruct (i_in _ _ _ I w' ss' ph' E N) as (s' & t' & -> & H).
           exists s', t'. split; auto. rewrite upd_other; auto. congruence.
      * intros w' s' ss' v. destruct (Nat.eq_dec w w') as [<-|D].
        -- rewrite (nth_set_same _ _ _ _ W). discriminate.
        -- rewrite nth_set_other by auto. apply (i_loaded _ _ _ I).
      * intros l. destruct (i_perm _ _ _ I l) as (fs & E & P). exists fs. split; auto.
        rewrite <- P. apply Permutation_app_head. unfold pending; simpl.
        destruct (flat_map_set_nth (pending_of l) w (Run (s :: ss) Inside) (Run (s :: ss) Outside) _ W) as (a & b & -> & ->).
        reflexivity.
    + (* load *)
      destruct (i_in _ _ _ I w (s :: ss) Inside W ltac:(discriminate)) as (s0 & ss0 & E0 & Hh).
      injection E0 as <- <-.
      assert (G : forall ph', ph' <> Outside -> (forall l, pending_of l (Run (s :: ss) ph') = pending_of l (Run (s :: ss) Inside)) ->
               (forall v, ph' = Loaded v -> sec_upd s <> None /\ v = shared p (sec_lock s)) ->
               inv init all (set_worker w (Run (s :: ss) ph') p)).
      { intros ph' N' Pe Lo. constructor; simpl.
        - intros l w' H. destruct (Nat.eq_dec w w') as [<-|D].
          + destruct (i_held _ _ _ I l w H) as (s' & ss' & ph0 & E & N & L).
            rewrite W in E. injection E as <- <- <-. exists s, ss, ph'.
            rewrite (nth_set_same _ _ _ _ W). auto.
          + destruct (i_held _ _ _ I l w' H) as (s' & ss' & ph0 & E & N & L).
            exists s', ss', ph0. rewrite nth_set_other; auto.
        - intros w' ss' ph0. destruct (Nat.eq_dec w w') as [<-|D].
          + rewrite (nth_set_same _ _ _ _ W). intros E; injection E as <- <-. eauto.
          + rewrite nth_set_other by auto. apply (i_in _ _ _ I).
        - intros w' s' ss' v. destruct (Nat.eq_dec w w') as [<-|D].
          + rewrite (nth_set_same _ _ _ _ W). intros E; injection E as <- <- ->. auto.
          + rewrite nth_set_other by auto. apply (i_loaded _ _ _ I).
        - intros l. destruct (i_perm _ _ _ I l) as (fs & E & P). exists fs. split; auto.
          unfold set_worker. rewrite (pending_same l p w _ (Run (s :: ss) Inside)); auto. }
      destruct (sec_upd s) eqn:U.
      * apply G; [discriminate|reflexivity|]. intros v' E; injection E as <-. split; [congruence|auto].
      * apply G; [discriminate| |discriminate]. intros l. simpl. destruct (Nat.eqb (sec_lock s) l); rewrite ?U; reflexivity.
    + (* store *)
      destruct (i_in _ _ _ I w (s :: ss) (Loaded v) W ltac:(discriminate)) as (s0 & ss0 & E0 & Hh).
      injection E0 as <- <-.
      destruct (i_loaded _ _ _ I w s ss v W) as [U Ev]. destruct (sec_upd s) as [f|] eqn:Us; [|congruence].
      constructor; simpl.
      * intros l w' H. destruct (Nat.eq_dec w w') as [<-|D].
        -- destruct (i_held _ _ _ I l w H) as (s' & ss' & ph0 & E & N & L).
           rewrite W in E. injection E as <- <- <-. exists s, ss, Stored.
           rewrite (nth_set_same _ _ _ _ W). repeat split; auto. discriminate.
        -- destruct (i_held _ _ _ I l w' H) as (s' & ss' & ph0 & E & N & L).
           exists s', ss', ph0. rewrite nth_set_other; auto.
      * intros w' ss' ph0. destruct (Nat.eq_dec w w') as [<-|D].
        -- rewrite (nth_set_same _ _ _ _ W). intros E; injection E as <- <-. eauto.
        -- rewrite nth_set_other by auto. apply (i_in _ _ _ I).
      * intros w' s' ss' v'. destruct (Nat.eq_dec w w') as [<-|D].
        -- rewrite (nth_set_same _ _ _ _ W). discriminate.
        -- rewrite nth_set_other by auto. intros E. destruct (i_loaded _ _ _ I w' s' ss' v' E) as [U' E'].
           split; auto. rewrite upd_other; auto. intros L.
           destruct (i_in _ _ _ I w' _ _ E ltac:(discriminate)) as (s1 & ss1 & E1 & H1).
           injection E1 as <- <-. rewrite L in H1. congruence.
      * intros l. destruct (i_perm _ _ _ I l) as (fs & E & P). unfold pending; simpl.
        unfold pending in P. 
        destruct (flat_map_set_nth (pending_of l) w (Run (s :: ss) Stored) (Run (s :: ss) (Loaded v)) _ W) as (a & b & E1 & E2).
        rewrite E1 in P. rewrite E2. simpl in P |- *. rewrite Us in P.
        destruct (Nat.eqb (sec_lock s) l) eqn:L.
        -- apply Nat.eqb_eq in L; subst l. exists (fs ++ [f]). split.
           ++ rewrite upd_same, run_updates_app, <- E. simpl. congruence.
           ++ rewrite <- P. rewrite <- !app_assoc. apply Permutation_app_head. simpl.
              change (f :: flat_map _ ss) with (f :: updates (sec_lock s) ss).
              simpl. rewrite <- ?app_assoc. simpl. apply Permutation_middle.
        -- apply Nat.eqb_neq in L. exists fs. split; [rewrite upd_other; auto|]. exact P.
    + (* release *)
      destruct (i_in _ _ _ I w (s :: ss) Stored W ltac:(discriminate)) as (s0 & ss0 & E0 & Hh).
      injection E0 as <- <-.
      constructor; simpl.
      * intros l w' H. destruct (Nat.eq_dec l (sec_lock s)) as [->|D].
        -- rewrite upd_same in H. discriminate.
        -- rewrite upd_other in H by auto.
           destruct (i_held _ _ _ I l w' H) as (s' & ss' & ph' & E & N & L).
           exists s', ss', ph'. rewrite nth_set_other; [auto|]. intros <-. rewrite W in E. congruence.
      * intros w' ss' ph'. destruct (Nat.eq_dec w w') as [<-|D].
        -- rewrite (nth_set_same _ _ _ _ W). intros E; injection E as <- <-. congruence.
        -- rewrite nth_set_other by auto. intros E N. destruct (i_in _ _ _ I w' ss' ph' E N) as (s' & t' & -> & H).
           exists s', t'. split; auto. rewrite upd_other; auto. congruence.
      * intros w' s' ss' v. destruct (Nat.eq_dec w w') as [<-|D].
        -- rewrite (nth_set_same _ _ _ _ W). discriminate.
        -- rewrite nth_set_other by auto. apply (i_loaded _ _ _ I).
      * intros l. destruct (i_perm _ _ _ I l) as (fs & E & P). exists fs. split; auto.
        rewrite <- P. apply Permutation_app_head. unfold pending; simpl.
        destruct (flat_map_set_nth (pending_of l) w (Run ss Outside) (Run (s :: ss) Stored) _ W) as (a & b & -> & ->).
        simpl. destruct ss; reflexivity.
Qed.

Lemma start_inv n init tasks : inv init (fun l => flat_map (updates l) tasks) (start n init tasks).
Proof.
  constructor; simpl.
  - discriminate.
  - intros w ss ph H. apply nth_error_In, repeat_spec in H. discriminate.
  - intros w s ss v H. apply nth_error_In, repeat_spec in H. discriminate.
  - intros l. exists []. split; auto. unfold pending; simpl.
    assert (E : flat_map (pending_of l) (repeat Idle n) = []) by (induction n; auto).
    rewrite E. reflexivity.
Qed.

(** measure: number of steps left *)
Definition cost (ss : list sec) : nat := 4 * length ss + 1.
Definition wcost (x : worker V) : nat :=
  match x with
  | Idle => 0
  | Run ss Outside => cost ss
  | Run ss Inside => cost ss - 1
  | Run ss (Loaded _) => cost ss - 2
  | Run ss Stored => cost ss - 3
  end.
Definition sum (l : list nat) : nat := fold_right plus 0 l.
Definition measure (p : pool) : nat :=
  sum (map wcost (workers p)) + sum (map (fun t => cost t + 1) (queue p)).

Lemma sum_set_nth n x y (l : list (worker V)) : nth_error l n = Some y ->
  sum (map wcost (set_nth n x l)) + wcost y = sum (map wcost l) + wcost x.
Proof.
  revert l; induction n; intros [|z l]; simpl; try discriminate.
  - intros H; injection H as ->. lia.
  - intros H. specialize (IHn l H). lia.
Qed.

Definition enabled (w : nat) (p : pool) : Prop := measure (step w p) < measure p.

(** reachable pools: blocks being executed are non-empty (i_in) *)
Lemma step_dec init all w p : inv init all p -> step w p = p \/ enabled w p.
Proof.
  intros I. unfold enabled, step, measure. destruct (nth_error (workers p) w) as [x|] eqn:W; auto.
  destruct x as [|[|s ss] ph].
  - destruct (queue p) as [|t q] eqn:Q; auto. right. simpl.
    pose proof (sum_set_nth w (Run t Outside) Idle _ W). simpl in *. unfold cost in *. lia.
  - right. simpl. pose proof (sum_set_nth w Idle (Run [] ph) _ W).
    assert (E : ph = Outside).
    { destruct ph; auto; destruct (i_in _ _ _ I w _ _ W ltac:(discriminate)) as (? & ? & ? & _); discriminate. }
    subst. simpl in *. unfold cost in *. simpl in *. lia.
  - destruct ph as [| |v|].
    + destruct (holder p (sec_lock s)); auto. right. simpl.
      pose proof (sum_set_nth w (Run (s :: ss) Inside) _ _ W). simpl in *. unfold cost in *. simpl in *. lia.
    + right. destruct (sec_upd s); simpl;
      match goal with |- context [set_nth w ?x _] => pose proof (sum_set_nth w x _ _ W) end;
      simpl in *; unfold cost in *; simpl in *; lia.
    + right. destruct (sec_upd s); simpl;
      match goal with |- context [set_nth w ?x _] => pose proof (sum_set_nth w x _ _ W) end;
      simpl in *; unfold cost in *; simpl in *; lia.
    + right. simpl. pose proof (sum_set_nth w (Run ss Outside) _ _ W). simpl in *. unfold cost in *. simpl in *. lia.
Qed.

Lemma forallb_idle_false l : forallb (@idle V) l = false ->
  exists w ss ph, nth_error l w = Some (Run ss ph).
Proof.
  induction l as [|x l IH]; simpl; [discriminate|]. destruct x as [|ss ph]; simpl.
  - intros H. destruct (IH H) as (w & ss & ph & E). exists (S w), ss, ph. auto.
  - intros _. exists 0, ss, ph. auto.
Qed.

(** some worker can always go on *)
Lemma progress init all p : inv init all p -> workers p <> [] -> finished p = false ->
  exists w, w < length (workers p) /\ enabled w p.
Proof.
  intros I N F.
  assert (K : forall w, step w p <> p -> exists w, w < length (workers p) /\ enabled w p).
  { intros w H. destruct (step_dec init all w p I) as [E|E]; [contradiction|]. exists w. split; auto.
    apply nth_error_Some. intros E'. apply H. unfold step. rewrite E'. reflexivity. }
  destruct (forallb (@idle V) (workers p)) eqn:A.
  - (* all idle: the queue is not empty *)
    unfold finished in F. destruct (queue p) as [|t q] eqn:Q; [congruence|].
    apply (K 0). unfold step. destruct (workers p) as [|x ws] eqn:W; [contradiction|]. simpl in *.
    destruct x; simpl in A; [|discriminate]. rewrite Q. intros E. apply (f_equal (@queue V)) in E. simpl in E.
    rewrite Q in E. apply (f_equal (@length _)) in E. simpl in E. lia.
  - destruct (forallb_idle_false _ A) as (w & ss & ph & E).
    (* a worker inside a block, or all outside *)
    assert (D : forall w' s' ss' ph', nth_error (workers p) w' = Some (Run (s' :: ss') ph') -> ph' <> Outside -> step w' p <> p).
    { intros w' s' ss' ph' E' N'. unfold step. rewrite E'. intros C. apply (f_equal (fun q => nth_error (workers q) w')) in C.
      destruct ph' as [| |v|]; [congruence| | |]; try (destruct (sec_upd s')); simpl in C;
      rewrite (nth_set_same _ _ _ _ E'), E' in C; try discriminate. }
    destruct ss as [|s ss].
    + apply (K w). unfold step. rewrite E. intros C. apply (f_equal (fun q => nth_error (workers q) w)) in C.
      simpl in C. rewrite (nth_set_same _ _ _ _ E), E in C. discriminate.
    + destruct ph as [| |v|]; try (apply (K w); apply (D w s ss _ E); discriminate).
      destruct (holder p (sec_lock s)) as [w'|] eqn:H.
      * destruct (i_held _ _ _ I _ _ H) as (s' & ss' & ph' & E' & N' & _). apply (K w'). eapply D; eauto.
      * apply (K w). unfold step. rewrite E, H. intros C. apply (f_equal (fun q => nth_error (workers q) w)) in C.
        simpl in C. rewrite (nth_set_same _ _ _ _ E), E in C. discriminate.
Qed.

Lemma step_workers w (p : pool) : length (workers (step w p)) = length (workers p).
Proof.
  unfold step. destruct (nth_error (workers p) w) as [x|]; auto.
  destruct x as [|[|s ss] [| |v|]]; try destruct (queue p); try destruct (holder p (sec_lock s)); try destruct (sec_upd s);
  simpl; rewrite ?set_nth_length; auto.
Qed.

Lemma finished_no_pending (p : pool) l : finished p = true -> pending l p = [].
Proof.
  unfold finished, pending. destruct (queue p); [|discriminate]. simpl. rewrite app_nil_r.
  induction (workers p) as [|x ws IH]; simpl; auto. destruct x; simpl; [auto|discriminate].
Qed.

Lemma finished_step w (p : pool) : finished p = true -> step w p = p.
Proof.
  unfold finished, step. destruct (queue p) eqn:Q; [|discriminate]. intros H.
  destruct (nth_error (workers p) w) as [x|] eqn:W; auto.
  rewrite forallb_forall in H. specialize (H x (nth_error_In _ _ W)). destruct x; [reflexivity|discriminate].
Qed.

(** runs *)
Section Runs.
Variable enough : (nat -> V) -> bool.
Variables (n : nat) (init : nat -> V) (tasks : list (list sec)) (first : main_state).
Let all := fun l => flat_map (updates l) tasks.
Let w0 := mkWorld (start n init tasks) first.
Notation at_ sched t := (wrun enough sched t w0).

Lemma run_inv sched t : inv init all (w_pool (at_ sched t)).
Proof.
  induction t as [|t IH]; simpl; [apply start_inv|].
  destruct (sched t); simpl; [apply step_inv; auto|].
  unfold main_step. destruct (w_main _); try destruct (enough _); try destruct (finished _); auto.
Qed.

Lemma run_workers sched t : length (workers (w_pool (at_ sched t))) = n.
Proof.
  induction t as [|t IH]; simpl; [apply repeat_length|].
  destruct (sched t); simpl; [rewrite step_workers; auto|].
  unfold main_step. destruct (w_main _); try destruct (enough _); try destruct (finished _); auto.
Qed.

(** when the pool is finished, each variable went through all updates of all tasks *)
Lemma finished_result sched t : finished (w_pool (at_ sched t)) = true ->
  forall l, exists fs, shared (w_pool (at_ sched t)) l = run_updates fs (init l) /\
                       Permutation fs (flat_map (updates l) tasks).
Proof.
  intros F l. destruct (i_perm _ _ _ (run_inv sched t) l) as (fs & E & P). exists fs. split; auto.
  rewrite (finished_no_pending _ l F), app_nil_r in P. exact P.
Qed.

Lemma main_pool x : w_pool (main_step enough x) = w_pool x.
Proof. unfold main_step. destruct (w_main x); try destruct (enough _); try destruct (finished _); reflexivity. Qed.

Lemma returned_finished sched t : first <> Returned -> w_main (at_ sched t) = Returned ->
  finished (w_pool (at_ sched t)) = true.
Proof.
  intros N0. induction t as [|t IH]; simpl; [intros E; contradiction|].
  destruct (sched t) as [w|]; simpl.
  - intros E. specialize (IH E). rewrite finished_step; auto.
  - rewrite main_pool. unfold main_step. destruct (w_main (at_ sched t)) eqn:M.
    + destruct (enough _); simpl; intros; congruence.
    + destruct (finished _) eqn:F; simpl; intros; congruence.
    + intros _. apply IH. reflexivity.
Qed.

Lemma measure_step_le sched t : measure (w_pool (at_ sched (S t))) <= measure (w_pool (at_ sched t)).
Proof.
  simpl. destruct (sched t) as [w|]; simpl.
  - destruct (step_dec _ _ w _ (run_inv sched t)) as [->|H]; [lia|]. unfold enabled in H. lia.
  - rewrite main_pool. lia.
Qed.

Lemma measure_le sched t t' : t <= t' -> measure (w_pool (at_ sched t')) <= measure (w_pool (at_ sched t)).
Proof. induction 1; [lia|]. pose proof (measure_step_le sched m). lia. Qed.

Lemma measure_same sched t t' : t <= t' -> measure (w_pool (at_ sched t')) = measure (w_pool (at_ sched t)) ->
  w_pool (at_ sched t') = w_pool (at_ sched t).
Proof.
  induction 1 as [|m H IH]; auto. intros E.
  pose proof (measure_step_le sched m). pose proof (measure_le sched t m H).
  assert (E' : measure (w_pool (at_ sched m)) = measure (w_pool (at_ sched t))) by lia.
  rewrite <- (IH E'). simpl. destruct (sched m) as [w|] eqn:S1; simpl; [|apply main_pool].
  destruct (step_dec _ _ w _ (run_inv sched m)) as [->|H2]; auto. exfalso.
  unfold enabled in H2. simpl in E. rewrite S1 in E. simpl in E. lia.
Qed.

Lemma fair_finishes sched : n <> 0 -> fair n sched -> exists t, finished (w_pool (at_ sched t)) = true.
Proof.
  intros Hn Hf.
  assert (G : forall k t, measure (w_pool (at_ sched t)) <= k -> exists t', finished (w_pool (at_ sched t')) = true).
  { induction k as [|k IH]; intros t M.
    - destruct (finished (w_pool (at_ sched t))) eqn:F; [eauto|].
      destruct (progress _ _ _ (run_inv sched t)) as (w & _ & H); auto.
      + intros E. pose proof (run_workers sched t). rewrite E in H. simpl in H. lia.
      + unfold enabled in H. lia.
    - destruct (finished (w_pool (at_ sched t))) eqn:F; [eauto|].
      destruct (progress _ _ _ (run_inv sched t)) as (w & L & H); auto.
      { intros E. pose proof (run_workers sched t). rewrite E in H. simpl in H. lia. }
      rewrite run_workers in L. destruct (Hf (Some w) L t) as (t' & Lt & S1).
      destruct (Nat.eq_dec (measure (w_pool (at_ sched t'))) (measure (w_pool (at_ sched t)))) as [E|D].
      + apply (IH (S t')). simpl. rewrite S1. simpl. rewrite (measure_same sched t t' Lt E). unfold enabled in H. lia.
      + apply (IH t'). pose proof (measure_le sched t t' Lt). lia. }
  apply (G _ 0 (Nat.le_refl _)).
Qed.

Lemma finished_later sched t t' : t <= t' -> finished (w_pool (at_ sched t)) = true ->
  w_pool (at_ sched t') = w_pool (at_ sched t).
Proof.
  induction 1 as [|m H IH]; auto. intros F. rewrite <- (IH F). simpl.
  destruct (sched m); simpl; [apply finished_step; rewrite IH; auto|apply main_pool].
Qed.

Lemma not_polling sched : first <> Polling -> forall t, w_main (at_ sched t) <> Polling.
Proof.
  intros N t. induction t as [|t IH]; simpl; auto.
  destruct (sched t); simpl; auto. unfold main_step.
  destruct (w_main (at_ sched t)) eqn:M; [congruence| |]; try destruct (finished _); simpl; congruence.
Qed.

(** the call returns when the counter is reached at the end *)
Lemma fair_returns sched : n <> 0 -> fair n sched ->
  (first = Polling -> forall t, finished (w_pool (at_ sched t)) = true -> enough (shared (w_pool (at_ sched t))) = true) ->
  exists t, w_main (at_ sched t) = Returned.
Proof.
  intros Hn Hf He. destruct (fair_finishes sched Hn Hf) as [t F].
  assert (R : forall t, w_main (at_ sched t) = Returned -> forall t', t <= t' -> w_main (at_ sched t') = Returned).
  { intros s Hs s' Le. induction Le; auto. simpl. destruct (sched m); simpl; auto. unfold main_step. rewrite IHLe. auto. }
  assert (J : forall t', t <= t' -> w_main (at_ sched t') = Joining -> exists t, w_main (at_ sched t) = Returned).
  { intros t' Le M. destruct (Hf None I t') as (t1 & L1 & S1).
    assert (Q : forall s, t' <= s -> w_main (at_ sched s) = Joining \/ exists t, w_main (at_ sched t) = Returned).
    { intros s Ls. induction Ls as [|s Ls IH]; auto. destruct IH as [IH|IH]; auto. simpl.
      destruct (sched s) eqn:S2; simpl; auto. unfold main_step. rewrite IH. 
      rewrite (finished_later sched t s ltac:(lia) F), F. right. exists (S s). simpl. rewrite S2. simpl.
      unfold main_step. rewrite IH, (finished_later sched t s ltac:(lia) F), F. reflexivity. }
    destruct (Q t1 L1) as [M1|M1]; auto. exists (S t1). simpl. rewrite S1. simpl. unfold main_step.
    rewrite M1, (finished_later sched t t1 ltac:(lia) F), F. reflexivity. }
  destruct (w_main (at_ sched t)) eqn:M.
  - assert (FP : first = Polling).
    { assert (D : {first = Polling} + {first <> Polling}) by decide equality.
      destruct D as [D|D]; auto. exfalso. exact (not_polling sched D t M). }
    destruct (Hf None I t) as (t1 & L1 & S1).
    assert (Q : forall s, t <= s -> w_main (at_ sched s) = Polling \/ exists t', t <= t' /\ w_main (at_ sched t') = Joining).
    { intros s Ls. induction Ls as [|s Ls IH]; auto. destruct IH as [IH|IH]; auto. simpl.
      destruct (sched s) eqn:S2; simpl; auto. unfold main_step. rewrite IH.
      destruct (enough _) eqn:En; auto. right. exists (S s). split; [lia|]. simpl. rewrite S2. simpl. unfold main_step. rewrite IH, En. reflexivity. }
    destruct (Q t1 L1) as [M1|(t' & Lt' & M1)]; [|eapply J; eauto].
    apply (J (S t1)); [lia|]. simpl. rewrite S1. simpl. unfold main_step. rewrite M1.
    rewrite (finished_later sched t t1 L1 F), (He FP t F). reflexivity.
  - apply (J t); auto.
  - eauto.
Qed.

(** if the counter can never be reached, a polling caller never returns *)
Lemma never_returns sched : first = Polling ->
  (forall t, enough (shared (w_pool (at_ sched t))) = false) ->
  forall t, w_main (at_ sched t) = Polling.
Proof.
  intros E H t. induction t as [|t IH]; simpl; [subst w0; simpl; auto|].
  destruct (sched t); simpl; auto. unfold main_step. rewrite IH, H. exact IH.
Qed.
End Runs.
End Facts.
