(** Facts about the loss tracker and the early stopping rule. *)
From Coq Require Import String Ascii.
From Coq Require Import List ZArith QArith Qcanon Bool Lia Lqa.
From Verif Require Import Py PyFacts MemModel TrainModel TrainSpec.
Import ListNotations.
Open Scope string_scope.
Open Scope nat_scope.

(** ** the average *)
Definition avg_inv (t : tracker) (ls : list Q) : Prop :=
  t_losses t = ls /\
  (t_avg t * inject_Z (Z.of_nat (length ls)) == total ls)%Q /\ (ls = [] -> (t_avg t == 0)%Q).

Lemma total_snoc l x : (total (l ++ [x])%list == total l + x)%Q.
Proof. induction l; simpl; [ring|]. unfold total in *. simpl. rewrite IHl. ring. Qed.

Lemma nat_pos_Q n : ~ (inject_Z (Z.of_nat (S n)) == 0)%Q.
Proof. unfold Qeq, inject_Z; simpl. lia. Qed.

Lemma avg_inv_add t ls x : avg_inv t ls -> avg_inv (add_epoch_loss x t) (ls ++ [x])%list.
Proof.
  intros (H1 & H2 & H3). unfold avg_inv, add_epoch_loss. cbn [t_losses t_avg].
  rewrite H1. split; auto. split; [|destruct ls; discriminate].
  rewrite total_snoc, <- H2, app_length. simpl length.
  replace (length ls + 1) with (S (length ls)) by lia.
  assert (E : (inject_Z (Z.of_nat (S (length ls))) == inject_Z (Z.of_nat (length ls)) + 1)%Q).
  { rewrite Nat2Z.inj_succ. unfold Z.succ. rewrite inject_Z_plus. reflexivity. }
  pose proof (nat_pos_Q (length ls)) as N. rewrite E in *. field. exact N.
Qed.

Lemma avg_inv_run ops : forall t ls, avg_inv t ls ->
  avg_inv (fold_left track_step ops t) (losses_since ls ops).
Proof.
  induction ops as [|o ops IH]; simpl; auto. intros t ls H. destruct o; simpl; apply IH.
  - apply avg_inv_add; auto.
  - split; [reflexivity|]. split; [reflexivity|]. intros _; reflexivity.
  - destruct H as (H1 & H2 & H3). split; auto.
Qed.

Lemma tracker_average ops :
  t_losses (track_run ops) = losses_since [] ops /\
  (t_avg (track_run ops) ==
   match losses_since [] ops with [] => 0 | ls => qmean ls end)%Q.
Proof.
  assert (I : avg_inv (track_run ops) (losses_since [] ops)).
  { apply avg_inv_run. split; [reflexivity|]. split; [reflexivity|]. intros _; reflexivity. }
  destruct I as (H1 & H2 & H3). split; auto.
  destruct (losses_since [] ops) as [|x ls]; [apply H3; auto|].
  unfold qmean. rewrite <- H2. simpl length. field. apply nat_pos_Q.
Qed.

(** ** names *)
Lemma no_at_str_no s : no_at s <-> str_no "@" s.
Proof. unfold no_at. induction s as [|a s IH]; simpl; [tauto|]. rewrite IH. tauto. Qed.

Lemma split_at s : (no_at s /\ split_on "@" s = [s]) \/
  (exists p q, no_at p /\ s = p ++ "@" ++ q /\ split_on "@" s = p :: split_on "@" q).
Proof.
  induction s as [|a s IH].
  - left; split; [exact I|reflexivity].
  - destruct (Ascii.ascii_dec a "@") as [->|N].
    + right. exists "", s. split; [exact I|]. split; [reflexivity|].
      change (split_on "@" ("" ++ String "@" s) = "" :: split_on "@" s).
      apply split_on_app. exact I.
    + destruct IH as [[H1 H2]|(p & q & H1 & H2 & H3)].
      * left. assert (no_at (String a s)) by (split; auto). split; auto.
        apply split_on_no. apply no_at_str_no; auto.
      * right. exists (String a p), q. split; [split; auto|]. split; [rewrite H2; reflexivity|].
        rewrite H2. change (String a (p ++ "@" ++ q)) with (String a p ++ String "@" q).
        apply split_on_app. apply no_at_str_no. split; auto.
Qed.

Lemma split_on_pos c s : 1 <= length (split_on c s).
Proof. destruct s; simpl; auto. destruct (Ascii.eqb a c); [simpl; lia|]. destruct (split_on c s); simpl; lia. Qed.

Lemma has_at_spec s : has_at s = false <-> no_at s.
Proof.
  unfold has_at. destruct (split_at s) as [[H1 H2]|(p & q & H1 & H2 & H3)].
  - rewrite H2. split; auto.
  - rewrite H3. pose proof (split_on_pos "@" q). simpl length. split.
    + intros E. apply Nat.ltb_ge in E. lia.
    + intros N. exfalso. rewrite H2 in N. clear - N. induction p; simpl in N; [|destruct N; auto].
      destruct N as [N _]. apply N; reflexivity.
Qed.

Lemma no_at_prefix p q p' q' : no_at p -> no_at p' -> p ++ "@" ++ q = p' ++ "@" ++ q' -> p = p'.
Proof.
  revert p'. induction p as [|a p IH]; intros p' H H' E; destruct p' as [|b p']; auto.
  - destruct H' as [H' _]. injection E as E1 _. symmetry in E1. contradiction.
  - destruct H as [H _]. injection E as E1 _. contradiction.
  - injection E as -> E. f_equal. apply IH; auto; [apply H|apply H'].
Qed.
Lemma no_at_app p q : ~ no_at (p ++ "@" ++ q).
Proof. intros N. induction p; simpl in N; destruct N; auto. Qed.

Lemma trim_at_spec m k : no_at m -> (trim_at k = m <-> reported_as m k).
Proof.
  intros N. unfold trim_at, reported_as. destruct (split_at k) as [[H1 H2]|(p & q & H1 & H2 & H3)].
  - rewrite H2. simpl. split; auto. intros [H|[_ [x E]]]; auto. subst k. destruct (no_at_app _ _ H1).
  - rewrite H3. simpl hd. split.
    + intros ->. right. split; auto. exists q; auto.
    + intros [->|[_ [x E]]].
      * exfalso. rewrite H2 in N. destruct (no_at_app _ _ N).
      * rewrite H2 in E. apply no_at_prefix in E; auto.
Qed.

Definition key_for (m k : string) : string := if has_at m then k else trim_at k.
Lemma key_for_spec m k : key_for m k = m <-> reported_as m k.
Proof.
  unfold key_for. destruct (has_at m) eqn:E.
  - split; [left; auto|]. intros [H|[H _]]; auto. apply has_at_spec in H. congruence.
  - apply trim_at_spec. apply has_at_spec; auto.
Qed.

Lemma metric_names_lookup (g : string -> string) m (ks : list string) :
  forall k, assoc String.eqb m (fold_left (fun d k => assoc_set String.eqb (g k) k d) ks []) = Some k <->
  exists l1 l2, ks = (l1 ++ k :: l2)%list /\ g k = m /\ forall k', In k' l2 -> g k' <> m.
Proof.
  induction ks as [|x ks IH] using rev_ind; intros k.
  - split; [discriminate|]. intros (l1 & l2 & E & _). destruct l1; discriminate.
  - rewrite fold_left_app. simpl. destruct (string_dec (g x) m) as [E|N].
    + rewrite <- E, (assoc_set_same _ reflects_string). split.
      * intros H; injection H as <-. exists ks, []. split; [reflexivity|]. split; [reflexivity|]. intros k' [].
      * intros (l1 & l2 & H1 & H2 & H3). destruct l2 as [|y l2] using rev_ind.
        -- apply app_inj_tail in H1. destruct H1 as [_ ->]. reflexivity.
        -- change (l1 ++ k :: l2 ++ [y])%list with (l1 ++ (k :: l2) ++ [y])%list in H1.
           rewrite app_assoc in H1. apply app_inj_tail in H1. destruct H1 as [_ ->].
           exfalso. apply (H3 y); [apply in_or_app; right; left; auto|reflexivity].
    + rewrite (assoc_set_other _ reflects_string) by auto. rewrite IH. split.
      * intros (l1 & l2 & -> & H2 & H3). exists l1, (l2 ++ [x])%list. split; [rewrite <- app_assoc; reflexivity|].
        split; auto. intros k' H. apply in_app_or in H. destruct H as [H|[<-|[]]]; auto.
      * intros (l1 & l2 & H1 & H2 & H3). destruct l2 as [|y l2] using rev_ind.
        -- apply app_inj_tail in H1. destruct H1 as [_ ->]. contradiction.
        -- change (l1 ++ k :: l2 ++ [y])%list with (l1 ++ (k :: l2) ++ [y])%list in H1.
           rewrite app_assoc in H1. apply app_inj_tail in H1. destruct H1 as [-> ->].
           exists l1, l2. split; auto. split; auto. intros k' H. apply H3. apply in_or_app; auto.
Qed.

Lemma assoc_map_val {A B C} (eqb : A -> A -> bool) (h : B -> C) (l : list (A * B)) k :
  assoc eqb k (map (fun p => (fst p, h (snd p))) l) =
  match assoc eqb k l with Some v => Some (h v) | None => None end.
Proof. induction l as [|[a b] l IH]; simpl; auto. destruct (eqb k a); auto. Qed.

Lemma metric_names_chosen m (results : list (string * list Q)) k :
  assoc String.eqb m (metric_names [m] results) = Some k <-> chosen_name m (map fst results) k.
Proof.
  unfold metric_names, chosen_name.
  assert (E : forall k, (if existsb has_at [m] then k else trim_at k) = key_for m k).
  { intros k0. unfold key_for. simpl. rewrite orb_false_r. reflexivity. }
  pose proof (metric_names_lookup (fun k => if existsb has_at [m] then k else trim_at k) m (map fst results) k) as L.
  cbv beta in L. etransitivity; [exact L|]. clear L.
  split; intros (l1 & l2 & H1 & H2 & H3); exists l1, l2; split; auto; split.
  - apply key_for_spec. rewrite <- E; auto.
  - intros k' H. rewrite <- key_for_spec, <- E. auto.
  - rewrite E. apply key_for_spec; auto.
  - intros k' H. rewrite E, key_for_spec. auto.
Qed.

(** ** the first maximum *)
Lemma best_index_spec : forall l pre best bestv,
  (best < length pre \/ pre = []) ->
  (forall j v, nth_error pre j = Some v -> (v <= bestv)%Q /\ (j < best -> (v < bestv)%Q)) ->
  (nth_error (pre ++ l) best = Some bestv) -> (pre = [] -> best = 0) ->
  let b := best_index (length pre) best bestv l in
  exists bv, nth_error (pre ++ l) b = Some bv /\
  forall j v, nth_error (pre ++ l) j = Some v -> (v <= bv)%Q /\ (j < b -> (v < bv)%Q).
Proof.
  induction l as [|x l IH]; intros pre best bestv Hb Hpre Hn H0; simpl.
  - exists bestv. split; auto. rewrite app_nil_r. auto.
  - assert (E : (pre ++ x :: l = (pre ++ [x]) ++ l)%list) by (rewrite <- app_assoc; reflexivity).
    assert (L : length (pre ++ [x])%list = S (length pre)) by (rewrite app_length; simpl; lia).
    assert (X : nth_error (pre ++ x :: l) (length pre) = Some x).
    { rewrite nth_error_app2 by lia. rewrite Nat.sub_diag. reflexivity. }
    assert (P : forall j v, nth_error (pre ++ [x]) j = Some v ->
                nth_error pre j = Some v \/ (j = length pre /\ v = x)).
    { intros j v H. destruct (Nat.lt_ge_cases j (length pre)) as [J|J].
      - left. rewrite nth_error_app1 in H; auto.
      - right. assert (j < S (length pre)) by (rewrite <- L; apply nth_error_Some; congruence).
        assert (j = length pre) by lia. subst j. split; auto.
        rewrite nth_error_app2, Nat.sub_diag in H by lia. simpl in H. congruence. }
    destruct (Qltb bestv x) eqn:Q.
    + assert (QQ : (bestv < x)%Q).
      { unfold Qltb in Q. rewrite negb_true_iff in Q. apply Qnot_le_lt. intros H. apply Qle_bool_iff in H. congruence. }
      rewrite E in *. rewrite <- L. apply IH.
      * left. rewrite L. lia.
      * intros j v H. destruct (P j v H) as [H'|[-> ->]].
        -- destruct (Hpre _ _ H') as [A B]. split; [lra|]. intros _. lra.
        -- split; [lra|]. lia.
      * exact X.
      * destruct pre; discriminate.
    + assert (QQ : (x <= bestv)%Q).
      { unfold Qltb in Q. rewrite negb_false_iff in Q. apply Qle_bool_iff; auto. }
      rewrite E in *. rewrite <- L. apply IH.
      * left. rewrite L. destruct Hb as [Hb| ->]; [lia|]. rewrite H0 by reflexivity. simpl; lia.
      * intros j v H. destruct (P j v H) as [H'|[-> ->]]; auto. split; [lra|].
        intros J. destruct Hb as [Hb| ->]; [lia|]. rewrite H0 in J; auto. simpl in J; lia.
      * exact Hn.
      * destruct pre; discriminate.
Qed.

Lemma best_index_top v l :
  exists bv, nth_error (v :: l) (best_index 0 0 v (v :: l)) = Some bv /\
  forall j w, nth_error (v :: l) j = Some w -> (w <= bv)%Q /\ (j < best_index 0 0 v (v :: l) -> (w < bv)%Q).
Proof.
  apply (best_index_spec (v :: l) [] 0 v); auto. intros j w H. destruct j; discriminate.
Qed.

(** ** MaxValidationValueRule *)
Lemma max_compute_chosen m losses results called k vals :
  chosen_name m (map fst results) k -> assoc String.eqb k results = Some vals -> vals <> [] ->
  length vals <= length called ->
  exists i b v, max_compute m losses results called = Epoch b /\ nth_error called i = Some b /\
    nth_error vals i = Some v /\
    forall j w, nth_error vals j = Some w -> (w <= v)%Q /\ (j < i -> (w < v)%Q).
Proof.
  intros C A N L. pose proof C as C'. apply metric_names_chosen in C'.
  assert (T : assoc String.eqb m (translated [m] results) = Some vals).
  { unfold translated. rewrite (assoc_map_val String.eqb
      (fun k => match assoc String.eqb k results with Some l => l | None => [] end)).
    rewrite C', A. reflexivity. }
  unfold max_compute, max_best_epoch. destruct results as [|r0 rs]; [discriminate|].
  cbv zeta. rewrite T. destruct vals as [|v l]; [contradiction|].
  destruct (best_index_top v l) as (bv & H1 & H2).
  set (i := best_index 0 0 v (v :: l)) in *.
  assert (i < length called).
  { assert (i < length (v :: l)) by (apply nth_error_Some; congruence). lia. }
  destruct (nth_error called i) as [b|] eqn:B; [|apply nth_error_None in B; lia].
  exists i, b, bv. auto.
Qed.

Lemma max_compute_none m losses results called :
  (forall k, ~ chosen_name m (map fst results) k) -> max_compute m losses results called = Invalid.
Proof.
  intros H. unfold max_compute. destruct results as [|r0 rs]; auto. cbv zeta.
  set (results := r0 :: rs) in *. unfold translated.
  rewrite (assoc_map_val String.eqb (fun k => match assoc String.eqb k results with Some l => l | None => [] end)).
  destruct (assoc String.eqb m (metric_names [m] results)) eqn:E; auto.
  apply metric_names_chosen in E. destruct (H _ E).
Qed.

Lemma reported_as_dec m k : {reported_as m k} + {~ reported_as m k}.
Proof.
  destruct (string_dec (key_for m k) m) as [H|H]; [left|right]; rewrite <- key_for_spec; auto.
Qed.
Lemma chosen_exists m names : (exists k, In k names /\ reported_as m k) -> exists k, chosen_name m names k.
Proof.
  induction names as [|x names IH] using rev_ind; intros (k & I & R); [destruct I|].
  destruct (reported_as_dec m x) as [X|X].
  - exists x, names, []. split; [reflexivity|]. split; [exact X|]. intros k' [].
  - apply in_app_or in I. destruct I as [I|[<-|[]]]; [|contradiction].
    destruct IH as (k0 & l1 & l2 & -> & H2 & H3); [eauto|].
    exists k0, l1, (l2 ++ [x])%list. split; [rewrite <- app_assoc; reflexivity|]. split; auto.
    intros k' H. apply in_app_or in H. destruct H as [H|[<-|[]]]; auto.
Qed.
Lemma chosen_in m names k : chosen_name m names k -> In k names.
Proof. intros (l1 & l2 & -> & _). apply in_or_app; right; left; auto. Qed.
