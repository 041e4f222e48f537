(** Properties C46 to C48 and C68: the samplers. *)
From Coq Require Import String Ascii.
From Coq Require Import List ZArith QArith Qcanon Bool Lia Permutation Sorted.
From Verif Require Import Py PyFacts MemModel MemSpec MemFacts3 RankSpec KnnSpec.
From Verif Require Import SampModel SampSpec SampFacts SampFacts2 SampFacts3.
Import ListNotations.
Open Scope string_scope.
Open Scope Z_scope.

(** *** The data set of the examples: users 5, 6, 7; seven items *)
Definition s_row (rid u i x ts : Z) : row :=
  mkRow rid [("user", VInt u); ("item", VInt i); ("interaction", VFlt (Qc_of_Z x)); ("timestamp", VInt ts)].
Definition s_raw : mem := mem_of_frame (mkFrame [("user", DInt); ("item", DInt); ("interaction", DFloat); ("timestamp", DInt)]
  [s_row 0 5 10 4 30; s_row 1 6 20 2 1; s_row 2 5 11 1 10; s_row 3 5 12 5 20; s_row 4 5 13 3 40; s_row 5 6 21 4 2; s_row 6 7 22 4 3]).
Lemma s_wf : wf_mem s_raw.
Proof.
  constructor.
  - constructor.
    + simpl. repeat constructor; simpl; intuition discriminate.
    + simpl. intuition discriminate.
    + simpl. intros r H. intuition; subst; reflexivity.
    + simpl. intros r c t Hr Hc. intuition; subst;
      match goal with H : (_, _) = (_, _) |- _ => injection H as <- <- end; eexists; split; reflexivity.
  - simpl. repeat constructor; simpl; intuition discriminate.
  - simpl. intros c. intuition.
Qed.
Lemma s_numeric : numeric s_raw.
Proof.
  split; [simpl; tauto|]. split.
  - intros r Hr. simpl in Hr. intuition; subst; do 2 eexists; split; reflexivity.
  - intros r z Hr. simpl in Hr. intuition; subst; discriminate.
Qed.
Definition s_ds : mem := assigned s_raw.
Lemma s_trained : trained_on s_raw s_ds DInt DInt.
Proof. constructor; try reflexivity; try discriminate; try apply s_wf; vm_compute; discriminate. Qed.

(** every data set read from a file and given internal ids qualifies *)
Theorem C46_trained_data_is_coded : forall m0 m tu ti,
  trained_on m0 m tu ti -> numeric m0 ->
  filter (fun c => negb (String.eqb c "rid")) (m_columns m0) = map fst (f_types (m_df m0)) -> coded m.
Proof. exact trained_coded. Qed.
Print Assumptions C46_trained_data_is_coded.
Lemma s_coded : coded s_ds.
Proof. exact (trained_coded s_raw s_ds DInt DInt s_trained s_numeric eq_refl). Qed.

(** *** C46: every call of sample(n), in every sequence of calls on one sampler,
    returns n triples; draw number k of the labels decides whether the k-th triple
    is negative (an unobserved pair, 0) or positive (a row of the data at or above
    the threshold).  Provided the data has a positive row. *)
Theorem C46_samples_are_labelled_partial : forall m neg t p ns fuel d outs,
  coded m -> thr_ok t -> point_init m neg (thr_text t) = Ok p ->
  (exists r, In r (rows_of m) /\ above t r = true) ->
  samples ns fuel p d pst0 = Some outs ->
  calls_ok m neg t (dr_label d) 0 ns outs.
Proof. exact point_sampler. Qed.
Print Assumptions C46_samples_are_labelled_partial.

(** with neg_ratio = 0 (or less) there are no negatives *)
Theorem C46_no_negatives_for_ratio_0 : forall neg t m x y,
  (neg <= 0)%Qc -> (0 <= x)%Qc /\ (x < 1)%Qc -> labelled m neg t x y -> positive m t y.
Proof. exact no_negatives. Qed.
Print Assumptions C46_no_negatives_for_ratio_0.

(** sampler over the rows with interaction >= 3; draws 0, 3/4, 0, 3/4, ... *)
Definition s_draws : draws :=
  mkDraws (fun k => if Nat.even k then 0%Qc else Q2Qc (3 # 4)) (fun k => k) (fun k => k).
Definition s_point : point :=
  match point_init s_ds 1%Qc (Some "3") with Ok p => p | Err _ => mkPoint s_ds 0%Qc None (m_df s_ds) end.
Example C46_example :
  thr_ok (Some (LInt 3)) /\ thr_text (Some (LInt 3)) = Some "3" /\ point_init s_ds 1%Qc (Some "3") = Ok s_point /\
  (exists r, In r (rows_of s_ds) /\ above (Some (LInt 3)) r = true) /\
  match samples [3; 2]%nat 10 s_point s_draws pst0 with
  | Some [Ok l; Ok l'] => map fst l = [(Some 0, Some 3); (Some 0, Some 1); (Some 2, Some 6)] /\
                          map fst l' = [(Some 2, Some 3); (Some 1, Some 5)]
  | _ => False
  end.
Proof.
  split. { exists DFloat. split; [discriminate|]. apply lo_int; [simpl; intuition discriminate|discriminate|vm_compute; discriminate]. }
  split; [reflexivity|]. split; [reflexivity|]. split.
  - eexists. split; [left; reflexivity|]. vm_compute. reflexivity.
  - vm_compute. split; reflexivity.
Qed.

(** Without a positive row the first positive sample raises, and from then on the
    sampler returns (None, None, None) instead of a row. *)
Theorem C46_none_triples_refuted : exists m neg t p d,
  coded m /\ thr_ok t /\ (forall k, (0 <= dr_label d k)%Qc /\ (dr_label d k < 1)%Qc) /\
  point_init m neg (thr_text t) = Ok p /\
  forall fuel, samples [1; 1]%nat fuel p d pst0 = Some [Err AssertionError; Ok [(None, None, None)]].
Proof.
  exists s_ds, 0%Qc, (Some (LInt 9)). eexists. exists (mkDraws (fun _ => 0%Qc) (fun k => k) (fun k => k)).
  split; [exact s_coded|]. split.
  { exists DFloat. split; [discriminate|]. apply lo_int; [simpl; intuition discriminate|discriminate|vm_compute; discriminate]. }
  split. { intros k. split; vm_compute; congruence. }
  split; [reflexivity|]. intros fuel. vm_compute. reflexivity.
Qed.
Print Assumptions C46_none_triples_refuted.

(** *** C47: the generator of unobserved pairs *)
Theorem C47_pairs_are_unobserved : forall m t s n fuel g x,
  coded m -> rows_of m <> [] -> g <> Dead -> null_take n fuel m t s g = Some x ->
  exists l, x = Ok l /\ length l = n /\
    Forall (fun p => in_range m (fst p) (snd p) /\ ~ observed m (fst p) (snd p)) l.
Proof. intros m t s n fuel g x C. exact (null_take_sound m C n fuel t s g x). Qed.
Print Assumptions C47_pairs_are_unobserved.

(** A pull returns at the latest when an unobserved pair is drawn.  [k] is the
    position in the stream of draws, two draws per round. *)
Theorem C47_returns_when_drawn : forall m t s g u i j k,
  coded m -> rows_of m <> [] -> g <> Dead -> k = (match g with At k => k | _ => O end) ->
  in_range m u i -> ~ observed m u i ->
  s (k + 2 * j)%nat = Z.to_nat u -> s (S (k + 2 * j)) = Z.to_nat i ->
  null_next (S j) m t s g <> None.
Proof. intros m t s g u i j k C. exact (null_next_hit m C t s g u i j k). Qed.
Print Assumptions C47_returns_when_drawn.

(** When every pair is observed a pull never returns. *)
Theorem C47_full_matrix_never_returns : forall m t s g fuel,
  coded m -> rows_of m <> [] -> g <> Dead -> (forall u i, in_range m u i -> observed m u i) ->
  null_next fuel m t s g = None.
Proof. intros m t s g fuel C. exact (null_next_full m C fuel t s g). Qed.
Print Assumptions C47_full_matrix_never_returns.

Example C47_example :
  coded s_ds /\ rows_of s_ds <> [] /\
  null_take 3 5 s_ds (Some "3") (fun k => (k * k)%nat) Fresh = Some (Ok [(0, 1); (1, 2); (1, 4)]) /\
  null_next 1 s_ds None (fun _ => 0%nat) Fresh = None.
Proof. split; [exact s_coded|]. split; [discriminate|]. vm_compute. auto. Qed.

(** one user, one item: nothing to sample *)
Definition s_full : mem := assigned (mem_of_frame (mkFrame [("user", DInt); ("item", DInt); ("interaction", DFloat); ("timestamp", DInt)]
  [s_row 0 5 10 4 30])).
Example C47_full_example : forall fuel, null_next fuel s_full None (fun _ => 0%nat) Fresh = None.
Proof.
  intros fuel. change (null_next fuel s_full None (fun _ => 0%nat) Fresh) with
    (match null_loop fuel s_full 0 0 (fun _ => 0%nat) 0 with
     | None => None | Some (Err e, _) => Some (Err e, Dead) | Some (Ok p, k) => Some (Ok (Some p), At k) end).
  assert (H : forall k, null_loop fuel s_full 0 0 (fun _ => 0%nat) k = None); [|rewrite H; reflexivity].
  induction fuel as [|fuel IH]; intros k; auto. exact (IH (S (S k))).
Qed.

(** *** C68: pairs observed below the threshold as negatives *)
Theorem C68_below_threshold_refuted : exists m t r u i,
  coded m /\ thr_ok t /\ In r (rows_of m) /\ has_pair u i r = true /\ above t r = false /\
  (forall r', In r' (rows_of m) -> has_pair u i r' = true -> r' = r) /\
  forall s n fuel l, null_take n fuel m (thr_text t) s Fresh = Some (Ok l) -> ~ In (u, i) l.
Proof.
  exists s_ds, (Some (LInt 3)), (nth 2 (rows_of s_ds) (mkRow 0 [])), 0, 2.
  split; [exact s_coded|]. split.
  { exists DFloat. split; [discriminate|]. apply lo_int; [simpl; intuition discriminate|discriminate|vm_compute; discriminate]. }
  assert (I : In (nth 2 (rows_of s_ds) (mkRow 0 [])) (rows_of s_ds)) by (simpl; tauto).
  split; [exact I|]. split; [reflexivity|]. split; [vm_compute; reflexivity|]. split.
  { intros r' Hr' H. simpl in Hr'. destruct Hr' as [E|[E|[E|[E|[E|[E|[E|[]]]]]]]]; subst; vm_compute in H; try discriminate. reflexivity. }
  intros s n fuel l H Hin.
  destruct (null_take_sound s_ds s_coded n fuel _ s Fresh _ ltac:(discriminate) ltac:(discriminate) H) as [l' [E [_ F]]].
  assert (l' = l) by congruence. subst. rewrite Forall_forall in F. specialize (F _ Hin). destruct F as [_ F]. apply F.
  exists (nth 2 (rows_of s_ds) (mkRow 0 [])). split; [exact I|reflexivity].
Qed.
Print Assumptions C68_below_threshold_refuted.

(** *** C48: list sampler *)

(** Every sample is a window of the sequence of one group; the negatives are as
    wanted.  See [sample_ok]: if the group has no more rows than
    max_positive_records (or no maximum is given), the positives are the first
    n_targets rows and the targets all the others. *)
Theorem C48_samples_are_windows_partial : forall m a t pick s ls n k l,
  coded m -> config_ok m a t -> sampler_ok pick -> 0 <= l_min a -> ls_init m a = Ok ls ->
  sample_groups pick s n ls k = Ok l -> length l = n /\ Forall (sample_ok m a t) l.
Proof. intros m a t pick s ls n k l C K P M I. exact (sample_groups_ok m a t pick s C K P ls M I n k l). Qed.
Print Assumptions C48_samples_are_windows_partial.

(** With min_positive_records = max_positive_records (how Caser uses it) the sizes
    are as configured. *)
Theorem C48_sizes_with_equal_bounds_partial : forall m a t pick s ls n k l L T,
  coded m -> config_ok m a t -> sampler_ok pick -> 0 <= L -> ls_init m a = Ok ls ->
  l_min a = L -> l_max a = Some L -> l_targets a = Some T ->
  sample_groups pick s n ls k = Ok l ->
  Forall (fun g => exists pos tg negs, g = Tri pos tg negs /\ Z.of_nat (length pos) = L /\
                   Z.of_nat (length tg) = T /\ Z.of_nat (length negs) = l_neg a * T) l.
Proof.
  intros m a t pick s ls n k l L T C K P M I E1 E2 E3 H.
  destruct (sample_groups_ok m a t pick s C K P ls ltac:(lia) I n k l H) as [_ F].
  destruct (init_ok m a t C K ls I) as [Ck _]. destruct (check_inv m a Ck) as [Ct _]. rewrite E3 in Ct.
  eapply Forall_impl; [|exact F]. intros g [rs [_ G]]. rewrite E3 in G. destruct g as [pos|pos tg negs]; [contradiction|].
  destruct G as [[U _] [B [b [p [q [e [_ [_ [_ X]]]]]]]]]. exists pos, tg, negs. split; auto.
  unfold full in X. rewrite E2 in X. destruct (L <? Z.of_nat (length rs)) eqn:Q.
  - destruct X as [X1 X2]. injection X1 as X1. rewrite U, X2. auto.
  - apply Z.ltb_ge in Q. lia.
Qed.
Print Assumptions C48_sizes_with_equal_bounds_partial.

(** Sizes that leave room for the targets: the only failure is that no suitable
    group was found in 21 tries. *)
Theorem C48_only_failure_is_too_few_records : forall m a t pick s ls n k,
  coded m -> config_ok m a t -> 0 <= l_min a -> 0 <= l_neg a -> rows_of m <> [] ->
  match l_max a, l_targets a with Some mx, Some _ => mx <= l_min a | _, _ => True end ->
  ls_init m a = Ok ls ->
  (exists l, sample_groups pick s n ls k = Ok l) \/ sample_groups pick s n ls k = Err GenericException.
Proof. intros m a t pick s ls n k C K M G N R I. exact (sample_groups_only m a t pick s C K ls M G R N I n k). Qed.
Print Assumptions C48_only_failure_is_too_few_records.

Definition s_pick (k : nat) (l : list value) (n : nat) : list value := firstn n l.
Lemma s_pick_ok : sampler_ok s_pick.
Proof.
  intros k l n D L. unfold s_pick. split; [rewrite firstn_length; lia|]. split.
  - rewrite <- (firstn_skipn n l) in D. clear L. induction (firstn n l) as [|x l' IH]; [constructor|].
    cbn [app] in D. inversion D; subst. constructor; auto. intros H. apply H1. apply in_or_app. auto.
  - intros x Hx. rewrite <- (firstn_skipn n l). apply in_or_app. auto.
Qed.

(** rids and ids of a sample *)
Definition rids (l : list record) : list (option value) := map (assoc String.eqb "rid") l.
Definition shape (g : gsample) :=
  match g with Seq p => (rids p, [], []) | Tri p q n => (rids p, rids q, n) end.

Definition s_args : ls_args := mkLs ["uid"] 2 (Some 1) "iid" (Some "2") (Some "timestamp") 2 (Some 2).
Lemma s_config a t : l_groups a = ["uid"] -> l_negcol a = "iid" -> l_thr a = thr_text t -> thr_ok t -> config_ok s_ds a t.
Proof.
  intros E1 E2 E3 E4. constructor; rewrite ?E1, ?E2; auto.
  - discriminate.
  - repeat constructor; simpl; tauto.
  - intros c [<-|[]]. split; [simpl; tauto|]. split; [discriminate|]. split; [repeat split; discriminate|reflexivity].
  - split; [discriminate|]. split; [simpl; tauto|reflexivity].
  - intros c r z Hr E. assert (X : forallb (fun r => forallb (fun p => match snd p with VInt z => Z.abs z <=? 2 ^ 53 | _ => true end) (r_cells r)) (rows_of s_ds) = true) by (vm_compute; reflexivity).
    rewrite forallb_forall in X. specialize (X r Hr). rewrite forallb_forall in X.
    assert (A : In (c, VInt z) (r_cells r)).
    { unfold cell in E. clear - E. induction (r_cells r) as [|[c' v] l IH]; [discriminate|]. cbn [assoc] in E.
      destruct (String.eqb c c') eqn:Q; [|right; auto]. apply String.eqb_eq in Q. left. congruence. }
    specialize (X _ A). cbn [snd] in X. apply Z.leb_le. exact X.
Qed.
Example C48_example : exists ls,
  config_ok s_ds s_args (Some (LInt 2)) /\ ls_init s_ds s_args = Ok ls /\
  match sample_groups s_pick (fun _ => 0%nat) 1 ls 0 with
  | Ok l => map shape l = [([Some (VInt 3); Some (VInt 0)], [Some (VInt 4)], [VInt 1; VInt 2])]
  | Err _ => False
  end.
Proof.
  eexists. split; [|split; [vm_compute; reflexivity|vm_compute; reflexivity]].
  apply s_config; try reflexivity. exists DFloat. split; [discriminate|].
  apply lo_int; [simpl; intuition discriminate|discriminate|vm_compute; discriminate].
Qed.

(** min_positive_records = 3, n_targets = 1, no maximum: the user's four rows give
    one positive and three targets. *)
Theorem C48_sizes_swapped_refuted : exists m a t pick s ls pos tg negs,
  coded m /\ config_ok m a t /\ sampler_ok pick /\ ls_init m a = Ok ls /\
  l_targets a = Some 1 /\ sample_groups pick s 1 ls 0 = Ok [Tri pos tg negs] /\
  Z.of_nat (length pos) < l_min a /\ Z.of_nat (length tg) = 3.
Proof.
  exists s_ds, (mkLs ["uid"] 1 (Some 1) "iid" None (Some "timestamp") 3 None), None, s_pick, (fun _ => 0%nat).
  do 4 eexists. split; [exact s_coded|]. split; [apply s_config; (reflexivity || exact I)|]. split; [exact s_pick_ok|].
  split; [vm_compute; reflexivity|]. split; [reflexivity|]. split; [vm_compute; reflexivity|]. split; vm_compute; reflexivity.
Qed.
Print Assumptions C48_sizes_swapped_refuted.

(** A group between max and max + n_targets rows makes randint raise, although it
    has min_positive_records + n_targets rows. *)
Theorem C48_randint_raises_refuted : exists m a t pick s ls,
  coded m /\ config_ok m a t /\ sampler_ok pick /\ ls_init m a = Ok ls /\
  l_min a = 2 /\ l_max a = Some 3 /\ l_targets a = Some 2 /\
  sample_groups pick s 1 ls 0 = Err ValueError.
Proof.
  exists s_ds, (mkLs ["uid"] 1 (Some 2) "iid" None (Some "timestamp") 2 (Some 3)), None, s_pick, (fun _ => 0%nat).
  eexists. split; [exact s_coded|]. split; [apply s_config; (reflexivity || exact I)|]. split; [exact s_pick_ok|].
  split; [vm_compute; reflexivity|]. repeat split.
Qed.
Print Assumptions C48_randint_raises_refuted.

(** Groups given by a text column: the query has no quotes. *)
Definition s_text : mem := assigned (mem_of_frame (mkFrame [("user", DObj); ("item", DInt); ("interaction", DFloat)]
  [mkRow 0 [("user", VStr "ann"); ("item", VInt 1); ("interaction", VFlt 1%Qc)];
   mkRow 1 [("user", VStr "ann"); ("item", VInt 2); ("interaction", VFlt 1%Qc)]])).
Theorem C48_text_groups_refuted : exists m a ls,
  ls_init m a = Ok ls /\ l_groups a = ["user"] /\ forall pick s, sample_groups pick s 1 ls 0 = Err NameError.
Proof.
  exists s_text, (mkLs ["user"] 1 None "iid" None None 1 None). eexists.
  split; [vm_compute; reflexivity|]. split; [reflexivity|]. intros pick s.
  cbn [sample_groups tries]. unfold attempt, choice. cbn [ls_uniq length]. change (s 0%nat mod 1)%nat with (s 0%nat mod 1)%nat.
  rewrite Nat.mod_1_r. vm_compute. reflexivity.
Qed.
Print Assumptions C48_text_groups_refuted.
