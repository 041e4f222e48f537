(** Properties C38 to C40: prediction, ranking and recommendation. *)
From Coq Require Import String Ascii.
From Coq Require Import List ZArith QArith Qcanon Bool Lia Permutation Sorted.
From Verif Require Import Py PyFacts MemModel MemSpec MemFacts3 RankModel RankSpec RankFacts RankFacts2 RankFacts3.
From Verif Require Import PropMem.
Import ListNotations.
Open Scope string_scope.
Open Scope Z_scope.

(** *** The data set of the examples: users 7, 5, 9; items "a", "b", "c" *)
Definition ex_trained : mem := assigned ex.
Lemma ex_trained_on : trained_on ex ex_trained DInt DObj.
Proof.
  constructor; try reflexivity; try discriminate; try apply ex_wf; vm_compute; discriminate.
Qed.
(** scores of a model: item "c" best, none for "a" *)
Definition ex_f (u i : option Z) : res (option Qc) :=
  match u, i with
  | Some _, Some 0 => Ok None
  | Some u, Some i => Ok (Some (Qc_of_Z (u + i)))
  | _, _ => Ok None
  end.

(** *** C38: models that inherit _rank *)
Theorem C38_rank_best_first : forall m0 m tu ti,
  trained_on m0 m tu ti ->
  forall f fitted user items novelty skip n out,
  type_of user = tu -> Forall (fun v => type_of v = ti) items ->
  rank (rank_abc f m) fitted m user items novelty skip n = Ok out ->
  exists out', items_named out out' /\
    best_of (candidate m0 user novelty (fun v => In v items))
      (fun v s => predict f true m user v false = Ok (Some s))
      (match n with Some k => Z.to_nat k | None => count_known m0 items end) out'.
Proof. exact rank_abc_final. Qed.
Print Assumptions C38_rank_best_first.

(** a ranking is always returned when the model gives a prediction or None *)
Theorem C38_rank_returns : forall m0 m tu ti,
  trained_on m0 m tu ti ->
  forall f user items novelty n,
  never_raises f -> known_user m0 user -> Forall (fun v => type_of v = ti) items ->
  (forall k, n = Some k -> k <= Z.of_nat (count_known m0 items)) ->
  exists out, rank (rank_abc f m) true m user items novelty true n = Ok out.
Proof. exact rank_returns. Qed.
Print Assumptions C38_rank_returns.

(** the order in which the items are listed does not matter *)
Theorem C38_rank_order_of_request : forall m0 m tu ti,
  trained_on m0 m tu ti ->
  forall f user items items' novelty n out,
  Forall (fun v => type_of v = ti) items -> Permutation items items' ->
  rank (rank_abc f m) true m user items novelty true n = Ok out ->
  rank (rank_abc f m) true m user items' novelty true n = Ok out.
Proof. exact rank_perm. Qed.
Print Assumptions C38_rank_order_of_request.

Theorem C38_cdae_best_first : forall m0 m tu ti,
  trained_on m0 m tu ti ->
  forall vec fitted n_items user items novelty skip n out,
  type_of user = tu -> Forall (fun v => type_of v = ti) items -> count_unique m (Some ["iid"]) = Ok n_items ->
  rank (rank_cdae vec m n_items) fitted m user items novelty skip n = Ok out ->
  exists out', items_named out out' /\
    best_of (candidate m0 user novelty (fun v => In v items))
      (fun v s => predict (predict_cdae vec) true m user v false = Ok (Some (inl s)))
      (match n with Some k => Z.to_nat k | None => count_known m0 items end) out'.
Proof. exact rank_cdae_final. Qed.
Print Assumptions C38_cdae_best_first.

(** Caser, with novelty only *)
Theorem C38_caser_novelty_partial : forall m0 m tu ti,
  trained_on m0 m tu ti ->
  forall vec fitted n_items user items skip n out,
  type_of user = tu -> Forall (fun v => type_of v = ti) items -> count_unique m (Some ["iid"]) = Ok n_items ->
  rank (rank_caser vec m n_items) fitted m user items true skip n = Ok out ->
  exists out', items_named out out' /\
    best_of (candidate m0 user true (fun v => In v items))
      (fun v s => predict (predict_cdae vec) true m user v false = Ok (Some (inl s)))
      (match n with Some k => Z.to_nat k | None => count_known m0 items end) out'.
Proof. exact rank_caser_final. Qed.
Print Assumptions C38_caser_novelty_partial.

(** Without novelty Caser ranks all items: a request for "a" is answered with "c". *)
Theorem C38_caser_without_novelty_refuted : exists m0 m vec user items out v s,
  trained_on m0 m DInt DObj /\ count_unique m (Some ["iid"]) = Ok 3%nat /\
  known_user m0 user /\ Forall (known_item m0) items /\
  rank (rank_caser vec m 3) true m user items false true None = Ok out /\
  In (s, Some v) out /\ ~ In v items.
Proof.
  exists ex, ex_trained, (fun _ => Ok [Qc_of_Z 1; Qc_of_Z 2; Qc_of_Z 3]), (VInt 7), [VStr "a"].
  eexists. exists (VStr "c"), (Qc_of_Z 3). split; [apply ex_trained_on|]. split; [vm_compute; reflexivity|].
  split; [vm_compute; auto|]. split; [constructor; [vm_compute; auto|constructor]|].
  split; [vm_compute; reflexivity|]. split; [left; reflexivity|]. simpl. intuition discriminate.
Qed.
Print Assumptions C38_caser_without_novelty_refuted.

Example C38_example :
  rank (rank_abc ex_f ex_trained) true ex_trained (VInt 9) [VStr "b"; VStr "zz"; VStr "c"; VStr "a"] false true None =
    Ok [(Qc_of_Z 4, Some (VStr "c")); (Qc_of_Z 3, Some (VStr "b"))] /\
  rank (rank_abc ex_f ex_trained) true ex_trained (VInt 9) [VStr "b"; VStr "zz"; VStr "c"; VStr "a"] true true (Some 2) =
    Ok [(Qc_of_Z 3, Some (VStr "b"))] /\
  never_raises ex_f.
Proof.
  split; [vm_compute; reflexivity|]. split; [vm_compute; reflexivity|].
  intros u i. unfold ex_f. destruct i; eexists; reflexivity.
Qed.

(** *** C39 *)
Theorem C39_recommend_best_first : forall m0 m tu ti,
  trained_on m0 m tu ti ->
  forall f fitted n_items user n novelty threshold out,
  type_of user = tu -> count_unique m (Some ["iid"]) = Ok n_items ->
  recommend (rank_abc f m) fitted m n_items user n novelty threshold = Ok out ->
  exists out', items_named out out' /\
    best_of (candidate m0 user novelty (fun _ => True))
      (fun v s => predict f true m user v false = Ok (Some s) /\ forall t, threshold = Some t -> (t <= s)%Qc)
      (match n with Some k => Z.to_nat k | None => n_items end) out'.
Proof. exact recommend_abc_final. Qed.
Print Assumptions C39_recommend_best_first.

Theorem C39_cdae_recommend_best_first : forall m0 m tu ti,
  trained_on m0 m tu ti ->
  forall vec fitted n_items user n novelty threshold out,
  type_of user = tu -> count_unique m (Some ["iid"]) = Ok n_items ->
  recommend (rank_cdae vec m n_items) fitted m n_items user n novelty threshold = Ok out ->
  exists out', items_named out out' /\
    best_of (candidate m0 user novelty (fun _ => True))
      (fun v s => predict (predict_cdae vec) true m user v false = Ok (Some (inl s)) /\
                  forall t, threshold = Some t -> (t <= s)%Qc)
      (match n with Some k => Z.to_nat k | None => n_items end) out'.
Proof. exact recommend_cdae_final. Qed.
Print Assumptions C39_cdae_recommend_best_first.

Theorem C39_recommend_returns : forall m0 m tu ti,
  trained_on m0 m tu ti ->
  forall f n_items user n novelty threshold,
  never_raises f -> known_user m0 user ->
  exists out, recommend (rank_abc f m) true m n_items user n novelty threshold = Ok out.
Proof. exact recommend_returns. Qed.
Print Assumptions C39_recommend_returns.

Example C39_example :
  count_unique ex_trained (Some ["iid"]) = Ok 3%nat /\
  recommend (rank_abc ex_f ex_trained) true ex_trained 3 (VInt 7) None true (Some (Qc_of_Z 2)) =
    Ok [(Qc_of_Z 2, Some (VStr "c"))] /\
  recommend (rank_abc ex_f ex_trained) true ex_trained 3 (VInt 9) (Some 1) false None =
    Ok [(Qc_of_Z 4, Some (VStr "c"))].
Proof. vm_compute. repeat split. Qed.

(** *** C40 *)
Theorem C40_predict_unknown : forall m0 m tu ti,
  trained_on m0 m tu ti ->
  forall A (f : option Z -> option Z -> res (option A)) user v,
  type_of user = tu -> type_of v = ti -> ~ (known_user m0 user /\ known_item m0 v) ->
  predict f true m user v false = Err AssertionError /\
  (needs_both f -> predict f true m user v true = Ok None).
Proof. exact @predict_unknown. Qed.
Print Assumptions C40_predict_unknown.

Theorem C40_predict_skip_errors : forall m0 m tu ti,
  trained_on m0 m tu ti ->
  forall A (f : option Z -> option Z -> res (option A)) user v,
  (exists o, predict f true m user v true = Ok o) /\
  (known_user m0 user -> known_item m0 v ->
   forall x, predict f true m user v true = Ok (Some x) <-> predict f true m user v false = Ok (Some x)).
Proof.
  intros m0 m tu ti T A f user v. split; [apply predict_skip_total|]. intros. eapply predict_skip_same; eauto.
Qed.
Print Assumptions C40_predict_skip_errors.

Theorem C40_rank_ignores_unknown_items : forall m0 m tu ti,
  trained_on m0 m tu ti ->
  forall impl fitted user items novelty n,
  Forall (fun v => type_of v = ti) items ->
  rank impl fitted m user items novelty true n = rank impl fitted m user (known_only m0 items) novelty true n /\
  rank impl fitted m user items novelty true n = rank impl fitted m user (known_only m0 items) novelty false n.
Proof. exact rank_unknown_items. Qed.
Print Assumptions C40_rank_ignores_unknown_items.

Theorem C40_rank_unknown_item_raises : forall m0 m tu ti,
  trained_on m0 m tu ti ->
  forall impl user items novelty n,
  known_user m0 user -> Forall (fun v => type_of v = ti) items -> Exists (fun v => ~ known_item m0 v) items ->
  rank impl true m user items novelty false n = Err GenericException.
Proof. exact rank_unknown_raises. Qed.
Print Assumptions C40_rank_unknown_item_raises.

Theorem C40_unknown_user_raises : forall m0 m tu ti,
  trained_on m0 m tu ti ->
  forall impl n_items user items novelty skip n threshold,
  type_of user = tu -> ~ known_user m0 user ->
  rank impl true m user items novelty skip n = Err AssertionError /\
  recommend impl true m n_items user n novelty threshold = Err AssertionError.
Proof. exact unknown_user_raises. Qed.
Print Assumptions C40_unknown_user_raises.

(** CDAE returns its whole score vector for an unknown item. *)
Theorem C40_cdae_unknown_item_refuted : exists m0 m vec user v l,
  trained_on m0 m DInt DObj /\ known_user m0 user /\ type_of v = DObj /\ ~ known_item m0 v /\
  predict (predict_cdae vec) true m user v true = Ok (Some (inr l)).
Proof.
  exists ex, ex_trained, (fun _ => Ok [Qc_of_Z 1; Qc_of_Z 2; Qc_of_Z 3]), (VInt 7), (VStr "zz").
  eexists. split; [apply ex_trained_on|]. split; [vm_compute; auto|]. split; [reflexivity|].
  split; [vm_compute; intuition discriminate|]. vm_compute. reflexivity.
Qed.
Print Assumptions C40_cdae_unknown_item_refuted.

(** rank(user, items, n=len(items)) raises when one of the items is unknown,
    although unknown items are to be skipped. *)
Theorem C40_rank_unknown_with_n_refuted : exists m0 m f user items,
  trained_on m0 m DInt DObj /\ never_raises f /\ known_user m0 user /\ Forall (fun v => type_of v = DObj) items /\
  rank (rank_abc f m) true m user items true true (Some (Z.of_nat (length items))) = Err AssertionError.
Proof.
  exists ex, ex_trained, ex_f, (VInt 7), [VStr "b"; VStr "zz"]. split; [apply ex_trained_on|].
  split; [apply C38_example|]. split; [vm_compute; auto|].
  split; [repeat constructor|]. vm_compute. reflexivity.
Qed.
Print Assumptions C40_rank_unknown_with_n_refuted.

(** With integer item ids an unknown id that is not a number raises. *)
Theorem C40_rank_text_item_refuted : exists m0 m f user v,
  trained_on m0 m DObj DInt /\ never_raises f /\ known_user m0 user /\ ~ known_item m0 v /\
  rank (rank_abc f m) true m user [v] true true None = Err GenericException.
Proof.
  exists ex_text, (assigned ex_text), ex_f, (VStr "a"), (VStr "zz").
  split; [constructor; try reflexivity; try discriminate; try apply ex_text_wf; vm_compute; discriminate|].
  split; [apply C38_example|]. split; [vm_compute; auto|].
  split; [vm_compute; intuition discriminate|]. vm_compute. reflexivity.
Qed.
Print Assumptions C40_rank_text_item_refuted.

Example C40_example :
  predict ex_f true ex_trained (VInt 7) (VStr "zz") true = Ok None /\
  predict ex_f true ex_trained (VInt 8) (VStr "b") false = Err AssertionError /\
  predict ex_f true ex_trained (VInt 5) (VStr "b") true = Ok (Some (Qc_of_Z 2)) /\
  needs_both ex_f /\
  known_only ex [VStr "b"; VStr "zz"; VStr "a"] = [VStr "b"; VStr "a"].
Proof.
  split; [vm_compute; reflexivity|]. split; [vm_compute; reflexivity|]. split; [vm_compute; reflexivity|].
  split; [|reflexivity]. intros [u|] [i|] x; simpl; intros H; try discriminate. split; discriminate.
Qed.
