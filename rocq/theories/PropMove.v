(** Property C129: moving a better item up in a list of recommendations never
    lowers a ranking metric. *)
From Coq Require Import String.
From Coq Require Import List ZArith QArith Qcanon Qreals Reals Bool Permutation Lia Lra.
From Verif Require Import Py PyFacts MetricModel MetricSpec MetricFacts2 MoveSpec MoveFacts MoveFacts2.
Import ListNotations.
Open Scope Z_scope.

(** Recall, precision, F-score with any beta and average precision, for any ids,
    with and without truncation. *)
Theorem C129_sets rel k l l' : moved_up (more_relevant rel) l l' ->
  no_worse Qle (recall l (karg k) (Some rel)) (recall l' (karg k) (Some rel)) /\
  no_worse Qle (precision l (karg k) (Some rel)) (precision l' (karg k) (Some rel)) /\
  (forall beta, no_worse Qle (f_score beta l (karg k) (Some rel)) (f_score beta l' (karg k) (Some rel))) /\
  no_worse Qle (average_precision l (karg k) (Some rel)) (average_precision l' (karg k) (Some rel)).
Proof.
  intros M. split; [|split; [|split]].
  - exact (recall_moved rel k l l' M).
  - exact (precision_moved rel k l l' M).
  - intros beta. exact (f_moved rel beta k l l' M).
  - exact (ap_moved rel k l l' M).
Qed.
Print Assumptions C129_sets.

(** Hit ratio, for ids of one kind. *)
Theorem C129_hits rel k l l' : one_kind (l ++ rel) -> moved_up (more_relevant rel) l l' ->
  no_worse Qle (hit_ratio l (karg k) (Some rel)) (hit_ratio l' (karg k) (Some rel)).
Proof. exact (hit_moved rel k l l'). Qed.
Print Assumptions C129_hits.

(** Reciprocal rank of one relevant item. *)
Theorem C129_reciprocal r k l l' : moved_up (more_relevant [r]) l l' ->
  no_worse Qle (reciprocal_rank l (karg k) (Some r)) (reciprocal_rank l' (karg k) (Some r)).
Proof. exact (rr_moved r k l l'). Qed.
Print Assumptions C129_reciprocal.

(** DCG for any relevancies. *)
Theorem C129_dcg strong rels k l l' : dict rels -> moved_up (rated_higher rels) l l' ->
  no_worse Rle (dcg strong l (karg k) (Some rels)) (dcg strong l' (karg k) (Some rels)).
Proof. exact (dcg_moved strong rels k l l'). Qed.
Print Assumptions C129_dcg.

(** NDCG for relevancies that are not negative. *)
Theorem C129_ndcg strong rels k l l' : dict rels -> (forall y q, In (y, q) rels -> (0 <= q)%Q) ->
  moved_up (rated_higher rels) l l' ->
  no_worse Rle (ndcg strong l (karg k) (Some rels)) (ndcg strong l' (karg k) (Some rels)).
Proof. exact (ndcg_moved strong rels k l l'). Qed.
Print Assumptions C129_ndcg.

(** Long moves: one item that goes in front of several others, and a list in
    which all relevant items come first. *)
Theorem C129_one_jump (better : value -> value -> Prop) l1 mid y l2 : (forall x, In x mid -> better y x) ->
  moved_up better (l1 ++ mid ++ y :: l2) (l1 ++ y :: mid ++ l2).
Proof. intros H. apply moved_pre, moved_jump. exact H. Qed.
Print Assumptions C129_one_jump.
Theorem C129_relevant_first rel good bad l k : merge good bad l ->
  (forall y, In y good -> is_relevant rel y) -> (forall x, In x bad -> ~ is_relevant rel x) ->
  let best := good ++ bad in
  no_worse Qle (recall l (karg k) (Some rel)) (recall best (karg k) (Some rel)) /\
  no_worse Qle (precision l (karg k) (Some rel)) (precision best (karg k) (Some rel)) /\
  (forall beta, no_worse Qle (f_score beta l (karg k) (Some rel)) (f_score beta best (karg k) (Some rel))) /\
  no_worse Qle (average_precision l (karg k) (Some rel)) (average_precision best (karg k) (Some rel)).
Proof. intros M G B. apply C129_sets. apply moved_first; auto. Qed.
Print Assumptions C129_relevant_first.

(** ** the limits *)
(** Hit ratio compares the texts of ids: with 1, 1.0, 7 and "7" in play, moving
    the relevant 1.0 up in front of the irrelevant 7 lowers it from 1/2 to 0. *)
Theorem C129_mixed_ids_refuted : exists rel k l l' v v',
  moved_up (more_relevant rel) l l' /\
  hit_ratio l (karg k) (Some rel) = Ok v /\ hit_ratio l' (karg k) (Some rel) = Ok v' /\ (v' < v)%Q.
Proof.
  exists [VStr "7"; VInt 1], (Some 1%nat), [VInt 7; VFlt (Q2Qc 1)], [VFlt (Q2Qc 1); VInt 7].
  do 2 eexists. split; [|split; [vm_compute; reflexivity|split; [vm_compute; reflexivity|reflexivity]]].
  apply (moved_one _ [] (VInt 7) (VFlt (Q2Qc 1)) []); [|constructor]. split.
  - exists (VInt 1). split; [right; left; reflexivity|]. apply val_key. reflexivity.
  - intros (y & [<-|[<-|[]]] & E); apply val_key in E; discriminate E.
Qed.
Print Assumptions C129_mixed_ids_refuted.

(** NDCG with negative relevancies: the item with -1 in front of the item with -2
    gives 1 instead of 2. *)
Definition neg_rels : list (value * Q) := [(VInt 1, (-1)%Q); (VInt 2, (-2)%Q)].
Theorem C129_negative_refuted : exists rels k l l' v v', dict rels /\
  moved_up (rated_higher rels) l l' /\
  ndcg false l (karg k) (Some rels) = Ok v /\ ndcg false l' (karg k) (Some rels) = Ok v' /\ (v' < v)%R.
Proof.
  assert (L : (log2 (2 + INR 0) = 1)%R).
  { unfold log2. change (INR 0) with 0%R. rewrite Rplus_0_r. apply Rinv_r. assert (0 < ln 2)%R; [|lra].
    rewrite <- ln_1. apply ln_increasing; lra. }
  assert (E1 : Q2R (-1) = (-1)%R) by (unfold Q2R; simpl; lra).
  assert (E2 : Q2R (-2) = (-2)%R) by (unfold Q2R; simpl; lra).
  assert (D1 : dcg false [VInt 1; VInt 2] (karg (Some 1%nat)) (Some neg_rels) = Ok (-1)%R).
  { assert (A : assoc val_eqb (VInt 1) neg_rels = Some (-1)%Q) by (vm_compute; reflexivity).
    unfold dcg. rewrite trunc_karg. cbn [first_k firstn dcg_from]. rewrite A. cbn [gain bind]. rewrite E1, L. f_equal. lra. }
  assert (D2 : dcg false [VInt 2; VInt 1] (karg (Some 1%nat)) (Some neg_rels) = Ok (-2)%R).
  { assert (A : assoc val_eqb (VInt 2) neg_rels = Some (-2)%Q) by (vm_compute; reflexivity).
    unfold dcg. rewrite trunc_karg. cbn [first_k firstn dcg_from]. rewrite A. cbn [gain bind]. rewrite E2, L. f_equal. lra. }
  assert (B : best_order neg_rels = [VInt 1; VInt 2]) by (vm_compute; reflexivity).
  exists neg_rels, (Some 1%nat), [VInt 2; VInt 1], [VInt 1; VInt 2], 2%R, 1%R. split; [|split; [|split; [|split]]].
  - unfold dict, distinct. constructor; [|constructor; [|constructor]]; simpl; [|tauto].
    intros [E|[]]. assert (C : val_eqb (VInt 2) (VInt 1) = true) by (apply val_key; exact E). discriminate C.
  - apply (moved_one _ [] (VInt 2) (VInt 1) []); [|constructor]. exists (-1)%Q, (-2)%Q. split; [|split].
    + exists (VInt 1). split; [left; reflexivity|reflexivity].
    + exists (VInt 2). split; [right; left; reflexivity|reflexivity].
    + discriminate.
  - unfold ndcg. rewrite B, D2, D1. cbn [bind]. destruct (Req_EM_T (-1) 0); [lra|]. f_equal. lra.
  - unfold ndcg. rewrite B, D1. cbn [bind]. destruct (Req_EM_T (-1) 0); [lra|]. f_equal. lra.
  - lra.
Qed.
Print Assumptions C129_negative_refuted.

(** Example: recommendations 4, 1, 7, 2 where 1 and 2 are relevant; 2 goes up by
    one place, then 1.  The metrics at 2 and 3 and the average precision grow. *)
Definition ints (l : list Z) : list value := map VInt l.
Example C129_ex :
  moved_up (more_relevant (ints [1; 2])) (ints [4; 1; 7; 2]) (ints [1; 4; 2; 7]) /\
  one_kind (ints [4; 1; 7; 2] ++ ints [1; 2]) /\
  merge (ints [1; 2]) (ints [4; 7]) (ints [4; 1; 7; 2]) /\
  recall (ints [4; 1; 7; 2]) (Some 3) (Some (ints [1; 2])) = Ok (1 # 2)%Q /\
  recall (ints [1; 4; 2; 7]) (Some 3) (Some (ints [1; 2])) = Ok (2 # 2)%Q /\
  (exists v v', average_precision (ints [4; 1; 7; 2]) None (Some (ints [1; 2])) = Ok v /\
    average_precision (ints [1; 4; 2; 7]) None (Some (ints [1; 2])) = Ok v' /\ (v == 1 # 2)%Q /\ (v' == 5 # 6)%Q).
Proof.
  assert (R : forall z w, z = 1 \/ z = 2 -> w = 4 \/ w = 7 -> more_relevant (ints [1; 2]) (VInt z) (VInt w)).
  { intros z w Z W. split.
    - exists (VInt z). split; [|reflexivity]. simpl. destruct Z as [->| ->]; auto.
    - intros (y & [<-|[<-|[]]] & E); apply val_key in E; destruct W as [->| ->]; discriminate E. }
  split; [|split; [|split; [|split; [|split]]]].
  - apply (moved_one _ (ints [4; 1]) (VInt 7) (VInt 2) []); [apply R; auto|].
    apply (moved_one _ [] (VInt 4) (VInt 1) (ints [2; 7])); [apply R; auto|]. constructor.
  - left. intros v Hv. unfold ints in Hv. rewrite <- map_app in Hv. apply in_map_iff in Hv. destruct Hv as (z & <- & _). eauto.
  - repeat constructor.
  - vm_compute. reflexivity.
  - vm_compute. reflexivity.
  - do 2 eexists. split; [vm_compute; reflexivity|]. split; [vm_compute; reflexivity|]. split; reflexivity.
Qed.
(** relevancies 3 for item 9, 1 for item 7, 0 for item 8: 9 goes in front of 7 and 8 *)
Example C129_ex_rated : let rels := [(VInt 7, 1%Q); (VInt 8, 0%Q); (VInt 9, 3%Q)] in
  dict rels /\ (forall y q, In (y, q) rels -> (0 <= q)%Q) /\
  moved_up (rated_higher rels) (ints [7; 8; 9]) (ints [9; 7; 8]).
Proof.
  split; [|split].
  - unfold dict, distinct. simpl. repeat constructor; simpl;
      intros H; repeat (destruct H as [H|H]); auto; apply (val_key (VInt _) (VInt _)) in H; discriminate H.
  - intros y q [E|[E|[E|[]]]]; injection E as _ <-; discriminate.
  - apply (C129_one_jump _ [] (ints [7; 8]) (VInt 9) []). intros x [<-|[<-|[]]].
    + exists 3%Q, 1%Q. split; [exists (VInt 9); split; [right; right; left|]; reflexivity|].
      split; [exists (VInt 7); split; [left|]; reflexivity|discriminate].
    + exists 3%Q, 0%Q. split; [exists (VInt 9); split; [right; right; left|]; reflexivity|].
      split; [exists (VInt 8); split; [right; left|]; reflexivity|discriminate].
Qed.
