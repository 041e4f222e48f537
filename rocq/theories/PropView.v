(** Property C130: the answers of rank and recommend to different questions fit
    together. *)
From Coq Require Import String Ascii.
From Coq Require Import List ZArith QArith Qcanon Bool Lia Permutation.
From Verif Require Import Py PyFacts MemModel MemSpec MemFacts3 RankModel RankSpec KnnModel.
From Verif Require Import ViewSpec ViewFacts2 PropMem PropRank.
Import ListNotations.
Open Scope string_scope.
Open Scope Z_scope.
Open Scope list_scope.

(** asking for fewer recommendations gives the first ones *)
Theorem C130_shorter : forall m n_items impl,
  of_library m n_items impl ->
  forall fitted user n n' novelty threshold out,
  asked n_items n' <= asked n_items n ->
  recommend impl fitted m n_items user n novelty threshold = Ok out ->
  recommend impl fitted m n_items user n' novelty threshold = Ok (firstn (Z.to_nat (asked n_items n')) out).
Proof. intros m ni impl H. intros. eapply recommend_shorter; eauto. eapply library_by_top; eauto. Qed.
Print Assumptions C130_shorter.

(** a threshold cuts the list in two *)
Theorem C130_threshold : forall m n_items impl,
  of_library m n_items impl ->
  forall fitted user n novelty t out,
  recommend impl fitted m n_items user n novelty None = Ok out ->
  exists good rest, out = good ++ rest /\
    recommend impl fitted m n_items user n novelty (Some t) = Ok good /\
    Forall (fun p => (t <= fst p)%Qc) good /\ Forall (fun p => (fst p < t)%Qc) rest.
Proof. intros m ni impl H. intros. eapply recommend_threshold; eauto. eapply library_by_top; eauto. Qed.
Print Assumptions C130_threshold.

(** the same for rank: shorter rankings are the first parts of longer ones *)
Theorem C130_rank_shorter : forall m n_items impl,
  of_library m n_items impl ->
  forall fitted user items novelty skip n' out,
  (forall n, n' <= n -> rank impl fitted m user items novelty skip (Some n) = Ok out ->
     rank impl fitted m user items novelty skip (Some n') = Ok (firstn (Z.to_nat n') out)) /\
  (forall out', rank impl fitted m user items novelty skip None = Ok out ->
     rank impl fitted m user items novelty skip (Some n') = Ok out' -> out' = firstn (Z.to_nat n') out).
Proof.
  intros m ni impl H. intros. assert (B := library_by_top m ni impl H). split.
  - intros n L E. eapply rank_shorter; eauto.
  - intros out' E E'. eapply rank_default_shorter; eauto.
Qed.
Print Assumptions C130_rank_shorter.

(** novelty takes the items away that the user has interacted with, and nothing else *)
Theorem C130_novelty : forall m0 m tu ti,
  trained_on m0 m tu ti ->
  forall impl n_items user threshold out,
  of_library m n_items impl -> type_of user = tu -> count_unique m (Some ["iid"]) = Ok n_items ->
  recommend impl true m n_items user None false threshold = Ok out ->
  exists out', recommend impl true m n_items user None true threshold = Ok out' /\
    kept (fun p => exists v, snd p = Some v /\ ~ interacted m0 user v) out out'.
Proof. intros m0 m tu ti T. intros. eapply (recommend_new m0 m tu ti T); eauto. Qed.
Print Assumptions C130_novelty.

(** A ranking of some of the items, with or without novelty, is what is left of the
    ranking of more items: the others only are taken away.  Caser needs novelty. *)
Theorem C130_rank_part : forall m0 m tu ti,
  trained_on m0 m tu ti ->
  forall impl n_items user items items' novelty novelty' out,
  (not_caser m n_items impl \/ (exists vec, impl = rank_caser vec m n_items) /\ novelty = true) ->
  type_of user = tu ->
  Forall (fun v => type_of v = ti) items -> Forall (fun v => type_of v = ti) items' ->
  NoDup items -> NoDup items' ->
  (forall v, In v items' -> known_item m0 v -> In v items) ->
  (novelty = true -> novelty' = true) ->
  rank impl true m user items novelty true None = Ok out ->
  exists out', rank impl true m user items' novelty' true None = Ok out' /\
    kept (fun p => exists v, snd p = Some v /\ In v items' /\ (novelty' = true -> ~ interacted m0 user v)) out out'.
Proof. exact rank_restricted. Qed.
Print Assumptions C130_rank_part.

(** recommend is rank with all items, in any order *)
Theorem C130_rank_all : forall m0 m tu ti,
  trained_on m0 m tu ti ->
  forall impl n_items user all n novelty skip,
  of_library m n_items impl -> type_of user = tu -> count_unique m (Some ["iid"]) = Ok n_items ->
  NoDup all -> (forall v, In v all <-> known_item m0 v) -> asked n_items n <= Z.of_nat n_items ->
  forall out, rank impl true m user all novelty skip n = Ok out <->
              recommend impl true m n_items user n novelty None = Ok out.
Proof. intros m0 m tu ti T. intros. eapply (rank_all m0 m tu ti T); eauto. Qed.
Print Assumptions C130_rank_all.

Lemma NoDup_texts l : dedup value_eqb l = l -> NoDup l.
Proof. intros <-. apply (dedup_NoDup _ reflects_value). Qed.
(** Caser without novelty: the ranking of "a" and "b" keeps "c", which was not
    asked for, and loses "a". *)
Theorem C130_caser_refuted : exists m0 m vec user items items' out out' v s w s',
  trained_on m0 m DInt DObj /\ count_unique m (Some ["iid"]) = Ok 3%nat /\ known_user m0 user /\
  Forall (known_item m0) items /\ NoDup items /\ NoDup items' /\ incl items' items /\
  rank (rank_caser vec m 3) true m user items false true None = Ok out /\
  rank (rank_caser vec m 3) true m user items' false true None = Ok out' /\
  In (s, Some v) out' /\ ~ In v items' /\
  In (s', Some w) out /\ In w items' /\ ~ In (s', Some w) out'.
Proof.
  exists ex, ex_trained, (fun _ => Ok [Qc_of_Z 1; Qc_of_Z 2; Qc_of_Z 3]), (VInt 7),
    [VStr "a"; VStr "b"; VStr "c"], [VStr "a"; VStr "b"].
  exists (map (fun p => (Qc_of_Z (fst p), Some (VStr (snd p)))) [(3, "c"); (2, "b"); (1, "a")]).
  exists (map (fun p => (Qc_of_Z (fst p), Some (VStr (snd p)))) [(3, "c"); (2, "b")]).
  exists (VStr "c"), (Qc_of_Z 3), (VStr "a"), (Qc_of_Z 1).
  split; [apply ex_trained_on|]. split; [vm_compute; reflexivity|]. split; [vm_compute; auto|].
  split; [repeat apply Forall_cons; try apply Forall_nil; vm_compute; auto 10|].
  split; [apply (NoDup_texts _ eq_refl)|].
  split; [apply (NoDup_texts _ eq_refl)|].
  split; [intros x; simpl; tauto|].
  split; [vm_compute; reflexivity|]. split; [vm_compute; reflexivity|].
  split; [left; reflexivity|]. split; [simpl; intuition discriminate|].
  split; [right; right; left; reflexivity|]. split; [simpl; auto|].
  intros [E|[E|[]]]; discriminate E.
Qed.
Print Assumptions C130_caser_refuted.

(** user 9 interacted with "c"; one item is predicted None and never listed *)
Example C130_example :
  of_library ex_trained 3 (rank_abc ex_f ex_trained) /\
  recommend (rank_abc ex_f ex_trained) true ex_trained 3 (VInt 9) None false None =
    Ok [(Qc_of_Z 4, Some (VStr "c")); (Qc_of_Z 3, Some (VStr "b"))] /\
  recommend (rank_abc ex_f ex_trained) true ex_trained 3 (VInt 9) (Some 1) false None =
    Ok [(Qc_of_Z 4, Some (VStr "c"))] /\
  recommend (rank_abc ex_f ex_trained) true ex_trained 3 (VInt 9) None false (Some (Qc_of_Z 4)) =
    Ok [(Qc_of_Z 4, Some (VStr "c"))] /\
  recommend (rank_abc ex_f ex_trained) true ex_trained 3 (VInt 9) None true None =
    Ok [(Qc_of_Z 3, Some (VStr "b"))] /\
  rank (rank_abc ex_f ex_trained) true ex_trained (VInt 9) [VStr "c"; VStr "a"; VStr "b"] false true None =
    Ok [(Qc_of_Z 4, Some (VStr "c")); (Qc_of_Z 3, Some (VStr "b"))] /\
  rank (rank_abc ex_f ex_trained) true ex_trained (VInt 9) [VStr "zz"; VStr "b"; VStr "a"] false true None =
    Ok [(Qc_of_Z 3, Some (VStr "b"))] /\
  rank (rank_caser (fun _ => Ok [Qc_of_Z 1; Qc_of_Z 2; Qc_of_Z 3]) ex_trained 3) true ex_trained (VInt 9)
    [VStr "a"; VStr "c"; VStr "b"] true true None =
    recommend (rank_caser (fun _ => Ok [Qc_of_Z 1; Qc_of_Z 2; Qc_of_Z 3]) ex_trained 3) true ex_trained 3 (VInt 9) None true None.
Proof. split; [constructor|]. repeat split; vm_compute; reflexivity. Qed.
