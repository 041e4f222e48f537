(** Specification vocabulary for evaluations that ask for different metrics and k. *)
From Coq Require Import String.
From Coq Require Import List ZArith QArith Qcanon Reals Bool.
From Verif Require Import Py MemModel RankModel MetricModel SampModel EvalModel.
Import ListNotations.
Open Scope Z_scope.
Open Scope list_scope.

(** the calls differ in metrics, k, max_concurrent_threads and verbose only *)
Definition same_ranking (a a' : re_args) : Prop :=
  e_users a' = e_users a /\ e_npos a' = e_npos a /\ e_nneg a' = e_nneg a /\ e_gen a' = e_gen a /\
  e_thr a' = e_thr a /\ e_novelty a' = e_novelty a /\ e_seed a' = e_seed a.
Definition same_recommendation (a a' : rc_args) : Prop :=
  r_users a' = r_users a /\ r_npos a' = r_npos a /\ r_thr a' = r_thr a /\ r_novelty a' = r_novelty a /\
  r_low a' = r_low a /\ r_seed a' = r_seed a.

(** fewer recommendations are the first of more recommendations *)
Definition cut_short (md : model) : Prop :=
  forall u n n' novelty low l, 0 < n' <= n -> md_recommend md u n novelty low = Ok l ->
    md_recommend md u n' novelty low = Ok (firstn (Z.to_nat n') l).

(** a metric at k that looks at no recommendation after the first k, and at no
    relevancies of other items *)
Definition first_only (m : metric) : Prop :=
  forall n c c' k, 0 < k <= n ->
    c_recs c' = firstn (Z.to_nat n) (c_recs c) -> c_rel c' = c_rel c -> c_best c' = c_best c ->
    (exists more, c_rels c = c_rels c' ++ more) ->
    (forall i, In i (c_recs c') -> assoc val_eqb i (c_rels c') <> None) ->
    mc_call m c' k = mc_call m c k.

(** the same value in both results *)
Definition agree (m : metric) (k : Z) (r r' : list (mkey * R)) : Prop :=
  exists v, (forall x, In ((mc_name m, k), x) r <-> x = v) /\ (forall x, In ((mc_name m, k), x) r' <-> x = v).
