(** Vocabulary of the properties about splitting, fitting and evaluating. *)
From Coq Require Import String Ascii.
From Coq Require Import List ZArith QArith Qcanon Reals Bool.
From Verif Require Import Py MemModel MemSpec RankModel EvalModel EvalSpec.
Import ListNotations.
Open Scope string_scope.
Open Scope Z_scope.

(** the fitted model answers what the evaluations ask it for a user *)
Definition answers (md : model) (user : value) : Prop :=
  (forall n novelty low, exists recs, md_recommend md user n novelty low = Ok recs) /\
  (forall items novelty, Forall int_id items -> exists recs, md_rank md user items novelty = Ok recs).

(** every user of the second data set is a user of the first *)
Definition users_within (train test : mem) : Prop :=
  forall r, In r (rows_of test) -> exists r', In r' (rows_of train) /\ cell r' "user" = cell r "user".

(** the test users the recommendation evaluation counts: those with at least one
    liked test item, and with at least [r_npos] of them *)
Definition countable (a : rc_args) (mt : mem) (t : slit) (u : value) : bool :=
  match u with
  | VInt z =>
      let n := Z.of_nat (length (filter (liked t) (rows_for z mt))) in
      (0 <? n) && match r_npos a with Some k => k <=? n | None => true end
  | _ => false
  end.

(** one case for each counted user, in order *)
Definition one_case_each (md : model) (mt : mem) (a : rc_args) (t : slit) (cs : list case) : Prop :=
  Forall2 (fun u c => exists z, u = VInt z /\ recommended md mt a t z c)
    (filter (countable a mt t) (first_users (r_users a) mt)) cs.
