(** Vocabulary of the properties about seeds. *)
From Coq Require Import List ZArith Bool.
From Verif Require Import SeedModel.
Import ListNotations.

Section Spec.
Variables (data : Type).

(** how many recommenders the operations make *)
Definition makes (os : list (op data)) : nat :=
  length (filter (fun o => match o with Make _ _ _ => true | _ => false end) os).
(** the kind and the seed the recommender with that number was made with *)
Definition kind_of (os : list (op data)) (i : nat) : option kind :=
  nth_error (flat_map (fun o => match o with Make _ k _ => [k] | _ => [] end) os) i.
Definition seed_of (os : list (op data)) (i : nat) : option (option Z) :=
  nth_error (flat_map (fun o => match o with Make _ _ s => [s] | _ => [] end) os) i.

(** operations that leave TensorFlow's generator alone: fits of neighbourhood models
    and uses of Python's random module *)
Definition spares_tf (before : list (op data)) (o : op data) : Prop :=
  match o with
  | Fit _ i _ => forall k, kind_of before i = Some k -> k = Knn
  | UseRandom _ _ | SeedRandom _ _ => True
  | _ => False
  end.
(** all of [os], after [before] *)
Definition all_spare (before os : list (op data)) : Prop := forall o, In o os -> spares_tf before o.
(** no fit of that recommender *)
Definition unfitted (i : nat) (os : list (op data)) : Prop := forall j d, In (Fit data j d) os -> j <> i.
End Spec.

(** a fit that looks at the batches of its sampler only; one that has no initial
    weights to draw but may corrupt its input *)
Definition reads_batches {raw tfraw data result : Type}
    (train : kind -> data -> inputs raw tfraw -> result * (nat * nat * nat)) : Prop :=
  forall k d x y, in_sampler _ _ x = in_sampler _ _ y -> fst (train k d x) = fst (train k d y).
Definition ignores_tf {raw tfraw data result : Type}
    (train : kind -> data -> inputs raw tfraw -> result * (nat * nat * nat)) : Prop :=
  forall k d x y, in_sampler _ _ x = in_sampler _ _ y -> (forall n, in_rng _ _ x n = in_rng _ _ y n) ->
    fst (train k d x) = fst (train k d y).
(** a function of the numbers drawn, not of how they are represented *)
Definition of_numbers {raw tfraw data result : Type}
    (train : kind -> data -> inputs raw tfraw -> result * (nat * nat * nat)) : Prop :=
  forall k d x y, in_sampler _ _ x = in_sampler _ _ y -> (forall n, in_rng _ _ x n = in_rng _ _ y n) ->
    (forall n, in_tf _ _ x n = in_tf _ _ y n) -> fst (train k d x) = fst (train k d y).
