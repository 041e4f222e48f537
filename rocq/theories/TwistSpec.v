(** Vocabulary of the properties about samplers with a seed. *)
From Coq Require Import List ZArith QArith Qcanon.
From Verif Require Import MemModel SampModel TwistModel.
Open Scope Z_scope.

Definition words (w : nat -> Z) : Prop := forall n, 0 <= w n < 2 ^ 32.
(** The first draws of a sampler with a seed on a data set whose largest user id is
    [mu]: the label by uniform and the user by randint, from the same words. *)
Definition seeded (w : nat -> Z) (mu : Z) (d : draws) : Prop :=
  dr_label d 0%nat = random01 (w 0%nat) (w 1%nat) /\
  exists fuel v k, randbelow fuel (mu + 1) w 0 = Some (v, k) /\ dr_pos d 0%nat = Z.to_nat v.
