(** Vocabulary for streams of random draws. *)
From Coq Require Import List.

(** Every finite sequence of draws comes again and again, as is the case with
    probability one. *)
Definition rich (s : nat -> nat) : Prop :=
  forall l n, exists m, n <= m /\ forall i x, nth_error l i = Some x -> s (m + i) = x.
