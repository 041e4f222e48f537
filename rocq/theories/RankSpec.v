(** Vocabulary of the ranking properties. *)
From Coq Require Import String Ascii.
From Coq Require Import List ZArith QArith Qcanon Bool Sorted.
From Verif Require Import Py MemModel MemSpec.
Import ListNotations.
Open Scope string_scope.
Open Scope Z_scope.

(** [m] is the training data [m0] after the model assigned internal ids to it;
    users have type [tu], items type [ti]. *)
Record trained_on (m0 m : mem) (tu ti : dtype) : Prop := {
  tr_wf : wf_mem m0;
  tr_user : col_type m0 "user" = Ok tu;
  tr_item : col_type m0 "item" = Ok ti;
  tr_unf : tu <> DFloat;
  tr_inf : ti <> DFloat;
  tr_assign : assign_internal_ids m0 = Ok m;
  tr_small : Z.of_nat (length (rows_of m0)) <= 2 ^ 53 }.

(** The user has a row with the item in the training data. *)
Definition interacted (m0 : mem) (user item : value) : Prop :=
  exists r, In r (rows_of m0) /\ cell r "user" = Some user /\ cell r "item" = Some item.
Definition known_user (m0 : mem) (user : value) : Prop := In user (column "user" (rows_of m0)).
Definition known_item (m0 : mem) (item : value) : Prop := In item (column "item" (rows_of m0)).

(** The [n] best of a set of candidates, best first. *)
Record best_of {A} (cand : A -> Prop) (score : A -> Qc -> Prop) (n : nat) (out : list (Qc * A)) : Prop := {
  bo_len : (length out <= n)%nat;
  bo_sorted : StronglySorted (fun x y => (fst y <= fst x)%Qc) out;
  bo_sound : forall s i, In (s, i) out -> cand i /\ score i s;
  bo_best : forall s i, cand i -> score i s -> In (s, i) out \/
              (length out = n /\ forall s' i', In (s', i') out -> (s <= s')%Qc) }.

(** The candidates of a ranking: requested known items, not yet interacted with
    if only new ones are wanted. *)
Definition candidate (m0 : mem) (user : value) (novelty : bool) (wanted : value -> Prop) (item : value) : Prop :=
  wanted item /\ known_item m0 item /\ (novelty = true -> ~ interacted m0 user item).

(** the entries of a result that name an item *)
Definition items_named (out : list (Qc * option value)) (out' : list (Qc * value)) : Prop :=
  out = map (fun p => (fst p, Some (snd p))) out'.

(** the requested items that occur in the training data, and their number *)
Definition known_only (m0 : mem) (items : list value) : list value :=
  filter (fun v => if in_dec value_eq_dec v (column "item" (rows_of m0)) then true else false) items.
Definition count_known (m0 : mem) (items : list value) : nat := length (known_only m0 items).

(** a model that gives a prediction only for a known user and a known item *)
Definition needs_both {A} (f : option Z -> option Z -> res (option A)) : Prop :=
  forall u i x, f u i = Ok (Some x) -> u <> None /\ i <> None.
(** a model that never raises for a known user and a known item *)
Definition never_raises {A} (f : option Z -> option Z -> res (option A)) : Prop :=
  forall u i, exists o, f (Some u) (Some i) = Ok o.
