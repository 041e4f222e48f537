(** The items Caser shows its network when it ranks items for a user. *)
From Coq Require Import String Ascii.
From Coq Require Import List ZArith Bool Permutation Sorted.
From Verif Require Import Py MemModel MemSpec.
Import ListNotations.
Open Scope string_scope.

(** [r] is before [r'] in the data set. *)
Definition earlier (m : mem) (r r' : row) : Prop := exists l1 l2 l3, rows_of m = (l1 ++ r :: l2 ++ r' :: l3)%list.
(** by the values of a column, equal ones in the order of the data set *)
Definition older (m : mem) (k : string) (r r' : row) : Prop :=
  exists x y, row_val r k = Some x /\ row_val r' k = Some y /\ (val_ltb x y = Some true \/ (val_eqb x y = true /\ earlier m r r')).
Definition in_time (m : mem) (k : option string) (r r' : row) : Prop :=
  match k with
  | Some k => (In k (m_columns m) -> older m k r r') /\ (~ In k (m_columns m) -> earlier m r r')
  | None => earlier m r r'
  end.
(** [l] are the internal ids of the items of the last [L] records of the user, or
    of all of them if there are fewer. *)
Definition last_items (m : mem) (k : option string) (L : nat) (uid : Z) (l : list Z) : Prop :=
  exists first last,
    Permutation (first ++ last) (filter (fun r => match cell r "uid" with Some (VInt z) => Z.eqb z uid | _ => false end) (rows_of m)) /\
    StronglySorted (in_time m k) (first ++ last) /\
    length last = Nat.min L (length (first ++ last)) /\
    Forall2 (fun r z => cell r "iid" = Some (VInt z)) last l.
