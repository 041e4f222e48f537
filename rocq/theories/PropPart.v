(** Property C131: the numbers of a data set fit those of its parts. *)
From Coq Require Import String Ascii.
From Coq Require Import List ZArith QArith Qcanon Bool Lia Permutation.
From Verif Require Import Py MemModel MemSpec.
From Verif Require Import PartSpec PartFacts PartFacts2 PropMem PropRank.
Import ListNotations.
Open Scope string_scope.
Open Scope Z_scope.
Open Scope list_scope.

(** Whenever a query with one condition returns, the query with the opposite
    condition returns the other records; on internal, raw and unknown ids too. *)
Theorem C131_opposite_queries : forall m c o l m1,
  plain c -> plain l -> select m (asks c o l) = Ok m1 ->
  exists m2, select m (asks c (opposite o) l) = Ok m2 /\ parts m m1 m2.
Proof. exact opposite_queries. Qed.
Print Assumptions C131_opposite_queries.

(** each record is below, equal to or above a value *)
Theorem C131_three_queries : forall m c l m1 m2 m3,
  plain c -> plain l ->
  select m (asks c Lt l) = Ok m1 -> select m (asks c Eq l) = Ok m2 -> select m (asks c Gt l) = Ok m3 ->
  Permutation (rows_of m) (rows_of m1 ++ rows_of m2 ++ rows_of m3).
Proof. exact three_queries. Qed.
Print Assumptions C131_three_queries.

Theorem C131_dropped : forall m ids, parts m (drop m ids true) (drop m ids false).
Proof. exact drop_parts. Qed.
Print Assumptions C131_dropped.

Theorem C131_length : forall m m1 m2, parts m m1 m2 -> mem_len m = (mem_len m1 + mem_len m2)%nat.
Proof. exact parts_len. Qed.
Print Assumptions C131_length.

(** the largest value is the larger one of the parts, empty parts have none *)
Theorem C131_max : forall m m1 m2 c t,
  wf_mem m -> parts m m1 m2 -> In c (m_columns m) -> col_type m c = Ok t -> t <> DObj ->
  exists x x1 x2, mem_max m c = Ok x /\ mem_max m1 c = Ok x1 /\ mem_max m2 c = Ok x2 /\
    option_map num x = larger (option_map num x1) (option_map num x2).
Proof. exact parts_max. Qed.
Print Assumptions C131_max.

Theorem C131_min : forall m m1 m2 c t,
  wf_mem m -> parts m m1 m2 -> In c (m_columns m) -> col_type m c = Ok t -> t <> DObj ->
  exists x x1 x2, mem_min m c = Ok x /\ mem_min m1 c = Ok x1 /\ mem_min m2 c = Ok x2 /\
    option_map num x = smaller (option_map num x1) (option_map num x2).
Proof. exact parts_min. Qed.
Print Assumptions C131_min.

(** the numbers of distinct combinations add up exactly if none is in both parts *)
Theorem C131_count_unique : forall m m1 m2 cs,
  wf_mem m -> parts m m1 m2 -> cs <> [] -> ~ In "rid" cs -> (forall c, In c cs -> In c (m_columns m)) ->
  exists k k1 k2, count_unique m (Some cs) = Ok k /\ count_unique m1 (Some cs) = Ok k1 /\ count_unique m2 (Some cs) = Ok k2 /\
    (Nat.max k1 k2 <= k <= k1 + k2)%nat /\
    ((k = k1 + k2)%nat <-> forall r1 r2, In r1 (rows_of m1) -> In r2 (rows_of m2) -> ~ agree cs r1 r2).
Proof. exact parts_count. Qed.
Print Assumptions C131_count_unique.

(** more columns, more combinations, at most one per record *)
Theorem C131_more_columns : forall m cs cs',
  wf_mem m -> cs <> [] -> incl cs cs' -> ~ In "rid" cs' -> (forall c, In c cs' -> In c (m_columns m)) ->
  exists k k', count_unique m (Some cs) = Ok k /\ count_unique m (Some cs') = Ok k' /\ (k <= k' <= mem_len m)%nat.
Proof. exact count_bounds. Qed.
Print Assumptions C131_more_columns.

(** unique a second time changes nothing *)
Theorem C131_unique_again : forall m cs,
  wf_mem m -> NoDup cs -> ~ In "rid" cs -> (forall c, In c cs -> In c (m_columns m)) ->
  forall u, cs <> [] -> unique m (Some cs) = Ok u ->
  exists u', unique u (Some cs) = Ok u' /\ rows_of u' = rows_of u /\ m_columns u' = m_columns u /\
    count_unique m (Some cs) = Ok (mem_len u).
Proof. exact unique_again. Qed.
Print Assumptions C131_unique_again.

(** two of the five records of the data set are below 2; "b" is in both parts.
    With internal ids: the records of all items but the unknown "zz". *)
Example C131_example : exists m1 m2,
  plain "interaction" /\ plain "2" /\
  select ex (asks "interaction" Lt "2") = Ok m1 /\ select ex "interaction >= 2" = Ok m2 /\
  parts ex m1 m2 /\ mem_len m1 = 2%nat /\ mem_len m2 = 3%nat /\
  mem_max m1 "interaction" = Ok (Some (VFlt q15)) /\ mem_max m2 "interaction" = Ok (Some (VFlt (Qc_of_Z 4))) /\
  mem_max ex "interaction" = Ok (Some (VFlt (Qc_of_Z 4))) /\ mem_min ex "interaction" = Ok (Some (VFlt (Qc_of_Z 1))) /\
  count_unique m1 (Some ["item"]) = Ok 2%nat /\ count_unique m2 (Some ["item"]) = Ok 2%nat /\
  count_unique ex (Some ["item"]) = Ok 3%nat /\ count_unique ex (Some ["user"; "item"]) = Ok 4%nat /\
  (exists m3, select ex_trained (asks "item" Ne "'zz'") = Ok m3 /\ mem_len m3 = 5%nat).
Proof.
  destruct (C131_opposite_queries ex "interaction" Lt "2"
    (match select ex "interaction < 2" with Ok m => m | Err _ => ex end)) as (m2 & E & P).
  - split; [discriminate|]. repeat (split; [split; [reflexivity|discriminate]|]). exact Logic.I.
  - split; [discriminate|]. repeat (split; [split; [reflexivity|discriminate]|]). exact Logic.I.
  - vm_compute. reflexivity.
  - eexists. eexists.
    split; [split; [discriminate|]; repeat (split; [split; [reflexivity|discriminate]|]); exact Logic.I|].
    split; [split; [discriminate|]; repeat (split; [split; [reflexivity|discriminate]|]); exact Logic.I|].
    split; [vm_compute; reflexivity|]. split; [exact E|]. split; [exact P|].
    clear P. vm_compute in E. injection E as <-.
    repeat (split; [vm_compute; reflexivity|]). eexists. split; vm_compute; reflexivity.
Qed.
