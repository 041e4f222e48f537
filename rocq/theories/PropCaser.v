(** C115: Caser ranks items for a user from the last items of the user.

    [trained_on m0 m tu ti]: [m] is the data set [m0] with internal ids. *)
From Coq Require Import String Ascii.
From Coq Require Import List ZArith QArith Qcanon Bool Permutation Sorted Lia.
From Verif Require Import Py PyFacts MemModel MemSpec RankModel RankSpec KnnModel KnnSpec DbModel DbCheck PropTwin RecDbModel3 RecDbSpec3 CaserSpec CaserFacts PropRecDb PropRecDb3.
Import ListNotations.
Open Scope string_scope.
Open Scope Z_scope.
Open Scope list_scope.

(** The scores are those of the network for the user and the items of their last L
    records by the sort column, oldest first. *)
Theorem C115_last_items_partial : forall m0 m tu ti c uid,
  trained_on m0 m tu ti -> (forall k, cs_sort c = Some k -> In k (m_columns m) -> small_col m k) -> (0 < cs_L c)%nat ->
  exists l, last_items m (cs_sort c) (cs_L c) uid l /\ caser_vec c m uid = cs_net c uid l.
Proof. intros m0 m tu ti c uid T Sm P. exact (network_input m0 m tu ti T c Sm uid P). Qed.
Print Assumptions C115_last_items_partial.

(** a network that returns the numbers of the items it got *)
Definition echo15 (uid : Z) (l : list Z) : res (list Qc) := Ok (map Qc_of_Z l).
Definition nums15 (r : res (list Qc)) : res (list Q) := l <- r ;; Ok (map this l).
Definition caser15 (k : option string) (L : nat) : caser := mkCaser k L echo15.
(** the second and the third record of "a" have the same interaction *)
Definition rows15 : list trow :=
  [row6 0 "a" 7 4; row6 1 "a" 8 2; row6 2 "b" 8 5; row6 3 "a" 9 2; row6 5 "a" 5 1; row6 6 "b" 9 1].
Lemma facts15_ok : facts7 rows15. Proof. by_facts7. Qed.
Example C115_last_items_example : trained_on (mem7 rows15) (trained7 rows15) DObj DInt /\ small_col (trained7 rows15) "interaction" /\
  map (fun r => (cell r "uid", cell r "iid", cell r "interaction")) (rows_of (trained7 rows15)) =
    map (fun t => let '(u, i, x) := t in (Some (VInt u), Some (VInt i), Some (VInt x))) [(0, 0, 4); (0, 1, 2); (1, 1, 5); (0, 2, 2); (0, 3, 1); (1, 2, 1)] /\
  nums15 (caser_vec (caser15 (Some "interaction") 3) (trained7 rows15) 0) = Ok [1%Q; 2%Q; 0%Q] /\
  nums15 (caser_vec (caser15 None 3) (trained7 rows15) 0) = Ok [1%Q; 2%Q; 3%Q] /\
  nums15 (caser_vec (caser15 (Some "interaction") 3) (trained7 rows15) 1) = Ok [2%Q; 1%Q].
Proof. split; [apply facts15_ok|]. split; [apply smallb_ok; vm_compute; reflexivity|]. split; [vm_compute; reflexivity|]. split; [|split]; vm_compute; reflexivity. Qed.

(** *** Sort values beyond 2^53 in a data set of numbers with a column of floats are
    compared after rounding: the last item is not the one with the largest
    value. *)
Theorem C115_big_times_refuted : ~ (forall m0 m tu ti c uid,
  trained_on m0 m tu ti -> (0 < cs_L c)%nat ->
  exists l, last_items m (cs_sort c) (cs_L c) uid l /\ caser_vec c m uid = cs_net c uid l).
Proof.
  intro H. destruct facts11_ok as (_ & _ & T & _).
  destruct (H _ _ _ _ (caser15 (Some "time") 1) 0 T ltac:(cbn; lia)) as (l & (a & b & P & S & Ln & F) & E).
  assert (X : nums15 (caser_vec (caser15 (Some "time") 1) trained11 0) = Ok [1%Q]) by (vm_compute; reflexivity).
  rewrite E in X. unfold nums15 in X. cbn [cs_net caser15 echo15 bind] in X.
  pose proof (Permutation_length P) as Lp. match type of P with Permutation _ ?x => set (rs := x) in P, Lp end. cbn [cs_L caser15] in Ln.
  rewrite Lp in Ln. assert (Er : exists r0 r1, rs = [r0; r1] /\ row_val r0 "time" = Some (VInt (2 ^ 53 + 1)) /\ row_val r1 "time" = Some (VInt (2 ^ 53)) /\ cell r0 "iid" = Some (VInt 0)).
  { unfold rs. eexists. eexists. split; [vm_compute; reflexivity|]. split; [reflexivity|]. split; reflexivity. }
  destruct Er as (r0 & r1 & Ers & E0 & E1 & Ei). rewrite Ers in *. cbn [length Nat.min] in Ln, Lp. rewrite app_length, Ln in Lp.
  destruct b as [|r [|? ?]]; try discriminate. destruct a as [|r' [|? ?]]; cbn [length] in Lp; try lia. cbn [app] in *.
  inversion F as [|? z ? l' Hz F']; subst. inversion F'; subst.
  destruct (Permutation_length_2_inv (Permutation_sym P)) as [Q|Q]; injection Q as -> ->.
  - inversion S as [|? ? _ S2]; subst. inversion S2 as [|? ? O _]; subst. destruct O as [O _].
    destruct (O ltac:(apply inb_ok; vm_compute; reflexivity)) as (x & y & Ex & Ey & L). rewrite E0 in Ex. rewrite E1 in Ey. injection Ex as <-. injection Ey as <-.
    destruct L as [L|[L _]]; vm_compute in L; discriminate.
  - rewrite Ei in Hz. injection Hz as <-. vm_compute in X. discriminate.
Qed.
Print Assumptions C115_big_times_refuted.
Example C115_big_times_example : trained_on mem11 trained11 DInt DInt /\
  map (fun r => (cell r "uid", cell r "iid", row_val r "time")) (rows_of trained11) =
    [(Some (VInt 0), Some (VInt 0), Some (VInt 9007199254740993)); (Some (VInt 0), Some (VInt 1), Some (VInt 9007199254740992)); (Some (VInt 1), Some (VInt 2), Some (VInt 3))] /\
  nums15 (caser_vec (caser15 (Some "time") 1) trained11 0) = Ok [1%Q].
Proof. split; [apply facts11_ok|]. split; vm_compute; reflexivity. Qed.
