(** C119: the batches of DMF and CDAE from a data set in a database.

    [both], [ords] and the data of the examples are those of PropRecDb.v.  [t] is the
    threshold, [dr] the draws of the sampler, [rnd] those of CDAE, [lu] and [li] the
    limits of the caches of vectors.  Negative samples are searched for; [fuel] bounds
    a search and nothing is said about a run that uses it up. *)
From Coq Require Import String Ascii.
From Coq Require Import List ZArith QArith Qcanon Bool Permutation Lia.
From Verif Require Import Py PyFacts MemModel MemSpec RankModel RankSpec KnnModel KnnSpec FitModel SampSpec
  DbModel DbSpec DbFacts7 DbFacts8 DbFacts13 DbFacts15 DbCheck DbExamples DbGenModel DbGenSpec TwinSpec TwinFacts5 TwinCheck PropTwin
  RecDbModel RecDbModel2 RecDbSpec RecDbSpec2 RecDbFacts2 RecDbFacts6 RecDbFacts8 RecDbModel7 RecDbSpec7 RecDbFacts18 PropRecDb.
Import ListNotations.
Open Scope string_scope.
Open Scope Z_scope.
Open Scope list_scope.

(** *** C119.  DMF: a batch of the asked size in each epoch, each of right samples, with
    the vectors of their users and items and the values to train towards. *)
Theorem C119_dmf_batches : forall inode ords w b mb i m0 m tu ti t fuel neg dr lu li use_nce epochs batch_size n s l,
  both inode w b mb -> mb i = Some m0 -> trained_on m0 m tu ti -> numeric m0 -> safe inode w b (OAssign i) ->
  (forall k rows, Permutation (ords k rows) rows) -> thr_ok t ->
  db_dmf_fit inode ords fuel neg dr lu li false use_nce (thr_text t) epochs batch_size i (n, w) = (s, Some (Ok l)) ->
  length l = epochs /\
  forall e x, nth_error l e = Some x ->
    right_batch m (n_distinct "user" m0) (n_distinct "item" m0) t neg use_nce (map (dd_label dr) (seq (e * batch_size) batch_size)) x.
Proof.
  intros inode ords w b mb i m0 m tu ti t fuel neg dr lu li use_nce epochs batch_size n s l B Hi T Nm Sf Po Tk E.
  destruct (the_twin inode w b mb i m0 B Hi Nm Sf) as (d & Hb & Tw & Cd).
  exact (proj1 (dmf_fit_right inode ords Po w b i d m0 m tu ti (both_reaches _ _ _ _ B) Sf Hb Tw T Nm Cd t Tk fuel neg dr lu li use_nce epochs batch_size n s (Ok l) E)).
Qed.
Print Assumptions C119_dmf_batches.

(** It raises only if no interaction reaches the threshold, or if it has to scale
    interactions of a range of 0. *)
Theorem C119_dmf_errors : forall inode ords w b mb i m0 m tu ti t fuel neg dr lu li use_nce epochs batch_size n s e,
  both inode w b mb -> mb i = Some m0 -> trained_on m0 m tu ti -> numeric m0 -> safe inode w b (OAssign i) ->
  (forall k rows, Permutation (ords k rows) rows) -> thr_ok t ->
  db_dmf_fit inode ords fuel neg dr lu li false use_nce (thr_text t) epochs batch_size i (n, w) = (s, Some (Err e)) ->
  (forall u k x, In (u, k, x) (obs m) -> ~ reaches_threshold t x) \/ (use_nce = true /\ exists lo, right_range (obs m) lo lo).
Proof.
  intros inode ords w b mb i m0 m tu ti t fuel neg dr lu li use_nce epochs batch_size n s e B Hi T Nm Sf Po Tk E.
  destruct (the_twin inode w b mb i m0 B Hi Nm Sf) as (d & Hb & Tw & Cd).
  exact (dmf_fit_right inode ords Po w b i d m0 m tu ti (both_reaches _ _ _ _ B) Sf Hb Tw T Nm Cd t Tk fuel neg dr lu li use_nce epochs batch_size n s (Err e) E).
Qed.
Print Assumptions C119_dmf_errors.

(** CDAE: the same for the users of the samples; what it is trained towards, and the
    inputs, from draws that no other input uses. *)
Theorem C119_cdae_batches : forall inode ords w b mb i m0 m tu ti l th fuel neg dr lu q rnd epochs batch_size n s r,
  both inode w b mb -> mb i = Some m0 -> trained_on m0 m tu ti -> numeric m0 -> safe inode w b (OAssign i) ->
  (forall k rows, Permutation (ords k rows) rows) -> thr_ok (Some l) -> lit_num l = Some th ->
  db_cdae_fit inode ords fuel neg dr lu false (Some (lit_text l, th)) q rnd epochs batch_size i (n, w) = (s, Some (Ok r)) ->
  length r = epochs /\
  forall e x, nth_error r e = Some x ->
    right_cdae m (n_distinct "user" m0) (n_distinct "item" m0) l th neg q rnd (e * batch_size * n_distinct "item" m0)
      (map (dd_label dr) (seq (e * batch_size) batch_size)) x.
Proof.
  intros inode ords w b mb i m0 m tu ti l th fuel neg dr lu q rnd epochs batch_size n s r B Hi T Nm Sf Po Tk Et E.
  destruct (the_twin inode w b mb i m0 B Hi Nm Sf) as (d & Hb & Tw & Cd).
  exact (proj1 (cdae_fit_right inode ords Po w b i d m0 m tu ti (both_reaches _ _ _ _ B) Sf Hb Tw T Nm Cd (Some l) Tk fuel neg dr lu 0 l th q rnd epochs batch_size n s (Ok r) eq_refl E)).
Qed.
Print Assumptions C119_cdae_batches.

(** It raises only if no interaction reaches the threshold; with q = 1 only if a draw
    from [0, 1) were 1.  Without a threshold it always raises. *)
Theorem C119_cdae_errors : forall inode ords w b mb i m0 m tu ti l th fuel neg dr lu q rnd epochs batch_size n s e,
  both inode w b mb -> mb i = Some m0 -> trained_on m0 m tu ti -> numeric m0 -> safe inode w b (OAssign i) ->
  (forall k rows, Permutation (ords k rows) rows) -> thr_ok (Some l) -> lit_num l = Some th ->
  db_cdae_fit inode ords fuel neg dr lu false (Some (lit_text l, th)) q rnd epochs batch_size i (n, w) = (s, Some (Err e)) ->
  (forall u k x, In (u, k, x) (obs m) -> (x < th)%Qc) \/ (q = 1%Qc /\ exists j, (1 <= rnd j)%Qc).
Proof.
  intros inode ords w b mb i m0 m tu ti l th fuel neg dr lu q rnd epochs batch_size n s e B Hi T Nm Sf Po Tk Et E.
  destruct (the_twin inode w b mb i m0 B Hi Nm Sf) as (d & Hb & Tw & Cd).
  destruct (cdae_fit_right inode ords Po w b i d m0 m tu ti (both_reaches _ _ _ _ B) Sf Hb Tw T Nm Cd (Some l) Tk fuel neg dr lu 0 l th q rnd epochs batch_size n s (Err e) eq_refl E) as [H|H]; [left|right; exact H].
  intros u k x Hx. apply Qcnot_le_lt. intro L. apply (H u k x Hx). intros th' Et'. assert (th' = th) by congruence. subst. exact L.
Qed.
Print Assumptions C119_cdae_errors.
Theorem C119_cdae_no_threshold : forall inode ords w b mb i m0 m tu ti fuel neg dr lu q rnd epochs batch_size n s r,
  both inode w b mb -> mb i = Some m0 -> trained_on m0 m tu ti -> numeric m0 -> safe inode w b (OAssign i) ->
  (forall k rows, Permutation (ords k rows) rows) -> (0 < epochs)%nat -> (0 < batch_size)%nat ->
  db_cdae_fit inode ords fuel neg dr lu false None q rnd epochs batch_size i (n, w) <> (s, Some (Ok r)).
Proof.
  intros inode ords w b mb i m0 m tu ti fuel neg dr lu q rnd epochs batch_size n s r B Hi T Nm Sf Po.
  destruct (the_twin inode w b mb i m0 B Hi Nm Sf) as (d & Hb & Tw & Cd).
  exact (cdae_fit_none inode ords Po w b i d m0 m tu ti (both_reaches _ _ _ _ B) Sf Hb Tw T Nm Cd None Logic.I fuel neg dr lu 0 q rnd epochs batch_size n s r eq_refl).
Qed.
Print Assumptions C119_cdae_no_threshold.

(** The data set gets its internal ids; the others are as they were. *)
Theorem C119_data_kept : forall inode ords w b mb i m0 m tu ti t fuel neg dr lu li use_nce q rnd th epochs batch_size n s,
  both inode w b mb -> mb i = Some m0 -> trained_on m0 m tu ti -> numeric m0 -> safe inode w b (OAssign i) ->
  (forall k rows, Permutation (ords k rows) rows) -> thr_ok t ->
  (exists l, db_dmf_fit inode ords fuel neg dr lu li false use_nce (thr_text t) epochs batch_size i (n, w) = (s, Some (Ok l))) \/
  (exists l r, t = Some l /\ db_cdae_fit inode ords fuel neg dr lu false (Some (lit_text l, th)) q rnd epochs batch_size i (n, w) = (s, Some (Ok r))) ->
  exists b', reaches inode (snd s) b' /\ (forall j, j <> i -> b j <> None -> b' j = b j) /\ exists d, b' i = Some d /\ twin d m.
Proof.
  intros inode ords w b mb i m0 m tu ti t fuel neg dr lu li use_nce q rnd th epochs batch_size n s B Hi T Nm Sf Po Tk E.
  destruct (the_twin inode w b mb i m0 B Hi Nm Sf) as (d & Hb & Tw & Cd).
  assert (K : kept inode b i d s).
  { destruct E as [(l & E)|(l & r & El & E)].
    - exact (proj2 (dmf_fit_right inode ords Po w b i d m0 m tu ti (both_reaches _ _ _ _ B) Sf Hb Tw T Nm Cd t Tk fuel neg dr lu li use_nce epochs batch_size n s (Ok l) E)).
    - exact (proj2 (cdae_fit_right inode ords Po w b i d m0 m tu ti (both_reaches _ _ _ _ B) Sf Hb Tw T Nm Cd t Tk fuel neg dr lu 0 l th q rnd epochs batch_size n s (Ok r) El E)). }
  destruct K as (b' & R & Hb' & O). exists b'. split; [exact R|]. split; [exact O|]. exists (assigned d). split; [exact Hb'|].
  exact (RecDbFacts6.Tw inode w b i d m0 m tu ti Sf Hb Tw T).
Qed.
Print Assumptions C119_data_kept.

(** ** [rows8]: user 2 has item 2 twice, with 4 and 1; the pairs (0, 2), (1, 1), (1, 2)
    and (2, 1) have no row. *)
Definition draws19 : dbdraws := mkDbDraws (fun k => Q2Qc (Z.of_nat (k mod 3) # 2)) (fun k => k * k + k / 2)%nat (fun k => k * k * k)%nat (fun k => 4 * k * k + k / 2)%nat.
Definition bt19 (o : option (res (list dmf_batch))) : option (res (list (list (list Q) * list (list Q) * list Q))) :=
  option_map (fun r => l <- r ;; Ok (map (fun b => (map (map this) (bt_users b), map (map this) (bt_items b), map this (bt_desired b))) l)) o.
Definition hypotheses19 (rows : list trow) (t : option slit) : Prop := facts7 rows /\ (forall k rows, Permutation (ords7 k rows) rows) /\ thr_ok t.
Lemma thr19 z : Z.abs z <= 2 ^ 53 -> thr_ok (Some (LInt z)).
Proof. intro H. exists DInt. split; [discriminate|]. apply lo_int; [intros [X|[X|[X|[]]]]; discriminate|discriminate|exact H]. Qed.
Definition dmf19 (neg : Z) (rows : list trow) (t : option slit) := db_dmf_fit disk ords7 30 (Qc_of_Z neg) draws19 0 0 false true (thr_text t) 2 3 0 (0%nat, dbs [new7 rows]).
Definition rnd19 (k : nat) : Qc := Q2Qc (Z.of_nat (k mod 5) # 10).
Definition cdae19 (rows : list trow) (l : slit) (th q : Qc) := db_cdae_fit disk ords7 30 (Qc_of_Z 1) draws19 0 false (Some (lit_text l, th)) q rnd19 2 3 0 (0%nat, dbs [new7 rows]).
(** In each batch the last sample is negative.  User 2 and item 2, a positive sample
    of the first batch, is the negative one of the second batch, for the row with 1. *)
Example C119_dmf_example : hypotheses19 rows8 (Some (LInt 2)) /\
  bt19 (snd (dmf19 1 rows8 (Some (LInt 2)))) =
    Some (Ok [([[3; 5; 0]; [1; 0; 5]; [2; 4; 0]], [[5; 4; 0]; [0; 0; 5]; [0; 0; 5]], [1; 4 # 5; 0]);
              ([[3; 5; 0]; [3; 5; 0]; [1; 0; 5]], [[5; 4; 0]; [5; 4; 0]; [0; 0; 5]], [1; 1; 0])]%Q).
Proof. split; [split; [exact facts7_rows8|split; [exact ords7_ok|apply thr19; vm_compute; discriminate]]|]. vm_compute. reflexivity. Qed.
Definition cd19 (o : option (res (list (list cdae_sample)))) : option (res (list (list (Z * list Q * list Z)))) :=
  option_map (fun r => l <- r ;; Ok (map (map (fun c => (cs_user c, map this (cs_input c), cs_desired c))) l)) o.
Example C119_cdae_example : hypotheses19 rows8 (Some (LInt 2)) /\ lit_num (LInt 2) = Some (Qc_of_Z 2) /\
  cd19 (snd (cdae19 rows8 (LInt 2) (Qc_of_Z 2) (Q2Qc (1 # 4)))) =
    Some (Ok [[(0, [0; 0; 0]%Q, [1; 1; 0]); (2, [0; 0; 0]%Q, [0; 0; 1]); (1, [0; 0; 0]%Q, [1; 1; 0])];
              [(0, [4 # 3; 0; 0]%Q, [1; 1; 0]); (0, [0; 4 # 3; 0]%Q, [1; 1; 0]); (2, [0; 0; 0]%Q, [0; 0; 1])]]).
Proof.
  split; [split; [exact facts7_rows8|split; [exact ords7_ok|apply thr19; vm_compute; discriminate]]|]. split; [reflexivity|]. vm_compute. reflexivity.
Qed.
(** No interaction reaches 9; all interactions are 3. *)
Definition rows19 : list trow := [row6 0 "b" 7 3; row6 1 "b" 8 3; row6 2 "c" 7 3].
Lemma facts7_rows19 : facts7 rows19. Proof. by_facts7. Qed.
Example C119_errors_example : hypotheses19 rows8 (Some (LInt 9)) /\ hypotheses19 rows19 None /\
  bt19 (snd (dmf19 1 rows8 (Some (LInt 9)))) = Some (Err AssertionError) /\
  cd19 (snd (cdae19 rows8 (LInt 9) (Qc_of_Z 9) (Q2Qc (1 # 4)))) = Some (Err AssertionError) /\
  bt19 (snd (dmf19 0 rows19 None)) = Some (Err ZeroDivisionError) /\
  cd19 (snd (db_cdae_fit disk ords7 30 (Qc_of_Z 1) draws19 0 false None (Q2Qc (1 # 4)) rnd19 2 3 0 (0%nat, dbs [new7 rows8]))) = Some (Err TypeError).
Proof.
  split; [split; [exact facts7_rows8|split; [exact ords7_ok|apply thr19; vm_compute; discriminate]]|].
  split; [split; [exact facts7_rows19|split; [exact ords7_ok|exact Logic.I]]|].
  split; [vm_compute; reflexivity|]. split; [vm_compute; reflexivity|]. split; vm_compute; reflexivity.
Qed.
