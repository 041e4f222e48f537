(** C94, C96: what the generators of database data sets give in the long run.

    [rich] (DbGenSpec2.v): every finite sequence of numbers comes again and again in
    the stream of the random generator.  Some amount of fuel and every larger one are
    enough for the calls to return. *)
From Coq Require Import String Ascii.
From Coq Require Import List ZArith QArith Qcanon Bool Permutation Lia.
From Verif Require Import Py PyFacts MemModel MemSpec DbModel DbSpec DbFacts15 DbCheck DbExamples
  SampModel DbGenModel DbGenSpec DbGenSpec2 DbGenFacts DbGenFacts2 DbGenFacts6 PropDbGen.
Import ListNotations.
Open Scope string_scope.
Open Scope Z_scope.
Open Scope list_scope.

(** *** Every record comes again and again. *)
Theorem C94_again : forall inode w b ord j d s row n,
  reaches inode w b -> (forall l, Permutation (ord l) l) -> b j = Some d -> numbered d -> complete d -> rich s -> In row (d_rows d) ->
  exists w' l fuel, (n <= length l)%nat /\ forall more,
    rand_take inode (Datatypes.S (length l)) (fuel + more) ord s (RNew j) w = (w', Some (Ok (l ++ [row]))).
Proof.
  intros inode w b ord j d s row n Rw Po Hb Nd Cm R Hr. destruct (rand_again inode ord Po j w b d s row n R (reaches_inv _ _ _ Rw) Hb Nd Cm Hr) as (w' & l & f0 & L & H).
  exists w', l, f0. split; [exact L|]. intro more. apply H. lia.
Qed.
Print Assumptions C94_again.

(** *** So does every pair without a row, unless there are rows below the threshold and
    only user 0 or only item 0; and the pair of every row below the threshold. *)
Theorem C96_again_partial : forall inode w b ord i d t s s2 n,
  reaches inode w b -> (forall l, Permutation (ord l) l) -> b i = Some d -> threshold_fits d t -> numbered d -> complete d -> d_ids d = true ->
  rich s -> rich s2 ->
  let again p := exists w' l fuel, (n <= length l)%nat /\ forall more,
    null_take inode (Datatypes.S (length l)) (fuel + more) ord s s2 (NNew i (thr_text t)) w = (w', Some (Ok (l ++ [p]))) in
  (forall u v, in_range d u v -> ~ observed d u v ->
     (forall l row, t = Some l -> In row (d_rows d) -> forallb (holds row) (below l) = true ->
        (exists row z, In row (d_rows d) /\ tcell row "uid" = Some (VInt z) /\ 0 < z) /\
        (exists row z, In row (d_rows d) /\ tcell row "iid" = Some (VInt z) /\ 0 < z)) ->
     again (Some (VInt u), Some (VInt v))) /\
  (forall l row, t = Some l -> In row (d_rows d) -> forallb (holds row) (below l) = true -> again (pair_of row)).
Proof.
  intros inode w b ord i d t s s2 n Rw Po Hb Tf Nd Cm Hi R R2 again. pose proof (reaches_inv _ _ _ Rw) as I. split.
  - intros u v Rg No Big. destruct (null_again inode ord Po i w b d t s s2 (Some (VInt u), Some (VInt v)) n R R2 I Hb Tf Nd Cm Hi) as (w' & l & f0 & L & H); [left; eauto 7|].
    exists w', l, f0. split; [exact L|]. intro more. apply H. lia.
  - intros l0 row Et Hr Hh. destruct (null_again inode ord Po i w b d t s s2 (pair_of row) n R R2 I Hb Tf Nd Cm Hi) as (w' & l & f0 & L & H); [right; eauto 7|].
    exists w', l, f0. split; [exact L|]. intro more. apply H. lia.
Qed.
Print Assumptions C96_again_partial.

(** *** Any number of pulls return. *)
Theorem C96_all_return_partial : forall inode w b ord i d t s s2 n,
  reaches inode w b -> (forall l, Permutation (ord l) l) -> b i = Some d -> threshold_fits d t -> numbered d -> complete d -> d_ids d = true ->
  rich s -> rich s2 ->
  (exists u v, in_range d u v /\ ~ observed d u v) \/ (exists l row, t = Some l /\ In row (d_rows d) /\ forallb (holds row) (below l) = true) ->
  exists fuel w' l, null_take inode n fuel ord s s2 (NNew i (thr_text t)) w = (w', Some (Ok l)) /\ length l = n.
Proof.
  intros inode w b ord i d t s s2 n Rw Po Hb Tf Nd Cm Hi R R2 Hp. pose proof (reaches_inv _ _ _ Rw) as I.
  assert (A : exists w' l (p : pair) f0, (n <= length l)%nat /\ forall f, (f0 <= f)%nat -> null_take inode (Datatypes.S (length l)) f ord s s2 (NNew i (thr_text t)) w = (w', Some (Ok (l ++ [p])))).
  { assert (B : (exists l row, t = Some l /\ In row (d_rows d) /\ forallb (holds row) (below l) = true) \/
                forall l row, t = Some l -> In row (d_rows d) -> forallb (holds row) (below l) = true -> False).
    { destruct t as [l|]; [|right; discriminate]. destruct (existsb (fun row => forallb (holds row) (below l)) (d_rows d)) eqn:E.
      - apply existsb_exists in E. destruct E as (row & Hr & Hh). left. eauto.
      - right. intros l' row E' Hr Hh. injection E' as <-. assert (X : existsb (fun row => forallb (holds row) (below l)) (d_rows d) = true) by (apply existsb_exists; eauto). congruence. }
    destruct B as [(l0 & row & Et & Hr & Hh)|No].
    - destruct (null_again inode ord Po i w b d t s s2 (pair_of row) n R R2 I Hb Tf Nd Cm Hi) as (w' & l1 & f0 & L & H); [right; eauto 7|]. exists w', l1, (pair_of row), f0. auto.
    - destruct Hp as [(u & v & Rg & Ob)|(l & row & Et & Hr & Hh)]; [|exfalso; eapply No; eauto].
      destruct (null_again inode ord Po i w b d t s s2 (Some (VInt u), Some (VInt v)) n R R2 I Hb Tf Nd Cm Hi) as (w' & l & f0 & L & H).
      { left. exists u, v. split; [reflexivity|]. split; [exact Rg|]. split; [exact Ob|]. intros l1 row1 Et Hr Hh. exfalso. eapply No; eauto. }
      exists w', l, (Some (VInt u), Some (VInt v)), f0. auto. }
  destruct A as (w' & l & p & f0 & L & H).
  destruct (take_fewer inode ord s s2 f0 n (Datatypes.S (length l)) _ w w' (l ++ [p]) ltac:(lia) (H f0 (le_n _))) as (w1 & l1 & E1 & L1).
  { rewrite app_length. cbn [length]. lia. }
  exists f0, w1, l1. auto.
Qed.
Print Assumptions C96_all_return_partial.

(** There are rich streams; [ids3] and the threshold 4 are in PropDbGen.v. *)
Example C94_again_example : rich all_words /\ reaches disk (world_of ids3) (snd (run ids3)) /\
  exists d, snd (run ids3) 0%nat = Some d /\ numbered d /\ complete d /\ length (d_rows d) = 3%nat.
Proof.
  split; [exact all_words_rich|]. destruct C94_example as (R & d & Hd & Nd & Cm & L & _). split; [exact R|]. exists d. auto.
Qed.
Example C96_again_example : rich all_words /\ reaches disk (world_of ids3) (snd (run ids3)) /\
  exists d, snd (run ids3) 0%nat = Some d /\ threshold_fits d (Some (LInt 4)) /\ numbered d /\ complete d /\ d_ids d = true /\
  in_range d 1 0 /\ ~ observed d 1 0 /\ exists row, In row (d_rows d) /\ forallb (holds row) (below (LInt 4)) = true.
Proof.
  split; [exact all_words_rich|]. destruct C94_example as (R & d' & Hd' & _ & Cm & _). split; [exact R|].
  destruct C96_example as (d & Hd & Tf & Nd & Hi & Rg & No & Hr & _). assert (d' = d) by congruence. subst d'. exists d. repeat (split; [assumption|]). exact Hr.
Qed.
