(** C125: the first sample of a PointSampler with a seed. *)
From Coq Require Import String Ascii.
From Coq Require Import List ZArith QArith Qcanon Bool Lia.
From Verif Require Import Py MemModel MemSpec KnnSpec SampModel SampSpec SampFacts SampFacts2 SampFacts3.
From Verif Require Import TwistModel TwistSpec TwistFacts PropSamp.
Import ListNotations.
Open Scope string_scope.
Open Scope Z_scope.
Open Scope list_scope.

(** Without a link between the generators every record at or above the threshold is
    the first sample for some draws. *)
Theorem C125_any_record_partial : forall m neg t p r,
  coded m -> thr_ok t -> point_init m neg (thr_text t) = Ok p ->
  In r (rows_of m) -> above t r = true ->
  exists d fuel st y u i v, (forall k, 0 <= dr_label d k /\ dr_label d k < 1)%Qc /\
    sample 1 fuel p d pst0 = Some (Ok [(Some u, Some i, Some v)], st) /\
    cell r "uid" = Some (VInt u) /\ cell r "iid" = Some (VInt i) /\ cell r "interaction" = Some y /\ same_value v y.
Proof.
  intros m neg t p r C T P Hr A.
  assert (N : rows_of m <> []) by (intro E; rewrite E in Hr; contradiction).
  destruct (point_init_ok m C neg t N T) as (f & Pf & F). rewrite P in Pf. injection Pf as ->.
  destruct (any_first m t f neg r C Hr A F) as (d & x & st & y & u & i & v & B & S & -> & R).
  exists d, 1%nat, st, y, u, i, v. split; [exact B|]. split; [exact S|exact R].
Qed.
Print Assumptions C125_any_record_partial.

(** With a seed label and user come from the same word: if the first sample is positive,
    its user id is at most 2^b / (neg_ratio + 1), where b is the bit length of the number
    of users.  For every seed, if every user has a record at or above the threshold. *)
Theorem C125_first_user_is_small : forall m neg t p mu w d n fuel x l st,
  coded m -> thr_ok t -> point_init m neg (thr_text t) = Ok p -> (1 <= neg)%Qc ->
  (exists r, In r (rows_of m) /\ cell r "uid" = Some (VInt mu)) -> mu < 2 ^ 26 ->
  (forall r u, In r (rows_of m) -> cell r "uid" = Some (VInt u) -> u <= mu) ->
  (forall u, 0 <= u <= mu -> exists r, In r (rows_of m) /\ above t r = true /\ cell r "uid" = Some (VInt u)) ->
  words w -> seeded w mu d -> ~ label_negative neg (dr_label d 0%nat) ->
  sample (S n) fuel p d pst0 = Some (Ok (x :: l), st) ->
  exists u, fst (fst x) = Some u /\ ((neg + 1) * Qc_of_Z u <= Qc_of_Z (2 ^ bit_length (mu + 1)))%Qc.
Proof.
  intros m neg t p mu w d n fuel x l st C T P G (r & Hr & Er) B Mx A W Sd L H.
  assert (N : rows_of m <> []) by (intro E; rewrite E in Hr; contradiction).
  destruct (point_init_ok m C neg t N T) as (f & Pf & F). rewrite P in Pf. injection Pf as ->.
  destruct (max_id_ok m C "uid" (or_introl eq_refl) N) as (z & Ez & _ & (r' & Hr' & Er') & Mz).
  assert (z = mu) by (pose proof (Mx r' z Hr' Er'); pose proof (Mz r mu Hr Er); lia). subst z.
  eapply first_positive; eauto.
Qed.
Print Assumptions C125_first_user_is_small.

(** Users 0, 1, 2 with neg_ratio 1: word 0 asks for a positive sample and user 1. *)
Example C125_example :
  let w := fun n => match n with O => 2 ^ 30 + 5 | _ => 77 end in
  let d := mkDraws (fun _ => random01 (w 0%nat) (w 1%nat)) (fun _ => O) (fun n => match n with O => 1%nat | _ => O end) in
  words w /\ seeded w 2 d /\ ~ label_negative 1%Qc (dr_label d 0%nat) /\
  exists p x st, point_init s_ds 1%Qc None = Ok p /\ sample 1 5 p d pst0 = Some (Ok [x], st) /\ fst (fst x) = Some 1.
Proof.
  split. { intros [|n]; split; vm_compute; congruence. }
  split. { split; [reflexivity|]. exists 1%nat. do 2 eexists. split; reflexivity. }
  split. { intro H. vm_compute in H. discriminate. }
  do 3 eexists. split; [reflexivity|]. split; vm_compute; reflexivity.
Qed.

(** Refuted: every record at or above the threshold can be the first sample of a sampler
    with a seed.  With three users and neg_ratio 4 the records of users 1 and 2 never
    are, for any seed. *)
Theorem C125_any_record_refuted : exists m neg p r u i,
  coded m /\ point_init m neg None = Ok p /\ In r (rows_of m) /\
  cell r "uid" = Some (VInt u) /\ cell r "iid" = Some (VInt i) /\
  forall w d n fuel x l st, words w -> seeded w 2 d ->
    sample (S n) fuel p d pst0 = Some (Ok (x :: l), st) -> fst x <> (Some u, Some i).
Proof.
  exists s_ds, (Qc_of_Z 4).
  destruct (point_init_ok s_ds s_coded (Qc_of_Z 4) None ltac:(vm_compute; discriminate) Logic.I) as (f & P & F).
  exists (mkPoint s_ds (Qc_of_Z 4) None f).
  exists (nth 6 (rows_of s_ds) (mkRow 0 [])), 2, 6.
  split; [exact s_coded|]. split; [exact P|]. split; [vm_compute; tauto|].
  split; [reflexivity|]. split; [reflexivity|].
  intros w d n fuel x l st W Sd H E.
  destruct (Qclt_le_dec 1 ((Qc_of_Z 4 + 1) * dr_label d 0%nat)) as [L|L].
  - pose proof (C46_samples_are_labelled_partial s_ds (Qc_of_Z 4) None _ [S n] fuel d [Ok (x :: l)] s_coded Logic.I P) as K.
    assert (X : samples [S n] fuel (mkPoint s_ds (Qc_of_Z 4) None f) d pst0 = Some [Ok (x :: l)]).
    { cbn [samples]. rewrite H. reflexivity. }
    destruct K as ((l' & El & Fl) & _); [|exact X|].
    { exists (nth 6 (rows_of s_ds) (mkRow 0 [])). split; [vm_compute; tauto|reflexivity]. }
    injection El as <-. inversion Fl as [|? ? ? ? K1 K2]; subst. destruct K1 as (K1 & _).
    destruct (K1 L) as (u & i & _ & O & ->). cbn in E. injection E as -> ->. apply O.
    exists (nth 6 (rows_of s_ds) (mkRow 0 [])). split; [vm_compute; tauto|reflexivity].
  - destruct (first_positive s_ds None f (Qc_of_Z 4) d 2 w n fuel x l st) as (u & Eu & B);
      try assumption; try exact s_coded; try (vm_compute; congruence).
    + intros u Hu. assert (C : u = 0 \/ u = 1 \/ u = 2) by lia.
      destruct C as [-> | [-> | ->]]; eexists; (split; [|split; [reflexivity|]]).
      1: left; reflexivity. 1: reflexivity.
      1: right; left; reflexivity. 1: reflexivity.
      1: do 6 right; left; reflexivity. reflexivity.
    + intro Bad. exact (Qclt_not_le _ _ Bad L).
    + destruct x as [[xu xi] xv]. cbn in E, Eu. injection E as -> ->. injection Eu as <-. vm_compute in B. congruence.
Qed.
Print Assumptions C125_any_record_refuted.
