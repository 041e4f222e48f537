(** Lemmas about early stopping rules. *)
From Coq Require Import String Ascii.
From Coq Require Import List QArith Bool Lia.
From Verif Require Import Py PyFacts TrainModel TrainSpec TrainFacts RuleModel RuleSpec.
Import ListNotations.
Open Scope string_scope.
Open Scope list_scope.

Definition trims (required : list string) (k : string) : string := if existsb has_at required then k else trim_at k.
Lemma any_at required : existsb has_at required = false <-> forall m, In m required -> no_at m.
Proof.
  split.
  - intros H m M. apply has_at_spec. destruct (has_at m) eqn:E; [|reflexivity].
    assert (X : existsb has_at required = true) by (apply existsb_exists; eauto). congruence.
  - intro H. destruct (existsb has_at required) eqn:E; [|reflexivity]. apply existsb_exists in E. destruct E as (m & M & A).
    apply H in M. apply has_at_spec in M. congruence.
Qed.
Lemma trims_iff required m k : In m required -> (trims required k = m <-> stands_for required m k).
Proof.
  intro M. unfold trims, stands_for. destruct (existsb has_at required) eqn:E.
  - split; [now left|]. intros [H|[H _]]; [exact H|]. apply any_at in H. congruence.
  - pose proof (proj1 (any_at required) E) as A. rewrite (trim_at_spec m k (A m M)). unfold reported_as. split.
    + intros [H|[_ H]]; [now left|right; auto].
    + intros [H|[_ H]]; [now left|right; auto].
Qed.

Lemma assoc_split (results : list (string * list Q)) k l : NoDup (map fst results) ->
  (assoc String.eqb k results = Some l <-> In (k, l) results).
Proof.
  induction results as [|[a b] r IH]; intro N; cbn [assoc map fst In] in *; [split; [discriminate|contradiction]|].
  inversion N as [|? ? N1 N2]; subst. destruct (String.eqb_spec k a) as [->|D].
  - split; intro H.
    + injection H as ->. now left.
    + destruct H as [H|H]; [now injection H as ->|]. exfalso. apply N1. apply in_map_iff. exists (a, l). auto.
  - rewrite (IH N2). split; [now right|]. intros [H|H]; [injection H; intros; subst; contradiction|exact H].
Qed.
Lemma in_map_assoc (results : list (string * list Q)) k : In k (map fst results) -> exists l, assoc String.eqb k results = Some l.
Proof.
  induction results as [|[a b] r IH]; cbn [assoc map fst In]; [contradiction|].
  destruct (String.eqb_spec k a) as [->|D]; [eauto|]. intros [H|H]; [congruence|auto].
Qed.

Lemma names_lookup required results m k : In m required ->
  (assoc String.eqb m (metric_names required results) = Some k <->
   exists l1 l2, map fst results = l1 ++ k :: l2 /\ stands_for required m k /\ forall k', In k' l2 -> ~ stands_for required m k').
Proof.
  intro M. unfold metric_names.
  pose proof (metric_names_lookup (trims required) m (map fst results) k) as L. unfold trims in L at 1. etransitivity; [exact L|]. clear L.
  split; intros (l1 & l2 & A & B & C); exists l1, l2; split; auto; split.
  - now apply trims_iff.
  - intros k' H S. apply (C k' H). now apply trims_iff.
  - now apply trims_iff.
  - intros k' H S. apply (C k' H). now apply trims_iff.
Qed.
Lemma translated_lookup required results m l : In m required -> NoDup (map fst results) ->
  (assoc String.eqb m (translated required results) = Some l <-> last_values required results m l).
Proof.
  intros M N. unfold translated. rewrite (assoc_map_val String.eqb (fun s => match assoc String.eqb s results with Some l => l | None => [] end)).
  split.
  - destruct (assoc String.eqb m (metric_names required results)) as [k|] eqn:E; [|discriminate].
    apply names_lookup in E; [|exact M]. destruct E as (l1 & l2 & A & B & C). intro H.
    assert (K : In k (map fst results)) by (rewrite A; apply in_or_app; right; now left).
    destruct (in_map_assoc results k K) as (v & V). rewrite V in H. injection H as ->.
    apply map_eq_app in A. destruct A as (r1 & r2 & -> & A1 & A2). apply map_eq_cons in A2.
    destruct A2 as ([k0 v0] & r3 & -> & K0 & A3). cbn [fst] in K0. subst k0.
    assert (v0 = l). { apply assoc_split in V; [|exact N]. pose proof (proj2 (assoc_split (r1 ++ (k, v0) :: r3) k v0 N)) as W.
      rewrite (proj2 (assoc_split _ k l N) V) in W. specialize (W ltac:(apply in_or_app; right; now left)). now injection W. }
    subst v0. exists k, r1, r3. split; [reflexivity|]. split; [exact B|].
    intros k' l' H. apply C. rewrite <- A3. apply in_map_iff. exists (k', l'). auto.
  - intros (k & r1 & r3 & -> & B & C).
    assert (E : assoc String.eqb m (metric_names required (r1 ++ (k, l) :: r3)) = Some k).
    { apply names_lookup; [exact M|]. exists (map fst r1), (map fst r3). split; [rewrite map_app; reflexivity|]. split; [exact B|].
      intros k' H. apply in_map_iff in H. destruct H as ([a b] & <- & H). now apply (C a b). }
    rewrite E. f_equal. rewrite (proj2 (assoc_split (r1 ++ (k, l) :: r3) k l N)); [reflexivity|]. apply in_or_app. right. now left.
Qed.
Lemma mem_names (d : list (string * string)) m : mem_b String.eqb m (map fst d) = true <-> exists k, assoc String.eqb m d = Some k.
Proof.
  induction d as [|[a b] d IH]; cbn [map mem_b assoc fst]; [split; [discriminate|intros (k & H); discriminate]|].
  destruct (String.eqb m a); cbn [orb]; [split; eauto|exact IH].
Qed.
Lemma translated_names required results m l : assoc String.eqb m (translated required results) = Some l ->
  mem_b String.eqb m (map fst (metric_names required results)) = true.
Proof.
  unfold translated. rewrite (assoc_map_val String.eqb (fun s => match assoc String.eqb s results with Some l => l | None => [] end)).
  intro H. apply mem_names. destruct (assoc String.eqb m (metric_names required results)); [eauto|discriminate].
Qed.

Definition all_there (required : list string) (results : list (string * list Q)) : Prop :=
  forall m, In m required -> exists x l, last_values required results m (x :: l).
Lemma compute_ok best required losses results called : NoDup (map fst results) -> required <> [] -> all_there required results ->
  rule_compute best required losses results called = best losses (translated required results) called.
Proof.
  intros N R A. unfold rule_compute. destruct results as [|p r] eqn:E.
  { destruct required as [|m ?]; [congruence|]. destruct (A m (or_introl eq_refl)) as (x & l & k & b & a & H & _). destruct b; discriminate. }
  rewrite <- E in *. clear p r E.
  assert (X : forallb (fun m => match assoc String.eqb m (translated required results) with Some (_ :: _) => true | _ => false end) required = true).
  { apply forallb_forall. intros m M. destruct (A m M) as (x & l & H). apply translated_lookup in H; auto. now rewrite H. }
  assert (Y : forallb (fun m => mem_b String.eqb m (map fst (metric_names required results))) required = true).
  { apply forallb_forall. intros m M. destruct (A m M) as (x & l & H). apply translated_lookup in H; auto. eapply translated_names; eauto. }
  now rewrite X, Y.
Qed.
Lemma compute_invalid best required losses results called m : NoDup (map fst results) -> In m required ->
  (forall x l, ~ last_values required results m (x :: l)) -> rule_compute best required losses results called = Invalid.
Proof.
  intros N M A. unfold rule_compute. destruct results as [|p r] eqn:E; [reflexivity|]. rewrite <- E in *. clear p r E.
  destruct (negb (forallb (fun m => mem_b String.eqb m _) required)); [reflexivity|].
  assert (X : forallb (fun m => match assoc String.eqb m (translated required results) with Some (_ :: _) => true | _ => false end) required = false).
  { destruct (forallb _ _) eqn:F; [|reflexivity]. rewrite forallb_forall in F. specialize (F m M).
    destruct (assoc String.eqb m (translated required results)) as [[|x l]|] eqn:G; try discriminate.
    apply translated_lookup in G; auto. exfalso. exact (A x l G). }
  now rewrite X.
Qed.

(** ** Without ambiguity *)
Lemma stands_reported required m k : In m required -> stands_for required m k -> reported_as m k.
Proof. intros M [H|[H S]]; [now left|]. right. auto. Qed.
Lemma uniform_stands required m k : uniform required -> In m required -> (stands_for required m k <-> reported_as m k).
Proof.
  intros U M. split; [now apply stands_reported|]. intros [H|[H S]]; [now left|]. right. split; [|exact S].
  destruct U as [U|U]; [exact U|]. exfalso. exact (U m M H).
Qed.
Lemma own_is_last required results m l : NoDup (map fst results) -> uniform required -> unambiguous required results -> In m required ->
  (own_values results m l <-> last_values required results m l).
Proof.
  intros N U A M. split.
  - intro H. assert (H' : exists k, In (k, l) results /\ reported_as m k).
    { destruct H as [H|(_ & H & s & S)]; [exists m; split; [exact H|now left]|]. eexists. split; [exact S|]. right. eauto. }
    destruct H' as (k & K & R). apply in_split in K. destruct K as (r1 & r2 & ->).
    exists k, r1, r2. split; [reflexivity|]. split; [now apply uniform_stands|].
    intros k' l' I S. apply uniform_stands in S; auto.
    assert (k' = k).
    { apply (A m); auto; rewrite map_app; apply in_or_app; right; cbn [map fst].
      - right. apply in_map_iff. exists (k', l'). auto.
      - now left. }
    subst k'. rewrite map_app in N. cbn [map fst] in N. apply NoDup_remove_2 in N. apply N. apply in_or_app. right.
    apply in_map_iff. exists (k, l'). auto.
  - intros (k & r1 & r2 & -> & S & _). apply uniform_stands in S; auto. destruct S as [->|(S & s & ->)].
    + left. apply in_or_app. right. now left.
    + right. split; [|split; [exact S|exists s; apply in_or_app; right; now left]].
      intros l' I. assert (X : (m ++ "@" ++ s)%string = m).
      { apply (A m); auto.
        - rewrite map_app. apply in_or_app. right. now left.
        - apply in_map_iff. exists (m, l'). auto.
        - right. eauto.
        - now left. }
      rewrite <- X in S. exact (no_at_app _ _ S).
Qed.
