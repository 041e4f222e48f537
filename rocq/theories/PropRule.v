(** C128: what an early stopping rule is given. *)
From Coq Require Import String Ascii.
From Coq Require Import List QArith Bool Lia.
From Verif Require Import Py PyFacts TrainModel TrainSpec TrainFacts RuleModel RuleSpec RuleFacts.
Import ListNotations.
Open Scope string_scope.
Open Scope list_scope.

(** The rule of a subclass gets for each required metric the values of the last result
    that reports it, if there are any for all of them, ... *)
Theorem C128_given : forall best required losses results called, NoDup (map fst results) -> required <> [] ->
  (forall m, In m required -> exists x l, last_values required results m (x :: l)) ->
  exists d, rule_compute best required losses results called = best losses d called /\
    forall m l, In m required -> (assoc String.eqb m d = Some l <-> last_values required results m l).
Proof.
  intros best required losses results called N R A. exists (translated required results).
  split; [now apply compute_ok|]. intros m l M. now apply translated_lookup.
Qed.
Print Assumptions C128_given.
(** ... and is not asked otherwise. *)
Theorem C128_raises : forall best required losses results called m, NoDup (map fst results) -> In m required ->
  (forall x l, ~ last_values required results m (x :: l)) -> rule_compute best required losses results called = Invalid.
Proof. exact compute_invalid. Qed.
Print Assumptions C128_raises.

(** *** C128, if all required metrics have a suffix or none has, and no two results
    report the same metric *)
Theorem C128_own_values_partial : forall best required losses results called, NoDup (map fst results) -> required <> [] ->
  uniform required -> unambiguous required results ->
  ((forall m, In m required -> exists x l, own_values results m (x :: l)) ->
   exists d, rule_compute best required losses results called = best losses d called /\
     forall m l, In m required -> (assoc String.eqb m d = Some l <-> own_values results m l)) /\
  (forall m, In m required -> (forall x l, ~ own_values results m (x :: l)) ->
   rule_compute best required losses results called = Invalid).
Proof.
  intros best required losses results called N R U A. split.
  - intro H. destruct (C128_given best required losses results called N R) as (d & E & D).
    + intros m M. destruct (H m M) as (x & l & O). exists x, l. now apply own_is_last.
    + exists d. split; [exact E|]. intros m l M. rewrite (D m l M). symmetry. now apply own_is_last.
  - intros m M H. apply (C128_raises best required losses results called m N M).
    intros x l O. apply (H x l). apply (own_is_last required); auto.
Qed.
Print Assumptions C128_own_values_partial.
Definition history : list (string * list Q) := [("P@5", [1#2; 3#4]%Q); ("R@5", [1#4; 1#3]%Q)].
Example C128_example : NoDup (map fst history) /\ uniform ["R"; "P"] /\ unambiguous ["R"; "P"] history /\
  own_values history "R" [1#4; 1#3]%Q /\
  rule_compute (fun _ d _ => match assoc String.eqb "R" d with Some [_; x] => if Qeq_bool x (1#3) then Epoch 7 else Invalid | _ => Invalid end)
    ["R"; "P"] [] history [1; 2]%nat = Epoch 7.
Proof.
  split. { repeat constructor; cbn [In]; intuition discriminate. }
  split. { left. intros m [<-|[<-|[]]]; repeat split; discriminate. }
  split. { intros m k k' M K K' H H'. cbn [map fst In history] in K, K'.
    destruct M as [<-|[<-|[]]]; destruct K as [<-|[<-|[]]]; destruct K' as [<-|[<-|[]]]; try reflexivity; exfalso;
      [destruct H as [H|(_ & s & H)]; discriminate H|destruct H' as [X|(_ & s & X)]; discriminate X|
       destruct H' as [X|(_ & s & X)]; discriminate X|destruct H as [H|(_ & s & H)]; discriminate H]. }
  split; [|reflexivity]. right. split; [intros l' [H|[H|[]]]; discriminate H|]. split; [repeat split; discriminate|].
  exists "5". right. now left.
Qed.

(** MaxValidationValueRule is such a rule. *)
Theorem C128_max_rule : forall metric losses results called,
  max_compute metric losses results called = rule_compute (fun _ => max_best_epoch metric) [metric] losses results called.
Proof.
  intros metric losses results called. unfold max_compute, rule_compute. destruct results as [|p r] eqn:E; [reflexivity|].
  rewrite <- E. cbn [forallb]. rewrite !andb_true_r.
  destruct (assoc String.eqb metric (translated [metric] results)) as [l|] eqn:T.
  - rewrite (translated_names _ _ _ _ T). cbn [negb]. now destruct l.
  - now destruct (negb (mem_b String.eqb metric (map fst (metric_names [metric] results)))).
Qed.
Print Assumptions C128_max_rule.
(** A rule without required metrics cannot be made. *)
Theorem C128_some_metric : forall required, (exists l, rule_init required = Ok l) <-> exists m l, required = Some (m :: l).
Proof.
  intros [[|m l]|]; split; intros (x & H); try discriminate; try (destruct H; discriminate); unfold rule_init; eauto.
Qed.
Print Assumptions C128_some_metric.

(** The property: each required metric gets its own values, for all names. *)
Definition all_own : Prop := forall best required losses results called, NoDup (map fst results) -> required <> [] ->
  (forall m, In m required -> exists x l, own_values results m (x :: l)) ->
  exists d, rule_compute best required losses results called = best losses d called /\
    forall m l, In m required -> assoc String.eqb m d = Some l -> own_values results m l.
(** A rule that looks at its only metric P gets the values of P@5, although there is P. *)
Theorem C128_other_values_refuted : exists best results d,
  NoDup (map fst results) /\ In ("P", [1#2]%Q) results /\
  (forall losses called, rule_compute best ["P"] losses results called = best losses d called) /\
  assoc String.eqb "P" d = Some [1#4]%Q /\ ~ own_values results "P" [1#4]%Q.
Proof.
  exists (fun _ _ _ => Epoch 0), [("P", [1#2]%Q); ("P@5", [1#4]%Q)], [("P", [1#4]%Q)].
  split. { repeat constructor; cbn [In]; intuition discriminate. }
  split; [now left|]. split; [reflexivity|]. split; [reflexivity|].
  intros [[H|[H|[]]]|(H & _)]; try discriminate H. apply (H [1#2]%Q). now left.
Qed.
Print Assumptions C128_other_values_refuted.
(** P@5 and R are required: R@5 does not count for R, though it would without P@5. *)
Theorem C128_suffix_refuted : exists results, NoDup (map fst results) /\
  (forall m, In m ["P@5"; "R"] -> exists x l, own_values results m (x :: l)) /\
  (forall best losses called, rule_compute best ["P@5"; "R"] losses results called = Invalid) /\
  exists d, forall best losses called, rule_compute best ["R"] losses results called = best losses d called.
Proof.
  exists [("P@5", [1#2]%Q); ("R@5", [1#4]%Q)].
  split. { repeat constructor; cbn [In]; intuition discriminate. }
  split.
  { intros m [<-|[<-|[]]].
    - exists (1#2)%Q, []. left. now left.
    - exists (1#4)%Q, []. right. split; [intros l' [H|[H|[]]]; discriminate H|]. split; [repeat split; discriminate|].
      exists "5". right. now left. }
  split; [reflexivity|]. exists [("P", [1#2]%Q); ("R", [1#4]%Q)]. reflexivity.
Qed.
Print Assumptions C128_suffix_refuted.
Theorem C128_all_own_refuted : ~ all_own.
Proof.
  intro H. destruct C128_suffix_refuted as (results & N & O & I & _).
  destruct (H (fun _ _ _ => Epoch 0) ["P@5"; "R"] [] results [] N ltac:(discriminate) O) as (d & E & _).
  rewrite I in E. discriminate.
Qed.
Print Assumptions C128_all_own_refuted.
