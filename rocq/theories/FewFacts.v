(** Specification vocabulary and proofs about evaluations with fewer test users. *)
From Coq Require Import String Ascii.
From Coq Require Import List ZArith QArith Qcanon Reals Bool Lia Permutation.
From Verif Require Import Py PyFacts MemModel MemSpec Conc RankModel MetricModel SampModel EvalModel EvalSpec EvalFacts EvalFacts4 EvalFacts5.
Import ListNotations.
Open Scope string_scope.
Open Scope Z_scope.
Open Scope list_scope.

(** the same call with another n_test_users *)
Definition with_users (n : option Z) (a : re_args) : re_args :=
  mkRe n (e_k a) (e_npos a) (e_nneg a) (e_gen a) (e_thr a) (e_novelty a) (e_seed a) (e_threads a) (e_verbose a) (e_metrics a).
Definition with_rec_users (n : option Z) (a : rc_args) : rc_args :=
  mkRc n (r_k a) (r_npos a) (r_thr a) (r_novelty a) (r_low a) (r_seed a) (r_threads a) (r_verbose a) (r_metrics a).
(** the first [n], or all *)
Definition first_of {A} (n : option Z) (l : list A) : list A := match n with None => l | Some n => firstn (Z.to_nat n) l end.

Lemma seeded_first seed us n : seeded_users seed (firstn n us) = firstn n (seeded_users seed us).
Proof.
  unfold seeded_users. generalize 0%nat as i. revert n. induction us as [|u us IH]; intros n i; [rewrite !firstn_nil; reflexivity|].
  destruct n as [|n]; [reflexivity|]. cbn [firstn length seq map combine]. f_equal. apply IH.
Qed.
Lemma seeded_of seed us n : seeded_users seed (first_of n us) = first_of n (seeded_users seed us).
Proof. destruct n; cbn [first_of]; auto. apply seeded_first. Qed.
Lemma map_of {A B} (f : A -> B) n l : map f (first_of n l) = first_of n (map f l).
Proof. destruct n; cbn [first_of]; auto. symmetry. apply firstn_map. Qed.
Lemma all_some_of {A} n (l : list (option A)) r : all_some l = Some r -> all_some (first_of n l) = Some (first_of n r).
Proof.
  destruct n as [n|]; cbn [first_of]; auto. generalize (Z.to_nat n) as k. clear n. intros k. revert l r.
  induction k as [|k IH]; intros l r E; [reflexivity|]. destruct l as [|[x|] l]; cbn [all_some firstn] in *; try discriminate.
  - injection E as <-. reflexivity.
  - destruct (all_some l) as [ys|] eqn:H; [|discriminate]. injection E as <-. rewrite (IH l ys H). reflexivity.
Qed.
Lemma all_some_length {A} (l : list (option A)) r : all_some l = Some r -> length r = length l.
Proof.
  revert r. induction l as [|[x|] l IH]; intros r E; cbn [all_some] in E; try discriminate; [injection E as <-; reflexivity|].
  destruct (all_some l) as [ys|]; [|discriminate]. injection E as <-. cbn. f_equal. auto.
Qed.
Lemma seeded_length seed us : length (seeded_users seed us) = length us.
Proof. unfold seeded_users. rewrite combine_length, map_length, seq_length. lia. Qed.
Lemma test_users_of mt us n : test_users mt None = Ok us -> test_users mt n = Ok (first_of n us).
Proof.
  unfold test_users. match goal with |- bind ?d _ = _ -> _ => destruct d as [l|] end; cbn [bind]; [|discriminate]. intros E. injection E as <-. reflexivity.
Qed.

Lemma ranking_few fmul fuel md train_ev mt a rngs sched0 t0 r0 us :
  ranking_evaluation fmul fuel md train_ev mt (with_users None a) rngs sched0 t0 = EDone r0 -> test_users mt None = Ok us ->
  exists cs, length cs = length us /\ forall n sched t r,
    ranking_evaluation fmul fuel md train_ev mt (with_users n a) rngs sched t = EDone r ->
    r = table (e_metrics a) (e_k a) (evaluated_cases (first_of n cs)).
Proof.
  intros H U. unfold ranking_evaluation in H. destruct (re_check (with_users None a)) as [[]|]; cbn [bind] in H; [|discriminate].
  change (e_users (with_users None a)) with (@None Z) in H. rewrite U in H.
  destruct (rank_cases fmul fuel md train_ev mt (with_users None a) rngs us) as [cs|] eqn:C; [|discriminate]. clear H.
  exists cs. unfold rank_cases in C. split; [apply all_some_length in C; rewrite C, map_length; apply seeded_length|].
  intros n sched t r H. unfold ranking_evaluation in H. destruct (re_check (with_users n a)) as [[]|]; cbn [bind] in H; [|discriminate].
  change (e_users (with_users n a)) with n in H. rewrite (test_users_of mt us n U) in H.
  unfold rank_cases in H. change (e_seed (with_users n a)) with (e_seed a) in H. change (e_seed (with_users None a)) with (e_seed a) in C.
  rewrite seeded_of, map_of in H.
  change (fun p : Z * value => rank_user fmul fuel md train_ev mt (with_users n a) (snd p) (rngs (fst p)))
    with (fun p : Z * value => rank_user fmul fuel md train_ev mt (with_users None a) (snd p) (rngs (fst p))) in H.
  rewrite (all_some_of n _ _ C) in H. apply run_table in H; [|apply rank_task_sums]. exact H.
Qed.
Lemma recommendation_few md mt a rngs us : test_users mt None = Ok us ->
  exists cs, length cs = length us /\ forall n sched t r,
    recommendation_evaluation md mt (with_rec_users n a) rngs sched t = EDone r ->
    r = table (r_metrics a) (r_k a) (evaluated_cases (first_of n cs)).
Proof.
  intros U. exists (rec_cases md mt (with_rec_users None a) rngs us). unfold rec_cases. split; [rewrite map_length; apply seeded_length|].
  intros n sched t r H. unfold recommendation_evaluation in H. destruct (rc_check (with_rec_users n a)) as [[]|]; cbn [bind] in H; [|discriminate].
  change (r_users (with_rec_users n a)) with n in H. rewrite (test_users_of mt us n U) in H. unfold rec_cases in H.
  rewrite seeded_of, map_of in H. apply run_table in H; [|apply rec_task_sums]. exact H.
Qed.
Lemma first_of_all {A} n (l : list A) : match n with Some n => Z.of_nat (length l) <= n | None => True end -> first_of n l = l.
Proof. destruct n as [n|]; cbn [first_of]; auto. intros H. apply firstn_all2. lia. Qed.
