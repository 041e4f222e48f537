(** C124: what a seed given to a recommender makes reproducible. *)
From Coq Require Import List ZArith Bool Lia.
From Verif Require Import SeedModel SeedSpec SeedFacts.
Import ListNotations.

Section Theorems.
Variables (raw tfraw data result : Type).
Variable py : origin -> nat -> raw.
Variable tf : origin -> nat -> tfraw.
Variable train : kind -> data -> inputs raw tfraw -> result * (nat * nat * nat).
Variable knn : data -> result.
Notation after := (after raw tfraw data result py tf train knn).

(** Made with a seed and fitted before anything else touches TensorFlow's generator, a
    recommender trains the same in every program, whatever came before. *)
Theorem C124_reproducible : forall pre1 mid1 pre2 mid2 k s d, of_numbers train ->
  all_spare data (pre1 ++ [Make data k (Some s)]) mid1 ->
  all_spare data (pre2 ++ [Make data k (Some s)]) mid2 ->
  exists x,
    after (pre1 ++ Make data k (Some s) :: mid1) (Fit data (makes data pre1) d) = Some x /\
    after (pre2 ++ Make data k (Some s) :: mid2) (Fit data (makes data pre2) d) = Some x.
Proof.
  intros pre1 mid1 pre2 mid2 k s d T A1 A2.
  assert (G : forall pre mid, all_spare data (pre ++ [Make data k (Some s)]) mid ->
    let w := run raw tfraw data result py tf train knn (pre ++ Make data k (Some s) :: mid) world0 in
    (exists g, nth_error (w_recs w) (makes data pre) = Some (mkRec k (Some s) g)) /\
    (k <> Knn -> nth_error (w_recs w) (makes data pre) = Some (mkRec k (Some s) (Seeded s, 0)) /\ w_tf w = (Seeded s, 0))).
  { intros pre mid A w. split.
    - apply found; [apply kind_makes|apply seed_makes].
    - intro K. subst w.
      replace (pre ++ Make data k (Some s) :: mid) with ((pre ++ [Make data k (Some s)]) ++ mid) by now rewrite <- app_assoc.
      rewrite run_app. split.
      + apply run_fresh; [now apply made_fresh|]. intros j d' H ->.
        apply K. apply (A _ H). apply kind_makes.
      + rewrite (spare_tf _ _ _ _ _ _ _ _ mid (pre ++ [Make data k (Some s)])); [|now rewrite run_kinds|exact A].
        rewrite run_app. reflexivity. }
  destruct (G pre1 mid1 A1) as ((g1 & R1) & N1). destruct (G pre2 mid2 A2) as ((g2 & R2) & N2).
  destruct k.
  { exists (knn d). split; eapply after_knn; eauto. }
  all: destruct N1 as (F1 & T1); [discriminate|]; destruct N2 as (F2 & T2); [discriminate|];
    eexists; split; [eapply after_net; [exact F1|discriminate]|];
    rewrite (after_net _ _ _ _ _ _ _ _ _ _ _ _ _ d F2) by discriminate;
    f_equal; apply T; unfold inputs_of; cbn; [reflexivity|reflexivity|intro n; now rewrite T1, T2].
Qed.

(** The batches are the same at every fit of every recommender with that seed: a fit
    that depends on nothing else gives the same result whenever it runs. *)
Theorem C124_batches : forall os1 os2 i1 i2 k s d, reads_batches train ->
  kind_of data os1 i1 = Some k -> seed_of data os1 i1 = Some (Some s) ->
  kind_of data os2 i2 = Some k -> seed_of data os2 i2 = Some (Some s) ->
  exists x, after os1 (Fit data i1 d) = Some x /\ after os2 (Fit data i2 d) = Some x.
Proof.
  intros os1 os2 i1 i2 k s d T K1 S1 K2 S2.
  destruct (found raw tfraw data result py tf train knn _ _ _ _ K1 S1) as (g1 & R1).
  destruct (found raw tfraw data result py tf train knn _ _ _ _ K2 S2) as (g2 & R2).
  destruct k.
  { exists (knn d). split; eapply after_knn; eauto. }
  all: eexists; split; [eapply after_net; [exact R1|discriminate]|];
    rewrite (after_net _ _ _ _ _ _ _ _ _ _ _ _ _ d R2) by discriminate;
    f_equal; apply T; reflexivity.
Qed.

(** The corruption of CDAE is the same at the first fit of every such recommender. *)
Theorem C124_corruption : forall os1 os2 i1 i2 k s d, ignores_tf train ->
  kind_of data os1 i1 = Some k -> seed_of data os1 i1 = Some (Some s) -> unfitted data i1 os1 ->
  kind_of data os2 i2 = Some k -> seed_of data os2 i2 = Some (Some s) -> unfitted data i2 os2 ->
  exists x, after os1 (Fit data i1 d) = Some x /\ after os2 (Fit data i2 d) = Some x.
Proof.
  intros os1 os2 i1 i2 k s d T K1 S1 U1 K2 S2 U2.
  pose proof (unfitted_fresh raw tfraw data result py tf train knn _ _ _ _ K1 S1 U1) as R1.
  pose proof (unfitted_fresh raw tfraw data result py tf train knn _ _ _ _ K2 S2 U2) as R2.
  unfold fresh in R1, R2. destruct k.
  { exists (knn d). split; eapply after_knn; eauto. }
  all: eexists; split; [eapply after_net; [exact R1|discriminate]|];
    rewrite (after_net _ _ _ _ _ _ _ _ _ _ _ _ _ d R2) by discriminate;
    f_equal; apply T; reflexivity.
Qed.

(** Seeding TensorFlow again right before a first fit repairs it, whatever happened
    since the recommender was made. *)
Theorem C124_seeded_again : forall os i k s d, of_numbers train ->
  kind_of data os i = Some k -> seed_of data os i = Some (Some s) -> unfitted data i os ->
  exists x,
    after (os ++ [SeedTf data (Some s)]) (Fit data i d) = Some x /\
    after [Make data k (Some s)] (Fit data 0 d) = Some x.
Proof.
  intros os i k s d T K S U.
  pose proof (unfitted_fresh raw tfraw data result py tf train knn _ _ _ _ K S U) as R. unfold fresh in R.
  assert (R1 : nth_error (w_recs (run raw tfraw data result py tf train knn (os ++ [SeedTf data (Some s)]) world0)) i =
    Some (mkRec k (Some s) (Seeded s, 0))) by (rewrite run_app; exact R).
  assert (R2 : nth_error (w_recs (run raw tfraw data result py tf train knn [Make data k (Some s)] world0)) 0 =
    Some (mkRec k (Some s) (Seeded s, 0))) by reflexivity.
  destruct k.
  { exists (knn d). split; eapply after_knn; eauto. }
  all: eexists; split; [eapply after_net; [exact R1|discriminate]|];
    rewrite (after_net _ _ _ _ _ _ _ _ _ _ _ _ _ d R2) by discriminate;
    f_equal; apply T; rewrite run_app; reflexivity.
Qed.

(** Python's random module gives the program the same numbers as if it made and fitted
    no recommender, as long as all that are fitted have a seed. *)
Theorem C124_random_module : forall os,
  (forall o, In o os -> match o with UseRandom _ _ | SeedRandom _ _ => False | _ => True end) ->
  (forall i d, In (Fit data i d) os -> forall pre mid, os = pre ++ Fit data i d :: mid ->
     kind_of data pre i <> Some Knn -> exists s, seed_of data pre i = Some (Some s)) ->
  w_global (run raw tfraw data result py tf train knn os world0) = w_global world0.
Proof.
  intro os. induction os as [|o os IH] using rev_ind; intros A B; [reflexivity|].
  rewrite run_app.
  assert (E : w_global (run raw tfraw data result py tf train knn os world0) = w_global world0).
  { apply IH.
    - intros o' H. apply A. apply in_or_app. now left.
    - intros i d H pre mid ->. apply (B i d) with (mid := mid ++ [o]).
      + apply in_or_app. now left.
      + now rewrite <- app_assoc. }
  rewrite <- E. clear E IH.
  assert (Ao := A o ltac:(apply in_or_app; right; now left)).
  destruct o as [k s|i d|n|s|n|s]; try contradiction; try reflexivity.
  unfold run at 1. cbn [fold_left step].
  set (w := run raw tfraw data result py tf train knn os world0).
  destruct (nth_error (w_recs w) i) as [[k s g]|] eqn:R; [|reflexivity].
  assert (K : kind_of data os i = Some k).
  { unfold kind_of. pose proof (run_kinds raw tfraw data result py tf train knn os world0) as P. cbn in P.
    fold (ks data os). rewrite <- P. fold w. now rewrite (map_nth_error r_kind _ _ R). }
  assert (S : seed_of data os i = Some s).
  { unfold seed_of. pose proof (run_seeds raw tfraw data result py tf train knn os world0) as P. cbn in P.
    fold (ss data os). rewrite <- P. fold w. now rewrite (map_nth_error r_seed _ _ R). }
  cbn [r_kind r_seed]. destruct k; [reflexivity| | |];
    (destruct (B i d ltac:(apply in_or_app; right; now left) os [] eq_refl) as (z & Z); [congruence|];
     rewrite S in Z; injection Z as ->;
     match goal with |- context [train ?a ?b ?c] => destruct (train a b c) as [x [[t c0] g0]] end;
     cbn; unfold ahead; rewrite Nat.add_0_r; now destruct (w_global w)).
Qed.
End Theorems.
Print Assumptions C124_random_module.
Print Assumptions C124_reproducible.
Print Assumptions C124_batches.
Print Assumptions C124_corruption.
Print Assumptions C124_seeded_again.

(** A toy training: the result is the first number of each source; two numbers are
    taken from TensorFlow, three from _rng, four from the random module. *)
Definition number : origin -> nat -> Z :=
  fun o n => match o with Seeded s => (s * 1000 + Z.of_nat n)%Z | Entropy k => (- Z.of_nat (k * 1000 + n) - 1)%Z end.
Definition toy (k : kind) (d : Z) (x : inputs Z Z) : Z * Z * Z * (nat * nat * nat) :=
  ((in_tf _ _ x 0, match k with Cdae => in_rng _ _ x 0 | _ => 0%Z end,
    Z.add (match in_sampler _ _ x with WithSeed _ a _ _ => a 0 | WithoutSeed _ _ m => m 0 end) d), (2, 3, 4)).
Definition toy_after := after Z Z Z (Z * Z * Z) number number toy (fun d => (0, 0, d)%Z).

Lemma toy_of_numbers : of_numbers toy.
Proof. intros k d x y E R T. unfold toy. cbn. rewrite E, T. destruct k; now rewrite ?R. Qed.

(** The same result after another recommender was fitted, with a neighbourhood model
    fitted and Python's generator used in between. *)
Example C124_example :
  let pre := [Make Z Knn None; Make Z Dmf (Some 5%Z); Fit Z 1 3%Z] in
  let mid := [Fit Z 0 9%Z; UseRandom Z 7] in
  all_spare Z (pre ++ [Make Z Cdae (Some 8%Z)]) mid /\
  toy_after (pre ++ Make Z Cdae (Some 8%Z) :: mid) (Fit Z (makes Z pre) 1%Z) = Some (8000, 8000, 8001)%Z /\
  toy_after [Make Z Cdae (Some 8%Z)] (Fit Z 0 1%Z) = Some (8000, 8000, 8001)%Z.
Proof.
  split; [|split; reflexivity]. intros o [<-|[<-|[]]]; [|exact Logic.I]. intros k H. cbn in H. congruence.
Qed.

(** Refuted: with a seed, data and arguments alike a recommender trains alike.  Making a
    UserKNN without a seed between making and fitting un-seeds the initial weights. *)
Theorem C124_other_recommender_refuted :
  exists r, of_numbers toy /\
    toy_after [Make Z Dmf (Some 8%Z)] (Fit Z 0 1%Z) = Some r /\
    toy_after [Make Z Dmf (Some 8%Z); Make Z Knn None] (Fit Z 0 1%Z) <> Some r /\
    toy_after [Make Z Dmf (Some 8%Z); Make Z Dmf (Some 9%Z)] (Fit Z 0 1%Z) <> Some r /\
    toy_after [Make Z Dmf (Some 8%Z); UseTf Z 1] (Fit Z 0 1%Z) <> Some r.
Proof. eexists. split; [exact toy_of_numbers|]. split; [reflexivity|]. repeat split; vm_compute; congruence. Qed.
Print Assumptions C124_other_recommender_refuted.

(** Refuted: two recommenders made alike and then fitted one after the other on the same
    data train alike; so does a second fit of one. *)
Theorem C124_in_turn_refuted :
  let made := [Make Z Dmf (Some 8%Z); Make Z Dmf (Some 8%Z)] in
  of_numbers toy /\
  toy_after made (Fit Z 0 1%Z) <> toy_after (made ++ [Fit Z 0 1%Z]) (Fit Z 1 1%Z) /\
  toy_after made (Fit Z 0 1%Z) <> toy_after (made ++ [Fit Z 0 1%Z]) (Fit Z 0 1%Z).
Proof. split; [exact toy_of_numbers|]. split; vm_compute; congruence. Qed.
Print Assumptions C124_in_turn_refuted.

(** Seeding again repairs a first fit, but not the corruption at a second fit of CDAE. *)
Example C124_seeded_again_example :
  toy_after [Make Z Cdae (Some 8%Z); Make Z Knn None; SeedTf Z (Some 8%Z)] (Fit Z 0 1%Z) = Some (8000, 8000, 8001)%Z /\
  toy_after [Make Z Cdae (Some 8%Z); Fit Z 0 1%Z; SeedTf Z (Some 8%Z)] (Fit Z 0 1%Z) = Some (8000, 8003, 8001)%Z.
Proof. split; reflexivity. Qed.

(** A fit without a seed moves Python's generator, one with a seed does not. *)
Example C124_random_module_example :
  let run := run Z Z Z (Z * Z * Z) number number toy (fun d => (0, 0, d)%Z) in
  w_global (run [Make Z Dmf (Some 8%Z); Fit Z 0 1%Z; Fit Z 0 2%Z] world0) = (Entropy 1, 0) /\
  w_global (run [Make Z Dmf None; Fit Z 0 1%Z] world0) = (Entropy 1, 4).
Proof. split; reflexivity. Qed.
