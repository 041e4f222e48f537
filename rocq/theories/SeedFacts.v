(** Facts about the generators of recommenders. *)
From Coq Require Import List ZArith Bool Lia.
From Verif Require Import SeedModel SeedSpec.
Import ListNotations.

Section Facts.
Variables (raw tfraw data result : Type).
Variable py : origin -> nat -> raw.
Variable tf : origin -> nat -> tfraw.
Variable train : kind -> data -> inputs raw tfraw -> result * (nat * nat * nat).
Variable knn : data -> result.
Notation step := (step raw tfraw data result py tf train knn).
Notation run := (run raw tfraw data result py tf train knn).
Notation after := (after raw tfraw data result py tf train knn).
Notation op := (op data).

Definition ks (os : list op) := flat_map (fun o => match o with Make _ k _ => [k] | _ => [] end) os.
Definition ss (os : list op) := flat_map (fun o => match o with Make _ _ s => [s] | _ => [] end) os.

Lemma map_set_nth : forall A B (f : A -> B) l n x y, nth_error l n = Some x -> f y = f x ->
  map f (set_nth n y l) = map f l.
Proof.
  induction l as [|a l IH]; intros [|n] x y H E; cbn in *; try discriminate.
  - injection H as <-. now rewrite E.
  - f_equal. eapply IH; eauto.
Qed.
Lemma nth_set_other : forall A (l : list A) n m x, n <> m -> nth_error (set_nth n x l) m = nth_error l m.
Proof.
  induction l as [|a l IH]; intros [|n] [|m] x H; cbn; try reflexivity; try congruence.
  apply IH. congruence.
Qed.

Lemma run_app : forall a b w, run (a ++ b) w = run b (run a w).
Proof. intros. apply fold_left_app. Qed.
Lemma run_cons : forall o os w, run (o :: os) w = run os (fst (step w o)).
Proof. reflexivity. Qed.

Ltac fit i w r E :=
  destruct (nth_error (w_recs w) i) as [r|] eqn:E; [destruct r as [[] ? ?]|].

Lemma step_kinds : forall w o, map r_kind (w_recs (fst (step w o))) = map r_kind (w_recs w) ++ ks [o].
Proof.
  intros w [k s|i d|n|s|n|s]; cbn; rewrite ?app_nil_r; try reflexivity; [now rewrite map_app|].
  fit i w r E; cbn; try reflexivity;
    match goal with |- context [train ?a ?b ?c] => destruct (train a b c) as [x [[t c0] g]] end; cbn;
    eapply map_set_nth; eauto.
Qed.
Lemma step_seeds : forall w o, map r_seed (w_recs (fst (step w o))) = map r_seed (w_recs w) ++ ss [o].
Proof.
  intros w [k s|i d|n|s|n|s]; cbn; rewrite ?app_nil_r; try reflexivity; [now rewrite map_app|].
  fit i w r E; cbn; try reflexivity;
    match goal with |- context [train ?a ?b ?c] => destruct (train a b c) as [x [[t c0] g]] end; cbn;
    eapply map_set_nth; eauto.
Qed.
Lemma run_kinds : forall os w, map r_kind (w_recs (run os w)) = map r_kind (w_recs w) ++ ks os.
Proof.
  induction os as [|o os IH]; intro w; [cbn; now rewrite app_nil_r|].
  rewrite run_cons, IH, step_kinds, <- app_assoc. f_equal. cbn. now rewrite app_nil_r.
Qed.
Lemma run_seeds : forall os w, map r_seed (w_recs (run os w)) = map r_seed (w_recs w) ++ ss os.
Proof.
  induction os as [|o os IH]; intro w; [cbn; now rewrite app_nil_r|].
  rewrite run_cons, IH, step_seeds, <- app_assoc. f_equal. cbn. now rewrite app_nil_r.
Qed.
Lemma len_makes : forall os, length (ks os) = makes data os.
Proof.
  induction os as [|o os IH]; [reflexivity|]. unfold makes in *. destruct o; cbn; auto.
Qed.

(** a recommender made with a seed has a generator that started from it, unmoved
    before its first fit *)
Definition fresh (w : world) (i : nat) (k : kind) (s : Z) : Prop :=
  nth_error (w_recs w) i = Some (mkRec k (Some s) (Seeded s, 0)).

Lemma step_fresh : forall w o i k s, fresh w i k s -> (forall d, o <> Fit data i d) -> fresh (fst (step w o)) i k s.
Proof.
  intros w o i k s F N. unfold fresh in *. destruct o as [k' s'|j d|n|s'|n|s']; cbn; try exact F.
  - rewrite nth_error_app1; [exact F|]. apply nth_error_Some. congruence.
  - assert (J : j <> i) by (intros ->; now apply (N d)).
    fit j w r E; cbn; try exact F;
      match goal with |- context [train ?a ?b ?c] => destruct (train a b c) as [x [[t c0] g]] end; cbn;
      now rewrite nth_set_other.
Qed.
Lemma run_fresh : forall os w i k s, fresh w i k s -> unfitted data i os -> fresh (run os w) i k s.
Proof.
  induction os as [|o os IH]; intros w i k s F N; [exact F|].
  rewrite run_cons. apply IH.
  - apply step_fresh; [exact F|]. intros d ->. apply (N i d); [now left|reflexivity].
  - intros j d H. apply (N j d). now right.
Qed.

(** every generator of a seeded recommender comes from its seed *)
Lemma made_fresh : forall pre k s w, length (w_recs w) = 0 ->
  fresh (run (pre ++ [Make data k (Some s)]) w) (makes data pre) k s.
Proof.
  intros pre k s w L. rewrite run_app. unfold fresh. cbn.
  assert (H : length (w_recs (run pre w)) = makes data pre).
  { rewrite <- len_makes, <- (map_length r_kind), run_kinds, app_length, map_length, L. reflexivity. }
  rewrite nth_error_app2 by lia. rewrite H, Nat.sub_diag. reflexivity.
Qed.

Lemma found : forall os i k s, kind_of data os i = Some k -> seed_of data os i = Some s ->
  exists g, nth_error (w_recs (run os world0)) i = Some (mkRec k s g).
Proof.
  intros os i k s K S. pose proof (run_kinds os world0) as A. pose proof (run_seeds os world0) as B. cbn in A, B.
  unfold kind_of in K. unfold seed_of in S. fold (ks os) in K. fold (ss os) in S. rewrite <- A in K. rewrite <- B in S.
  destruct (nth_error (w_recs (run os world0)) i) as [[k' s' g]|] eqn:E.
  - apply (map_nth_error r_kind) in E as E1. apply (map_nth_error r_seed) in E as E2. cbn in *.
    exists g. congruence.
  - apply nth_error_None in E. rewrite <- (map_length r_kind) in E.
    apply nth_error_None in E. congruence.
Qed.

Lemma split_at : forall os i k s, kind_of data os i = Some k -> seed_of data os i = Some s ->
  exists pre mid, os = pre ++ Make data k s :: mid /\ makes data pre = i.
Proof.
  induction os as [|o os IH]; intros i k s K S.
  - now destruct i.
  - destruct o as [k' s'|j d|n|s'|n|s'].
    2-6: destruct (IH i k s K S) as (pre & mid & -> & <-);
      match goal with |- exists _ _, ?o :: _ = _ /\ _ => exists (o :: pre), mid; split; reflexivity end.
    destruct i as [|i].
    + cbn in K, S. injection K as <-. injection S as <-. exists [], os. now split.
    + destruct (IH i k s K S) as (pre & mid & -> & <-). exists (Make data k' s' :: pre), mid. now split.
Qed.

Lemma unfitted_fresh : forall os i k s, kind_of data os i = Some k -> seed_of data os i = Some (Some s) ->
  unfitted data i os -> fresh (run os world0) i k s.
Proof.
  intros os i k s K S N. destruct (split_at os i k (Some s) K S) as (pre & mid & -> & <-).
  replace (pre ++ Make data k (Some s) :: mid) with ((pre ++ [Make data k (Some s)]) ++ mid) by now rewrite <- app_assoc.
  rewrite run_app. apply run_fresh; [now apply made_fresh|].
  intros j d H. apply (N j d). apply in_or_app. right. now right.
Qed.

(** operations that spare TensorFlow's generator *)
Lemma spare_tf : forall mid before w, map r_kind (w_recs w) = ks before -> all_spare data before mid ->
  w_tf (run mid w) = w_tf w.
Proof.
  induction mid as [|o mid IH]; intros before w M A; [reflexivity|].
  rewrite run_cons.
  assert (S : spares_tf data before o) by (apply A; now left).
  assert (E : w_tf (fst (step w o)) = w_tf w /\ ks [o] = []).
  { destruct o as [k s|i d|n|s|n|s]; cbn in S; try contradiction; try (split; reflexivity).
    split; [|reflexivity]. cbn.
    destruct (nth_error (w_recs w) i) as [r|] eqn:E; [|reflexivity].
    rewrite (S (r_kind r)); [reflexivity|].
    unfold kind_of. fold (ks before). rewrite <- M. now apply map_nth_error. }
  destruct E as (E & N). rewrite <- E. apply (IH before).
  - rewrite step_kinds, N, app_nil_r. exact M.
  - intros o' H. apply A. now right.
Qed.

Lemma after_net : forall os i k s g d, nth_error (w_recs (run os world0)) i = Some (mkRec k (Some s) g) -> k <> Knn ->
  after os (Fit data i d) = Some (fst (train k d (inputs_of raw tfraw py tf (run os world0) (mkRec k (Some s) g)))).
Proof.
  intros os i k s g d H K. unfold after, SeedModel.after. cbn. rewrite H. cbn.
  destruct k; [congruence| | |];
    match goal with |- context [train ?a ?b ?c] => destruct (train a b c) as [x [[t c0] g0]] end; reflexivity.
Qed.
Lemma after_knn : forall os i s g d, nth_error (w_recs (run os world0)) i = Some (mkRec Knn s g) ->
  after os (Fit data i d) = Some (knn d).
Proof. intros os i s g d H. unfold after, SeedModel.after. cbn. now rewrite H. Qed.

Lemma kind_makes : forall pre k s mid, kind_of data (pre ++ Make data k s :: mid) (makes data pre) = Some k.
Proof.
  intros. unfold kind_of. fold (ks (pre ++ Make data k s :: mid)). unfold ks. rewrite flat_map_app. fold (ks pre).
  rewrite nth_error_app2; rewrite len_makes; [|lia]. now rewrite Nat.sub_diag.
Qed.
Lemma seed_makes : forall pre k s mid, seed_of data (pre ++ Make data k s :: mid) (makes data pre) = Some s.
Proof.
  intros. unfold seed_of. rewrite flat_map_app. fold (ss pre).
  assert (L : length (ss pre) = makes data pre).
  { clear. unfold makes. induction pre as [|o pre IH]; [reflexivity|]. destruct o; cbn; auto. }
  rewrite nth_error_app2; rewrite L; [|lia]. now rewrite Nat.sub_diag.
Qed.
End Facts.
