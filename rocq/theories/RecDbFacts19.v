(** Training DMF and CDAE on a data set in a database returns. *)
From Coq Require Import String Ascii.
From Coq Require Import List ZArith QArith Qcanon Bool Permutation Sorted Lia.
From Verif Require Import Py PyFacts MemModel MemSpec MemFacts MemFacts2 MemFacts3 MemFacts4 MemFacts5 MemFacts6 MemFacts7 RankModel RankSpec RankFacts RankFacts2 KnnModel KnnSpec KnnFacts KnnFacts2 KnnFacts3 FitModel NetModel NetFacts3 TrainModel
  DbModel DbFacts DbSpec DbFacts3 DbFacts7 DbFacts12 DbFacts13 DbFacts14 DbFacts15 DbFacts16 DbFacts17 SampModel DbGenModel DbGenSpec DbGenSpec2 DbGenFacts DbGenFacts2 DbGenFacts5 DbGenFacts7
  DbSplitModel DbSplitSpec DbSplitFacts DbSplitFacts3 DbSplitFacts6 TwinSpec TwinFacts TwinFacts5 TwinFacts6 RecDbModel RecDbModel2 RecDbFacts RecDbFacts2 RecDbFacts3 RecDbFacts4 RecDbFacts6 RecDbFacts7 RecDbFacts8 RecDbFacts12 RecDbSpec RecDbSpec2
  RecDbModel7 RecDbSpec7 RecDbFacts17 RecDbFacts18.
Import ListNotations.
Open Scope string_scope.
Open Scope Z_scope.
Open Scope list_scope.

Lemma steady_tbind {A B} (p q : RecDbModel7.T A) (f g : A -> RecDbModel7.T B) : steady p q -> (forall a, steady (f a) (g a)) -> steady (tbind p f) (tbind q g).
Proof.
  intros H K w w' r E. unfold tbind in *. destruct (p w) as [w1 [[a|e]|]] eqn:E1; [| |discriminate].
  - rewrite (H _ _ _ E1). apply K. exact E.
  - rewrite (H _ _ _ E1). exact E.
Qed.
(** programs that return in any case *)
Definition total {A} (p : RecDbModel7.T A) : Prop := forall s, exists s' o, p s = (s', Some o).
Lemma total_ret {A} (r : res A) : total (tret r).
Proof. intro s. exists s, r. reflexivity. Qed.
Lemma total_step {A} (p : P A) : total (step p).
Proof. intro s. unfold step. destruct (p s) as [s' r]. eauto. Qed.
Lemma total_bind {A B} (p : RecDbModel7.T A) (f : A -> RecDbModel7.T B) : total p -> (forall a, total (f a)) -> total (tbind p f).
Proof. intros H K s. unfold tbind. destruct (H s) as (s1 & o & ->). destruct o as [a|e]; [apply K|eauto]. Qed.

Section More.
Variable inode : string -> nat.
Variable ords : nat -> list trow -> list trow.
Variables (neg : Qc) (dr : dbdraws) (lu li : nat).
Lemma more_point f f' p : (f <= f')%nat -> steady (db_point inode ords f neg dr p) (db_point inode ords f' neg dr p).
Proof.
  intros L s s' r. unfold db_point. pose proof (more_sample inode neg (ords (fst s)) dr f f' 1 L p (snd s)) as K.
  destruct (db_sample inode 1 f (ords (fst s)) neg dr p (snd s)) as [w1 [x|]]; [|discriminate]. rewrite (K _ _ eq_refl). auto.
Qed.
Lemma more_points f f' n : (f <= f')%nat -> forall p, steady (db_points inode ords f neg dr n p) (db_points inode ords f' neg dr n p).
Proof.
  intro L. induction n as [|n IH]; intro p; cbn [db_points]; [apply steady_refl|].
  apply steady_tbind; [apply more_point; exact L|]. intro x. apply steady_tbind; [apply IH|]. intro. apply steady_refl.
Qed.
Lemma more_dmf_batch f f' fi use_nce bs i st : (f <= f')%nat ->
  steady (db_dmf_batch inode ords f neg dr lu li fi use_nce bs i st) (db_dmf_batch inode ords f' neg dr lu li fi use_nce bs i st).
Proof. intro L. unfold db_dmf_batch. apply steady_tbind; [apply more_points; exact L|]. intro. apply steady_refl. Qed.
Lemma more_dmf f f' fi use_nce bs i epochs : (f <= f')%nat -> forall st,
  steady (db_dmf_batches inode ords f neg dr lu li epochs fi use_nce bs i st) (db_dmf_batches inode ords f' neg dr lu li epochs fi use_nce bs i st).
Proof.
  intro L. induction epochs as [|e IH]; intro st; cbn [db_dmf_batches]; [apply steady_refl|].
  apply steady_tbind; [apply more_dmf_batch; exact L|]. intro x. apply steady_tbind; [apply IH|]. intro. apply steady_refl.
Qed.
Lemma more_cdae f f' th q rnd bs i epochs : (f <= f')%nat -> forall p c k,
  steady (db_cdae_batches inode ords f neg dr lu epochs th q rnd bs i p c k) (db_cdae_batches inode ords f' neg dr lu epochs th q rnd bs i p c k).
Proof.
  intro L. induction epochs as [|e IH]; intros p c k; cbn [db_cdae_batches]; [apply steady_refl|].
  apply steady_tbind; [apply more_points; exact L|]. intro x. apply steady_tbind; [apply steady_refl|]. intro y. apply steady_tbind; [apply IH|]. intro. apply steady_refl.
Qed.
End More.

Section Ends.
Variable inode : string -> nat.
Variables (i : nat) (d : ds).
Local Notation fine := (fine inode i d).
Local Notation after := (after inode i d).
(** with enough fuel it returns *)
Definition ends {A} (b : book) (p : nat -> RecDbModel7.T A) : Prop := forall s, fine (snd s) b -> exists f s' o, p f s = (s', Some o).
Lemma ends_bind {A B} b (p : nat -> RecDbModel7.T A) (k : nat -> A -> RecDbModel7.T B) Q E :
  (forall f f', (f <= f')%nat -> steady (p f) (p f')) -> (forall f f' a, (f <= f')%nat -> steady (k f a) (k f' a)) ->
  ends b p -> (forall f, after b (p f) Q E) -> (forall b' a, Q b' a -> ends b' (fun f => k f a)) -> ends b (fun f => tbind (p f) (k f)).
Proof.
  intros Mp Mk Hp Ha Hk s F. destruct (Hp s F) as (f1 & s1 & o & E1). destruct o as [a|e].
  - destruct (Ha f1 s s1 (Ok a) F E1) as (b1 & F1 & _ & Q1). destruct (Hk b1 a Q1 s1 F1) as (f2 & s2 & o2 & E2).
    exists (Nat.max f1 f2), s2, o2. unfold tbind. rewrite (Mp f1 _ (Nat.le_max_l f1 f2) _ _ _ E1). apply (Mk f2 _ a (Nat.le_max_r f1 f2) _ _ _ E2).
  - exists f1, s1, (Err e). unfold tbind. rewrite E1. reflexivity.
Qed.
Lemma ends_total {A} b (p : RecDbModel7.T A) : total p -> ends b (fun _ => p).
Proof. intros H s _. destruct (H s) as (s' & o & E). exists 0%nat, s', o. exact E. Qed.
Lemma ends_then {A B} b (p : nat -> RecDbModel7.T A) (k : A -> RecDbModel7.T B) : ends b p -> (forall a, total (k a)) -> ends b (fun f => tbind (p f) k).
Proof.
  intros Hp Hk s F. destruct (Hp s F) as (f1 & s1 & o & E1). exists f1. unfold tbind. rewrite E1. destruct o as [a|e]; [apply Hk|eauto].
Qed.
End Ends.

Section Fit.
Variable inode : string -> nat.
Variable ords : nat -> list trow -> list trow.
Hypothesis Po : forall k, permuting (ords k).
Variables (w0 : world) (b0 : book) (i : nat) (d0 : ds) (m0 m : mem) (tu ti : dtype).
Hypothesis R0 : reaches inode w0 b0.
Hypothesis S0 : safe inode w0 b0 (OAssign i).
Hypothesis H0 : b0 i = Some d0.
Hypothesis Tw0 : twin d0 m0.
Hypothesis T : trained_on m0 m tu ti.
Hypothesis Nm : KnnSpec.numeric m0.
Hypothesis Cd0 : complete d0.
Variable t : option slit.
Hypothesis Tk : SampSpec.thr_ok t.
Variables (neg : Qc) (dr : dbdraws) (lu li : nat).
Hypothesis Rn : rich (dd_null dr).
Hypothesis Rg : rich (dd_neg dr).
Hypothesis Rp : rich (dd_pos dr).
Local Notation d := (assigned d0).
Local Notation fine := (fine inode i d).
Local Notation after := (after inode i d).
Local Notation ends := (ends inode i d).
Local Notation Tw := (RecDbFacts6.Tw inode w0 b0 i d0 m0 m tu ti S0 H0 Tw0 T).
Local Notation Cd := (RecDbFacts6.Cd inode d0 Cd0).
Local Notation nu := (n_distinct "user" m0).
Local Notation np := (n_distinct "item" m0).
Local Notation es := (obs m).
Local Notation caches_ok := (caches_ok m0 m).
(** the number of samples to be drawn *)
Variable total_draws : nat.
Hypothesis Hl : some_null d t \/ forall k, (k < total_draws)%nat -> ~ (1 < (neg + 1) * dd_label dr k)%Qc.

Lemma Nd : numbered d.
Proof. destruct (tw_types _ _ Tw0) as (ts & Ts & _). apply (assigned_numbered inode). congruence. Qed.

Lemma point_ends p b : sampler_ok b d t p -> keen d t p -> (dp_k p < total_draws)%nat -> ends b (fun f => db_point inode ords f neg dr p).
Proof.
  intros Sk K L s F. pose proof F as ((b1 & Eb & R) & Hb & C). pose proof (reaches_inv _ _ _ R) as I.
  assert (Sk0 : sampler_ok b1 d t p) by (apply (sampler_sub d t b); [intros k e H; rewrite Eb; exact H|exact Sk]).
  destruct (sample_returns inode d t Nd Cd eq_refl neg (ords (fst s)) dr p (snd s) b1 (Po _) Rn Rg Rp I Sk0 K) as (f & w' & [r p'] & E).
  { destruct Hl as [Sn|N]; [left; exact Sn|right; apply N; exact L]. }
  exists f. unfold db_point. rewrite E. destruct r as [[|x l]|e]; eauto.
Qed.
Lemma point_keen f p b s s' x p' : sampler_ok b d t p -> keen d t p -> fine (snd s) b -> db_point inode ords f neg dr p s = (s', Some (Ok (x, p'))) -> keen d t p'.
Proof.
  intros Sk K F E. pose proof F as ((b1 & Eb & R) & Hb & C). pose proof (reaches_inv _ _ _ R) as I.
  assert (Sk0 : sampler_ok b1 d t p) by (apply (sampler_sub d t b); [intros k e H; rewrite Eb; exact H|exact Sk]).
  unfold db_point in E. destruct (db_sample inode 1 f (ords (fst s)) neg dr p (snd s)) as [w1 [[[[|y l]|e] p2]|]] eqn:E1; try discriminate. injection E as _ _ <-.
  exact (sample_keen inode d t Nd Cd neg f _ dr p _ _ _ _ _ (Po _) I Sk0 K E1).
Qed.
Lemma point_after f p b : sampler_ok b d t p -> keen d t p ->
  after b (db_point inode ords f neg dr p) (fun b' r => sampler_ok b' d t (snd r) /\ keen d t (snd r) /\ dp_k (snd r) = Datatypes.S (dp_k p)) True.
Proof.
  intros Sk K s s' o F E. pose proof (point_fine inode i d t Nd Cd eq_refl ords Po f neg dr p s b s' o F Sk E) as H. destruct o as [[x p']|e]; [|exact Logic.I].
  destruct H as (_ & Kp & b' & F' & X' & Sk'). exists b'. split; [exact F'|]. split; [exact X'|]. cbn [snd]. split; [exact Sk'|]. split; [|exact Kp].
  exact (point_keen f p b s s' x p' Sk K F E).
Qed.
Lemma points_ends n : forall p b, sampler_ok b d t p -> keen d t p -> (dp_k p + n <= total_draws)%nat -> ends b (fun f => db_points inode ords f neg dr n p).
Proof.
  induction n as [|n IH]; intros p b Sk K L; cbn [db_points]; [apply ends_total, total_ret|].
  eapply (ends_bind inode i d b (fun f => db_point inode ords f neg dr p) (fun f x => tbind (db_points inode ords f neg dr n (snd x)) (fun l => tret (Ok (fst x :: fst l, snd l))))).
  - intros. apply more_point. auto.
  - intros. apply steady_tbind; [apply more_points; auto|]. intro. apply steady_refl.
  - apply point_ends; auto. lia.
  - intro f. apply point_after; auto.
  - cbn beta. intros b' x (Sk' & K' & Kp). apply ends_then; [|intro; apply total_ret]. apply IH; auto. lia.
Qed.
Lemma points_after f n : forall p b, sampler_ok b d t p -> keen d t p ->
  after b (db_points inode ords f neg dr n p) (fun b' r => sampler_ok b' d t (snd r) /\ keen d t (snd r) /\ dp_k (snd r) = (dp_k p + n)%nat) True.
Proof.
  induction n as [|n IH]; intros p b Sk K; cbn [db_points].
  - apply after_ret. cbn [snd]. split; [exact Sk|]. split; [exact K|lia].
  - eapply after_bind; [apply point_after; auto|]. cbn beta. intros b1 x (Sk1 & K1 & Kp1).
    eapply after_bind; [apply (IH (snd x) b1 Sk1 K1)|]. cbn beta. intros b2 l (Sk2 & K2 & Kp2). apply after_ret. cbn [snd]. split; [exact Sk2|]. split; [exact K2|lia].
Qed.

Section Full.
Hypothesis Ne : rows_of m0 <> [].
Local Notation batch_right f := (dmf_batch_right inode ords Po w0 b0 i d0 m0 m tu ti R0 S0 H0 Tw0 T Nm Cd0 t Tk f neg dr lu li Ne).
Local Notation points_right f := (points_right inode ords Po w0 b0 i d0 m0 m tu ti S0 H0 Tw0 T Nm Cd0 t Tk f neg dr Ne).
Lemma batch_after f fi fi' use_nce bs p c b : statistics m = Ok fi' -> same_info fi fi' -> sampler_ok b d t p -> caches_ok c -> keen d t p ->
  after b (db_dmf_batch inode ords f neg dr lu li fi use_nce bs i (p, c)) (fun b' r =>
    sampler_ok b' d t (fst (snd r)) /\ caches_ok (snd (snd r)) /\ keen d t (fst (snd r)) /\ dp_k (fst (snd r)) = (dp_k p + bs)%nat) True.
Proof.
  intros Es Sf Sk Kc K s s' o F E. pose proof (batch_right f fi fi' use_nce bs p c b Es Sf Sk Kc s s' o F E) as H. destruct o as [r|e]; [|exact Logic.I].
  destruct H as (b' & F' & X' & _ & Kp & Sk' & Kc'). exists b'. split; [exact F'|]. split; [exact X'|]. split; [exact Sk'|]. split; [exact Kc'|]. split; [|exact Kp].
  unfold db_dmf_batch in E. cbn [fst snd] in E. unfold tbind at 1 in E. destruct (db_points inode ords f neg dr bs p s) as [s1 [[[xs p1]|e]|]] eqn:E1; try discriminate.
  destruct (points_after f bs p b Sk K s s1 _ F E1) as (_ & _ & _ & _ & K1 & _). cbn [fst snd] in *.
  unfold tbind, tret, step in E. destruct (mapM (db_target fi use_nce) xs) as [ys|e]; [|discriminate].
  destruct (db_user_vecs inode ords lu i (map (fun t => fst (fst t)) xs) c s1) as [s2 [us|e]]; [|discriminate].
  destruct (db_item_vecs inode ords li i (map (fun t => snd (fst t)) xs) (snd us) s2) as [s3 [vs|e]]; [|discriminate].
  injection E as _ <-. exact K1.
Qed.
Lemma dmf_ends fi fi' use_nce bs epochs : statistics m = Ok fi' -> same_info fi fi' -> forall p c b, sampler_ok b d t p -> caches_ok c -> keen d t p ->
  (dp_k p + epochs * bs <= total_draws)%nat -> ends b (fun f => db_dmf_batches inode ords f neg dr lu li epochs fi use_nce bs i (p, c)).
Proof.
  intros Es Sf. induction epochs as [|epochs IH]; intros p c b Sk Kc K L; cbn [db_dmf_batches]; [apply ends_total, total_ret|].
  eapply (ends_bind inode i d b (fun f => db_dmf_batch inode ords f neg dr lu li fi use_nce bs i (p, c))
    (fun f x => tbind (db_dmf_batches inode ords f neg dr lu li epochs fi use_nce bs i (snd x)) (fun l => tret (Ok (fst x :: l))))).
  - intros. apply more_dmf_batch. auto.
  - intros. apply steady_tbind; [apply more_dmf; auto|]. intro. apply steady_refl.
  - unfold db_dmf_batch. apply (ends_then inode i d b (fun f => db_points inode ords f neg dr bs p)); [apply points_ends; auto; lia|].
    intro x. repeat first [apply total_ret|apply total_step|apply total_bind; [|intro]].
  - intro f. apply (batch_after f fi fi'); auto.
  - cbn beta. intros b' [x [p' c']] (Sk' & Kc' & K' & Kp'). cbn [fst snd] in *. apply ends_then; [|intro; apply total_ret]. apply IH; auto. lia.
Qed.
Lemma cdae_ends th q rnd bs epochs : t <> None -> forall p c k b, sampler_ok b d t p -> caches_ok c -> keen d t p ->
  (dp_k p + epochs * bs <= total_draws)%nat -> ends b (fun f => db_cdae_batches inode ords f neg dr lu epochs (Some th) q rnd bs i p c k).
Proof.
  intro Nt. induction epochs as [|epochs IH]; intros p c k b Sk Kc K L; cbn [db_cdae_batches]; [apply ends_total, total_ret|].
  eapply (ends_bind inode i d b (fun f => db_points inode ords f neg dr bs p)
    (fun f x => tbind (step (db_cdae_samples inode ords lu (Some th) q rnd i (map (fun t => fst (fst t)) (fst x)) c k)) (fun y =>
       tbind (db_cdae_batches inode ords f neg dr lu epochs (Some th) q rnd bs i (snd x) (fst (snd y)) (snd (snd y))) (fun l => tret (Ok (fst y :: l)))))
    (fun b' r => (exists ys, Forall2 as_numbers (fst r) ys /\ Forall (ids_ok m0) ys) /\ sampler_ok b' d t (snd r) /\ keen d t (snd r) /\ dp_k (snd r) = (dp_k p + bs)%nat) True).
  - intros. apply more_points. auto.
  - intros. apply steady_tbind; [apply steady_refl|]. intro. apply steady_tbind; [apply more_cdae; auto|]. intro. apply steady_refl.
  - apply points_ends; auto. lia.
  - intros f s s' o F E. pose proof (points_right f bs p b Sk s s' o F E) as H. destruct o as [r|e]; [|exact Logic.I].
    destruct H as (b' & F' & X' & ys & An & _ & Iy & Kp & Sk'). destruct (points_after f bs p b Sk K s s' _ F E) as (_ & _ & _ & _ & K1 & _).
    exists b'. split; [exact F'|]. split; [exact X'|]. split; [exists ys; auto|auto].
  - cbn beta. intros b1 [xs p1] ((ys & An & Iy) & Sk1 & K1 & Kp1). cbn [fst snd] in *.
    eapply (ends_bind inode i d b1 (fun f => step (db_cdae_samples inode ords lu (Some th) q rnd i (map (fun t => fst (fst t)) xs) c k))
      (fun f y => tbind (db_cdae_batches inode ords f neg dr lu epochs (Some th) q rnd bs i p1 (fst (snd y)) (snd (snd y))) (fun l => tret (Ok (fst y :: l))))
      (fun b' y => sampler_ok b' d t p1 /\ caches_ok (fst (snd y))) True).
    + intros. apply steady_refl.
    + intros. apply steady_tbind; [apply more_cdae; auto|]. intro. apply steady_refl.
    + apply (ends_total inode i d b1), total_step.
    + intro f. apply after_step. eapply runs_weaken; [apply (cdae_samples_right inode ords Po w0 b0 i d0 m0 m tu ti R0 S0 H0 Tw0 T Nm Cd0 lu li th q rnd xs ys An Iy b1 c k Kc)|].
      intros b' r (X & Hr). split; [exact X|]. destruct r as [[cs [c' k']]|e]; [|exact Logic.I]. cbn [fst snd]. destruct Hr as (_ & _ & Kc' & _). split; [|exact Kc'].
      eapply sampler_sub; [|exact Sk1]. intros j e H. rewrite X by congruence. exact H.
    + cbn beta. intros b2 y (Sk2 & Kc2). apply ends_then; [|intro; apply total_ret]. apply IH; auto. lia.
Qed.
End Full.

(** ** Whole runs *)
Lemma fit_ends {A} (rest : nat -> fit_info -> dbpoint -> RecDbModel7.T A) n :
  (forall f f' fi p, (f <= f')%nat -> steady (rest f fi p) (rest f' fi p)) ->
  (forall fi fi' p b, rows_of m0 <> [] -> statistics m = Ok fi' -> same_info fi fi' -> sampler_ok b d t p -> keen d t p -> dp_k p = 0%nat -> ends b (fun f => rest f fi p)) ->
  exists f0 s' o, forall f, (f0 <= f)%nat ->
    tbind (step (db_begin_fit inode i false)) (fun fi => tbind (step (db (db_point_init inode i (DbGenSpec.thr_text t)))) (rest f fi)) (n, w0) = (s', Some o).
Proof.
  intros Mr Hr. destruct (begin_runs inode w0 b0 i d0 m0 m tu ti R0 S0 H0 Tw0 T Nm Cd0 n) as (s1 & b1 & r & E1 & F1 & X1 & r' & Eb & Sr & St).
  unfold tbind at 1, step at 1. rewrite E1. destruct r as [fi|e]; [|exists 0%nat, s1, (Err e); reflexivity].
  specialize (St fi eq_refl). destruct r' as [fi'|e']; [|destruct Sr]. cbn [same_start] in Sr.
  assert (Ne : rows_of m0 <> []).
  { intro X. destruct (stats_counts m0 m tu ti T Nm fi' St) as [Cu Ci]. unfold begin_fit in Eb. rewrite (tr_assign _ _ _ _ T), St in Eb. cbn [bind] in Eb.
    unfold log_initial_info in Eb. rewrite Cu, Ci in Eb. rewrite !n_distinct_length, X in Eb. cbn in Eb. discriminate. }
  destruct s1 as [n1 w1]. cbn [snd fst] in *.
  destruct (point_init_fine inode i d t) with (w := w1) (b := b1) as (w2 & p & b2 & E2 & F2 & X2 & Sk & Kp); auto.
  { exact Cd. }
  { exact (thr_fits d m0 m tu ti T Nm Tw Ne t Tk). }
  assert (Kn : keen d t p).
  { unfold db_point_init in E2. unfold andthen, raise, ret in E2. destruct (self i w1) as [w3 [x|e]]; [|discriminate]. destruct (negb (i_ids x)); [discriminate|].
    destruct (random_generator inode i _ w3) as [w4 [g|e]] eqn:Eg; [|discriminate]. injection E2 as _ <-. split; [exact Logic.I|]. cbn [dp_pos].
    unfold random_generator, andthen, ret, raise in Eg. destruct (self i w3) as [w5 [y|e]]; [|discriminate]. destruct (negb (i_ids y)); [discriminate|].
    destruct (option_map _ _).
    - destruct (filtered_copy inode i s w5) as [w6 [j|e]]; [|discriminate]. injection Eg as _ <-. exact Logic.I.
    - injection Eg as _ <-. exact Logic.I. }
  destruct (Hr fi fi' p b2 Ne St Sr Sk Kn Kp (n1, w2) F2) as (f0 & s' & o & E). exists f0, s', o. intros f L.
  unfold tbind at 1, step at 1, db at 1. cbn [fst snd]. rewrite E2. apply (Mr f0 f fi p L). exact E.
Qed.
End Fit.

Section Whole.
Variable inode : string -> nat.
Variable ords : nat -> list trow -> list trow.
Hypothesis Po : forall k, permuting (ords k).
Variables (w0 : world) (b0 : book) (i : nat) (d0 : ds) (m0 m : mem) (tu ti : dtype).
Hypothesis R0 : reaches inode w0 b0.
Hypothesis S0 : safe inode w0 b0 (OAssign i).
Hypothesis H0 : b0 i = Some d0.
Hypothesis Tw0 : twin d0 m0.
Hypothesis T : trained_on m0 m tu ti.
Hypothesis Nm : KnnSpec.numeric m0.
Hypothesis Cd0 : complete d0.
Variable t : option slit.
Hypothesis Tk : SampSpec.thr_ok t.
Variables (neg : Qc) (dr : dbdraws) (lu li : nat).
Hypothesis Rn : rich (dd_null dr).
Hypothesis Rg : rich (dd_neg dr).
Hypothesis Rp : rich (dd_pos dr).
Variables (epochs bs n : nat).
Local Notation d := (assigned d0).
Local Notation Tw := (RecDbFacts6.Tw inode w0 b0 i d0 m0 m tu ti S0 H0 Tw0 T).
Local Notation nu := (n_distinct "user" m0).
Local Notation np := (n_distinct "item" m0).
Local Notation no_negatives := (forall k, (k < epochs * bs)%nat -> ~ (1 < (neg + 1) * dd_label dr k)%Qc).

(** a negative pair in the terms of the database *)
Lemma null_there u k : negative_pair (obs m) nu np t u k -> rows_of m0 <> [] -> some_null d t.
Proof.
  intros (Hu & Hk & Hc) Ne. pose proof (trained_contig d m0 m tu ti T Nm Tw Ne) as C. destruct Hc as [No|(x & Hx & Mt)].
  - left. exists u, k. destruct (cg_uall _ _ _ C u Hu) as (r1 & H1 & E1). destruct (cg_iall _ _ _ C k Hk) as (r2 & H2 & E2).
    destruct (KnnFacts.good m0 m tu ti T Nm r1 H1) as (U1 & _). destruct (KnnFacts.good m0 m tu ti T Nm r2 H2) as (_ & I2 & _).
    destruct (dtri_as m0 m tu ti T Nm r1 H1) as (_ & A1 & _ & _). destruct (dtri_as m0 m tu ti T Nm r2 H2) as (_ & _ & A2 & _).
    split.
    + split; [lia|]. split; [lia|]. split.
      * exists (as_trow (m_columns m) r1), u. split; [apply (twin_row d m Tw); eauto|]. split; [rewrite A1; congruence|lia].
      * exists (as_trow (m_columns m) r2), k. split; [apply (twin_row d m Tw); eauto|]. split; [rewrite A2; congruence|lia].
    + intros (row & Hr & Eu & Ek). destruct (rec_rows d m Tw row Hr) as (r & Hr0 & ->). destruct (dtri_as m0 m tu ti T Nm r Hr0) as (_ & A & B & _).
      pose proof (obs_row m0 m tu ti T Nm r Hr0) as O. rewrite A in Eu. rewrite B in Ek. injection Eu as Eu. injection Ek as Ek. unfold t_u in Eu. unfold t_i in Ek.
      destruct (tri r) as [[a c] v]. cbn [fst snd] in *. subst. exact (No v O).
  - right. unfold misses_threshold in Mt. destruct (thr_cases t) as [El|[l El]]; rewrite El in Mt; [destruct Mt|]. destruct Mt as (th & Q & L).
    exists l. split; [exact El|]. destruct (row_obs m0 m tu ti T Nm _ Hx) as (r & Hr & Et).
    assert (In (as_trow (m_columns m) r) (d_rows (restricted d (below l)))) as Hin.
    { apply filter_In. split; [apply (twin_row d m Tw); eauto|]. unfold below. rewrite (row_sat d m0 m tu ti T Nm Tw Ne t Tk _ l r th El Q Hr), Et. cbn [snd op_holds]. assert (Y : (x ?= th)%Qc = Datatypes.Lt) by exact L. rewrite Y. reflexivity. }
    intro Z. rewrite Z in Hin. destruct Hin.
Qed.
Lemma empty_flat : rows_of m0 = [] -> forall {A} (rest : fit_info -> RecDbModel7.T A), exists s' e,
  tbind (step (db_begin_fit inode i false)) rest (n, w0) = (s', Some (Err e)).
Proof.
  intros X A rest. destruct (begin_runs inode w0 b0 i d0 m0 m tu ti R0 S0 H0 Tw0 T Nm Cd0 n) as (s1 & b1 & r & E1 & F1 & X1 & r' & Eb & Sr & St).
  unfold tbind at 1, step at 1. rewrite E1. destruct r as [fi|e]; [|eauto]. exfalso.
  specialize (St fi eq_refl). destruct r' as [fi'|e']; [|destruct Sr]. destruct (stats_counts m0 m tu ti T Nm fi' St) as [Cu Ci]. unfold begin_fit in Eb. rewrite (tr_assign _ _ _ _ T), St in Eb. cbn [bind] in Eb.
  unfold log_initial_info in Eb. rewrite Cu, Ci in Eb. rewrite !n_distinct_length, X in Eb. cbn in Eb. discriminate.
Qed.
Lemma draws_there : (exists u k, negative_pair (obs m) nu np t u k) \/ no_negatives -> rows_of m0 <> [] ->
  some_null d t \/ forall k, (k < epochs * bs)%nat -> ~ (1 < (neg + 1) * dd_label dr k)%Qc.
Proof. intros [(u & k & H)|H] Ne; [left; exact (null_there u k H Ne)|right; exact H]. Qed.
Lemma rows_dec : rows_of m0 = [] \/ rows_of m0 <> [].
Proof. destruct (rows_of m0); [left; auto|right; discriminate]. Qed.
Lemma dmf_returns use_nce : (exists u k, negative_pair (obs m) nu np t u k) \/ no_negatives ->
  exists f0 s' o, forall f, (f0 <= f)%nat -> db_dmf_fit inode ords f neg dr lu li false use_nce (DbGenSpec.thr_text t) epochs bs i (n, w0) = (s', Some o).
Proof.
  intro H. destruct rows_dec as [X|Ne].
  - destruct (begin_runs inode w0 b0 i d0 m0 m tu ti R0 S0 H0 Tw0 T Nm Cd0 n) as (s1 & b1 & r & E1 & _). destruct r as [fi|e].
    + destruct (empty_flat X (fun _ => tret (Ok tt))) as (s2 & e2 & E2). unfold tbind, step in E2. rewrite E1 in E2. discriminate.
    + exists 0%nat, s1, (Err e). intros f _. unfold db_dmf_fit. unfold tbind at 1, step at 1. rewrite E1. reflexivity.
  - unfold db_dmf_fit. apply (fit_ends inode w0 b0 i d0 m0 m tu ti R0 S0 H0 Tw0 T Nm Cd0 t Tk (fun f fi p => db_dmf_batches inode ords f neg dr lu li epochs fi use_nce bs i (p, ([], [])))).
    + intros. apply more_dmf. auto.
    + intros fi fi' p b Ne' St Sf Sk K Kp.
      apply (dmf_ends inode ords Po w0 b0 i d0 m0 m tu ti R0 S0 H0 Tw0 T Nm Cd0 t Tk neg dr lu li Rn Rg Rp (epochs * bs) (draws_there H Ne) Ne fi fi'); auto.
      * apply caches_start.
      * lia.
Qed.
Lemma cdae_returns l th q rnd : t = Some l -> (exists u k, negative_pair (obs m) nu np t u k) \/ no_negatives ->
  exists f0 s' o, forall f, (f0 <= f)%nat -> db_cdae_fit inode ords f neg dr lu false (Some (lit_text l, th)) q rnd epochs bs i (n, w0) = (s', Some o).
Proof.
  intros El H. destruct rows_dec as [X|Ne].
  - destruct (begin_runs inode w0 b0 i d0 m0 m tu ti R0 S0 H0 Tw0 T Nm Cd0 n) as (s1 & b1 & r & E1 & _). destruct r as [fi|e].
    + destruct (empty_flat X (fun _ => tret (Ok tt))) as (s2 & e2 & E2). unfold tbind, step in E2. rewrite E1 in E2. discriminate.
    + exists 0%nat, s1, (Err e). intros f _. unfold db_cdae_fit. unfold tbind at 1, step at 1. rewrite E1. reflexivity.
  - unfold db_cdae_fit. cbn [option_map fst snd]. replace (Some (lit_text l)) with (DbGenSpec.thr_text t) by (rewrite El; reflexivity).
    apply (fit_ends inode w0 b0 i d0 m0 m tu ti R0 S0 H0 Tw0 T Nm Cd0 t Tk (fun f fi p => db_cdae_batches inode ords f neg dr lu epochs (Some th) q rnd bs i p ([], []) 0)).
    + intros. apply more_cdae. auto.
    + intros fi fi' p b Ne' St Sf Sk K Kp.
      apply (cdae_ends inode ords Po w0 b0 i d0 m0 m tu ti R0 S0 H0 Tw0 T Nm Cd0 t Tk neg dr lu li Rn Rg Rp (epochs * bs) (draws_there H Ne) Ne th q rnd bs epochs); auto.
      * congruence.
      * apply caches_start.
      * lia.
Qed.
End Whole.
