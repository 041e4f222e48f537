(** End-to-end facts about fit with MaxValidationValueRule, and standardisation. *)
From Coq Require Import String Ascii.
From Coq Require Import List ZArith QArith Qcanon Bool Lia Lqa.
From Verif Require Import Py PyFacts MemModel MemSpec MemFacts MemFacts4 TrainModel TrainSpec TrainFacts TrainFacts2.
Import ListNotations.
Open Scope string_scope.
Open Scope nat_scope.

(** ** first best epoch *)
Lemma first_best_of_index called (val : nat -> Q) i b v :
  nth_error called i = Some b -> nth_error (map val called) i = Some v ->
  (forall j w, nth_error (map val called) j = Some w -> (w <= v)%Q /\ (j < i -> (w < v)%Q)) ->
  first_best called val b.
Proof.
  intros H1 H2 H3. destruct (nth_error_split _ _ H1) as (l1 & l2 & E & L).
  assert (V : val b = v) by (rewrite (map_nth_error val _ _ H1) in H2; congruence).
  exists l1, l2. split; auto. split; intros e I; rewrite V.
  - apply In_nth_error in I. destruct I as [j J].
    assert (JL : j < length l1) by (apply nth_error_Some; congruence).
    apply (H3 j (val e)); [|lia]. apply map_nth_error. rewrite E, nth_error_app1; auto.
  - apply In_nth_error in I. destruct I as [j J].
    apply (H3 (length l1 + S j) (val e)). apply map_nth_error.
    rewrite E, nth_error_app2 by lia. replace (length l1 + S j - length l1) with (S j) by lia. exact J.
Qed.

Section Max.
Variable W : Type.
Variable cfg : config W.
Variable s0 : store W.
Variable cb : nat -> store W -> list (string * Q).
Variable names : list string.
Variable metric k : string.
Hypothesis Hcb : c_callback cfg = Some cb.
Hypothesis Hfreq : 1 <= c_cb_freq cfg.
Hypothesis Hes : 1 <= c_es_freq cfg.
Hypothesis Hrule : c_rule cfg = Some (max_rule metric).
Hypothesis Hrep : reports cb names.
Hypothesis Hnd : NoDup names.
Hypothesis Hk : chosen_name metric names k.

Notation HH := (hist W cfg s0).
Notation CC := (comp W cfg s0 (max_rule metric)).

Lemma names_ne : names <> [].
Proof. intros E. rewrite E in Hk. destruct Hk as (l1 & l2 & H & _). destruct l1; discriminate. Qed.

Lemma comp_called n : called_epochs cfg n <> [] ->
  exists b, CC n = Epoch b /\ first_best (called_epochs cfg n) (metric_at cfg s0 cb k) b.
Proof.
  intros NE. destruct (hist_good W cfg s0 cb names Hcb Hfreq Hrep names_ne Hnd n) as (G1 & G2 & G3).
  assert (G4 : t_results (HH n) = map (fun k => (k, map (metric_at cfg s0 cb k) (called_epochs cfg n))) names).
  { rewrite G3. destruct (called_epochs cfg n); [contradiction|reflexivity]. }
  assert (K : map fst (t_results (HH n)) = names).
  { rewrite G4, map_map. cbn [fst]. apply map_id. }
  assert (A : assoc String.eqb k (t_results (HH n)) = Some (map (metric_at cfg s0 cb k) (called_epochs cfg n))).
  { apply (assoc_NoDup _ reflects_string); [rewrite K; auto|]. rewrite G4. apply in_map_iff. exists k. split; auto.
    eapply chosen_in; eauto. }
  destruct (max_compute_chosen metric (t_losses (HH n)) (t_results (HH n)) (t_called (HH n)) k
             (map (metric_at cfg s0 cb k) (called_epochs cfg n))) as (i & b & v & H1 & H2 & H3 & H4); auto.
  - rewrite K. auto.
  - destruct (called_epochs cfg n); [contradiction|discriminate].
  - rewrite map_length, G2. auto.
  - exists b. split; [exact H1|]. rewrite G2 in H2. eapply first_best_of_index; eauto.
Qed.
Lemma comp_uncalled n : called_epochs cfg n = [] -> CC n = Invalid.
Proof.
  intros E. destruct (hist_good W cfg s0 cb names Hcb Hfreq Hrep names_ne Hnd n) as (G1 & G2 & G3).
  unfold comp. simpl. rewrite G3, E. reflexivity.
Qed.
Lemma called_dec n : {called_epochs cfg n = []} + {called_epochs cfg n <> []}.
Proof. destruct (called_epochs cfg n); [left; auto|right; discriminate]. Qed.

Lemma no_stop n : ~ stop_at W cfg s0 (max_rule metric) n.
Proof. intros (_ & b & _ & H). discriminate. Qed.
Lemma last_is_epochs n : last_epoch W cfg s0 (max_rule metric) n -> n = c_epochs cfg.
Proof. intros (_ & [H|H] & _); auto. destruct (no_stop _ H). Qed.

Lemma called_freq n : c_cb_freq cfg <= n -> called_epochs cfg n <> [].
Proof.
  intros H E. assert (I : In (c_cb_freq cfg) (called_epochs cfg n)).
  { unfold called_epochs. apply in_or_app. right. apply filter_In. split; [apply in_seq; lia|].
    rewrite Nat.mod_same by lia. reflexivity. }
  rewrite E in I. destruct I.
Qed.
Lemma called_ne n : (c_verbose cfg = true \/ c_cb_freq cfg <= n) -> called_epochs cfg n <> [].
Proof.
  intros [V|H]; [|apply called_freq; auto]. unfold called_epochs. rewrite V. discriminate.
Qed.

Lemma fit_max_returns : c_cells cfg <> [] -> 1 <= c_epochs cfg ->
  (c_verbose cfg = true \/ c_cb_freq cfg <= c_epochs cfg) -> exists f, fit cfg s0 [] = Ok f.
Proof.
  intros NE E1 V. apply (fit_returns W cfg s0 [] (max_rule metric)); auto.
  - intros n x _ C. destruct (called_dec n) as [D|D]; [rewrite comp_uncalled in C by auto; discriminate|].
    destruct (comp_called n D) as (b & H & _). congruence.
  - intros n b _ C. destruct (called_dec n) as [D|D]; [rewrite comp_uncalled in C by auto; discriminate|].
    destruct (comp_called n D) as (b' & H & (l1 & l2 & L & _)). assert (b = b') by congruence. subst b'.
    eapply (called_le W cfg Hfreq). rewrite L. apply in_or_app; right; left; auto.
  - intros n L _ C. apply last_is_epochs in L. subst n.
    destruct (comp_called (c_epochs cfg)) as (b & H & _); [apply called_ne; auto|]. congruence.
  - intros Vb n _ k' vs I. destruct (hist_good W cfg s0 cb names Hcb Hfreq Hrep names_ne Hnd n) as (G1 & G2 & G3).
    rewrite G2. rewrite G3 in I. destruct (called_epochs cfg n) as [|e es]; [destruct I|].
    apply in_map_iff in I. destruct I as (k2 & E & _). injection E as <- <-. simpl. rewrite map_length. auto.
Qed.

Lemma fit_max_weights f : c_cells cfg <> [] -> NoDup (map fst (c_cells cfg)) ->
  (c_verbose cfg = true \/ c_cb_freq cfg <= c_epochs cfg) ->
  fit cfg s0 [] = Ok f ->
  exists b, first_best (called_epochs cfg (c_epochs cfg)) (metric_at cfg s0 cb k) b /\
    (1 <= b -> forall c, In (c, Tensor) (c_cells cfg) -> f_store f c = weights_after cfg s0 b c) /\
    (b = 0 -> forall c, f_store f c = weights_after cfg s0 (c_epochs cfg) c) /\
    (forall c, In (c, InLayer) (c_cells cfg) -> f_store f c = weights_after cfg s0 (c_epochs cfg) c).
Proof.
  intros NE ND V E.
  destruct (fit_ok W cfg s0 [] (max_rule metric) Hrule Hes ltac:(intros; auto) f NE ND eq_refl E)
    as (n & N & L & T & H1 & H2 & H3 & H4 & H5 & H6 & H7).
  apply last_is_epochs in L. subst n.
  destruct (comp_called (c_epochs cfg)) as (b & C & FB); [apply called_ne; auto|].
  exists b. split; auto. pose proof (H2 b C) as B. split.
  - intros B1 c I. apply H6 with (b := b); auto. split; auto.
    destruct FB as (l1 & l2 & LL & _). eapply (called_le W cfg Hfreq). rewrite LL. apply in_or_app; right; left; auto.
  - split; [intros B0 c; apply (H7 b c B B0)|]. intros c I. apply (H5 b c B I).
Qed.
End Max.

(** without a callback the rule is never satisfied *)
Lemma hist_no_callback W (cfg : config W) s0 n : c_callback cfg = None -> t_results (hist W cfg s0 n) = [].
Proof.
  intros H. induction n as [|n IH]; simpl.
  - rewrite H. destruct (c_verbose cfg); reflexivity.
  - rewrite H. simpl. exact IH.
Qed.
Lemma fit_no_callback W (cfg : config W) s0 metric snaps : c_cells cfg <> [] -> c_callback cfg = None ->
  c_rule cfg = Some (max_rule metric) -> 1 <= c_es_freq cfg -> c_epochs cfg mod c_es_freq cfg = 0 ->
  fit cfg s0 snaps = Err UnboundLocalError.
Proof.
  intros NE C R F D.
  assert (I : forall n, comp W cfg s0 (max_rule metric) n = Invalid).
  { intros n. unfold comp. simpl. rewrite hist_no_callback by auto. reflexivity. }
  apply (fit_unbound W cfg s0 snaps (max_rule metric)); auto.
  - rewrite C. discriminate.
  - intros n x _. rewrite I. discriminate.
Qed.

(** without a rule every epoch is run and nothing is reverted *)
Lemma loop_no_rule W (cfg : config W) s0 : c_rule cfg = None -> c_verbose cfg = false ->
  forall k n f, f_store f = weights_after cfg s0 n -> f_best f = None ->
  exists f', epochs_loop cfg (seq (S n) k) f = Ok f' /\ f_store f' = weights_after cfg s0 (n + k) /\ f_best f' = None.
Proof.
  intros R V. induction k as [|k IH]; intros n f H B; cbn [seq epochs_loop].
  - exists f. rewrite Nat.add_0_r. auto.
  - unfold epoch_step. rewrite H. destruct (c_train cfg (S n) (weights_after cfg s0 n)) as [s l] eqn:T.
    unfold track. rewrite R, V. cbn [bind].
    destruct (IH (S n) (mkF s (f_snaps f ++ [take_snapshot (c_cells cfg) s])%list (f_tracker f) (f_best f) (Some (S n))))
      as (f' & H1 & H2 & H3); cbn [f_store f_best]; auto.
    + simpl. rewrite T. reflexivity.
    + exists f'. split; auto. split; auto. rewrite H2. f_equal. lia.
Qed.
Lemma fit_no_rule W (cfg : config W) s0 snaps : c_rule cfg = None -> c_verbose cfg = false -> c_cells cfg <> [] ->
  exists f, fit cfg s0 snaps = Ok f /\ f_store f = weights_after cfg s0 (c_epochs cfg).
Proof.
  intros R V NE. unfold fit. rewrite V. destruct (c_cells cfg) as [|c0 cs] eqn:CE; [contradiction|].
  destruct (loop_no_rule W cfg s0 R V (c_epochs cfg) 0 (mkF s0 snaps new_tracker None None) eq_refl eq_refl)
    as (f & H1 & H2 & H3).
  rewrite H1. cbn [bind]. unfold after_loop. rewrite R. cbn [bind]. unfold maybe_revert. rewrite H3. cbn [bind].
  unfold display. rewrite V. cbn [bind]. exists f. auto.
Qed.

(** ** standardisation *)
Lemma Qc_this_div (a b : Qc) : (this (a / b)%Qc == this a / this b)%Q.
Proof. unfold Qcdiv, Qcmult, Qcinv, Q2Qc. cbn [this]. rewrite !Qred_correct. reflexivity. Qed.
Lemma Qc_this_minus (a b : Qc) : (this (a - b)%Qc == this a - this b)%Q.
Proof. unfold Qcminus, Qcplus, Qcopp, Q2Qc. cbn [this]. rewrite !Qred_correct. reflexivity. Qed.

Lemma Qc_eq_bool_false (a b : Qc) : a <> b -> Qc_eq_bool a b = false.
Proof. intros N. unfold Qc_eq_bool. destruct (Qc_eq_dec a b); auto. contradiction. Qed.

Lemma standardize_ok lo hi v : (lo < hi)%Qc ->
  standardize (lo, hi) v = Ok ((v - lo) / (hi - lo))%Qc.
Proof.
  intros H. unfold standardize. cbn [fst snd]. rewrite Qc_eq_bool_false; auto.
  intros E. rewrite E in H. exact (Qclt_not_eq _ _ H eq_refl).
Qed.
Lemma div_pos (a d : Q) : (0 < d)%Q -> (0 <= a)%Q -> (0 <= a / d)%Q.
Proof. intros D A. apply Qle_shift_div_l; auto. lra. Qed.

Lemma standardize_range lo hi v : (lo < hi)%Qc -> (lo <= v <= hi)%Qc ->
  exists s, standardize (lo, hi) v = Ok s /\ (0 <= s <= 1)%Qc /\ rescale (lo, hi) s = v.
Proof.
  intros H [V1 V2]. rewrite (standardize_ok _ _ _ H). eexists. split; [reflexivity|]. split.
  - unfold Qclt, Qcle in *. rewrite !Qc_this_div, !Qc_this_minus.
    change (this 0%Qc) with 0%Q. change (this 1%Qc) with 1%Q. split.
    + apply Qle_shift_div_l; lra.
    + apply Qle_shift_div_r; lra.
  - unfold rescale. cbn [fst snd]. field. intros E. apply (Qclt_not_eq _ _ H).
    replace hi with (lo + (hi - lo))%Qc by ring. rewrite E. ring.
Qed.
Lemma standardize_mono lo hi v w sv sw : (lo < hi)%Qc -> (v < w)%Qc ->
  standardize (lo, hi) v = Ok sv -> standardize (lo, hi) w = Ok sw -> (sv < sw)%Qc.
Proof.
  intros H VW. rewrite !(standardize_ok _ _ _ H). intros E1 E2. injection E1 as <-. injection E2 as <-.
  unfold Qclt in *. rewrite !Qc_this_div, !Qc_this_minus.
  apply Qlt_shift_div_l; [lra|].
  assert (E : ((this v - this lo) / (this hi - this lo) * (this hi - this lo) == this v - this lo)%Q) by (field; lra).
  rewrite E. lra.
Qed.
Lemma rescale_standardize lo hi s : (lo < hi)%Qc -> standardize (lo, hi) (rescale (lo, hi) s) = Ok s.
Proof.
  intros H. rewrite (standardize_ok _ _ _ H). f_equal. unfold rescale. cbn [fst snd]. field.
  intros E. apply (Qclt_not_eq _ _ H). replace hi with (lo + (hi - lo))%Qc by ring. rewrite E. ring.
Qed.

Lemma num_of_num v : num_of v <> None -> num_of v = Some (num v).
Proof. unfold num. destruct (num_of v); auto. contradiction. Qed.

Lemma interaction_range_ok m t : wf_mem m -> In "interaction" (m_columns m) -> col_type m "interaction" = Ok t ->
  t <> DObj -> rows_of m <> [] ->
  exists lo hi, interaction_range m = Ok (lo, hi) /\ (lo <= hi)%Qc /\
    (forall r v, In r (rows_of m) -> row_val r "interaction" = Some v -> (lo <= num v <= hi)%Qc) /\
    (exists r v, In r (rows_of m) /\ row_val r "interaction" = Some v /\ num v = hi) /\
    (lo = 0%Qc \/ exists r v, In r (rows_of m) /\ row_val r "interaction" = Some v /\ num v = lo).
Proof.
  intros Wf Hc T Nt NE.
  destruct (min_spec m _ t Wf Hc T Nt NE) as (a & ra & A1 & A2 & A3 & A4).
  destruct (max_spec m _ t Wf Hc T Nt NE) as (b & rb & B1 & B2 & B3 & B4).
  assert (NN : forall r v, In r (rows_of m) -> row_val r "interaction" = Some v -> num_of v = Some (num v)).
  { intros r v I E. apply num_of_num. apply type_num with (t := t); auto.
    apply (row_val_or_in m "interaction" t v Wf T). apply in_map_iff. exists r. split; auto.
    unfold row_val_or. rewrite E. reflexivity. }
  pose proof (NN _ _ A2 A3) as NA. pose proof (NN _ _ B2 B3) as NB.
  unfold interaction_range. rewrite A1. cbn [bind]. rewrite B1. cbn [bind]. rewrite NA, NB.
  assert (LE : ((if Qc_eq_bool (num a) 1 then 0%Qc else num a) <= num a)%Qc).
  { destruct (Qc_eq_bool (num a) 1) eqn:E; [|apply Qcle_refl]. apply Qc_eq_bool_correct in E. rewrite E. discriminate. }
  eexists _, _. split; [reflexivity|]. split; [eapply Qcle_trans; [exact LE|exact (B4 ra a A2 A3)]|]. split.
  - intros r v I E. split; [eapply Qcle_trans; [exact LE|eapply A4; eauto]|eapply B4; eauto].
  - split; [exists rb, b; auto|]. destruct (Qc_eq_bool (num a) 1); [left; auto|right]. exists ra, a. auto.
Qed.

(** ** the general statement in terms of [picks] *)
Lemma comp_picks W (cfg : config W) s0 cb names r n b :
  c_callback cfg = Some cb -> 1 <= c_cb_freq cfg -> reports cb names -> names <> [] -> NoDup names ->
  (comp W cfg s0 r n = Epoch b <-> picks cfg s0 r cb names n b).
Proof.
  intros C F R N D. destruct (hist_good W cfg s0 cb names C F R N D n) as (G1 & G2 & G3).
  unfold comp, picks, history. rewrite G1, G2, G3. reflexivity.
Qed.

Lemma fit_weights W (cfg : config W) s0 r cb names f :
  c_rule cfg = Some r -> 1 <= c_es_freq cfg ->
  c_callback cfg = Some cb -> 1 <= c_cb_freq cfg -> reports cb names -> names <> [] -> NoDup names ->
  c_cells cfg <> [] -> NoDup (map fst (c_cells cfg)) ->
  fit cfg s0 [] = Ok f ->
  exists n, 1 <= n <= c_epochs cfg /\
    (n = c_epochs cfg \/
     (n mod c_es_freq cfg = 0 /\ exists b, picks cfg s0 r cb names n b /\ r_stop r n b (c_epochs cfg) = true)) /\
    (forall m b, 1 <= m < n -> m mod c_es_freq cfg = 0 -> picks cfg s0 r cb names m b ->
       r_stop r m b (c_epochs cfg) = false) /\
    (forall b, picks cfg s0 r cb names n b -> 1 <= b <= n ->
       forall c, In (c, Tensor) (c_cells cfg) -> f_store f c = weights_after cfg s0 b c) /\
    (forall c, In (c, InLayer) (c_cells cfg) -> f_store f c = weights_after cfg s0 n c).
Proof.
  intros R E C F RP N D NE ND H.
  destruct (fit_ok W cfg s0 [] r R E ltac:(intros; auto) f NE ND eq_refl H)
    as (n & N1 & L & T & H1 & H2 & H3 & H4 & H5 & H6 & H7).
  pose proof (fun n b => comp_picks W cfg s0 cb names r n b C F RP N D) as P.
  destruct L as (L1 & L2 & L3). exists n. split; auto. split; [|split; [|split]].
  - destruct L2 as [L2|(D2 & b & B1 & B2)]; auto. right. split; auto. exists b. split; auto. apply P; auto.
  - intros m b M Dm Pb. destruct (r_stop r m b (c_epochs cfg)) eqn:S; auto. exfalso.
    apply (L3 m M). split; auto. exists b. split; auto. apply P; auto.
  - intros b Pb B c I. apply P in Pb. apply (H6 b c (H2 b Pb) B I).
  - intros c I. destruct (f_best f) as [b|] eqn:B; [apply (H5 b c eq_refl I)|]. rewrite (H4 eq_refl). reflexivity.
Qed.
