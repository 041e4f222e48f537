(** Facts about fit: the epochs that are run, what the rule is given, and the
    weights at the end. *)
From Coq Require Import String Ascii.
From Coq Require Import List ZArith QArith Qcanon Bool Lia.
From Verif Require Import Py PyFacts MemModel TrainModel TrainSpec TrainFacts.
Import ListNotations.
Open Scope string_scope.
Open Scope nat_scope.

(** ** snapshots *)
Section Snap.
Variable W : Type.
Implicit Types s : store W.

Lemma assign_all_other cells : forall snap s c, ~ In c (map fst cells) -> assign_all s cells snap c = s c.
Proof.
  induction cells as [|[c' k] cells IH]; intros snap s c N; destruct snap as [|x snap]; simpl; auto.
  simpl in N. rewrite IH by tauto. unfold set_cell. destruct (c =? c') eqn:E; auto.
  apply Nat.eqb_eq in E. subst. exfalso; auto.
Qed.

(** reverting to a snapshot of [s']: tensors get their values, the variables of
    layers keep theirs *)
Lemma assign_all_snapshot cells s' : NoDup (map fst cells) -> forall s c k, In (c, k) cells ->
  assign_all s cells (take_snapshot cells s') c = match k with Tensor => s' c | InLayer => s c end.
Proof.
  induction cells as [|[c' k'] cells IH]; intros N s c k H; [destruct H|].
  simpl in N. inversion N as [|? ? N1 N2]; subst. cbn [take_snapshot map fst snd assign_all].
  fold (take_snapshot cells s').
  destruct H as [H|H].
  - injection H as -> ->. rewrite assign_all_other by auto. unfold set_cell. rewrite Nat.eqb_refl.
    destruct k; reflexivity.
  - rewrite (IH N2 _ c k H). destruct k; auto. unfold set_cell.
    destruct (c =? c') eqn:E; auto. apply Nat.eqb_eq in E. subst. exfalso. apply N1.
    apply in_map_iff. exists (c', InLayer). auto.
Qed.

Lemma snapshot_at_nth (snaps : list (snapshot W)) n b x : 1 <= b -> nth_error snaps (b - 1) = Some x ->
  n = b -> snapshot_at snaps n = Ok x.
Proof. intros H E ->. unfold snapshot_at. destruct b; [lia|]. simpl in E. rewrite Nat.sub_0_r in E. rewrite E. reflexivity. Qed.
End Snap.

(** ** the loop *)
Section Loop.
Variable W : Type.
Variable cfg : config W.
Variable s0 : store W.
Variable snaps0 : list (snapshot W).
Variable r : rule.
Hypothesis Hr : c_rule cfg = Some r.
Hypothesis Hes : 1 <= c_es_freq cfg.
Hypothesis Hcb : forall cb, c_callback cfg = Some cb -> 1 <= c_cb_freq cfg.

Fixpoint hist (n : nat) : tracker :=
  match n with
  | O => match c_verbose cfg, c_callback cfg with
         | true, Some cb => add_all (cb 0 s0) 0 new_tracker
         | _, _ => new_tracker
         end
  | S n' =>
      let t := add_epoch_loss (loss_of cfg s0 n) (hist n') in
      match c_callback cfg with
      | None => t
      | Some cb => if n mod c_cb_freq cfg =? 0 then add_all (cb n (weights_after cfg s0 n)) n t else t
      end
  end.
Definition comp (n : nat) : computed := r_compute r (t_losses (hist n)) (t_results (hist n)) (t_called (hist n)).
Definition es_div (n : nat) : Prop := n mod c_es_freq cfg = 0.
Definition stop_at (n : nat) : Prop := es_div n /\ exists b, comp n = Epoch b /\ r_stop r n b (c_epochs cfg) = true.
Definition snaps_upto (n : nat) : list (snapshot W) :=
  (snaps0 ++ map (fun e => take_snapshot (c_cells cfg) (weights_after cfg s0 e)) (seq 1 n))%list.

Record Inv (n : nat) (f : fstate W) : Prop := mkInv {
  I_store : f_store f = weights_after cfg s0 n;
  I_snaps : f_snaps f = snaps_upto n;
  I_track : f_tracker f = hist n;
  I_best : forall b, f_best f = Some b -> exists k, 1 <= k <= n /\ comp k = Epoch b;
  I_now : 1 <= n -> es_div n ->
          (forall b, comp n = Epoch b -> f_best f = Some b /\ f_e f = Some n) /\
          (comp n = Invalid -> f_e f = None) /\ (forall x, comp n <> Fails x);
  I_e : 1 <= n -> ~ es_div n -> f_e f = Some n;
  I_0 : n = 0 -> f_e f = None }.

Lemma divides_pos freq e : 1 <= freq -> divides freq e = Ok (e mod freq =? 0).
Proof. intros H. unfold divides. destruct freq; [lia|reflexivity]. Qed.

Lemma snaps_upto_S n : snaps_upto (S n) =
  (snaps_upto n ++ [take_snapshot (c_cells cfg) (weights_after cfg s0 (S n))])%list.
Proof. unfold snaps_upto. rewrite seq_S, map_app, app_assoc. reflexivity. Qed.

Lemma track_hist n : track cfg (S n) (loss_of cfg s0 (S n)) (weights_after cfg s0 (S n)) (hist n) = Ok (hist (S n)).
Proof.
  unfold track. rewrite Hr. simpl hist.
  destruct (c_callback cfg) as [cb|] eqn:C.
  - rewrite (divides_pos _ _ (Hcb cb eq_refl)). destruct (c_verbose cfg); reflexivity.
  - destruct (c_verbose cfg); reflexivity.
Qed.

Lemma epoch_step_cases n f : Inv n f ->
  (exists f' brk, epoch_step cfg (S n) f = Ok (f', brk) /\ Inv (S n) f' /\
                  (brk = true <-> stop_at (S n))) \/
  (es_div (S n) /\ exists x, comp (S n) = Fails x /\ epoch_step cfg (S n) f = Err x).
Proof.
  intros I. unfold epoch_step. rewrite (I_store _ _ I).
  assert (T : c_train cfg (S n) (weights_after cfg s0 n) =
              (weights_after cfg s0 (S n), loss_of cfg s0 (S n))).
  { unfold loss_of. simpl. rewrite Nat.sub_0_r. apply surjective_pairing. }
  rewrite T, (I_track _ _ I), track_hist. cbn [bind]. rewrite Hr, (divides_pos _ _ Hes). cbn [bind].
  rewrite (I_snaps _ _ I), <- snaps_upto_S.
  assert (B : forall b, f_best f = Some b -> exists k, 1 <= k <= S n /\ comp k = Epoch b).
  { intros b H. destruct (I_best _ _ I b H) as (k & K & C). exists k. split; auto. lia. }
  destruct (S n mod c_es_freq cfg =? 0) eqn:D.
  - apply Nat.eqb_eq in D. unfold compute_rule, stops. cbn [f_tracker].
    fold (comp (S n)). destruct (comp (S n)) as [b| |x] eqn:C; cbn [bind].
    + left. eexists _, _. split; [reflexivity|]. split.
      * constructor; cbn [f_store f_snaps f_tracker f_best f_e]; auto; try discriminate.
        -- intros b' H. injection H as <-. exists (S n). split; auto. lia.
        -- intros _ _. split; [|split; congruence]. intros b' H. split; congruence.
      * unfold stop_at. split.
        -- intros H. split; auto. exists b. auto.
        -- intros (_ & b' & H1 & H2). congruence.
    + left. eexists _, _. split; [reflexivity|]. split.
      * constructor; cbn [f_store f_snaps f_tracker f_best f_e]; auto; try discriminate.
        -- intros _ _. split; [congruence|]. split; [auto|]. congruence.
        -- intros _ N. contradiction.
      * unfold stop_at. split; [discriminate|]. intros (_ & b' & H1 & H2). congruence.
    + right. split; auto. exists x. auto.
  - apply Nat.eqb_neq in D. left. eexists _, _. split; [reflexivity|]. split.
    + constructor; cbn [f_store f_snaps f_tracker f_best f_e]; auto; try discriminate.
      intros _ N. contradiction.
    + split; [discriminate|]. intros (H & _). contradiction.
Qed.

Lemma loop_cases : forall k n f, Inv n f ->
  (exists n' f', n <= n' <= n + k /\ epochs_loop cfg (seq (S n) k) f = Ok f' /\ Inv n' f' /\
     (n' = n + k \/ (n < n' /\ stop_at n')) /\ (forall m, n < m < n' -> ~ stop_at m)) \/
  (exists n' x, n < n' <= n + k /\ es_div n' /\ comp n' = Fails x /\ epochs_loop cfg (seq (S n) k) f = Err x).
Proof.
  induction k as [|k IH]; intros n f I; cbn [seq epochs_loop].
  - left. exists n, f. split; [lia|]. split; auto. split; auto. split; [left; lia|]. intros m H; lia.
  - destruct (epoch_step_cases n f I) as [(f' & brk & E & I' & B)|(D & x & C & E)]; rewrite E; cbn [bind].
    + destruct brk.
      * left. exists (S n), f'. split; [lia|]. split; auto. split; auto.
        split; [right; split; [lia|]; apply B; auto|]. intros m H; lia.
      * assert (NS : ~ stop_at (S n)) by (intros H; apply B in H; discriminate).
        destruct (IH (S n) f' I') as [(n' & f2 & H1 & H2 & H3 & H4 & H5)|(n' & x & H1 & H2 & H3 & H4)].
        -- left. exists n', f2. split; [lia|]. split; auto. split; auto. split; [lia || (destruct H4 as [H4|[H4 H6]]; [left; lia|right; split; auto; lia])|].
           intros m H. destruct (Nat.eq_dec m (S n)) as [->|M]; auto. apply H5. lia.
        -- right. exists n', x. split; [lia|]. auto.
    + right. exists (S n), x. split; [lia|]. auto.
Qed.

Lemma Inv_start : Inv 0 (mkF s0 snaps0 (hist 0) None None).
Proof.
  constructor; cbn [f_store f_snaps f_tracker f_best f_e]; auto; try discriminate; try lia.
  unfold snaps_upto. simpl. rewrite app_nil_r. reflexivity.
Qed.

(** the last epoch that is run *)
Definition last_epoch (n : nat) : Prop :=
  n <= c_epochs cfg /\ (n = c_epochs cfg \/ stop_at n) /\ forall m, 1 <= m < n -> ~ stop_at m.

Lemma fit_unfold : c_cells cfg <> [] ->
  fit cfg s0 snaps0 =
  (f <- epochs_loop cfg (seq 1 (c_epochs cfg)) (mkF s0 snaps0 (hist 0) None None) ;;
   f <- after_loop cfg f ;; f <- maybe_revert cfg f ;; _ <- display cfg f ;; Ok f).
Proof. intros H. unfold fit. simpl hist. destruct (c_cells cfg); [contradiction|reflexivity]. Qed.

(** the state when the rule has been applied for the last time *)
Lemma before_revert n f : Inv n f -> 1 <= n ->
  (exists f', after_loop cfg f = Ok f' /\ f_store f' = weights_after cfg s0 n /\ f_snaps f' = snaps_upto n /\
     f_tracker f' = hist n /\
     (comp n = Invalid -> ~ es_div n) /\ (forall x, comp n <> Fails x) /\
     (forall b, comp n = Epoch b -> f_best f' = Some b) /\
     (forall b, f_best f' = Some b -> exists k, 1 <= k <= n /\ comp k = Epoch b)) \/
  (comp n = Invalid /\ es_div n /\ after_loop cfg f = Err UnboundLocalError) \/
  (~ es_div n /\ exists x, comp n = Fails x /\ after_loop cfg f = Err x).
Proof.
  intros I N. unfold after_loop. rewrite Hr.
  destruct (Nat.eq_dec (n mod c_es_freq cfg) 0) as [D|D].
  - destruct (I_now _ _ I N D) as (H1 & H2 & H3). destruct (comp n) as [b| |x] eqn:C.
    + destruct (H1 b eq_refl) as [E1 E2]. rewrite E2, (divides_pos _ _ Hes). cbn [bind].
      apply Nat.eqb_eq in D. rewrite D. left. exists f. split; auto.
      split; [apply (I_store _ _ I)|]. split; [apply (I_snaps _ _ I)|]. split; [apply (I_track _ _ I)|].
      split; [discriminate|]. split; [discriminate|]. split; [intros b' H; congruence|]. apply (I_best _ _ I).
    + rewrite H2 by auto. right. left. auto.
    + destruct (H3 x eq_refl).
  - rewrite (I_e _ _ I N D), (divides_pos _ _ Hes). cbn [bind]. apply Nat.eqb_neq in D. rewrite D.
    apply Nat.eqb_neq in D. unfold compute_rule. rewrite (I_track _ _ I). fold (comp n).
    destruct (comp n) as [b| |x] eqn:C.
    + left. eexists. split; [reflexivity|]. cbn [f_store f_snaps f_tracker f_best f_e].
      split; [apply (I_store _ _ I)|]. split; [apply (I_snaps _ _ I)|]. split; auto.
      split; [discriminate|]. split; [discriminate|]. split; [intros b' H; congruence|].
      intros b' H. injection H as <-. exists n. split; auto.
    + left. eexists. split; [reflexivity|]. cbn [f_store f_snaps f_tracker f_best f_e].
      split; [apply (I_store _ _ I)|]. split; [apply (I_snaps _ _ I)|]. split; auto.
      split; [auto|]. split; [discriminate|]. split; [discriminate|]. apply (I_best _ _ I).
    + right. right. split; auto. exists x. auto.
Qed.

Lemma bind_ok {A B} (x : res A) (f : A -> res B) y : (v <- x ;; f v) = Ok y -> exists v, x = Ok v /\ f v = Ok y.
Proof. destruct x as [v|e]; simpl; [|discriminate]. intros H; exists v; auto. Qed.

(** what a fit that returns has done *)
Lemma fit_ok f : c_cells cfg <> [] -> NoDup (map fst (c_cells cfg)) -> snaps0 = [] ->
  fit cfg s0 snaps0 = Ok f ->
  exists n, 1 <= n /\ last_epoch n /\ f_tracker f = hist n /\
    (comp n = Invalid -> ~ es_div n) /\
    (forall b, comp n = Epoch b -> f_best f = Some b) /\
    (forall b, f_best f = Some b -> exists k, 1 <= k <= n /\ comp k = Epoch b) /\
    (f_best f = None -> f_store f = weights_after cfg s0 n) /\
    (forall b c, f_best f = Some b -> In (c, InLayer) (c_cells cfg) -> f_store f c = weights_after cfg s0 n c) /\
    (forall b c, f_best f = Some b -> 1 <= b <= n -> In (c, Tensor) (c_cells cfg) ->
       f_store f c = weights_after cfg s0 b c) /\
    (forall b c, f_best f = Some b -> b = 0 -> f_store f c = weights_after cfg s0 n c).
Proof.
  intros NE ND S0 E. rewrite (fit_unfold NE) in E.
  destruct (loop_cases (c_epochs cfg) 0 _ Inv_start) as [(n & f1 & H1 & H2 & H3 & H4 & H5)|(n & x & H1 & H2 & H3 & H4)];
    [rewrite H2 in E|rewrite H4 in E; discriminate].
  cbn [bind] in E.
  assert (N : 1 <= n).
  { destruct n; [|lia]. exfalso. unfold after_loop in E. rewrite Hr, (I_0 _ _ H3 eq_refl) in E. discriminate. }
  destruct (before_revert n f1 H3 N) as [(f2 & A1 & A2 & A3 & A4 & A5 & A6 & A7 & A8)|[(C & D & A)|(D & x & C & A)]];
    [rewrite A1 in E|rewrite A in E; discriminate|rewrite A in E; discriminate].
  cbn [bind] in E. apply bind_ok in E. destruct E as (f3 & E1 & E2). apply bind_ok in E2.
  destruct E2 as (u & _ & E2). injection E2 as ->.
  exists n. split; auto. split.
  { split; [lia|]. split; [destruct H4 as [H4|[_ H4]]; [left; lia|auto]|]. intros m M. apply H5. lia. }
  unfold maybe_revert in E1. destruct (f_best f2) as [b|] eqn:B.
  - destruct (b =? c_epochs cfg) eqn:Q.
    + apply Nat.eqb_eq in Q. injection E1 as <-. split; auto. split; auto. rewrite B. split; auto. split; auto.
      split; [discriminate|].
      split; [intros b' c _ _; rewrite A2; auto|].
      split.
      * intros b' c H L _. injection H as <-. rewrite A2. assert (n = b) by lia. congruence.
      * intros b' c _ _. rewrite A2. auto.
    + apply bind_ok in E1. destruct E1 as (snap & E1 & E3). injection E3 as <-.
      cbn [f_store f_snaps f_tracker f_best f_e]. split; auto. split; auto. split; [exact A7|].
      split; [exact A8|]. split; [discriminate|].
      rewrite A3 in E1. unfold snaps_upto in E1. rewrite S0 in E1. simpl app in E1.
      set (g := fun e => take_snapshot (c_cells cfg) (weights_after cfg s0 e)) in *.
      assert (S1 : forall k, 1 <= k <= n -> nth_error (map g (seq 1 n)) (k - 1) = Some (g k)).
      { intros k K. erewrite map_nth_error; [reflexivity|]. rewrite (nth_error_nth' _ 0) by (rewrite seq_length; lia).
        rewrite seq_nth by lia. f_equal. lia. }
      assert (S2 : exists k, snap = g k /\ 1 <= k <= n /\ (1 <= b <= n -> k = b) /\ (b = 0 -> k = n)).
      { destruct b as [|b'].
        - exists n. unfold snapshot_at in E1. destruct n as [|n']; [lia|].
          rewrite seq_S, map_app, rev_app_distr in E1. simpl in E1. injection E1 as <-.
          split; [reflexivity|]. split; [lia|]. split; [lia|auto].
        - assert (K : S b' <= n).
          { unfold snapshot_at in E1. destruct (nth_error (map g (seq 1 n)) b') eqn:Z; [|discriminate].
            assert (b' < length (map g (seq 1 n))) by (apply nth_error_Some; congruence).
            rewrite map_length, seq_length in *. lia. }
          exists (S b'). unfold snapshot_at in E1. specialize (S1 (S b')). simpl in S1. rewrite Nat.sub_0_r in S1.
          rewrite S1 in E1 by lia. injection E1 as <-. split; auto. split; [lia|]. split; auto. lia. }
      destruct S2 as (k & -> & K1 & K2 & K3).
      split; [intros b' c _ H; unfold g; rewrite (assign_all_snapshot _ _ _ ND _ c _ H), A2; auto|].
      split.
      * intros b' c H L I. injection H as <-. unfold g. rewrite (assign_all_snapshot _ _ _ ND _ c _ I). rewrite K2 by auto. auto.
      * intros b' c H Z. injection H as <-. rewrite (K3 Z). unfold g.
        destruct (in_dec Nat.eq_dec c (map fst (c_cells cfg))) as [I|I].
        -- apply in_map_iff in I. destruct I as ([c' kd] & <- & I). simpl.
           rewrite (assign_all_snapshot _ _ _ ND _ c' _ I), A2. destruct kd; auto.
        -- rewrite (assign_all_other _ _ _ _ _ I), A2. auto.
  - injection E1 as <-. split; auto. split; auto. split; [rewrite B; auto|]. split; [rewrite B; auto|].
    split; [intros _; auto|]. rewrite B. split; [discriminate|]. split; discriminate.
Qed.

(** when fit returns *)
Lemma fit_returns : c_cells cfg <> [] -> 1 <= c_epochs cfg -> snaps0 = [] ->
  (forall n x, 1 <= n <= c_epochs cfg -> comp n <> Fails x) ->
  (forall n b, 1 <= n <= c_epochs cfg -> comp n = Epoch b -> b <= n) ->
  (forall n, last_epoch n -> es_div n -> comp n <> Invalid) ->
  (c_verbose cfg = true -> forall n, n <= c_epochs cfg -> forall k vs, In (k, vs) (t_results (hist n)) ->
     length vs = length (t_called (hist n))) ->
  exists f, fit cfg s0 snaps0 = Ok f.
Proof.
  intros NE E1 S0 HF HB HI HD. rewrite (fit_unfold NE).
  destruct (loop_cases (c_epochs cfg) 0 _ Inv_start) as [(n & f1 & H1 & H2 & H3 & H4 & H5)|(n & x & H1 & H2 & H3 & H4)].
  2: { exfalso. apply (HF n x); auto; lia. }
  rewrite H2. cbn [bind]. assert (N : 1 <= n) by (destruct H4 as [H4|[H4 _]]; lia).
  assert (LE : last_epoch n).
  { split; [lia|]. split; [destruct H4 as [H4|[_ H4]]; [left; lia|auto]|]. intros m M. apply H5. lia. }
  destruct (before_revert n f1 H3 N) as [(f2 & A1 & A2 & A3 & A4 & A5 & A6 & A7 & A8)|[(C & D & A)|(D & x & C & A)]].
  2: { exfalso. apply (HI n); auto. }
  2: { exfalso. apply (HF n x); auto; lia. }
  rewrite A1. cbn [bind].
  assert (DD : forall f, f_tracker f = hist n -> display cfg f = Ok tt).
  { intros f Hf. unfold display. destruct (c_verbose cfg) eqn:V; auto. rewrite Hf.
    assert (forallb (fun p : string * list Q => length (snd p) =? length (t_called (hist n))) (t_results (hist n)) = true).
    { apply forallb_forall. intros [k vs] H. apply Nat.eqb_eq. simpl. eapply (HD eq_refl n); [lia|exact H]. }
    rewrite H. reflexivity. }
  unfold maybe_revert. destruct (f_best f2) as [b|] eqn:B.
  - destruct (b =? c_epochs cfg); [cbn [bind]; rewrite (DD _ A4); eexists; reflexivity|].
    destruct (A8 b eq_refl) as (k & K & C). assert (b <= n) by (specialize (HB k b ltac:(lia) C); lia).
    rewrite A3. unfold snaps_upto, snapshot_at. rewrite S0. simpl app.
    set (g := fun e => take_snapshot (c_cells cfg) (weights_after cfg s0 e)).
    destruct b as [|b'].
    + destruct n as [|n']; [lia|]. rewrite seq_S, map_app, rev_app_distr. simpl. cbn [bind].
      rewrite DD by exact A4. eexists; reflexivity.
    + destruct (nth_error (map g (seq 1 n)) b') eqn:Z.
      * cbn [bind]. rewrite DD by exact A4. eexists; reflexivity.
      * apply nth_error_None in Z. rewrite map_length, seq_length in Z. lia.
  - cbn [bind]. rewrite (DD _ A4). eexists; reflexivity.
Qed.

(** when it raises UnboundLocalError *)
Lemma fit_unbound : c_cells cfg <> [] ->
  (forall n x, 1 <= n <= c_epochs cfg -> comp n <> Fails x) ->
  (forall n, 1 <= n <= c_epochs cfg -> comp n = Invalid) -> es_div (c_epochs cfg) ->
  fit cfg s0 snaps0 = Err UnboundLocalError.
Proof.
  intros NE HF HI D. rewrite (fit_unfold NE).
  destruct (loop_cases (c_epochs cfg) 0 _ Inv_start) as [(n & f1 & H1 & H2 & H3 & H4 & H5)|(n & x & H1 & H2 & H3 & H4)].
  2: { exfalso. apply (HF n x); auto; lia. }
  rewrite H2. cbn [bind].
  assert (n = c_epochs cfg).
  { destruct H4 as [H4|[H4 (_ & b & C & _)]]; [lia|]. rewrite HI in C by lia. discriminate. }
  assert (EN : f_e f1 = None).
  { destruct (Nat.eq_dec n 0) as [Z|Z]; [apply (I_0 _ _ H3 Z)|].
    assert (D' : es_div n) by congruence.
    destruct (I_now _ _ H3 ltac:(lia) D') as (_ & G & _). apply G. apply HI. lia. }
  unfold after_loop. rewrite Hr, EN. reflexivity.
Qed.
End Loop.

(** ** what the tracker holds *)
Lemma add_all_losses d e : forall t, t_losses (add_all d e t) = t_losses t /\ t_avg (add_all d e t) = t_avg t.
Proof. induction d as [|p d IH]; intros t; [auto|]. change (add_all (p :: d) e t) with (add_all d e (add_callback_result (fst p) (snd p) e t)). rewrite !(proj1 (IH _)), !(proj2 (IH _)). auto. Qed.

Lemma last_lt_snoc l e : last_lt (l ++ [e])%list e = false.
Proof. unfold last_lt. rewrite rev_app_distr. simpl. apply Nat.ltb_irrefl. Qed.

Lemma add_all_called d e : forall t, d <> [] -> last_lt (t_called t) e = true ->
  t_called (add_all d e t) = (t_called t ++ [e])%list.
Proof.
  assert (K : forall d t, last_lt (t_called t) e = false -> t_called (add_all d e t) = t_called t).
  { induction d0 as [|p d0 IH]; intros t H; [auto|].
    change (add_all (p :: d0) e t) with (add_all d0 e (add_callback_result (fst p) (snd p) e t)).
    assert (E : t_called (add_callback_result (fst p) (snd p) e t) = t_called t).
    { unfold add_callback_result. cbn [t_called]. rewrite H. reflexivity. }
    rewrite IH; rewrite E; auto. }
  intros t N L. destruct d as [|p d]; [contradiction|].
  change (add_all (p :: d) e t) with (add_all d e (add_callback_result (fst p) (snd p) e t)).
  assert (E : t_called (add_callback_result (fst p) (snd p) e t) = (t_called t ++ [e])%list).
  { unfold add_callback_result. cbn [t_called]. rewrite L. reflexivity. }
  rewrite K; rewrite E; auto. apply last_lt_snoc.
Qed.

(** values reported so far under a name *)
Definition vals_of (R : list (string * list Q)) (k : string) : list Q :=
  match assoc String.eqb k R with Some l => l | None => [] end.

Lemma add_all_results d e : forall t, NoDup (map fst d) ->
  (forall k, vals_of (t_results (add_all d e t)) k =
     (vals_of (t_results t) k ++ match assoc String.eqb k d with Some v => [v] | None => [] end)%list) /\
  map fst (t_results (add_all d e t)) =
    (map fst (t_results t) ++ filter (fun k => negb (mem_b String.eqb k (map fst (t_results t)))) (map fst d))%list.
Proof.
  induction d as [|[k0 v0] d IH]; intros t ND.
  - simpl. split; [intros k; rewrite app_nil_r; auto|]. rewrite app_nil_r. auto.
  - change (add_all ((k0, v0) :: d) e t) with (add_all d e (add_callback_result k0 v0 e t)).
    simpl in ND. inversion ND as [|? ? N1 N2]; subst. destruct (IH (add_callback_result k0 v0 e t) N2) as [H1 H2].
    set (t' := add_callback_result k0 v0 e t) in *.
    assert (R : t_results t' = assoc_set String.eqb k0 (vals_of (t_results t) k0 ++ [v0])%list (t_results t)) by reflexivity.
    split.
    + intros k. rewrite H1. cbn [assoc].
      assert (V : vals_of (t_results t') k = (vals_of (t_results t) k ++ if String.eqb k k0 then [v0] else [])%list).
      { rewrite R. unfold vals_of. destruct (String.eqb k k0) eqn:E.
        - apply String.eqb_eq in E. subst k. rewrite (assoc_set_same _ reflects_string). reflexivity.
        - apply String.eqb_neq in E. rewrite (assoc_set_other _ reflects_string), app_nil_r by auto. reflexivity. }
      rewrite V, <- app_assoc. f_equal. destruct (String.eqb k k0) eqn:E; auto.
      apply String.eqb_eq in E. subst k.
      assert (A : assoc String.eqb k0 d = None).
      { destruct (assoc String.eqb k0 d) eqn:A; auto. exfalso. apply N1.
        apply in_map_iff. exists (k0, q). split; auto. revert A. clear. induction d as [|[a b] d IH]; simpl; [discriminate|].
        destruct (String.eqb k0 a) eqn:E; auto. apply String.eqb_eq in E. intros H. left. congruence. }
      rewrite A. reflexivity.
    + rewrite H2, R. cbn [map fst filter]. destruct (mem_b String.eqb k0 (map fst (t_results t))) eqn:M; cbn [negb].
      * apply (mem_b_In _ reflects_string) in M. rewrite (assoc_set_keys _ reflects_string) by auto. reflexivity.
      * apply (mem_b_false _ reflects_string) in M. rewrite (assoc_set_keys_new _ reflects_string) by auto.
        rewrite map_app. simpl. rewrite <- app_assoc. simpl. f_equal. f_equal.
        apply filter_ext_in. intros k K. f_equal. rewrite mem_b_app. simpl. rewrite orb_false_r.
        destruct (String.eqb k k0) eqn:E; [|apply orb_false_r].
        apply String.eqb_eq in E. subst k. contradiction.
Qed.

Lemma table_ext (R : list (string * list Q)) names : NoDup names -> map fst R = names ->
  R = map (fun k => (k, vals_of R k)) names.
Proof.
  intros ND <-. rewrite map_map. rewrite <- (map_id R) at 1. apply map_ext_in. intros [k vs] H. simpl. f_equal.
  unfold vals_of. rewrite (assoc_NoDup _ reflects_string _ _ _ ND H). reflexivity.
Qed.

Section History.
Variable W : Type.
Variable cfg : config W.
Variable s0 : store W.
Variable cb : nat -> store W -> list (string * Q).
Variable names : list string.
Hypothesis Hcb : c_callback cfg = Some cb.
Hypothesis Hfreq : 1 <= c_cb_freq cfg.
Hypothesis Hrep : reports cb names.
Hypothesis Hnames : names <> [].
Hypothesis Hnd : NoDup names.

Lemma called_epochs_S n : called_epochs cfg (S n) =
  (called_epochs cfg n ++ if S n mod c_cb_freq cfg =? 0 then [S n] else [])%list.
Proof.
  unfold called_epochs. rewrite seq_S, filter_app, app_assoc. reflexivity.
Qed.
Lemma called_le n e : In e (called_epochs cfg n) -> e <= n.
Proof.
  unfold called_epochs. intros H. apply in_app_or in H. destruct H as [H|H].
  - destruct (c_verbose cfg); [destruct H as [<-|[]]; lia|destruct H].
  - apply filter_In in H. destruct H as [H _]. apply in_seq in H. lia.
Qed.
Lemma last_lt_called n : last_lt (called_epochs cfg n) (S n) = true.
Proof.
  unfold last_lt. destruct (rev (called_epochs cfg n)) as [|x l] eqn:E; auto. apply Nat.ltb_lt.
  assert (x <= n); [|lia]. apply called_le. apply in_rev. rewrite E. left; auto.
Qed.

Definition good (n : nat) (t : tracker) : Prop :=
  t_losses t = map (loss_of cfg s0) (seq 1 n) /\ t_called t = called_epochs cfg n /\
  t_results t = match called_epochs cfg n with
                | [] => []
                | es => map (fun k => (k, map (metric_at cfg s0 cb k) es)) names
                end.

Lemma good_call n t es : NoDup names -> last_lt (t_called t) n = true -> t_called t = es ->
  t_results t = match es with [] => [] | es => map (fun k => (k, map (metric_at cfg s0 cb k) es)) names end ->
  let t' := add_all (cb n (weights_after cfg s0 n)) n t in
  t_losses t' = t_losses t /\ t_called t' = (es ++ [n])%list /\
  t_results t' = map (fun k => (k, map (metric_at cfg s0 cb k) (es ++ [n])%list)) names.
Proof.
  intros _ L C R. cbv zeta. set (d := cb n (weights_after cfg s0 n)).
  assert (D : map fst d = names) by apply Hrep.
  split; [apply add_all_losses|]. split.
  - rewrite add_all_called; auto; [rewrite C; auto|]. intros E. rewrite E in D. simpl in D. auto.
  - destruct (add_all_results d n t) as [H1 H2]; [rewrite D; auto|].
    assert (K : map fst (t_results (add_all d n t)) = names).
    { rewrite H2, D, R. destruct es as [|e es].
      - simpl. clear. induction names as [|x l IH]; simpl; [auto|]. f_equal. auto.
      - rewrite map_map. cbn [fst]. rewrite map_id.
        assert (F : filter (fun k => negb (mem_b String.eqb k names)) names = []).
        { assert (G : forall l, incl l names -> filter (fun k => negb (mem_b String.eqb k names)) l = []).
          { induction l as [|x l IH]; intros I; [auto|]. simpl.
            assert (M : mem_b String.eqb x names = true) by (apply (mem_b_In _ reflects_string); apply I; left; auto).
            rewrite M. simpl. apply IH. intros y Y. apply I. right; auto. }
          apply G. intros x X; auto. }
        rewrite F. apply app_nil_r. }
    rewrite (table_ext _ names Hnd K). apply map_ext_in. intros k IK. f_equal. rewrite H1, map_app. simpl.
    assert (A : exists v, assoc String.eqb k d = Some v).
    { rewrite <- D in IK. apply in_map_iff in IK. destruct IK as ([k' v] & E & I). simpl in E. subst k'.
      exists v. apply (assoc_NoDup _ reflects_string); auto. rewrite D; auto. }
    destruct A as [v A]. unfold metric_at at 2. fold d. rewrite A. f_equal.
    rewrite R. unfold vals_of. destruct es as [|e es]; [reflexivity|].
    rewrite (assoc_NoDup _ reflects_string _ k (map (metric_at cfg s0 cb k) (e :: es))); auto.
    + rewrite map_map. cbn [fst]. rewrite map_id. auto.
    + apply in_map_iff. exists k. auto.
Qed.

Lemma hist_good n : good n (hist W cfg s0 n).
Proof.
  induction n as [|n IH].
  - unfold good, called_epochs. simpl. rewrite Hcb. destruct (c_verbose cfg) eqn:V.
    + destruct (good_call 0 new_tracker [] Hnd eq_refl eq_refl eq_refl) as (H1 & H2 & H3).
      simpl in H1, H2, H3. auto.
    + simpl. auto.
  - destruct IH as (I1 & I2 & I3). cbn [hist]. rewrite Hcb.
    set (t := add_epoch_loss (loss_of cfg s0 (S n)) (hist W cfg s0 n)).
    assert (T1 : t_losses t = map (loss_of cfg s0) (seq 1 (S n))).
    { unfold t, add_epoch_loss. cbn [t_losses]. rewrite I1, seq_S, map_app. reflexivity. }
    assert (T2 : t_called t = called_epochs cfg n) by exact I2.
    assert (T3 : t_results t = match called_epochs cfg n with [] => [] | es => map (fun k => (k, map (metric_at cfg s0 cb k) es)) names end) by exact I3.
    unfold good. rewrite called_epochs_S. destruct (S n mod c_cb_freq cfg =? 0) eqn:D.
    + assert (L : last_lt (t_called t) (S n) = true) by (rewrite T2; apply last_lt_called).
      assert (T4 : t_results t = match called_epochs cfg n with [] => [] | _ :: _ =>
                     map (fun k => (k, map (metric_at cfg s0 cb k) (called_epochs cfg n))) names end).
      { rewrite T3. destruct (called_epochs cfg n); reflexivity. }
      destruct (good_call (S n) t (called_epochs cfg n) Hnd L T2 T4) as (H1 & H2 & H3).
      split; [rewrite H1; auto|]. split; auto. rewrite H3.
      destruct (called_epochs cfg n ++ [S n])%list eqn:E; auto. destruct (called_epochs cfg n); discriminate.
    + rewrite app_nil_r. auto.
Qed.
End History.
