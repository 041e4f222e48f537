(** Facts about training with and without verbose. *)
From Coq Require Import String Ascii.
From Coq Require Import List ZArith QArith Bool Lia Lqa.
From Verif Require Import Py MemModel TrainModel TrainSpec TrainFacts TrainFacts2 TrainFacts3 VerboseSpec.
Import ListNotations.
Open Scope string_scope.
Open Scope list_scope.
Open Scope nat_scope.

Section Facts.
Variable W : Type.
Implicit Types cfg : config W.

Definition alike (f g : fstate W) : Prop := f_store f = f_store g /\ f_snaps f = f_snaps g /\ f_best f = f_best g.

Lemma quiet_track : forall cfg e l s t, c_rule cfg = None -> track (with_verbose false cfg) e l s t = Ok t.
Proof. intros cfg e l s t R. unfold track. cbn [with_verbose c_verbose c_rule]. now rewrite R. Qed.

Lemma loop_alike : forall cfg es f g f', c_rule cfg = None -> alike f g ->
  epochs_loop (with_verbose true cfg) es f = Ok f' ->
  exists g', epochs_loop (with_verbose false cfg) es g = Ok g' /\ alike f' g'.
Proof.
  intros cfg es. induction es as [|e es IH]; intros f g f' R A H; cbn [epochs_loop] in *.
  { injection H as <-. eauto. }
  destruct A as (A1 & A2 & A3). unfold epoch_step in *. cbn [with_verbose c_train c_rule c_cells] in *.
  rewrite R in H. rewrite R. rewrite <- A1. destruct (c_train cfg e (f_store f)) as [s l].
  rewrite quiet_track by exact R.
  destruct (track (with_verbose true cfg) e l s (f_tracker f)) as [t|]; [|discriminate].
  cbn [bind] in *. eapply IH; [exact R| |exact H]. repeat split; cbn; congruence.
Qed.

Lemma fit_alike : forall cfg s snaps f, c_rule cfg = None -> fit (with_verbose true cfg) s snaps = Ok f ->
  exists g, fit (with_verbose false cfg) s snaps = Ok g /\ f_store f = f_store g /\ f_snaps f = f_snaps g.
Proof.
  intros cfg s snaps f R H. unfold fit in *. cbn [with_verbose c_cells c_epochs c_verbose c_callback] in *.
  destruct (c_cells cfg) as [|c cs] eqn:C.
  { injection H as <-. eexists. split; [reflexivity|]. now split. }
  match type of H with context [epochs_loop _ ?es ?f0] => destruct (epochs_loop (with_verbose true cfg) es f0) as [f1|] eqn:L end; [|discriminate].
  cbn [bind] in H.
  match type of L with epochs_loop _ _ ?f0 = _ =>
    assert (A0 : alike f0 (mkF s snaps new_tracker None None)) by now repeat split end.
  destruct (loop_alike cfg _ _ _ _ R A0 L) as (g1 & G & A1 & A2 & A3).
  rewrite G. cbn [bind].
  unfold after_loop in *. cbn [with_verbose c_rule] in *. rewrite R in H. rewrite R. cbn [bind] in *.
  unfold maybe_revert in *. cbn [with_verbose c_epochs c_cells] in *. rewrite <- A3.
  destruct (f_best f1) as [b|]; cbn [bind] in *.
  - destruct (b =? c_epochs cfg).
    + cbn [bind] in *. unfold display in *. cbn [with_verbose c_verbose] in *.
      destruct (forallb _ _) in H; [|discriminate]. cbn [bind] in *. injection H as <-.
      eexists. split; [reflexivity|]. now split.
    + rewrite <- A2, <- A1. destruct (snapshot_at (f_snaps f1) b) as [x|]; [|discriminate]. cbn [bind] in *.
      unfold display in *. cbn [with_verbose c_verbose] in *.
      destruct (forallb _ _) in H; [|discriminate]. cbn [bind] in *. injection H as <-.
      eexists. split; [reflexivity|]. now split.
  - unfold display in *. cbn [with_verbose c_verbose] in *.
    destruct (forallb _ _) in H; [|discriminate]. cbn [bind] in *. injection H as <-.
    eexists. split; [reflexivity|]. now split.
Qed.

Lemma loop_callback : forall cfg cb es f, c_rule cfg = None -> c_verbose cfg = false ->
  epochs_loop (with_callback cb cfg) es f = epochs_loop cfg es f.
Proof.
  intros cfg cb es. induction es as [|e es IH]; intros f R V; [reflexivity|].
  cbn [epochs_loop]. unfold epoch_step, track. cbn [with_callback c_train c_rule c_cells c_verbose].
  rewrite R, V. destruct (c_train cfg e (f_store f)) as [s l]. cbn [bind]. now apply IH.
Qed.
Lemma fit_callback : forall cfg cb s snaps, c_rule cfg = None -> c_verbose cfg = false ->
  fit (with_callback cb cfg) s snaps = fit cfg s snaps.
Proof.
  intros cfg cb s snaps R V. unfold fit. cbn [with_callback c_cells c_verbose c_epochs c_callback]. rewrite V.
  destruct (c_cells cfg) as [|c cs] eqn:C; [reflexivity|].
  pose proof (loop_callback cfg cb (seq 1 (c_epochs cfg)) (mkF s snaps new_tracker None None) R V) as L.
  unfold with_callback in *. rewrite L.
  destruct (epochs_loop cfg _ _) as [f|]; [|reflexivity]. cbn [bind].
  unfold after_loop. cbn [c_rule]. rewrite R. cbn [bind]. unfold maybe_revert. cbn [c_epochs c_cells].
  destruct (match f_best f with None => _ | Some b => _ end) as [f'|]; [|reflexivity]. cbn [bind].
  unfold display. cbn [c_verbose]. rewrite V. reflexivity.
Qed.

Lemma weights_verbose : forall cfg v s0 e, weights_after (with_verbose v cfg) s0 e = weights_after cfg s0 e.
Proof. induction e as [|e IH]; [reflexivity|]. cbn [weights_after]. now rewrite IH. Qed.
Lemma metric_verbose : forall cfg v s0 cb k e, metric_at (with_verbose v cfg) s0 cb k e = metric_at cfg s0 cb k e.
Proof. intros. unfold metric_at. now rewrite weights_verbose. Qed.

Lemma first_best_ext : forall l f g b, (forall e, f e = g e) -> first_best l f b -> first_best l g b.
Proof.
  intros l f g b E (l1 & l2 & -> & A & B). exists l1, l2. split; [reflexivity|].
  split; intros e H; rewrite <- !E; auto.
Qed.
Lemma first_best_unique : forall l f b b', first_best l f b -> first_best l f b' -> b = b'.
Proof.
  intros l f b b' (l1 & l2 & -> & A & B) (l3 & l4 & E & C & D).
  revert l3 E A C. induction l1 as [|x l1 IH]; intros [|y l3] E A C; cbn in E.
  - now injection E.
  - injection E as -> E. exfalso. assert (H : In b' l2) by (rewrite E; apply in_or_app; right; now left).
    specialize (B b' H). specialize (C y (or_introl eq_refl)). lra.
  - injection E as -> E. exfalso.
    assert (H : In b l4) by (rewrite <- E; apply in_or_app; right; now left).
    specialize (D b H). specialize (A b' (or_introl eq_refl)). lra.
  - injection E as -> E. apply (IH l3 E); intros e H; [apply A|apply C]; now right.
Qed.
Lemma first_best_tail : forall a l f b, first_best (a :: l) f b -> (exists e, In e l /\ (f a < f e)%Q) -> first_best l f b.
Proof.
  intros a l f b (l1 & l2 & E & A & B) (e & He & L). destruct l1 as [|x l1]; cbn in E; injection E as -> ->.
  - specialize (B e He). lra.
  - exists l1, l2. split; [reflexivity|]. split; [|exact B]. intros e' H. apply A. now right.
Qed.
Lemma first_best_head : forall a l f b, first_best (a :: l) f b -> (forall e, In e l -> (f e <= f a)%Q) -> b = a.
Proof.
  intros a l f b (l1 & l2 & E & A & B) L. destruct l1 as [|x l1]; cbn in E; injection E as -> ->; [reflexivity|].
  specialize (A x (or_introl eq_refl)). specialize (L b ltac:(apply in_or_app; right; now left)). lra.
Qed.
Lemma due_called : forall cfg e, 1 <= c_cb_freq cfg ->
  (In e (filter (fun e => e mod c_cb_freq cfg =? 0) (seq 1 (c_epochs cfg))) <-> due cfg e).
Proof.
  intros cfg e F. rewrite filter_In, in_seq, Nat.eqb_eq, Nat.mod_divide by lia. unfold due, Nat.divide. intuition lia.
Qed.

(** a verbose training without a rule: the state after [n + k] epochs *)
Lemma loud_loop : forall cfg s0, c_rule cfg = None -> c_verbose cfg = true ->
  (forall cb, c_callback cfg = Some cb -> 1 <= c_cb_freq cfg) ->
  forall k n f, f_store f = weights_after cfg s0 n -> f_best f = None -> f_tracker f = hist W cfg s0 n ->
  exists f', epochs_loop cfg (seq (S n) k) f = Ok f' /\ f_store f' = weights_after cfg s0 (n + k) /\
    f_best f' = None /\ f_tracker f' = hist W cfg s0 (n + k).
Proof.
  intros cfg s0 R V F. induction k as [|k IH]; intros n f H B T; cbn [seq epochs_loop].
  - exists f. rewrite Nat.add_0_r. auto.
  - unfold epoch_step. rewrite H. destruct (c_train cfg (S n) (weights_after cfg s0 n)) as [s l] eqn:E.
    assert (Es : s = weights_after cfg s0 (S n)) by (cbn [weights_after]; now rewrite E).
    assert (El : l = loss_of cfg s0 (S n)) by (unfold loss_of; cbn [Nat.sub]; rewrite Nat.sub_0_r, E; reflexivity).
    assert (Et : track cfg (S n) l s (f_tracker f) = Ok (hist W cfg s0 (S n))).
    { unfold track. rewrite V, T. cbn [hist]. rewrite <- Es, <- El. destruct (c_callback cfg) as [cb|]; [|reflexivity].
      specialize (F cb eq_refl). unfold divides. destruct (c_cb_freq cfg) as [|q]; [lia|]. cbn [bind]. reflexivity. }
    rewrite Et, R. cbn [bind].
    destruct (IH (S n) (mkF s (f_snaps f ++ [take_snapshot (c_cells cfg) s])%list (hist W cfg s0 (S n)) (f_best f) (Some (S n))))
      as (f' & H1 & H2 & H3 & H4); cbn [f_store f_best f_tracker]; auto.
    exists f'. replace (n + S k) with (S n + k) by lia. auto.
Qed.
Lemma loud_returns : forall cfg s0 snaps, c_rule cfg = None -> c_verbose cfg = true ->
  (forall cb, c_callback cfg = Some cb -> 1 <= c_cb_freq cfg /\ exists names, reports cb names /\ NoDup names) ->
  exists f, fit cfg s0 snaps = Ok f.
Proof.
  intros cfg s0 snaps R V F. unfold fit. destruct (c_cells cfg) as [|c cs] eqn:C; [eauto|].
  match goal with |- context [epochs_loop cfg _ ?f0] => set (f00 := f0) end.
  assert (T0 : f_tracker f00 = hist W cfg s0 0) by reflexivity.
  destruct (loud_loop cfg s0 R V ltac:(intros cb E; now destruct (F cb E)) (c_epochs cfg) 0 f00 eq_refl eq_refl T0)
    as (f & H1 & H2 & H3 & H4).
  rewrite H1. cbn [bind]. unfold after_loop. rewrite R. cbn [bind]. unfold maybe_revert. rewrite H3. cbn [bind].
  unfold display. rewrite V.
  assert (D : forallb (fun p => length (snd p) =? length (t_called (f_tracker f))) (t_results (f_tracker f)) = true).
  { rewrite H4. apply forallb_forall. intros [k vs] I. apply Nat.eqb_eq. cbn [snd]. cbn [Nat.add] in *.
    destruct (c_callback cfg) as [cb|] eqn:Cb; [|rewrite hist_no_callback in I by exact Cb; contradiction].
    destruct (F cb eq_refl) as (F1 & names & Rp & Nd).
    destruct names as [|nm names].
    { exfalso. clear - I Rp Cb.
      assert (G : forall n, t_results (hist W cfg s0 n) = []).
      { assert (A : forall e s t, t_results t = [] -> t_results (add_all (cb e s) e t) = []).
        { intros e s t H. specialize (Rp e s). destruct (cb e s); [exact H|discriminate]. }
        induction n as [|n IH]; cbn [hist]; rewrite Cb.
        - destruct (c_verbose cfg); [now apply A|reflexivity].
        - destruct (_ =? 0); [apply A|]; exact IH. }
      rewrite G in I. exact I. }
    destruct (hist_good W cfg s0 cb (nm :: names) Cb F1 Rp ltac:(discriminate) Nd (c_epochs cfg)) as (G1 & G2 & G3).
    rewrite G2. rewrite G3 in I. destruct (called_epochs cfg (c_epochs cfg)) as [|e es]; [destruct I|].
    apply in_map_iff in I. destruct I as (k2 & E & _). injection E as <- <-. cbn [length]. now rewrite map_length. }
  rewrite D. cbn [bind]. eauto.
Qed.
End Facts.
