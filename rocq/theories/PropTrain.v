(** Properties of training. *)
From Coq Require Import String Ascii.
From Coq Require Import List ZArith QArith Qcanon Bool Lia.
From Verif Require Import Py PyFacts MemModel MemSpec TrainModel TrainSpec TrainFacts TrainFacts2 TrainFacts3 PropMem.
Import ListNotations.
Open Scope string_scope.
Open Scope nat_scope.

(** *** C33 *)
Theorem C33_average_is_the_mean : forall ops,
  (t_avg (track_run ops) == match losses_since [] ops with [] => 0 | ls => qmean ls end)%Q.
Proof. exact (fun ops => proj2 (tracker_average ops)). Qed.
Print Assumptions C33_average_is_the_mean.

Definition q34 : Q := 3 # 4.
Example C33_example :
  losses_since [] [TAdd 7; TReset; TAdd 1; TResult "HR" 5 1; TAdd (1 # 2)] = [1%Q; (1 # 2)%Q] /\
  (t_avg (track_run [TAdd 7; TReset; TAdd 1; TResult "HR" 5 1; TAdd (1 # 2)]) == q34)%Q.
Proof. split; reflexivity. Qed.

(** *** C34 *)

(** when every callback reported the same metrics *)
Theorem C34_first_best_epoch_partial : forall metric losses names (val : string -> nat -> Q) called k,
  NoDup names -> chosen_name metric names k -> called <> [] ->
  exists b, max_compute metric losses (map (fun k => (k, map (val k) called)) names) called = Epoch b /\
            first_best called (val k) b.
Proof.
  intros metric losses names val called k ND C NE.
  set (R := map (fun k => (k, map (val k) called)) names).
  assert (K : map fst R = names) by (unfold R; rewrite map_map; apply map_id).
  destruct (max_compute_chosen metric losses R called k (map (val k) called)) as (i & b & v & H1 & H2 & H3 & H4).
  - rewrite K; exact C.
  - apply (assoc_NoDup _ reflects_string); [rewrite K; auto|]. apply in_map_iff. exists k. split; auto.
    eapply chosen_in; eauto.
  - destruct called; [contradiction|discriminate].
  - rewrite map_length. auto.
  - exists b. split; auto. eapply first_best_of_index; eauto.
Qed.
Print Assumptions C34_first_best_epoch_partial.

(** in general: the index of the first maximum, looked up in the called epochs *)
Theorem C34_index_of_maximum : forall metric losses results called k vals,
  chosen_name metric (map fst results) k -> assoc String.eqb k results = Some vals -> vals <> [] ->
  length vals <= length called ->
  exists i b v, max_compute metric losses results called = Epoch b /\ nth_error called i = Some b /\
    nth_error vals i = Some v /\
    forall j w, nth_error vals j = Some w -> (w <= v)%Q /\ (j < i -> (w < v)%Q).
Proof. exact max_compute_chosen. Qed.
Print Assumptions C34_index_of_maximum.

Theorem C34_missing_metric_raises : forall metric losses results called,
  (forall k, In k (map fst results) -> ~ reported_as metric k) ->
  max_compute metric losses results called = Invalid.
Proof.
  intros metric losses results called H. apply max_compute_none. intros k C.
  apply (H k); [eapply chosen_in; eauto|]. destruct C as (l1 & l2 & _ & R & _). exact R.
Qed.
Print Assumptions C34_missing_metric_raises.

Example C34_example :
  chosen_name "HR" ["P@5"; "HR@10"; "RMSE"] "HR@10" /\
  max_compute "HR" [] [("P@5", [1; 2; 3; 4]%Q); ("HR@10", [1; 3; 2; 3]%Q); ("RMSE", [0; 0; 0; 0]%Q)] [2; 4; 6; 8] = Epoch 4 /\
  max_compute "MRR" [] [("P@5", [1; 2]%Q)] [2; 4] = Invalid.
Proof.
  split; [|split; reflexivity]. exists ["P@5"], ["RMSE"]. split; [reflexivity|]. split.
  - right. split; [simpl; repeat split; discriminate|]. exists "10". reflexivity.
  - intros k' [<-|[]] [H|[_ [x H]]]; discriminate.
Qed.

(** A metric that a callback reports for epoch 2 only: the epoch returned is 1. *)
Theorem C34_first_best_epoch_refuted : exists ops metric b,
  (forall v, ~ In (TResult metric v b) ops) /\
  let t := track_run ops in
  max_compute metric (t_losses t) (t_results t) (t_called t) = Epoch b.
Proof.
  exists [TResult "loss" 1 1; TResult "loss" 1 2; TResult "HR" 1 2], "HR", 1. split.
  - intros v [H|[H|[H|[]]]]; discriminate.
  - reflexivity.
Qed.
Print Assumptions C34_first_best_epoch_refuted.

(** *** C35 *)

(** A fit that returns, with any rule: it ran the epochs 1..n, and the variables
    registered themselves have the values of the epoch picked by the rule. *)
Theorem C35_weights_of_picked_epoch_partial : forall W (cfg : config W) s0 r cb names f,
  c_rule cfg = Some r -> 1 <= c_es_freq cfg ->
  c_callback cfg = Some cb -> 1 <= c_cb_freq cfg -> reports cb names -> names <> [] -> NoDup names ->
  c_cells cfg <> [] -> NoDup (map fst (c_cells cfg)) ->
  fit cfg s0 [] = Ok f ->
  exists n, 1 <= n <= c_epochs cfg /\
    (n = c_epochs cfg \/
     (n mod c_es_freq cfg = 0 /\ exists b, picks cfg s0 r cb names n b /\ r_stop r n b (c_epochs cfg) = true)) /\
    (forall m b, 1 <= m < n -> m mod c_es_freq cfg = 0 -> picks cfg s0 r cb names m b ->
       r_stop r m b (c_epochs cfg) = false) /\
    (forall b, picks cfg s0 r cb names n b -> 1 <= b <= n ->
       forall c, In (c, Tensor) (c_cells cfg) -> f_store f c = weights_after cfg s0 b c) /\
    (forall c, In (c, InLayer) (c_cells cfg) -> f_store f c = weights_after cfg s0 n c).
Proof. exact fit_weights. Qed.
Print Assumptions C35_weights_of_picked_epoch_partial.

(** With MaxValidationValueRule: the epoch with the best value of the metric. *)
Theorem C35_weights_of_best_epoch_partial : forall W (cfg : config W) s0 cb names metric k f,
  c_callback cfg = Some cb -> 1 <= c_cb_freq cfg -> 1 <= c_es_freq cfg ->
  c_rule cfg = Some (max_rule metric) -> reports cb names -> NoDup names -> chosen_name metric names k ->
  c_cells cfg <> [] -> NoDup (map fst (c_cells cfg)) ->
  (c_verbose cfg = true \/ c_cb_freq cfg <= c_epochs cfg) ->
  fit cfg s0 [] = Ok f ->
  exists b, first_best (called_epochs cfg (c_epochs cfg)) (metric_at cfg s0 cb k) b /\
    (1 <= b -> forall c, In (c, Tensor) (c_cells cfg) -> f_store f c = weights_after cfg s0 b c) /\
    (b = 0 -> forall c, f_store f c = weights_after cfg s0 (c_epochs cfg) c) /\
    (forall c, In (c, InLayer) (c_cells cfg) -> f_store f c = weights_after cfg s0 (c_epochs cfg) c).
Proof. intros. eapply fit_max_weights; eauto. Qed.
Print Assumptions C35_weights_of_best_epoch_partial.

(** Without a rule every epoch is run and the weights of the last one stay. *)
Theorem C35_no_rule_last_epoch : forall W (cfg : config W) s0 snaps,
  c_rule cfg = None -> c_verbose cfg = false -> c_cells cfg <> [] ->
  exists f, fit cfg s0 snaps = Ok f /\ f_store f = weights_after cfg s0 (c_epochs cfg).
Proof. exact fit_no_rule. Qed.
Print Assumptions C35_no_rule_last_epoch.

(** examples: one weight that grows by one per epoch; the metric is a table *)
Definition grow (e : nat) (s : store nat) : store nat * Q := (fun c => s c + 1, 0%Q).
Definition table (l : list Q) (e : nat) (s : store nat) : list (string * Q) := [("HR@10", nth e l 0%Q); ("n", 0%Q)].
Definition best_at_2 : list Q := [5; 1; 4; 2; 4]%Q.
Definition tcfg (kd : kind) (verbose : bool) (l : list Q) : config nat :=
  mkConfig [(0, kd)] 4 verbose (Some (table l)) 1 (Some (max_rule "HR")) 3 grow.

Lemma table_reports l : reports (table l) ["HR@10"; "n"].
Proof. intros e s. reflexivity. Qed.
Lemma table_chosen : chosen_name "HR" ["HR@10"; "n"] "HR@10".
Proof.
  exists [], ["n"]. split; [reflexivity|]. split.
  - right. split; [simpl; repeat split; discriminate|]. exists "10". reflexivity.
  - intros k' [<-|[]] [H|[_ [x H]]]; discriminate.
Qed.

Example C35_example : exists f,
  fit (tcfg Tensor false best_at_2) (fun _ => 10) [] = Ok f /\
  first_best (called_epochs (tcfg Tensor false best_at_2) 4)
             (metric_at (tcfg Tensor false best_at_2) (fun _ => 10) (table best_at_2) "HR@10") 2 /\
  f_store f 0 = 12.
Proof.
  eexists. split; [vm_compute; reflexivity|]. split; [|vm_compute; reflexivity].
  exists [1], [3; 4]. split; [reflexivity|].
  split; intros e; simpl; intuition; subst; vm_compute; congruence || reflexivity.
Qed.

(** The weights of layers and models are not reverted. *)
Theorem C35_layers_refuted : exists W (cfg : config W) s0 cb names k f b c,
  c_callback cfg = Some cb /\ c_rule cfg = Some (max_rule "HR") /\ reports cb names /\ chosen_name "HR" names k /\
  fit cfg s0 [] = Ok f /\ first_best (called_epochs cfg (c_epochs cfg)) (metric_at cfg s0 cb k) b /\
  In (c, InLayer) (c_cells cfg) /\ f_store f c <> weights_after cfg s0 b c.
Proof.
  exists nat, (tcfg InLayer false best_at_2), (fun _ => 10), (table best_at_2), ["HR@10"; "n"], "HR@10". eexists. exists 2, 0.
  split; [reflexivity|]. split; [reflexivity|]. split; [apply table_reports|]. split; [apply table_chosen|].
  split; [vm_compute; reflexivity|]. split; [|split; [left; reflexivity|vm_compute; discriminate]].
  exists [1], [3; 4]. split; [reflexivity|].
  split; intros e; simpl; intuition; subst; vm_compute; congruence || reflexivity.
Qed.
Print Assumptions C35_layers_refuted.

(** With verbose=True the callback is also called before training; if that value
    is the best, the weights are those of the last epoch. *)
Theorem C35_epoch_zero_refuted : exists W (cfg : config W) s0 cb names k f c,
  c_callback cfg = Some cb /\ c_rule cfg = Some (max_rule "HR") /\ reports cb names /\ chosen_name "HR" names k /\
  fit cfg s0 [] = Ok f /\ first_best (called_epochs cfg (c_epochs cfg)) (metric_at cfg s0 cb k) 0 /\
  In (c, Tensor) (c_cells cfg) /\ f_store f c <> weights_after cfg s0 0 c.
Proof.
  exists nat, (tcfg Tensor true best_at_2), (fun _ => 10), (table best_at_2), ["HR@10"; "n"], "HR@10". eexists. exists 0.
  split; [reflexivity|]. split; [reflexivity|]. split; [apply table_reports|]. split; [apply table_chosen|].
  split; [vm_compute; reflexivity|]. split; [|split; [left; reflexivity|vm_compute; discriminate]].
  exists [], [1; 2; 3; 4]. split; [reflexivity|].
  split; intros e; simpl; intuition; subst; vm_compute; congruence || reflexivity.
Qed.
Print Assumptions C35_epoch_zero_refuted.

(** A second fit reverts to a snapshot of the first one. *)
Theorem C35_second_fit_refuted : exists W (cfg : config W) s0 cb names k f f' b c,
  c_callback cfg = Some cb /\ c_rule cfg = Some (max_rule "HR") /\ reports cb names /\ chosen_name "HR" names k /\
  fit cfg s0 [] = Ok f /\ fit cfg (f_store f) (f_snaps f) = Ok f' /\
  first_best (called_epochs cfg (c_epochs cfg)) (metric_at cfg (f_store f) cb k) b /\
  In (c, Tensor) (c_cells cfg) /\ f_store f' c <> weights_after cfg (f_store f) b c.
Proof.
  exists nat, (tcfg Tensor false best_at_2), (fun _ => 10), (table best_at_2), ["HR@10"; "n"], "HR@10". eexists. eexists. exists 2, 0.
  split; [reflexivity|]. split; [reflexivity|]. split; [apply table_reports|]. split; [apply table_chosen|].
  split; [vm_compute; reflexivity|]. split; [vm_compute; reflexivity|].
  split; [|split; [left; reflexivity|vm_compute; discriminate]].
  exists [1], [3; 4]. split; [reflexivity|].
  split; intros e; simpl; intuition; subst; vm_compute; congruence || reflexivity.
Qed.
Print Assumptions C35_second_fit_refuted.

(** *** C36 *)
Theorem C36_fit_returns_partial : forall W (cfg : config W) s0 cb names metric k,
  c_callback cfg = Some cb -> 1 <= c_cb_freq cfg -> 1 <= c_es_freq cfg ->
  c_rule cfg = Some (max_rule metric) -> reports cb names -> NoDup names -> chosen_name metric names k ->
  c_cells cfg <> [] -> 1 <= c_epochs cfg ->
  (c_verbose cfg = true \/ c_cb_freq cfg <= c_epochs cfg) ->
  exists f, fit cfg s0 [] = Ok f.
Proof. intros. eapply fit_max_returns; eauto. Qed.
Print Assumptions C36_fit_returns_partial.

Example C36_example : exists f, fit (tcfg Tensor true best_at_2) (fun _ => 0) [] = Ok f.
Proof.
  apply C36_fit_returns_partial with (cb := table best_at_2) (names := ["HR@10"; "n"]) (metric := "HR") (k := "HR@10");
    try reflexivity; simpl; auto; try discriminate.
  - apply table_reports.
  - repeat constructor; simpl; intuition discriminate.
  - apply table_chosen.
Qed.

(** Without a callback function the documentation says that the rule is not used;
    fit raises UnboundLocalError whenever the frequency divides the number of epochs. *)
Theorem C36_rule_without_callback_refuted : forall W (cfg : config W) s0 metric snaps,
  c_cells cfg <> [] -> c_callback cfg = None -> c_rule cfg = Some (max_rule metric) ->
  1 <= c_es_freq cfg -> c_epochs cfg mod c_es_freq cfg = 0 ->
  fit cfg s0 snaps = Err UnboundLocalError.
Proof. exact fit_no_callback. Qed.
Print Assumptions C36_rule_without_callback_refuted.

Example C36_rule_without_callback_example :
  fit (mkConfig [(0, Tensor)] 50 false None 5 (Some (max_rule "HR")) 5 grow) (fun _ => 0) [] = Err UnboundLocalError.
Proof. apply C36_rule_without_callback_refuted with (metric := "HR"); simpl; auto; discriminate || lia || reflexivity. Qed.

(** No epochs, and callbacks rarer than the end of training. *)
Theorem C36_no_epochs_refuted : exists (cfg : config nat) cb,
  c_callback cfg = Some cb /\ reports cb ["HR@10"; "n"] /\ c_epochs cfg = 0 /\ fit cfg (fun _ => 0) [] = Err UnboundLocalError.
Proof.
  exists (mkConfig [(0, Tensor)] 0 false (Some (table best_at_2)) 1 (Some (max_rule "HR")) 1 grow), (table best_at_2).
  repeat split; vm_compute; reflexivity.
Qed.
Print Assumptions C36_no_epochs_refuted.
Theorem C36_rare_callback_refuted : exists (cfg : config nat) cb,
  c_callback cfg = Some cb /\ reports cb ["HR@10"; "n"] /\ c_epochs cfg = 5 /\ c_cb_freq cfg = 10 /\ c_es_freq cfg = 5 /\
  fit cfg (fun _ => 0) [] = Err UnboundLocalError.
Proof.
  exists (mkConfig [(0, Tensor)] 5 false (Some (table best_at_2)) 10 (Some (max_rule "HR")) 5 grow), (table best_at_2).
  repeat split; vm_compute; reflexivity.
Qed.
Print Assumptions C36_rare_callback_refuted.

(** With verbose=True, a metric that is not reported by every callback breaks the graph. *)
Theorem C36_verbose_graph_refuted : exists (cfg : config nat),
  c_rule cfg = None /\ c_verbose cfg = true /\ fit cfg (fun _ => 0) [] = Err GenericException.
Proof.
  exists (mkConfig [(0, Tensor)] 2 true (Some (fun e _ => if e =? 2 then [("HR", 1%Q); ("extra", 1%Q)] else [("HR", 1%Q)]))
            1 None 1 grow).
  repeat split; vm_compute; reflexivity.
Qed.
Print Assumptions C36_verbose_graph_refuted.

(** *** C37 *)
Theorem C37_standardise : forall lo hi v, (lo < hi)%Qc -> (lo <= v <= hi)%Qc ->
  exists s, standardize (lo, hi) v = Ok s /\ (0 <= s <= 1)%Qc /\ rescale (lo, hi) s = v.
Proof. exact standardize_range. Qed.
Print Assumptions C37_standardise.

Theorem C37_standardise_increasing : forall lo hi v w sv sw, (lo < hi)%Qc -> (v < w)%Qc ->
  standardize (lo, hi) v = Ok sv -> standardize (lo, hi) w = Ok sw -> (sv < sw)%Qc.
Proof. exact standardize_mono. Qed.
Print Assumptions C37_standardise_increasing.

Theorem C37_rescale_standardise : forall lo hi s, (lo < hi)%Qc ->
  standardize (lo, hi) (rescale (lo, hi) s) = Ok s.
Proof. exact rescale_standardize. Qed.
Print Assumptions C37_rescale_standardise.

(** the range fit takes from the data set covers every interaction *)
Theorem C37_range_of_data : forall m t,
  wf_mem m -> In "interaction" (m_columns m) -> col_type m "interaction" = Ok t -> t <> DObj -> rows_of m <> [] ->
  exists lo hi, interaction_range m = Ok (lo, hi) /\ (lo <= hi)%Qc /\
    (forall r v, In r (rows_of m) -> row_val r "interaction" = Some v -> (lo <= num v <= hi)%Qc) /\
    (exists r v, In r (rows_of m) /\ row_val r "interaction" = Some v /\ num v = hi) /\
    (lo = 0%Qc \/ exists r v, In r (rows_of m) /\ row_val r "interaction" = Some v /\ num v = lo).
Proof. exact interaction_range_ok. Qed.
Print Assumptions C37_range_of_data.

Example C37_example : interaction_range ex = Ok (0%Qc, Qc_of_Z 4) /\
  standardize (0%Qc, Qc_of_Z 4) (Qc_of_Z 3) = Ok (Q2Qc (3 # 4)) /\
  rescale (0%Qc, Qc_of_Z 4) (Q2Qc (3 # 4)) = Qc_of_Z 3 /\ wf_mem ex.
Proof. split; [vm_compute; reflexivity|]. split; [vm_compute; reflexivity|]. split; [vm_compute; reflexivity|exact ex_wf]. Qed.
