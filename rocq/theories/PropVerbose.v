(** C126: what verbose changes about a training. *)
From Coq Require Import String Ascii.
From Coq Require Import List ZArith QArith Bool Lia.
From Verif Require Import Py MemModel TrainModel TrainSpec TrainFacts3 VerboseSpec VerboseFacts PropTrain.
Import ListNotations.
Open Scope string_scope.
Open Scope list_scope.
Open Scope nat_scope.

(** Without an early stopping rule verbose does not change the weights: a verbose fit
    that returns leaves the weights and snapshots of a quiet one. *)
Theorem C126_no_rule : forall W (cfg : config W) s0 snaps f,
  c_rule cfg = None -> fit (with_verbose true cfg) s0 snaps = Ok f ->
  exists g, fit (with_verbose false cfg) s0 snaps = Ok g /\ f_store f = f_store g /\ f_snaps f = f_snaps g.
Proof. exact fit_alike. Qed.
Print Assumptions C126_no_rule.

(** It does return if every call of the callback function reports the same metrics. *)
Theorem C126_no_rule_returns : forall W (cfg : config W) s0 snaps,
  c_rule cfg = None ->
  (forall cb, c_callback cfg = Some cb -> 1 <= c_cb_freq cfg /\ exists names, reports cb names /\ NoDup names) ->
  exists f, fit (with_verbose true cfg) s0 snaps = Ok f.
Proof. intros W cfg s0 snaps R F. now apply loud_returns. Qed.
Print Assumptions C126_no_rule_returns.

(** Without verbose and without a rule the callback function has no effect. *)
Theorem C126_callback_unused : forall W (cfg : config W) cb s0 snaps,
  c_rule cfg = None -> c_verbose cfg = false ->
  fit (with_callback cb cfg) s0 snaps = fit cfg s0 snaps.
Proof. exact fit_callback. Qed.
Print Assumptions C126_callback_unused.

(** With MaxValidationValueRule the weights are the same if some epoch is better than
    the state before training. *)
Theorem C126_rule_partial : forall W (cfg : config W) s0 cb names metric k f g,
  c_callback cfg = Some cb -> 1 <= c_cb_freq cfg -> 1 <= c_es_freq cfg ->
  c_rule cfg = Some (max_rule metric) -> reports cb names -> NoDup names -> chosen_name metric names k ->
  c_cells cfg <> [] -> NoDup (map fst (c_cells cfg)) ->
  (exists e, due cfg e /\ (metric_at cfg s0 cb k 0 < metric_at cfg s0 cb k e)%Q) ->
  fit (with_verbose true cfg) s0 [] = Ok f -> fit (with_verbose false cfg) s0 [] = Ok g ->
  forall c, In c (map fst (c_cells cfg)) -> f_store f c = f_store g c.
Proof.
  intros W cfg s0 cb names metric k f g Cb F E R Rp Nd Ch Cn Cd (e & De & Le) Hf Hg c Hc.
  pose proof (due_called W cfg e F) as Du.
  assert (Fe : c_cb_freq cfg <= c_epochs cfg).
  { destruct De as ((D1 & D2) & q & ->). destruct q; nia. }
  destruct (C35_weights_of_best_epoch_partial W (with_verbose true cfg) s0 cb names metric k f Cb F E R Rp Nd Ch Cn Cd (or_introl eq_refl) Hf)
    as (b & B & B1 & _ & B3).
  destruct (C35_weights_of_best_epoch_partial W (with_verbose false cfg) s0 cb names metric k g Cb F E R Rp Nd Ch Cn Cd (or_intror Fe) Hg)
    as (b' & B' & B1' & _ & B3').
  apply (first_best_ext _ _ (metric_at cfg s0 cb k)) in B; [|intro; apply metric_verbose].
  apply (first_best_ext _ _ (metric_at cfg s0 cb k)) in B'; [|intro; apply metric_verbose].
  unfold called_epochs in B, B'. cbn [with_verbose c_verbose c_cb_freq c_epochs app] in B, B'.
  apply first_best_tail in B; [|exists e; split; [now apply Du|exact Le]].
  pose proof (first_best_unique _ _ _ _ B B') as Eb. subst b'.
  assert (Hb : 1 <= b).
  { destruct B as (l1 & l2 & L & _). assert (I : In b (filter (fun e => e mod c_cb_freq cfg =? 0) (seq 1 (c_epochs cfg)))).
    { rewrite L. apply in_or_app. right. now left. }
    apply due_called in I; [|exact F]. destruct I as ((I & _) & _). exact I. }
  apply in_map_iff in Hc. destruct Hc as ([c' kd] & <- & Hc). cbn [fst].
  destruct kd.
  - rewrite (B1 Hb c' Hc), (B1' Hb c' Hc). now rewrite !weights_verbose.
  - rewrite (B3 c' Hc), (B3' c' Hc). now rewrite !weights_verbose.
Qed.
Print Assumptions C126_rule_partial.

(** If no epoch is better, a verbose training ends with the weights of the last epoch
    and a quiet one with those of the best epoch. *)
Theorem C126_rule_differs : forall W (cfg : config W) s0 cb names metric k f g,
  c_callback cfg = Some cb -> 1 <= c_cb_freq cfg <= c_epochs cfg -> 1 <= c_es_freq cfg ->
  c_rule cfg = Some (max_rule metric) -> reports cb names -> NoDup names -> chosen_name metric names k ->
  c_cells cfg <> [] -> NoDup (map fst (c_cells cfg)) ->
  (forall e, due cfg e -> (metric_at cfg s0 cb k e <= metric_at cfg s0 cb k 0)%Q) ->
  fit (with_verbose true cfg) s0 [] = Ok f -> fit (with_verbose false cfg) s0 [] = Ok g ->
  exists b, due cfg b /\ (forall e, due cfg e -> (metric_at cfg s0 cb k e <= metric_at cfg s0 cb k b)%Q) /\
  forall c, In (c, Tensor) (c_cells cfg) ->
    f_store f c = weights_after cfg s0 (c_epochs cfg) c /\ f_store g c = weights_after cfg s0 b c.
Proof.
  intros W cfg s0 cb names metric k f g Cb (F & Fe) E R Rp Nd Ch Cn Cd L Hf Hg.
  destruct (C35_weights_of_best_epoch_partial W (with_verbose true cfg) s0 cb names metric k f Cb F E R Rp Nd Ch Cn Cd (or_introl eq_refl) Hf)
    as (b & B & _ & B2 & _).
  destruct (C35_weights_of_best_epoch_partial W (with_verbose false cfg) s0 cb names metric k g Cb F E R Rp Nd Ch Cn Cd (or_intror Fe) Hg)
    as (b' & B' & B1' & _ & _).
  apply (first_best_ext _ _ (metric_at cfg s0 cb k)) in B; [|intro; apply metric_verbose].
  apply (first_best_ext _ _ (metric_at cfg s0 cb k)) in B'; [|intro; apply metric_verbose].
  unfold called_epochs in B, B'. cbn [with_verbose c_verbose c_cb_freq c_epochs app] in B, B'.
  apply first_best_head in B; [|intros e H; apply L; now apply due_called]. subst b.
  destruct B' as (l1 & l2 & Eq & B4 & B5).
  assert (D : forall e, In e (l1 ++ b' :: l2) <-> due cfg e) by (intro e; rewrite <- Eq; now apply due_called).
  assert (Db : due cfg b') by (apply D, in_or_app; right; now left).
  exists b'. split; [exact Db|]. split.
  - intros e He. apply D, in_app_or in He. destruct He as [He|[<-|He]]; [apply Qlt_le_weak; auto|apply Qle_refl|auto].
  - intros c Hc. split.
    + rewrite (B2 eq_refl c). now rewrite weights_verbose.
    + destruct Db as ((Hb & _) & _). rewrite (B1' Hb c Hc). now rewrite weights_verbose.
Qed.
Print Assumptions C126_rule_differs.

Definition s_ten : store nat := fun _ => 10.
(** One weight that grows by one per epoch, 4 epochs.  An epoch better than the start
    leads to the same weights. *)
Example C126_example :
  let cfg := tcfg Tensor true [1; 1; 4; 2; 4]%Q in
  (exists e, due cfg e /\ (metric_at cfg s_ten (table [1; 1; 4; 2; 4]%Q) "HR@10" 0 <
                           metric_at cfg s_ten (table [1; 1; 4; 2; 4]%Q) "HR@10" e)%Q) /\
  exists f g, fit (with_verbose true cfg) s_ten [] = Ok f /\ fit (with_verbose false cfg) s_ten [] = Ok g /\
    f_store f 0 = 12 /\ f_store g 0 = 12.
Proof.
  split.
  - exists 2. split; [|vm_compute; reflexivity]. split; [cbn; lia|]. exists 2. reflexivity.
  - do 2 eexists. split; [vm_compute; reflexivity|]. split; [vm_compute; reflexivity|]. split; reflexivity.
Qed.
(** without a rule, with a callback function *)
Example C126_no_rule_example :
  let cfg := mkConfig [(0, Tensor)] 4 true (Some (table best_at_2)) 1 None 3 grow in
  exists f g, fit (with_verbose true cfg) s_ten [] = Ok f /\ fit (with_verbose false cfg) s_ten [] = Ok g /\
    f_store f 0 = 14 /\ f_store g 0 = 14 /\
    length (t_called (f_tracker f)) = 5 /\ length (t_called (f_tracker g)) = 0.
Proof.
  do 2 eexists. split; [vm_compute; reflexivity|]. split; [vm_compute; reflexivity|]. repeat split; reflexivity.
Qed.

(** Refuted: verbose only changes what is shown.  The weights differ when the best value
    is the one before training. *)
Theorem C126_weights_refuted : exists W (cfg : config W) s0 f g c,
  fit (with_verbose true cfg) s0 [] = Ok f /\ fit (with_verbose false cfg) s0 [] = Ok g /\
  In (c, Tensor) (c_cells cfg) /\ f_store f c <> f_store g c.
Proof.
  exists nat, (tcfg Tensor true best_at_2), s_ten. do 2 eexists. exists 0.
  split; [vm_compute; reflexivity|]. split; [vm_compute; reflexivity|]. split; [left; reflexivity|vm_compute; discriminate].
Qed.
Print Assumptions C126_weights_refuted.

(** A callback function called less often than there are epochs: a verbose fit with a
    rule returns, a quiet one raises UnboundLocalError. *)
Theorem C126_raises_refuted : exists W (cfg : config W) s0 f,
  fit (with_verbose true cfg) s0 [] = Ok f /\ fit (with_verbose false cfg) s0 [] = Err UnboundLocalError.
Proof.
  exists nat, (mkConfig [(0, Tensor)] 3 true (Some (table best_at_2)) 5 (Some (max_rule "HR")) 3 grow), s_ten.
  eexists. split; vm_compute; reflexivity.
Qed.
Print Assumptions C126_raises_refuted.

(** A metric that is not always reported: a verbose fit raises when it draws the graph, a
    quiet one returns. *)
Theorem C126_graph_refuted : exists W (cfg : config W) s0 g,
  fit (with_verbose true cfg) s0 [] = Err GenericException /\ fit (with_verbose false cfg) s0 [] = Ok g.
Proof.
  exists nat, (mkConfig [(0, Tensor)] 3 true
    (Some (fun e _ => if e =? 0 then [("a", 1%Q)] else [("b", 1%Q)])) 1 None 3 grow), s_ten.
  eexists. split; vm_compute; reflexivity.
Qed.
Print Assumptions C126_graph_refuted.
