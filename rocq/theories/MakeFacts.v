(** Lemmas about constructors of recommenders. *)
From Coq Require Import String Ascii.
From Coq Require Import List ZArith Bool Lia.
From Verif Require Import Py LogModel LogSpec LogFacts SeedModel NetModel MakeModel MakeSpec.
Import ListNotations.
Open Scope string_scope.
Open Scope list_scope.

Lemma is_str_iff a s : is_str a s = true <-> a = AStr s.
Proof.
  destruct a as [|t|l|n]; cbn [is_str]; try (split; intro H; discriminate).
  rewrite String.eqb_eq. split; intro H; [now subst|now injection H].
Qed.
Lemma one_of_iff kw name d names : In d names ->
  (one_of kw name names <-> exists s, arg_or kw name (AStr d) = AStr s /\ In s names).
Proof.
  intro D. unfold one_of, given, arg_or. destruct (assoc String.eqb name kw) as [a|].
  - split.
    + intro H. now apply H.
    + intros H b E. injection E as <-. exact H.
  - split; [|intros _ a E; discriminate]. intros _. exists d. auto.
Qed.
Lemma str_cases a : (exists s, a = AStr s) \/ (forall s, is_str a s = false).
Proof. destruct a; cbn [is_str]; [right|left; eauto|right|right]; auto. Qed.

Lemma knn_check_iff kw : is_ok (knn_check kw) = true <-> supported UserKNN kw.
Proof.
  cbn [supported].
  rewrite (one_of_iff kw "sim_metric" "adjusted_cosine") by now left.
  rewrite (one_of_iff kw "aggregation" "weighted_mean") by (right; now left).
  unfold knn_check. set (s := arg_or kw "sim_metric" _). set (a := arg_or kw "aggregation" _). split.
  - intro H.
    assert (S : exists t, s = AStr t /\ In t ["adjusted_cosine"; "cosine"; "cosine_cf"; "jaccard"; "msd"; "pearson"]).
    { repeat match type of H with context [is_str s ?t] => let E' := fresh in destruct (is_str s t) eqn:E'; [apply is_str_iff in E'; exists t; split; [exact E'|cbn [In]; tauto]|] end.
      discriminate H. }
    split; [exact S|].
    destruct S as (t & E & I).
    match type of H with is_ok (bind ?x _) = true => destruct x; [|discriminate H] end. cbn [bind] in H.
    repeat match type of H with context [is_str a ?t] => let E' := fresh in destruct (is_str a t) eqn:E'; [apply is_str_iff in E'; exists t; split; [exact E'|cbn [In]; tauto]|] end.
    discriminate H.
  - intros ((t & -> & I) & (t' & -> & I')).
    cbn [In] in I, I'. repeat destruct I as [<-|I]; try contradiction; repeat destruct I' as [<-|I']; try contradiction; reflexivity.
Qed.
Lemma cdae_check_iff kw : is_ok (cdae_check kw) = true <-> supported CDAE kw.
Proof.
  cbn [supported]. rewrite (one_of_iff kw "loss" "bce") by (right; now left).
  unfold cdae_check. set (s := arg_or kw "loss" _). split.
  - intro H.
    repeat match type of H with context [is_str s ?t] => let E' := fresh in destruct (is_str s t) eqn:E'; [apply is_str_iff in E'; exists t; split; [exact E'|cbn [In]; tauto]|] end.
    discriminate H.
  - intros (t & -> & I). cbn [In] in I. repeat destruct I as [<-|I]; try contradiction; reflexivity.
Qed.

Definition resolved (o : option (list Z)) : list Z := match o with Some l => l | None => [64; 32]%Z end.
Lemma layers_iff kw name l : layers kw name l <-> exists o, dmf_list (arg_or kw name ANone) = Ok o /\ resolved o = l.
Proof.
  unfold arg_or. split.
  - intros [H|l' H]; unfold given in *.
    + destruct (assoc String.eqb name kw) as [a|]; [rewrite (H a eq_refl)|]; exists None; split; reflexivity.
    + rewrite H. exists (Some l'). split; reflexivity.
  - intros (o & H & <-). destruct (assoc String.eqb name kw) as [[|s|l'|n]|] eqn:E; try discriminate; injection H as <-; cbn [resolved].
    + apply default_layers. unfold given. intros a Ha. congruence.
    + now apply given_layers.
    + apply default_layers. unfold given. intros a Ha. congruence.
Qed.
Lemma factors_iff u i : is_ok (dmf_factors u i) = true <-> exists a b n, resolved u = a ++ [n] /\ resolved i = b ++ [n].
Proof.
  unfold dmf_factors. fold (resolved u) (resolved i). generalize (resolved u) (resolved i). clear. intros u i. split.
  - destruct u as [|x u]; [discriminate|]. destruct i as [|y i]; [discriminate|]. intro H.
    destruct (Z.eqb_spec (last (x :: u) 0) (last (y :: i) 0))%Z as [E|]; [|discriminate H].
    exists (removelast (x :: u)), (removelast (y :: i)), (last (x :: u) 0%Z).
    split; [|rewrite E]; apply app_removelast_last; discriminate.
  - intros (a & b & n & -> & ->). rewrite !last_last, Z.eqb_refl.
    destruct a; destruct b; reflexivity.
Qed.
Lemma dmf_check_iff kw : is_ok (dmf_check kw) = true <-> supported DMF kw.
Proof.
  cbn [supported]. unfold dmf_check. split.
  - intro H. destruct (dmf_list (arg_or kw "user_factors" ANone)) as [u|] eqn:U; [|discriminate H].
    cbn [bind] in H. destruct (dmf_list (arg_or kw "item_factors" ANone)) as [i|] eqn:I; [|discriminate H].
    cbn [bind] in H. destruct (dmf_factors u i) as [f|] eqn:F; [|discriminate H].
    destruct (proj1 (factors_iff u i)) as (a & b & n & A & B); [now rewrite F|].
    exists a, b, n. split; apply layers_iff; eauto.
  - intros (a & b & n & A & B). apply layers_iff in A. apply layers_iff in B.
    destruct A as (u & U & A). destruct B as (i & I & B). rewrite U. cbn [bind]. rewrite I. cbn [bind].
    pose proof (proj2 (factors_iff u i) (ex_intro _ a (ex_intro _ b (ex_intro _ n (conj A B))))) as F.
    destruct (dmf_factors u i); [reflexivity|discriminate F].
Qed.
Lemma check_iff c kw : is_ok (check c kw) = true <-> supported c kw.
Proof.
  destruct c; cbn [check]; [apply knn_check_iff|apply knn_check_iff|apply cdae_check_iff|apply dmf_check_iff|]. cbn. tauto.
Qed.
Lemma construct_iff c b kw now p : (exists o, fst (construct c b kw now p) = Ok o) <-> supported c kw.
Proof.
  rewrite <- check_iff. unfold construct. destruct (base_init c b now p) as [r p']. destruct (check c kw); cbn; split; intro H; eauto; try discriminate.
  destruct H; discriminate.
Qed.

(** ** Arguments that are not looked at *)
Lemma assoc_snoc_other (kw : kwds) x v name : name <> x -> assoc String.eqb name (kw ++ [(x, v)]) = assoc String.eqb name kw.
Proof.
  intro N. induction kw as [|[k a] kw IH]; cbn [app assoc].
  - destruct (String.eqb_spec name x); [contradiction|reflexivity].
  - destruct (String.eqb name k); [reflexivity|exact IH].
Qed.
Definition checked (c : cls) : list string :=
  match c with UserKNN | ItemKNN => ["sim_metric"; "aggregation"] | CDAE => ["loss"] | DMF => ["user_factors"; "item_factors"] | Caser => [] end.
Lemma check_extra c kw x v : ~ In x (checked c) -> check c (kw ++ [(x, v)]) = check c kw.
Proof.
  intro N. destruct c; cbn [check]; try reflexivity; unfold knn_check, cdae_check, dmf_check, arg_or;
    rewrite ?assoc_snoc_other; try reflexivity; intro Q; apply N; rewrite <- Q; cbn [checked In]; tauto.
Qed.
Lemma mem_b_false x l : ~ In x l -> mem_b String.eqb x l = false.
Proof.
  induction l as [|y l IH]; intro N; [reflexivity|]. cbn [mem_b].
  destruct (String.eqb_spec x y) as [->|]; [exfalso; apply N; now left|]. apply IH. intro H. apply N. now right.
Qed.
Lemma construct_unknown c b kw x v now p : ~ In x (params c) -> construct c b (kw ++ [(x, v)]) now p = construct c b kw now p.
Proof.
  intro N. unfold construct. rewrite check_extra; [|intro H; apply N; destruct c; cbn in *; tauto].
  rewrite filter_app. cbn [filter fst]. rewrite (mem_b_false x (params c) N), app_nil_r. reflexivity.
Qed.

(** ** Erasing calls that raise *)
Definition cnt (p : string) (l : list handler) : nat := length (filter (fun h => match h with Console => false | ToFile q => String.eqb q p end) l).
Definition cnt_con (l : list handler) : nat := length (filter (fun h => match h with Console => true | ToFile _ => false end) l).
Lemma cnt_app p a b : cnt p (a ++ b) = cnt p a + cnt p b.
Proof. unfold cnt. now rewrite filter_app, app_length. Qed.
Lemma cnt_con_app a b : cnt_con (a ++ b) = cnt_con a + cnt_con b.
Proof. unfold cnt_con. now rewrite filter_app, app_length. Qed.

(** the loggers after [new_recommender] *)
Lemma new_logs c now v f g : let g' := snd (new_recommender c now v f g) in
  fst (new_recommender c now v f g) = mkRecommender c v f /\
  lg_console g' = lg_console g /\
  (forall p, contents g' p = contents g p) /\
  (forall c', handlers g' (console_logger c') = if String.eqb c c' then [Console] else handlers g (console_logger c')) /\
  (forall c', handlers g' (file_logger c') = handlers g (file_logger c') ++ (if f && String.eqb c c' then [ToFile (log_path now c)] else [])).
Proof.
  assert (I : forall c', String.eqb (console_logger c) (console_logger c') = String.eqb c c').
  { intro c'. destruct (String.eqb_spec c c') as [->|N]; [apply String.eqb_refl|]. apply String.eqb_neq. intro E. apply N. now apply console_logger_inj. }
  assert (I' : forall c', String.eqb (file_logger c) (file_logger c') = String.eqb c c').
  { intro c'. destruct (String.eqb_spec c c') as [->|N]; [apply String.eqb_refl|]. apply String.eqb_neq. intro E. apply N. now apply file_logger_inj. }
  assert (X : forall c', String.eqb (console_logger c) (file_logger c') = false) by (intro; apply String.eqb_neq, two_loggers).
  assert (Y : forall c', String.eqb (file_logger c) (console_logger c') = false) by (intros c'; apply String.eqb_neq; intro E; exact (two_loggers c' c (eq_sym E))).
  unfold new_recommender.
  set (g1 := set_handlers (console_logger c) [] g). set (g2 := set_handlers (console_logger c) (handlers g1 (console_logger c) ++ [Console]) g1).
  assert (H2 : forall n, handlers g2 n = if String.eqb (console_logger c) n then [Console] else handlers g n).
  { intro n. unfold g2, g1. rewrite !handlers_set, String.eqb_refl. destruct (String.eqb (console_logger c) n); reflexivity. }
  assert (F2 : forall p, contents g2 p = contents g p) by (intro p; apply contents_same; reflexivity).
  destruct f; cbn [fst snd andb].
  - set (g3 := mkLogs (lg_loggers g2) (lg_console g2) (assoc_set String.eqb (log_path now c) (contents g2 (log_path now c)) (lg_files g2))).
    assert (H3 : forall n, handlers g3 n = handlers g2 n) by (intro n; apply handlers_same; reflexivity).
    split; [reflexivity|]. split; [reflexivity|]. split; [|split].
    + intro p. rewrite <- F2. transitivity (contents g3 p); [apply contents_same; reflexivity|]. unfold g3. rewrite contents_set.
      destruct (String.eqb_spec (log_path now c) p) as [->|_]; [reflexivity|apply contents_same; reflexivity].
    + intro c'. rewrite handlers_set, Y, H3, H2, I. reflexivity.
    + intro c'. rewrite handlers_set, I', !H3, !H2, !X. destruct (String.eqb_spec c c') as [->|]; [reflexivity|now rewrite app_nil_r].
  - split; [reflexivity|]. split; [reflexivity|]. split; [exact F2|]. split.
    + intro c'. rewrite H2, I. reflexivity.
    + intro c'. rewrite H2, X, app_nil_r. reflexivity.
Qed.
Lemma log_to_effect name v msg g : let g' := log_to name v msg g in
  (forall n, handlers g' n = handlers g n) /\
  lg_console g' = lg_console g ++ repeat (v, name, msg) (cnt_con (handlers g name)) /\
  forall p, contents g' p = contents g p ++ repeat (v, name, msg) (cnt p (handlers g name)).
Proof.
  cbv zeta. unfold log_to. destruct (emit_all (v, name, msg) (handlers g name) g) as (A & B & C). cbv zeta in A, B, C.
  split; [intro n; now apply handlers_same|]. split; [exact B|exact C].
Qed.

(** two states that differ in rejected calls only; [ok] tells the files that agree *)
Record alike (ok : string -> Prop) (s t : list object * process) : Prop := {
  al_objs : fst s = fst t;
  al_con : forall o, In o (fst s) -> handlers (pr_logs (snd s)) (console_logger (rl_class (ob_log o))) = [Console] /\
                                     handlers (pr_logs (snd t)) (console_logger (rl_class (ob_log o))) = [Console];
  al_none : forall c, cnt_con (handlers (pr_logs (snd s)) (file_logger c)) = 0 /\ cnt_con (handlers (pr_logs (snd t)) (file_logger c)) = 0;
  al_file : forall c p, ok p -> cnt p (handlers (pr_logs (snd s)) (file_logger c)) = cnt p (handlers (pr_logs (snd t)) (file_logger c));
  al_console : lg_console (pr_logs (snd s)) = lg_console (pr_logs (snd t));
  al_files : forall p, ok p -> contents (pr_logs (snd s)) p = contents (pr_logs (snd t)) p }.

Lemma alike_rejected ok s t c b kw now : alike ok s t -> ~ supported c kw ->
  (b_log_file b = true -> ~ ok (log_path now (class_name c))) -> alike ok (perform s (Construct c b kw now)) t.
Proof.
  intros [A B N F C D] R P. destruct s as [os p]. cbn [fst snd] in *.
  assert (E : is_ok (check c kw) = false).
  { destruct (is_ok (check c kw)) eqn:X; [|reflexivity]. exfalso. apply R. now apply check_iff. }
  cbn [perform]. unfold construct, base_init.
  destruct (new_logs (class_name c) now (b_verbose b) (b_log_file b) (pr_logs p)) as (_ & H2 & H3 & H4 & H5).
  destruct (new_recommender (class_name c) now (b_verbose b) (b_log_file b) (pr_logs p)) as [r g]. cbn [snd] in *.
  destruct (check c kw) as [u|e]; [discriminate E|].
  constructor; cbn [fst snd pr_logs].
  - exact A.
  - intros o O. rewrite H4. destruct (B o O) as [B1 B2]. split; [|exact B2]. rewrite B1. now destruct (String.eqb _ _).
  - intro c'. rewrite H5, cnt_con_app. destruct (N c') as [N1 N2]. rewrite N1. split; [|exact N2]. now destruct (_ && _).
  - intros c' q Q. rewrite H5, cnt_app, (F c' q Q).
    destruct (b_log_file b && String.eqb (class_name c) c') eqn:X; [|cbn; lia].
    apply andb_true_iff in X. destruct X as [X1 _].
    unfold cnt at 2. cbn [filter]. destruct (String.eqb_spec (log_path now (class_name c)) q) as [<-|]; [exfalso; exact (P X1 Q)|cbn; lia].
  - now rewrite H2.
  - intros q Q. rewrite H3. now apply D.
Qed.
Lemma alike_accepted ok s t c b kw now : alike ok s t -> supported c kw ->
  alike ok (perform s (Construct c b kw now)) (perform t (Construct c b kw now)).
Proof.
  intros [A B N F C D] R. destruct s as [os p]. destruct t as [os' p']. cbn [fst snd] in *. subst os'.
  apply check_iff in R.
  cbn [perform]. unfold construct, base_init.
  destruct (new_logs (class_name c) now (b_verbose b) (b_log_file b) (pr_logs p)) as (H1 & H2 & H3 & H4 & H5).
  destruct (new_logs (class_name c) now (b_verbose b) (b_log_file b) (pr_logs p')) as (H1' & H2' & H3' & H4' & H5').
  destruct (new_recommender (class_name c) now (b_verbose b) (b_log_file b) (pr_logs p)) as [r g].
  destruct (new_recommender (class_name c) now (b_verbose b) (b_log_file b) (pr_logs p')) as [r' g']. cbn [fst snd] in *. subst r r'.
  destruct (check c kw) as [u|e]; [|discriminate R].
  constructor; cbn [fst snd pr_logs].
  - reflexivity.
  - intros o O. rewrite H4, H4'. apply in_app_or in O. destruct O as [O|[<-|[]]].
    + destruct (B o O) as [-> ->]. now destruct (String.eqb _ _).
    + cbn [ob_log rl_class]. rewrite String.eqb_refl. auto.
  - intro c'. rewrite H5, H5', !cnt_con_app. destruct (N c') as [-> ->]. now destruct (_ && _).
  - intros c' q Q. rewrite H5, H5', !cnt_app, (F c' q Q). reflexivity.
  - now rewrite H2, H2'.
  - intros q Q. rewrite H3, H3'. now apply D.
Qed.
Lemma alike_say ok os p p' o v msg con file : alike ok (os, p) (os, p') -> In o os ->
  alike ok (os, mkProcess (pr_tf p) (pr_asked p) (say (ob_log o) v msg con file (pr_logs p)))
           (os, mkProcess (pr_tf p') (pr_asked p') (say (ob_log o) v msg con file (pr_logs p'))).
Proof.
  intros [A B N F C D] O. cbn [fst snd] in *.
  set (r := ob_log o) in *. destruct (B o O) as [B1 B2].
  set (g := pr_logs p) in *. set (g' := pr_logs p') in *.
  assert (G : let h := say r v msg con file g in let h' := say r v msg con file g' in
    (forall n, handlers h n = handlers g n) /\ (forall n, handlers h' n = handlers g' n) /\
    lg_console h = lg_console h' /\ (forall q, ok q -> contents h q = contents h' q)).
  { cbv zeta. unfold say. destruct (negb (rl_verbose r)); [auto|].
    set (k := console_logger (rl_class r)) in *. set (kf := file_logger (rl_class r)).
    assert (K : let h := if con then log_to k v msg g else g in let h' := if con then log_to k v msg g' else g' in
      (forall n, handlers h n = handlers g n) /\ (forall n, handlers h' n = handlers g' n) /\
      lg_console h = lg_console h' /\ (forall q, ok q -> contents h q = contents h' q)).
    { cbv zeta. destruct con; [|auto].
      destruct (log_to_effect k v msg g) as (L1 & L2 & L3). destruct (log_to_effect k v msg g') as (M1 & M2 & M3).
      fold r k in B1, B2. rewrite B1 in L2, L3. rewrite B2 in M2, M3.
      split; [exact L1|]. split; [exact M1|]. split; [now rewrite L2, M2, C|]. intros q Q. now rewrite L3, M3, (D q Q). }
    cbv zeta in K. destruct K as (K1 & K2 & K3 & K4).
    destruct (rl_file r && file); [|auto].
    set (h := if con then log_to k v msg g else g) in *. set (h' := if con then log_to k v msg g' else g') in *.
    destruct (log_to_effect kf v msg h) as (L1 & L2 & L3). destruct (log_to_effect kf v msg h') as (M1 & M2 & M3).
    destruct (N (rl_class r)) as [N1 N2]. fold kf in N1, N2.
    split; [intro n; now rewrite L1|]. split; [intro n; now rewrite M1|].
    rewrite L2, M2, K1, K2, N1, N2, K3. split; [reflexivity|].
    intros q Q. rewrite L3, M3, (K4 q Q), K1, K2. unfold kf. now rewrite (F (rl_class r) q Q). }
  cbv zeta in G. destruct G as (G1 & G2 & G3 & G4).
  constructor; cbn [fst snd pr_logs].
  - reflexivity.
  - intros o' O'. rewrite G1, G2. now apply B.
  - intro c. rewrite G1, G2. apply N.
  - intros c q Q. rewrite G1, G2. now apply F.
  - exact G3.
  - exact G4.
Qed.
Lemma alike_keep ok s t x : alike ok s t -> (forall c b kw now, x = Construct c b kw now -> supported c kw) ->
  alike ok (perform s x) (perform t x).
Proof.
  intros L S. destruct x as [c b kw now|k v msg con file|n].
  - apply alike_accepted; [exact L|]. now apply (S c b kw now).
  - destruct s as [os p]. destruct t as [os' p']. pose proof (al_objs _ _ _ L) as E. cbn [fst] in E. subst os'.
    cbn [perform]. destruct (nth_error os k) as [o|] eqn:O; [|exact L].
    apply alike_say; [exact L|]. eapply nth_error_In; eauto.
  - destruct s as [os p]. destruct t as [os' p']. cbn [perform]. destruct L. now constructor.
Qed.
Lemma alike_all (ok : string -> Prop) xs ys : erased xs ys -> (forall path, ok path -> ~ raising_file xs path) ->
  forall s t, alike ok s t -> alike ok (fold_left perform xs s) (fold_left perform ys t).
Proof.
  intro E. induction E as [|c b kw now xs ys R E IH|x xs ys K E IH]; intros P s t L; [exact L| |].
  - cbn [fold_left]. apply IH.
    + intros path Q (c' & b' & kw' & now' & I & H). apply (P path Q). exists c', b', kw', now'. split; [now right|exact H].
    + apply alike_rejected; [exact L|exact R|]. intros B Q. apply (P _ Q).
      exists c, b, kw, now. split; [now left|]. split; [exact R|]. split; [exact B|reflexivity].
  - cbn [fold_left]. apply IH.
    + intros path Q (c' & b' & kw' & now' & I & H). apply (P path Q). exists c', b', kw', now'. split; [now right|exact H].
    + apply alike_keep; assumption.
Qed.
Lemma alike0 ok : alike ok ([], process0) ([], process0).
Proof. constructor; cbn; try reflexivity; try (intros; split; reflexivity). intros o []. Qed.
