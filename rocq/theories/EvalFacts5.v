(** Proofs about the evaluation processes: whole calls. *)
From Coq Require Import String Ascii.
From Coq Require Import List ZArith QArith Qcanon Qround Reals Bool Lia Permutation.
From Verif Require Import Py PyFacts MemModel MemSpec MemFacts MemFacts2 MemFacts4 MemFacts5 MemFacts7 Conc ConcFacts SplitModel SplitFacts
  RankModel RankSpec SampModel EvalModel EvalSpec EvalFacts EvalFacts2 EvalFacts3 EvalFacts4.
From Verif Require MemFacts6 RankFacts RankFacts2 SplitFacts2.
Import ListNotations.
Open Scope string_scope.
Open Scope Z_scope.

(** ** tasks *)
Lemma rank_task_sums ms ks x : updates evar 0 (rank_task ms ks x) = block_of ms ks x.
Proof. destruct x as [[c|]|e]; reflexivity. Qed.
Lemma rank_task_done ms ks x : updates evar 1 (rank_task ms ks x) = [bump].
Proof. destruct x as [[c|]|e]; reflexivity. Qed.
Lemma rec_task_sums ms ks x : updates evar 0 (rec_task ms ks x) = block_of ms ks x.
Proof. destruct x as [[c|]|e]; reflexivity. Qed.
Lemma rec_task_done ms ks x : updates evar 1 (rec_task ms ks x) = match x with Ok _ => [bump] | Err _ => [] end.
Proof. destruct x as [[c|]|e]; reflexivity. Qed.

Lemma test_users_first m n : int_data m -> test_users m n = Ok (first_users n m).
Proof.
  intros D. unfold test_users. rewrite (distinct_appearing m "user" DInt (in_wf m D) ltac:(discriminate) (in_cols m D "user" ltac:(simpl; auto)) (in_user m D)).
  reflexivity.
Qed.
Lemma appearing_incl v l : In v (appearing l) -> In v l.
Proof.
  induction l as [|w l IH]; auto. cbn [appearing]. intros [->|H]; [simpl; auto|]. right. apply IH.
  apply in_remove in H. tauto.
Qed.
Lemma firstn_incl {A} (x : A) n l : In x (firstn n l) -> In x l.
Proof. revert l. induction n as [|n IH]; intros [|y l] H; try destruct H; simpl; auto. Qed.
Lemma first_users_int m n v : int_data m -> In v (first_users n m) -> exists u, v = VInt u /\ Z.abs u <= 2 ^ 53.
Proof.
  intros D H. assert (I : In v (column "user" (rows_of m))).
  { apply appearing_incl. unfold first_users in H. destruct n; auto. eapply firstn_incl; eauto. }
  unfold column in I. apply in_flat_map in I. destruct I as (r & Hr & I). destruct (row_user m D r Hr) as [u [E S]].
  rewrite E in I. destruct I as [<-|[]]. eauto.
Qed.

Lemma all_some_map {A B} (f : A -> option B) l ys : all_some (map f l) = Some ys -> Forall2 (fun x y => f x = Some y) l ys.
Proof.
  revert ys. induction l as [|x l IH]; intros ys; cbn [map all_some].
  - intros H. injection H as <-. constructor.
  - destruct (f x) eqn:E; [|discriminate]. destruct (all_some (map f l)); [|discriminate]. intros H. injection H as <-. constructor; auto.
Qed.
Lemma seeded_snd seed us : map snd (seeded_users seed us) = us.
Proof.
  unfold seeded_users. generalize (seq 0 (length us)) (seq_length (length us) 0). induction us as [|u us IH]; intros [|k l] E; try discriminate; auto.
  cbn [map combine snd]. f_equal. apply IH. cbn [length] in E. lia.
Qed.
Lemma Forall2_map_l {A B C} (P : B -> C -> Prop) (f : A -> B) l ys : Forall2 (fun x y => P (f x) y) l ys -> Forall2 P (map f l) ys.
Proof. induction 1; constructor; auto. Qed.

Section Rank.
Variables (fmul : Z -> Qc -> Qc) (md : model) (train_ev : bool) (mt : mem) (a : re_args) (t : slit) (rngs : Z -> rng).
Hypothesis D : int_data mt.
Hypothesis Dtr : e_gen a = true -> train_ev = false -> int_data (md_ds md).
Hypothesis T : threshold_ok t.
Hypothesis ET : e_thr a = lit_text t.
Hypothesis Hg : forall s, rng_ok (rngs s).
Hypothesis Hf : mul_nonneg fmul.
Hypothesis Hn : Z.of_nat (md_items md) <= 2 ^ 53.

Lemma rank_cases_ok fuel us cs : re_check a = Ok tt -> (forall v, In v us -> exists u, v = VInt u /\ Z.abs u <= 2 ^ 53) ->
  rank_cases fmul fuel md train_ev mt a rngs us = Some cs -> Forall2 (user_outcome fmul md train_ev mt a t) us cs.
Proof.
  intros Hc Hu H. unfold rank_cases in H. apply all_some_map in H. rewrite <- (seeded_snd (e_seed a) us).
  apply Forall2_map_l. assert (I : forall p, In p (seeded_users (e_seed a) us) -> In (snd p) us).
  { intros [s v] Hp. apply in_combine_r in Hp. exact Hp. }
  induction H as [|p x l ys E _ IH]; constructor.
  - destruct (Hu _ (I p (or_introl eq_refl))) as [u [Ev Su]]. rewrite Ev in E |- *.
    eapply rank_user_spec; eauto.
  - apply IH. intros; apply I; simpl; auto.
Qed.

Theorem ranking_result fuel sched t0 r : ranking_evaluation fmul fuel md train_ev mt a rngs sched t0 = EDone r ->
  exists cs, Forall2 (user_outcome fmul md train_ev mt a t) (first_users (e_users a) mt) cs /\
    rank_cases fmul fuel md train_ev mt a rngs (first_users (e_users a) mt) = Some cs /\
    r = table (e_metrics a) (e_k a) (evaluated_cases cs).
Proof.
  unfold ranking_evaluation. rewrite (test_users_first mt (e_users a) D). destruct (re_check a) as [[]|e] eqn:C; cbn [bind]; [|discriminate].
  destruct (rank_cases _ _ _ _ _ _ _ _) as [cs|] eqn:E; [|discriminate]. intros H. exists cs.
  split; [|split; auto].
  - eapply rank_cases_ok; eauto. intros v. apply first_users_int; auto.
  - eapply run_table; [|exact H]. apply rank_task_sums.
Qed.
End Rank.

(** the result does not depend on threads, schedule or verbosity *)
Theorem ranking_deterministic fmul fuel md train_ev mt a rngs threads verbose sched sched' t t' r r' :
  ranking_evaluation fmul fuel md train_ev mt a rngs sched t = EDone r ->
  ranking_evaluation fmul fuel md train_ev mt
    (mkRe (e_users a) (e_k a) (e_npos a) (e_nneg a) (e_gen a) (e_thr a) (e_novelty a) (e_seed a) threads verbose (e_metrics a))
    rngs sched' t' = EDone r' -> r = r'.
Proof.
  unfold ranking_evaluation. destruct (re_check a) as [[]|]; cbn [bind]; [|discriminate].
  set (a' := mkRe _ _ _ _ _ _ _ _ _ _ _). destruct (re_check a') as [[]|]; cbn [bind]; [|destruct (test_users mt (e_users a)); discriminate].
  change (e_users a') with (e_users a). destruct (test_users mt (e_users a)) as [us|]; [|discriminate].
  change (rank_cases fmul fuel md train_ev mt a' rngs us) with (rank_cases fmul fuel md train_ev mt a rngs us).
  destruct (rank_cases _ _ _ _ _ _ _ _) as [cs|]; [|discriminate]. cbn [e_threads e_verbose e_metrics e_k a'].
  intros H1 H2. apply run_table in H1; [|apply rank_task_sums]. apply run_table in H2; [|apply rank_task_sums]. congruence.
Qed.

(** ** termination *)
Section Stops.
Variables (fmul : Z -> Qc -> Qc) (md : model) (train_ev : bool) (mt : mem) (a : re_args).

Lemma negatives_stop mu mp u n_pos g : draws_all g -> exists fuel x, forall fuel', (fuel <= fuel')%nat ->
  negatives fmul fuel' md train_ev a mu mp u n_pos g = Some x.
Proof.
  intros Dr. unfold negatives. destruct (mn <- select mu ("interaction < " ++ e_thr a);; item_list mn) as [ns|e]; [|exists 0%nat; eauto].
  destruct (e_nneg a) as [nn|]; [|exists 0%nat; eauto].
  set (have := at_positions _ _). destruct (_ && e_gen a); [|exists 0%nat; eauto].
  destruct (blacklist md train_ev mp u (e_thr a)) as [black|e]; [|exists 0%nat; eauto].
  destruct (_ <? _) eqn:Sk; [exists 0%nat; eauto|]. apply Z.ltb_ge in Sk.
  destruct (gen_stops (md_items md) black (neg_count fmul nn n_pos) (rg_draw g)) with (k := 0%nat) (have := have) as (fuel & x & E).
  - intros k z Hz. apply Dr; lia.
  - lia.
  - exists fuel. destruct x as [l|e]; [exists (Ok (Some l))|exists (Err e)]; intros fuel' Le; rewrite (gen_more _ _ _ _ _ _ _ _ _ Le E); reflexivity.
Qed.
Lemma rank_user_stop u g : draws_all g -> exists fuel x, forall fuel', (fuel <= fuel')%nat ->
  rank_user fmul fuel' md train_ev mt a u g = Some x.
Proof.
  intros Dr. unfold rank_user.
  match goal with |- exists fuel x, forall fuel', _ -> match ?ee with _ => _ end = _ => destruct ee as [[[mu mp] [ps|]]|e] eqn:E end;
    [|exists 0%nat; eauto|exists 0%nat; eauto].
  destruct (negatives_stop mu mp u (length ps) g Dr) as (fuel & x & F). exists fuel.
  destruct x as [[ns|]|e].
  - destruct (map fst ps ++ ns)%list as [|i its] eqn:Ei.
    + exists (Ok None). intros fuel' Le. rewrite (F fuel' Le), Ei. reflexivity.
    + eexists. intros fuel' Le. rewrite (F fuel' Le), Ei. reflexivity.
  - exists (Ok None). intros fuel' Le. rewrite (F fuel' Le). reflexivity.
  - exists (Err e). intros fuel' Le. rewrite (F fuel' Le). reflexivity.
Qed.
Lemma rank_cases_stop rngs us : (forall s, draws_all (rngs s)) -> exists fuel cs, forall fuel', (fuel <= fuel')%nat ->
  rank_cases fmul fuel' md train_ev mt a rngs us = Some cs.
Proof.
  intros Dr. unfold rank_cases. induction (seeded_users (e_seed a) us) as [|p l IH].
  - exists 0%nat, []. reflexivity.
  - destruct IH as (f1 & cs & F1). destruct (rank_user_stop (snd p) (rngs (fst p)) (Dr _)) as (f2 & x & F2).
    exists (Nat.max f1 f2), (x :: cs). intros fuel' Le. cbn [map all_some]. rewrite F2, F1 by lia. reflexivity.
Qed.

Theorem ranking_terminates rngs sched : (forall s, draws_all (rngs s)) -> fair (e_threads a) sched ->
  (exists e, forall fuel t, ranking_evaluation fmul fuel md train_ev mt a rngs sched t = ERaised e) \/
  (exists fuel t r, forall fuel', (fuel <= fuel')%nat -> ranking_evaluation fmul fuel' md train_ev mt a rngs sched t = EDone r).
Proof.
  intros Dr Hf. unfold ranking_evaluation. destruct (re_check a) as [[]|e] eqn:C; cbn [bind]; [|left; eauto].
  destruct (test_users mt (e_users a)) as [us|e]; [|left; eauto]. right.
  destruct (rank_cases_stop rngs us Dr) as (fuel & cs & F). exists fuel.
  assert (Ht : e_threads a <> 0%nat).
  { intros E. unfold re_check in C. rewrite E in C. cbn [Nat.eqb] in C. repeat (match type of C with (if ?b then _ else _) = _ => destruct b; try discriminate end). }
  destruct (run_returns (e_metrics a) (e_k a) (rank_task (e_metrics a) (e_k a)) (rank_task_sums _ _) (e_threads a) (e_verbose a) cs sched Ht Hf) as [t E].
  { intros _ x _. apply rank_task_done. }
  exists t. eexists. intros fuel' Le. rewrite (F fuel' Le). exact E.
Qed.
End Stops.

(** ** recommendation evaluation *)
Section Rec.
Variables (md : model) (mt : mem) (a : rc_args) (rngs : Z -> rng).

Theorem recommendation_result t : int_data mt -> threshold_ok t -> r_thr a = lit_text t -> (forall s, rng_ok (rngs s)) -> int_recs md ->
  forall sched t0 r, recommendation_evaluation md mt a rngs sched t0 = EDone r ->
  exists cs, Forall2 (rec_outcome md mt a t) (first_users (r_users a) mt) cs /\
    r = table (r_metrics a) (r_k a) (evaluated_cases cs).
Proof.
  intros D T ET Hg Hi sched t0 r. unfold recommendation_evaluation. rewrite (test_users_first mt (r_users a) D).
  destruct (rc_check a) as [[]|e] eqn:C; cbn [bind]; [|discriminate]. intros H.
  exists (rec_cases md mt a rngs (first_users (r_users a) mt)). split.
  - assert (Hu : forall v, In v (first_users (r_users a) mt) -> exists u, v = VInt u /\ Z.abs u <= 2 ^ 53) by (intros v; apply first_users_int; auto).
    revert Hu. generalize (first_users (r_users a) mt). intros us Hu. rewrite <- (seeded_snd (r_seed a) us) at 1. unfold rec_cases.
    assert (I : forall p, In p (seeded_users (r_seed a) us) -> In (snd p) us).
    { intros [s v] Hp. apply in_combine_r in Hp. exact Hp. }
    apply Forall2_map_l. induction (seeded_users (r_seed a) us) as [|p l IH]; constructor.
    + destruct (Hu _ (I p (or_introl eq_refl))) as [u [Ev Su]]. rewrite Ev. apply rec_user_spec; auto.
    + apply IH. intros; apply I; simpl; auto.
  - eapply run_table; [|exact H]. apply rec_task_sums.
Qed.

Lemma rc_threads : rc_check a = Ok tt -> r_threads a <> 0%nat.
Proof.
  intros C E. unfold rc_check in C. rewrite E in C. cbn [Nat.eqb] in C.
  repeat (match type of C with (if ?b then _ else _) = _ => destruct b; try discriminate end).
Qed.

Theorem recommendation_terminates sched us : rc_check a = Ok tt -> test_users mt (r_users a) = Ok us ->
  (r_verbose a = true -> forall x, In x (rec_cases md mt a rngs us) -> exists c, x = Ok c) ->
  fair (r_threads a) sched ->
  exists t r, recommendation_evaluation md mt a rngs sched t = EDone r.
Proof.
  intros C E H Hf. unfold recommendation_evaluation. rewrite C, E. cbn [bind].
  destruct (run_returns (r_metrics a) (r_k a) (rec_task (r_metrics a) (r_k a)) (rec_task_sums _ _) (r_threads a) (r_verbose a)
    (rec_cases md mt a rngs us) sched (rc_threads C) Hf) as [t F].
  { intros V x Hx. destruct (H V x Hx) as [c ->]. apply rec_task_done. }
  eauto.
Qed.

Theorem recommendation_hangs sched us e : rc_check a = Ok tt -> test_users mt (r_users a) = Ok us -> r_verbose a = true ->
  In (Err e) (rec_cases md mt a rngs us) -> forall t, recommendation_evaluation md mt a rngs sched t = ERunning.
Proof.
  intros C E V H t. unfold recommendation_evaluation. rewrite C, E, V. cbn [bind].
  apply run_hangs.
  - intros x f _. rewrite rec_task_done. destruct x; [intros [<-|[]]; reflexivity|intros []].
  - induction (rec_cases md mt a rngs us) as [|x l IH]; [destruct H|]. cbn [flat_map]. rewrite app_length, rec_task_done.
    assert (L : forall l : list (res (option case)), (length (flat_map (fun x => updates evar 1 (rec_task (r_metrics a) (r_k a) x)) l) <= length l)%nat).
    { clear. induction l as [|x l IH]; auto. cbn [flat_map]. rewrite app_length, rec_task_done. destruct x; cbn [length]; lia. }
    destruct H as [->|H].
    + cbn [length Nat.add]. specialize (L l). lia.
    + specialize (IH H). destruct x; cbn [length]; lia.
Qed.
End Rec.

(** ** predictive evaluation *)
Section Predictive.
Variables (md : model) (mt : mem) (a : pe_args).
Hypothesis D : pe_data mt.
Hypothesis B : blind md (p_skip a) mt.
Hypothesis P : predicts md (p_skip a) mt.

Lemma pe_cell c r : In c ["user"; "item"; "interaction"] -> In r (rows_of mt) -> exists v, cell r c = Some v /\ (forall z, v = VInt z -> Z.abs z <= 2 ^ 53).
Proof.
  intros Hc Hr. destruct (col_type_ok mt c (pd_wf mt D) (pd_cols mt D c Hc)) as [ty T].
  assert (N : c <> "rid") by (intros ->; simpl in Hc; intuition discriminate).
  destruct (wf_cell mt r c ty (pd_wf mt D) Hr (col_type_assoc mt c ty N T)) as [v [E _]]. exists v. split; auto.
  intros z ->. eapply (pd_small mt D c Hc); eauto.
Qed.
Lemma pe_inter r : In r (rows_of mt) -> exists v, cell r "interaction" = Some v /\ num_of v = Some (interaction_of r) /\ (forall z, v = VInt z -> Z.abs z <= 2 ^ 53).
Proof.
  intros Hr. destruct (pd_value mt D) as [ty [T N]]. destruct (pe_cell "interaction" r ltac:(simpl; auto) Hr) as [v [E S]].
  destruct (wf_cell mt r "interaction" ty (pd_wf mt D) Hr (col_type_assoc mt "interaction" ty ltac:(discriminate) T)) as [v' [E' Ty]].
  exists v. split; auto. split; auto. assert (v' = v) by congruence. subst v'. unfold interaction_of. rewrite E.
  destruct v; auto. exfalso. apply N. rewrite <- Ty. reflexivity.
Qed.

Definition at_cell (c : string) (r : row) : value := match cell r c with Some v => v | None => VInt 0 end.

Lemma triples_ok : exists t, triples mt = Ok (map (fun r => (upcast t (at_cell "user" r), upcast t (at_cell "item" r), interaction_of r)) (rows_of mt)).
Proof.
  unfold triples. destruct (values_map mt ["user"; "item"; "interaction"] (pd_wf mt D) (pd_cols mt D)) as [t E].
  exists t. rewrite E. cbn [bind]. rewrite mapM_map. apply mapM_Ok. intros r Hr. unfold rec_of. cbn [map].
  change (String.eqb "interaction" "rid") with false. change (String.eqb "item" "rid") with false. change (String.eqb "user" "rid") with false. cbn iota.
  destruct (pe_inter r Hr) as [v [Ev [Nv Sv]]]. unfold row_val_or, row_val.
  change (String.eqb "interaction" "rid") with false. change (String.eqb "item" "rid") with false. change (String.eqb "user" "rid") with false. cbn iota.
  rewrite Ev, (num_upcast t v _ Nv Sv). unfold at_cell.
  destruct (pe_cell "user" r ltac:(simpl; auto) Hr) as [x [Ex _]]. destruct (pe_cell "item" r ltac:(simpl; auto) Hr) as [y [Ey _]].
  rewrite Ex, Ey. reflexivity.
Qed.

Lemma scored_cons cn r rs : In r (rows_of mt) -> forall t, exists p,
  md_predict md (upcast t (at_cell "user" r)) (upcast t (at_cell "item" r)) (p_skip a) = Ok p /\
  scored_pairs md (p_skip a) cn (r :: rs) =
    (match p with Some q => [(q, interaction_of r)] | None => if cn then [(0%Qc, interaction_of r)] else [] end ++ scored_pairs md (p_skip a) cn rs)%list.
Proof.
  intros Hr t. destruct (pe_cell "user" r ltac:(simpl; auto) Hr) as [x [Ex Sx]]. destruct (pe_cell "item" r ltac:(simpl; auto) Hr) as [y [Ey Sy]].
  destruct (P r x y Hr Ex Ey) as [p Ep]. exists p. unfold at_cell. rewrite Ex, Ey.
  rewrite (B r x y (upcast t x) (upcast t y) Hr Ex Ey (same_upcast t x Sx) (same_upcast t y Sy)). split; auto.
  unfold scored_pairs. cbn [flat_map]. rewrite Ex, Ey, Ep. destruct p; reflexivity.
Qed.

Lemma pe_loop_ok t n cn : forall rs made, (forall r, In r rs -> In r (rows_of mt)) -> 0 <= made ->
  pe_loop (fun u i => md_predict md u i (p_skip a)) cn n made
    (map (fun r => (upcast t (at_cell "user" r), upcast t (at_cell "item" r), interaction_of r)) rs) =
  Ok (firstn (Z.to_nat (n - made)) (scored_pairs md (p_skip a) cn rs)).
Proof.
  induction rs as [|r rs IH]; intros made H Hm.
  - cbn [map pe_loop]. unfold scored_pairs. cbn [flat_map]. rewrite firstn_nil. reflexivity.
  - cbn [map pe_loop]. destruct (scored_cons cn r rs (H r (or_introl eq_refl)) t) as [p [Ep Es]]. rewrite Es.
    destruct (n <=? made) eqn:L.
    + apply Z.leb_le in L. replace (Z.to_nat (n - made)) with 0%nat by lia. reflexivity.
    + apply Z.leb_gt in L. rewrite Ep. cbn [bind].
      assert (S : Z.to_nat (n - made) = S (Z.to_nat (n - (made + 1)))) by lia.
      destruct p as [q|]; [|destruct cn]; cbn [app].
      * rewrite IH by (auto; try lia; intros; apply H; simpl; auto). cbn [bind]. rewrite S. reflexivity.
      * rewrite IH by (auto; try lia; intros; apply H; simpl; auto). cbn [bind]. rewrite S. reflexivity.
      * rewrite IH by (auto; try lia; intros; apply H; simpl; auto). reflexivity.
Qed.

Lemma scored_length cn rs : (length (scored_pairs md (p_skip a) cn rs) <= length rs)%nat.
Proof.
  induction rs as [|r rs IH]; auto. unfold scored_pairs in *. cbn [flat_map]. rewrite app_length. cbn [length].
  assert (L : (length (match cell r "user" with Some u => match cell r "item" with Some i => match md_predict md u i (p_skip a) with
     | Ok (Some p) => [(p, interaction_of r)] | Ok None => if cn then [(0%Qc, interaction_of r)] else [] | Err _ => [] end | None => [] end | None => [] end) <= 1)%nat).
  { destruct (cell r "user"); [|simpl; lia]. destruct (cell r "item"); [|simpl; lia]. destruct (md_predict _ _ _ _) as [[p|]|e]; [| |]; try destruct cn; simpl; lia. }
  lia.
Qed.

Definition scored := first_pairs (p_n a) (scored_pairs md (p_skip a) (p_count_none a) (rows_of mt)).

Lemma pe_pairs : predictive_evaluation md mt a =
  if negb (0 <? match p_n a with Some n => n | None => Z.of_nat (length (rows_of mt)) end) then Err AssertionError else
  vs <- mapM (fun m => x <- pm_call m (true_values scored) (predictions scored) ;; Ok (pm_name m, round4 x)) (p_metrics a) ;;
  Ok (fold_left (fun d p => assoc_set String.eqb (fst p) (snd p) d) vs []).
Proof.
  unfold predictive_evaluation, mem_len. destruct (negb _) eqn:En; auto. apply negb_false_iff, Z.ltb_lt in En.
  destruct triples_ok as [t E]. rewrite E. cbn [bind]. rewrite pe_loop_ok by (auto; lia). cbn [bind]. rewrite Z.sub_0_r.
  set (sp := scored_pairs md (p_skip a) (p_count_none a) (rows_of mt)).
  assert (Sc : firstn (Z.to_nat (Z.min (match p_n a with Some n => n | None => Z.of_nat (length (rows_of mt)) end) (Z.of_nat (length (rows_of mt))))) sp = scored).
  { unfold scored, first_pairs. fold sp. assert (L := scored_length (p_count_none a) (rows_of mt)). fold sp in L.
    destruct (p_n a) as [n|].
    - destruct (Z.min_spec n (Z.of_nat (length (rows_of mt)))) as [[_ ->]|[G ->]]; auto.
      rewrite Nat2Z.id. rewrite !firstn_all2 by lia. reflexivity.
    - rewrite Z.min_id, Nat2Z.id. apply firstn_all2. auto. }
  rewrite Sc. reflexivity.
Qed.

Lemma assoc_fold {A} (vs : list (string * A)) : forall d, NoDup (map fst d ++ map fst vs) ->
  fold_left (fun d p => assoc_set String.eqb (fst p) (snd p) d) vs d = (d ++ vs)%list.
Proof.
  induction vs as [|[k v] vs IH]; intros d N; cbn [fold_left]; [symmetry; apply app_nil_r|]. cbn [fst snd].
  assert (E : forall d, ~ In k (map fst d) -> assoc_set String.eqb k v d = (d ++ [(k, v)])%list).
  { clear. induction d as [|[k' v'] d IH]; intros N; auto. cbn [assoc_set]. cbn [map fst] in N.
    destruct (String.eqb k k') eqn:E; [apply String.eqb_eq in E; subst; exfalso; apply N; simpl; auto|].
    cbn [app]. f_equal. apply IH. intros H. apply N. simpl; auto. }
  rewrite E.
  - rewrite IH; [rewrite <- app_assoc; reflexivity|]. rewrite map_app, <- app_assoc. exact N.
  - cbn [map fst] in N. apply NoDup_remove_2 in N. intros H. apply N. apply in_or_app. auto.
Qed.

Theorem predictive_ok : match p_n a with Some n => 0 < n | None => rows_of mt <> [] end ->
  NoDup (map pm_name (p_metrics a)) ->
  (forall r, predictive_evaluation md mt a = Ok r ->
     Forall2 (fun m kv => fst kv = pm_name m /\ exists x, pm_call m (true_values scored) (predictions scored) = Ok x /\ snd kv = round4 x) (p_metrics a) r) /\
  ((forall m, In m (p_metrics a) -> exists x, pm_call m (true_values scored) (predictions scored) = Ok x) ->
     exists r, predictive_evaluation md mt a = Ok r).
Proof.
  intros Hn N. rewrite pe_pairs.
  assert (E : negb (0 <? match p_n a with Some n => n | None => Z.of_nat (length (rows_of mt)) end) = false).
  { apply negb_false_iff, Z.ltb_lt. destruct (p_n a); auto. destruct (rows_of mt); [contradiction|]. cbn [length]. lia. }
  rewrite E. split.
  - intros r. destruct (mapM _ _) as [vs|] eqn:M; cbn [bind]; [|discriminate]. intros H. injection H as <-.
    apply RankFacts2.mapM_Forall2 in M.
    assert (F : Forall2 (fun m kv => fst kv = pm_name m /\ exists x, pm_call m (true_values scored) (predictions scored) = Ok x /\ snd kv = round4 x) (p_metrics a) vs).
    { clear - M. induction M as [|m kv ms vs H _ IH]; constructor; auto.
      destruct (pm_call m _ _) as [x|]; cbn [bind] in H; [|discriminate]. injection H as <-. cbn [fst snd]. eauto. }
    rewrite assoc_fold; auto. cbn [map app].
    assert (K : map fst vs = map pm_name (p_metrics a)).
    { clear - F. induction F as [|m kv ms vs [H _] _ IH]; auto. cbn [map]. congruence. }
    rewrite K. exact N.
  - intros H. assert (X : exists vs, mapM (fun m => x <- pm_call m (true_values scored) (predictions scored) ;; Ok (pm_name m, round4 x)) (p_metrics a) = Ok vs).
    { clear - H. induction (p_metrics a) as [|m ms IH]; [exists []; reflexivity|]. cbn [mapM].
      destruct (H m (or_introl eq_refl)) as [x ->]. cbn [bind]. destruct IH as [vs ->]; [intros; apply H; simpl; auto|]. cbn [bind]. eauto. }
    destruct X as [vs ->]. cbn [bind]. eauto.
Qed.
End Predictive.

(** the recommender does not distinguish 5 and 5.0 *)
Lemma to_internal_same h mp v z : same_value v (VInt z) -> to_internal h (Ok DInt) mp v = to_internal h (Ok DInt) mp (VInt z).
Proof.
  intros S. unfold to_internal. destruct (negb h); auto. cbn [bind]. destruct v as [x|q|s]; cbn [same_value num_of] in S; [| |contradiction].
  - assert (x = z) by (apply Qc_of_Z_inj; congruence). congruence.
  - assert (q = Qc_of_Z z) by congruence. subst q. rewrite num_Z. cbn [inject_Z Qnum Qden]. rewrite Z.quot_1_r. reflexivity.
Qed.
Lemma recommender_blind impl f m n skip mt : wf_mem mt -> In "user" (m_columns mt) -> In "item" (m_columns mt) ->
  id_match m mt "user" -> id_match m mt "item" -> blind (recommender impl f m n) skip mt.
Proof.
  intros W Cu Ci Mu Mi r u i u' i' Hr Eu Ei Su Si. cbn [recommender md_predict].
  assert (X : forall c x x' h mp, c <> "rid" -> id_match m mt c -> cell r c = Some x -> same_value x' x -> to_internal h (col_type m c) mp x' = to_internal h (col_type m c) mp x).
  { intros c x x' h mp Nr [T|[T1 T2]] E S.
    - destruct (wf_cell mt r c DObj W Hr (col_type_assoc mt c DObj Nr T)) as [v [E' Ty]]. assert (v = x) by congruence. subst v.
      destruct x; try discriminate. destruct x'; cbn [same_value] in S; try contradiction. congruence.
    - destruct (wf_cell mt r c DInt W Hr (col_type_assoc mt c DInt Nr T2)) as [v [E' Ty]]. assert (v = x) by congruence. subst v.
      destruct x as [z| |]; try discriminate. rewrite T1. apply to_internal_same. auto. }
  unfold predict, user_to_uid, item_to_iid.
  rewrite (X "user" u u' _ _ ltac:(discriminate) Mu Eu Su), (X "item" i i' _ _ ltac:(discriminate) Mi Ei Si). reflexivity.
Qed.
Lemma recommender_predicts impl f m n mt : predicts (recommender impl f m n) true mt.
Proof.
  intros r u i _ _ _. cbn [recommender md_predict]. unfold predict. cbn [negb bind].
  match goal with |- exists p, match ?e with _ => _ end = _ => destruct e end; eauto.
Qed.

(** recommendations of a recommender trained on integer item ids *)
Lemma recommender_int_recs m0 m tu impl f n : trained_on m0 m tu DInt -> small_col m0 "item" -> int_recs (recommender impl f m n).
Proof.
  intros T S u k novelty low recs. cbn [recommender md_recommend]. destruct (recommend _ _ _ _ _ _ _ _) as [l|] eqn:E; cbn [bind]; [|discriminate].
  intros N. apply Forall_forall. intros v Hv.
  assert (K : exists i, iid_to_item m i = Ok (Some v)).
  { unfold named in N. destruct (MemFacts6.mapM_In _ _ _ _ N Hv) as [[s o] [Hp Eo]]. cbn [snd] in Eo. destruct o as [w|]; [|discriminate].
    injection Eo as ->. unfold recommend in E. cbn [negb] in E. destruct (user_to_uid m u) as [[uid|]|]; cbn [bind] in E; try discriminate.
    destruct (recommend_int _ _ _ _ _ _) as [sc|]; cbn [bind] in E; [|discriminate]. unfold with_items in E.
    destruct (MemFacts6.mapM_In _ _ _ _ E Hp) as [[s' i] [_ Ei]]. cbn [snd fst] in Ei.
    destruct (iid_to_item m i) as [w|] eqn:Ew; cbn [bind] in Ei; [|discriminate]. exists i. injection Ei as _ ->. exact Ew. }
  destruct K as [i Hi]. destruct (RankFacts.iid_to_item_known m0 m tu DInt T i v Hi) as [Kn Ty].
  unfold known_item, column in Kn. apply in_flat_map in Kn. destruct Kn as (r & Hr & Er).
  destruct (cell r "item") as [w|] eqn:Ec; [|destruct Er]. destruct Er as [->|[]].
  destruct v as [z| |]; try discriminate. exists z. split; [reflexivity|]. eapply S; eauto.
Qed.
