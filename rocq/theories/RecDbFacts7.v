(** Interaction vectors of a data set in a database and of the same data set in
    memory. *)
From Coq Require Import String Ascii.
From Coq Require Import List ZArith QArith Qcanon Bool Permutation Sorted Lia.
From Verif Require Import Py PyFacts MemModel MemSpec MemFacts MemFacts2 MemFacts3 MemFacts4 MemFacts5 MemFacts6 RankModel RankSpec RankFacts RankFacts2 KnnModel KnnSpec KnnFacts KnnFacts2 KnnFacts3 FitModel
  DbModel DbFacts DbSpec DbFacts3 DbFacts7 DbFacts12 DbFacts13 DbFacts14 DbFacts15 DbFacts16 DbFacts17 SampModel DbGenModel DbGenSpec DbGenFacts DbGenFacts2
  DbSplitModel DbSplitSpec DbSplitFacts DbSplitFacts3 DbSplitFacts6 TwinSpec TwinFacts TwinFacts5 TwinFacts6 RecDbModel RecDbModel2 RecDbFacts RecDbFacts2 RecDbFacts3 RecDbFacts4 RecDbFacts6 RecDbSpec2.
Import ListNotations.
Open Scope string_scope.
Open Scope Z_scope.
Open Scope list_scope.

Section Max.
Variable inode : string -> nat.
Variables (i : nat) (d : ds).
Hypothesis Rd : ready d.
Lemma max_runs_at b c : In c (d_cols d) -> runs inode i d b (db (db_max inode i c)) (fun b' r => extends b b' /\ exists v, r = Ok v /\ extreme Datatypes.Gt c (d_rows d) v).
Proof.
  intros Hc s F. pose proof F as (_ & Hb & _). destruct (read_step inode i d (fun l => l) (OMax i c) i d (snd s) b) as (w' & a & E & F' & A); auto.
  - intro; auto.
  - intros b0 H0. split; [cbn; congruence|]. exists d. split; [auto|]. split; [left; apply Rd|auto].
  - cbn [exec] in E. apply amap_inv in E. destruct E as ([v|e] & E & Er); [|discriminate]. injection Er as ->. destruct A as (v' & X & Ex). injection X as <-.
    eexists. eexists. exists b. split; [unfold db; rewrite E; reflexivity|]. split; [exact F'|]. split; [apply extends_refl|eauto].
Qed.
End Max.

(** ** Sums *)
Definition pair_obs (es : list (Z * Z * Qc)) (u k : Z) : Qc := sum (map snd (filter (fun e => (t_u e =? u) && (t_i e =? k)) es)).
Lemma dense_form n es : dense n es = map (fun k => sum (map snd (filter (fun e => fst e =? k) es))) (Zseq n).
Proof.
  unfold dense, Zseq. rewrite map_map. apply map_ext. intro k. induction es as [|e es IH]; [reflexivity|]. cbn [fold_right filter].
  destruct (fst e =? Z.of_nat k); cbn [map sum fold_right]; rewrite IH; auto.
Qed.
Lemma filter_filter {A} (f g : A -> bool) l : filter f (filter g l) = filter (fun x => g x && f x) l.
Proof. induction l as [|a l IH]; [auto|]. cbn [filter]. destruct (g a); cbn [filter andb]; [|auto]. destruct (f a); congruence. Qed.
Lemma filter_map_fst {A} (f : A -> Z) (q : A -> Qc) k l : map snd (filter (fun e => fst e =? k) (map (fun x => (f x, q x)) l)) = map q (filter (fun x => f x =? k) l).
Proof. induction l as [|a l IH]; [auto|]. cbn [map filter fst]. destruct (f a =? k); cbn [map snd]; congruence. Qed.
Lemma nth_error_ext {A} (l l' : list A) : (forall j, nth_error l j = nth_error l' j) -> l = l'.
Proof.
  revert l'; induction l as [|x l IH]; intros [|y l'] H; auto.
  - specialize (H 0%nat). discriminate.
  - specialize (H 0%nat). discriminate.
  - f_equal; [specialize (H 0%nat); simpl in H; congruence|]. apply IH. intros j. apply (H (S j)).
Qed.
Lemma spec_list (f : Z -> Qc) n vec : length vec = n -> (forall k, 0 <= k < Z.of_nat n -> nth_error vec (Z.to_nat k) = Some (f k)) -> vec = map f (Zseq n).
Proof.
  intros L H. apply nth_error_ext. intro k. destruct (Nat.lt_ge_cases k n) as [Lt|Ge].
  - rewrite <- (Nat2Z.id k), H by lia. rewrite nth_error_map, nth_error_Zseq by lia. reflexivity.
  - transitivity (@None Qc); [apply nth_error_None; lia|symmetry; apply nth_error_None]. unfold Zseq. rewrite !map_length, seq_length. lia.
Qed.

Section Vec.
Variable inode : string -> nat.
Variable ords : nat -> list trow -> list trow.
Hypothesis Po : forall k, permuting (ords k).
Variables (i : nat) (d : ds) (m0 m : mem) (tu ti : dtype).
Hypothesis T : trained_on m0 m tu ti.
Hypothesis Nm : numeric m0.
Hypothesis Tw : twin d m.
Hypothesis Cm : complete d.
Local Notation fine := (fine inode i d).
Local Notation runs := (runs inode i d).
Local Notation gives := (gives inode i d).
Local Notation sub := (sub d).
Local Notation rdy := (rec_ready d m0 m tu ti T Nm Tw Cm).
Local Notation srdy := (sub_ready inode d m0 m tu ti T Nm Tw Cm).
Local Notation nu := (n_distinct "user" m0).
Local Notation np := (n_distinct "item" m0).

Lemma pair_sum_obs u k : pair_sum u k (rows_of m) = pair_obs (obs m) u k.
Proof.
  rewrite (obs_map m0 m tu ti T Nm). unfold pair_sum, pair_obs, sum. f_equal.
  assert (G : forall r, In r (rows_of m) -> In r (rows_of m)) by auto. revert G. generalize (rows_of m) at 1 3 4.
  induction l as [|r l IH]; intro G; [auto|]. cbn [filter map]. destruct (KnnFacts.good m0 m tu ti T Nm r (G r (or_introl eq_refl))) as (Eu & Ei & _).
  unfold has_pair at 1. rewrite Eu, Ei. destruct ((t_u (tri r) =? u) && (t_i (tri r) =? k)); cbn [map]; rewrite IH by (intros; apply G; right; auto); reflexivity.
Qed.

Section Full.
Hypothesis Ne : rows_of m0 <> [].
Lemma trained_contig : contig m nu np.
Proof.
  pose proof (trained_assigned m0 m tu ti T) as Em.
  assert (exists r, In r (rows_of m)) as [r Hr].
  { destruct (rows_of m0) as [|r0 l] eqn:E; [congruence|]. rewrite Em, assigned_rows, E. eexists. left. reflexivity. }
  destruct (number_type d m0 m tu ti T Nm Tw r Hr) as (t & Ht & Nt).
  rewrite Em. rewrite Em in Ht.
  destruct Nm as (Ix & _). destruct (col_type_ok m0 "interaction" (tr_wf _ _ _ _ T) Ix) as [tx Htx].
  apply (assigned_contig m0 tu ti tx (tr_wf _ _ _ _ T) (tr_user _ _ _ _ T) (tr_item _ _ _ _ T) Htx); [|exact Ne].
  intros ->. destruct Nm as (_ & Nr & _). destruct (rows_of m0) as [|r0 l] eqn:E; [congruence|].
  destruct (Nr r0 (or_introl eq_refl)) as (v & q & Ev & Q).
  assert (Hr0 : In r0 (rows_of m0)) by (rewrite E; left; auto).
  destruct (wf_cell m0 r0 "interaction" DObj (tr_wf _ _ _ _ T) Hr0 (col_type_assoc m0 "interaction" DObj ltac:(discriminate) Htx)) as (v' & Ev' & Tv).
  rewrite Ev in Ev'. injection Ev' as <-. destruct v; cbn in *; discriminate.
Qed.

Definition size (c : string) : nat := if String.eqb c "uid" then nu else np.
Lemma max_id c v : c = "uid" \/ c = "iid" -> extreme Datatypes.Gt c (d_rows d) v -> v = Some (VInt (Z.of_nat (size c) - 1)).
Proof.
  intros Hc X. pose proof trained_contig as C.
  assert (P0 : (0 < size c)%nat) by (unfold size; destruct (c =? "uid")%string; [apply (cg_n _ _ _ C)|apply (cg_p _ _ _ C)]).
  assert (In_range : forall row, In row (d_rows d) -> exists z, tcell row c = Some (VInt z) /\ 0 <= z < Z.of_nat (size c)).
  { intros row Hr. destruct (rec_rows d m Tw row Hr) as (r & Hr0 & ->). destruct (dtri_as m0 m tu ti T Nm r Hr0) as (_ & X1 & X2 & _).
    destruct (KnnFacts.good m0 m tu ti T Nm r Hr0) as (Eu & Ei & _). destruct (cg_row _ _ _ C r Hr0) as (u & k & Eu' & Bu & Ei' & Bi & _).
    destruct Hc as [-> | ->]; unfold size; cbn [String.eqb Ascii.eqb Bool.eqb].
    - exists (t_u (tri r)). split; [auto|]. replace (t_u (tri r)) with u by congruence. exact Bu.
    - exists (t_i (tri r)). split; [auto|]. replace (t_i (tri r)) with k by congruence. exact Bi. }
  assert (There : exists row, In row (d_rows d) /\ tcell row c = Some (VInt (Z.of_nat (size c) - 1))).
  { assert (Hb : exists r, In r (rows_of m) /\ cell r c = Some (VInt (Z.of_nat (size c) - 1))).
    { destruct Hc as [-> | ->]; unfold size in *; cbn [String.eqb Ascii.eqb Bool.eqb] in *; [apply (cg_uall _ _ _ C)|apply (cg_iall _ _ _ C)]; lia. }
    destruct Hb as (r & Hr & E). exists (as_trow (m_columns m) r). split; [apply (twin_row d m Tw); eauto|].
    destruct (dtri_as m0 m tu ti T Nm r Hr) as (_ & X1 & X2 & _). destruct (KnnFacts.good m0 m tu ti T Nm r Hr) as (Eu & Ei & _).
    destruct Hc as [-> | ->]; congruence. }
  destruct There as (row & Hr & E). destruct v as [v|]; [|cbn in X; rewrite (X row Hr) in E; discriminate].
  destruct X as ((row' & Hr' & E') & Mx). destruct (In_range row' Hr') as (z & Ez & Bz). rewrite E' in Ez. injection Ez as ->.
  specialize (Mx row _ Hr E). cbn [key_of key_compare] in Mx. rewrite Qc_of_Z_compare in Mx. do 2 f_equal.
  destruct (Z.compare_spec (Z.of_nat (size c) - 1) z); [auto|lia|congruence].
Qed.

(** the vectors as sums of the interactions *)
Definition uvec (u : Z) : list Qc := map (fun k => pair_obs (obs m) u k) (Zseq np).
Definition ivec (k : Z) : list Qc := map (fun u => pair_obs (obs m) u k) (Zseq nu).
Definition other (c : string) : string := if String.eqb c "uid" then "iid" else "uid".
Definition cvec (c : string) (k : Z) : list Qc := if String.eqb c "uid" then uvec k else ivec k.
Definition t_c (c : string) (e : Z * Z * Qc) : Z := if String.eqb c "uid" then t_u e else t_i e.

Lemma compute_runs b c k : c = "uid" \/ c = "iid" -> gives b (db_compute inode ords c (other c) i k) (Ok (cvec c k)).
Proof.
  intro Hc. assert (Ho : other c = "uid" \/ other c = "iid") by (destruct Hc as [-> | ->]; cbn; auto).
  assert (Io : forall d', d_cols d' = d_cols d -> incl [other c; "interaction"] (d_cols d')).
  { intros d' -> x Hx. apply (rec_cols d m0 m tu ti T Nm Tw Cm). destruct Hx as [<-|[<-|[]]]; [destruct Ho as [-> | ->]|]; cbn; auto. }
  apply runs_book. intro Hb. unfold db_compute.
  eapply runs_bind; [apply (max_runs_at inode i d rdy b (other c)); apply (Io d eq_refl); left; auto| |intros b' e (_ & v & X & _); discriminate].
  cbn beta. intros b1 top (X1 & v & E & Xv). apply ok_same in E. subst v. apply (max_id _ _ Ho) in Xv. subst top.
  eapply runs_bind; [apply (select_runs inode i d rdy b1 c k Hc)| |intros b' e (j & X & _); discriminate].
  cbn beta. intros b2 j0 (j & Ej & Fr & ->). apply ok_same in Ej. subst j0. fold (sub c k).
  apply runs_book. intro Hb2. assert (Nj : j <> i). { intros ->. rewrite X1 in Fr by congruence. congruence. }
  eapply runs_bind.
  - apply (each_runs inode ords Po i d _ j (sub c k) [other c; "interaction"]); [apply note_same|apply srdy|apply Io; reflexivity|].
    intros row Hr x Hx. apply (rec_full _ (srdy c k) row Hr). destruct Hx as [<-|[<-|[]]]; [destruct Ho as [-> | ->]|]; cbn; auto.
  - cbn beta. intros b3 vs (X3 & rl & Pl & E). apply ok_same in E. subst vs.
    eapply runs_bind; [apply (close_runs inode i d b3 j (sub c k) (ext_at _ _ _ _ X3) Nj)| |intros b' e (X & _); discriminate].
    cbn beta. intros b4 _u (_ & ->).
    assert (Em : mapM KnnModel.pair_of (map (fun row => map (fun c => match tcell row c with Some v => v | None => VInt 0 end) [other c; "interaction"]) rl)
                 = Ok (map (fun row => (t_c (other c) (dtri row), snd (dtri row))) rl)).
    { rewrite mapM_map. apply mapM_all. intros row Hr. pose proof (Permutation_in _ Pl Hr) as Hr'. cbn [map].
      fold (sure (other c) row) (sure "interaction" row). rewrite (int_id (other c) _ row (srdy c k) Hr' Ho).
      cbn [KnnModel.pair_of]. rewrite int_value_int. cbn [bind]. rewrite (read_num _ row (srdy c k) Hr'). cbn [bind]. do 2 f_equal.
      unfold t_c, dtri. destruct Ho as [-> | ->]; reflexivity. }
    rewrite Em. eapply runs_bind; [apply (runs_ret inode i d _ _ (fun b' r => b' = note b3 j None /\ r = Ok (map (fun row => (t_c (other c) (dtri row), snd (dtri row))) rl))); auto| |intros b' e (_ & Y); discriminate].
    cbn beta. intros b5 es (-> & E5). apply ok_same in E5. subst es. apply runs_ret.
    split; [eapply extends_trans; [exact X1|eapply ext_close; eauto]|].
    assert (Bd : forallb (fun e => ((fst e <=? Z.of_nat (size (other c)) - 1) && (0 <=? fst e))%bool) (map (fun row => (t_c (other c) (dtri row), snd (dtri row))) rl) = true).
    { apply forallb_forall. intros e He. apply in_map_iff in He. destruct He as (row & <- & Hr). cbn [fst].
      apply (Permutation_in _ Pl) in Hr. unfold RecDbFacts3.sub, restricted in Hr. cbn [d_rows] in Hr. apply filter_In in Hr. destruct Hr as [Hr _].
      destruct (rec_rows d m Tw row Hr) as (r & Hr0 & ->). destruct (dtri_as m0 m tu ti T Nm r Hr0) as (-> & _).
      destruct (KnnFacts.good m0 m tu ti T Nm r Hr0) as (Eu & Ei & _). destruct (cg_row _ _ _ trained_contig r Hr0) as (u & k' & Eu' & Bu & Ei' & Bi & _).
      apply andb_true_iff. rewrite !Z.leb_le. unfold t_c, size. destruct Ho as [-> | ->]; cbn [String.eqb Ascii.eqb Bool.eqb].
      - replace (t_u (tri r)) with u by congruence. lia.
      - replace (t_i (tri r)) with k' by congruence. lia. }
    rewrite Bd. f_equal. replace (Z.to_nat (Z.of_nat (size (other c)) - 1 + 1)) with (size (other c)) by lia. rewrite dense_form.
    assert (Es : forall z, sum (map snd (filter (fun e => fst e =? z) (map (fun row => (t_c (other c) (dtri row), snd (dtri row))) rl)))
      = sum (map snd (filter (fun e => is_c c k e && (t_c (other c) e =? z)) (obs m)))).
    { intro z. rewrite filter_map_fst. rewrite <- filter_filter. apply sum_perm.
      rewrite <- (map_map dtri snd). apply Permutation_map. rewrite (filter_map_eq dtri (fun e => t_c (other c) e =? z)). apply filter_perm.
      eapply Permutation_trans; [apply Permutation_map, Pl|]. apply (sub_rows d m0 m tu ti T Nm Tw Cm c k Hc). }
    unfold cvec, uvec, ivec, pair_obs. destruct Hc as [-> | ->]; cbn [String.eqb Ascii.eqb Bool.eqb]; apply map_ext; intro z; rewrite Es; do 2 f_equal; apply filter_ext; intro e; unfold is_c, t_c, is_u, is_i; cbn [other String.eqb Ascii.eqb Bool.eqb]; first [reflexivity|apply andb_comm].
  - intros b' e (_ & l & _ & X). discriminate.
Qed.
End Full.

(** ** In memory: the data set after some reads *)
Record read_state (v : mem) : Prop := {
  rs_same : v = set_caches m (m_cache v) (m_tcache v);
  rs_cache : rows_of m0 <> [] -> cache_ok v nu np }.
Definition mem_user (u : Z) : res (list Qc) := match uid_to_user m u with Ok (Some _) => Ok (uvec u) | Ok None => Err AssertionError | Err e => Err e end.
Definition mem_item (k : Z) : res (list Qc) := match iid_to_item m k with Ok (Some _) => Ok (ivec k) | Ok None => Err AssertionError | Err e => Err e end.
Lemma read_start : read_state m.
Proof. split; [destruct m; reflexivity|]. intros _. left. apply (tw_cache _ _ Tw). Qed.
Lemma no_rows : rows_of m0 = [] -> (forall k, uid_to_user m k = Ok None) /\ (forall k, iid_to_item m k = Ok None).
Proof.
  intro E. rewrite (trained_assigned m0 m tu ti T). split; intro k; rewrite ?uid_to_user_assigned, ?iid_to_item_assigned, E; cbn [distinct_col];
  destruct (0 <=? k); auto; f_equal; destruct (Z.to_nat k); reflexivity.
Qed.
Lemma range_user k v : uid_to_user m k = Ok (Some v) -> 0 <= k < Z.of_nat nu.
Proof.
  rewrite (trained_assigned m0 m tu ti T), uid_to_user_assigned. destruct (Z.leb_spec 0 k) as [L|L]; [|discriminate]. intro E. apply ok_same in E.
  assert (N : (Z.to_nat k < length (distinct_col "user" (rows_of m0)))%nat) by (apply nth_error_Some; congruence). rewrite <- n_distinct_length in N. lia.
Qed.
Lemma range_item k v : iid_to_item m k = Ok (Some v) -> 0 <= k < Z.of_nat np.
Proof.
  rewrite (trained_assigned m0 m tu ti T), iid_to_item_assigned. destruct (Z.leb_spec 0 k) as [L|L]; [|discriminate]. intro E. apply ok_same in E.
  assert (N : (Z.to_nat k < length (distinct_col "item" (rows_of m0)))%nat) by (apply nth_error_Some; congruence). rewrite <- n_distinct_length in N. lia.
Qed.
Hypothesis N1 : nu <> 1%nat.
Lemma two_users : rows_of m0 <> [] -> (2 <= nu)%nat.
Proof. intro Ne. pose proof (cg_n _ _ _ (trained_contig Ne)). lia. Qed.
Lemma state_contig v : read_state v -> rows_of m0 <> [] -> contig v nu np.
Proof. intros R Ne. rewrite (rs_same v R). apply contig_set_caches, trained_contig, Ne. Qed.
Lemma set_caches_same v c t : v = set_caches m c t -> v = set_caches m (m_cache v) (m_tcache v).
Proof. intros ->. reflexivity. Qed.
Lemma step_same (v v' : mem) : read_state v -> (exists c t, v' = set_caches v c t) -> v' = set_caches m (m_cache v') (m_tcache v').
Proof. intros R (c & t & ->). rewrite (rs_same v R). reflexivity. Qed.
Lemma user_caches v u : exists c t, snd (MemModel.user_vec v u) = set_caches v c t.
Proof.
  assert (S : exists c t, v = set_caches v c t) by (exists (m_cache v), (m_tcache v); destruct v; reflexivity).
  unfold MemModel.user_vec. destruct (negb (m_ids v)); [exact S|]. destruct (uid_to_user v u) as [[x|]|e]; try exact S.
  destruct (m_cache v) as [mx|]; [destruct (Nat.leb _ 1); [cbn [snd]; eauto|exact S]|]. destruct (build_matrix v) as [[mx tmx]|e]; [cbn [snd]; eauto|exact S].
Qed.
Lemma item_caches v u : exists c t, snd (MemModel.item_vec v u) = set_caches v c t.
Proof.
  assert (S : exists c t, v = set_caches v c t) by (exists (m_cache v), (m_tcache v); destruct v; reflexivity).
  unfold MemModel.item_vec. destruct (negb (m_ids v)); [exact S|]. destruct (iid_to_item v u) as [[x|]|e]; try exact S.
  destruct (m_cache v) as [mx|]; [destruct (Nat.leb _ 1); [cbn [snd]; eauto|destruct (m_tcache v); exact S]|]. destruct (build_matrix v) as [[mx tmx]|e]; [cbn [snd]; eauto|exact S].
Qed.
Lemma trained_ids : m_ids m = true.
Proof. rewrite (trained_assigned m0 m tu ti T). reflexivity. Qed.
Lemma user_read v u : read_state v -> fst (MemModel.user_vec v u) = mem_user u /\ read_state (snd (MemModel.user_vec v u)).
Proof.
  intro R. split; [|split].
  - assert (Eu : uid_to_user v u = uid_to_user m u) by (rewrite (rs_same v R); reflexivity).
    assert (Ei : m_ids v = true) by (rewrite (rs_same v R); apply trained_ids).
    unfold mem_user. destruct (uid_to_user m u) as [[x|]|e] eqn:E.
    + assert (Ne : rows_of m0 <> []). { intro Y. destruct (no_rows Y) as [Z0 _]. rewrite Z0 in E. discriminate. }
      destruct (user_vec_cached v nu np u (state_contig v R Ne) (two_users Ne) (rs_cache v R Ne) (range_user u x E)) as (vec & -> & L & S).
      f_equal. unfold uvec. rewrite (spec_list _ _ _ L S). apply map_ext. intro k. rewrite <- pair_sum_obs. rewrite (rs_same v R). reflexivity.
    + unfold MemModel.user_vec. rewrite Ei, Eu. reflexivity.
    + unfold MemModel.user_vec. rewrite Ei, Eu. reflexivity.
  - apply (step_same v); [exact R|apply user_caches].
  - intro Ne. apply (user_vec_state v nu np u (state_contig v R Ne) (two_users Ne) (rs_cache v R Ne)).
Qed.
Lemma item_read v u : read_state v -> fst (MemModel.item_vec v u) = mem_item u /\ read_state (snd (MemModel.item_vec v u)).
Proof.
  intro R. split; [|split].
  - assert (Eu : iid_to_item v u = iid_to_item m u) by (rewrite (rs_same v R); reflexivity).
    assert (Ei : m_ids v = true) by (rewrite (rs_same v R); apply trained_ids).
    unfold mem_item. destruct (iid_to_item m u) as [[x|]|e] eqn:E.
    + assert (Ne : rows_of m0 <> []). { intro Y. destruct (no_rows Y) as [_ Z0]. rewrite Z0 in E. discriminate. }
      destruct (item_vec_cached v nu np u (state_contig v R Ne) (two_users Ne) (rs_cache v R Ne) (range_item u x E)) as (vec & -> & L & S).
      f_equal. unfold ivec. rewrite (spec_list _ _ _ L S). apply map_ext. intro k. rewrite <- pair_sum_obs. rewrite (rs_same v R). reflexivity.
    + unfold MemModel.item_vec. rewrite Ei, Eu. reflexivity.
    + unfold MemModel.item_vec. rewrite Ei, Eu. reflexivity.
  - apply (step_same v); [exact R|apply item_caches].
  - intro Ne. apply (item_vec_state v nu np u (state_contig v R Ne) (two_users Ne) (rs_cache v R Ne)).
Qed.
Definition one_read (x : vread) : res (list Qc) := match x with VUser u => mem_user u | VItem k => mem_item k end.
Lemma reads_mem l : forall v, read_state v -> fst (mem_reads v l) = map one_read l /\ read_state (snd (mem_reads v l)).
Proof.
  induction l as [|x l IH]; intros v R; cbn [mem_reads]; [auto|].
  assert (H : fst (mem_read v x) = one_read x /\ read_state (snd (mem_read v x))) by (destruct x; [apply user_read|apply item_read]; exact R).
  destruct (mem_read v x) as [r v1]. cbn [fst snd] in H. destruct H as [-> R1]. specialize (IH v1 R1). destruct (mem_reads v1 l) as [rs v2]. cbn [fst snd] in *. destruct IH as [-> R2]. auto.
Qed.

(** ** In a database *)
Section Back.
Hypothesis Ub : forall b k, gives b (db (db_uid_to_user inode i k)) (uid_to_user m k).
Hypothesis Ib : forall b k, gives b (db (db_iid_to_item inode i k)) (iid_to_item m k).
Lemma self_runs b : runs b (db (self i)) (fun b' r => extends b b' /\ exists x, r = Ok x /\ i_ids x = true).
Proof.
  intros [n w] F. cbn [snd] in F. pose proof F as ((b' & Eb & R) & Hb & _). pose proof (inv_ds _ _ _ (reaches_inv _ _ _ R) i d) as Sh.
  rewrite Eb in Sh. specialize (Sh Hb). destruct (shows_inst inode w i d Sh) as (x & H & _ & _ & Di & _).
  exists (n, w), (Ok x), b. split; [unfold db, self; cbn [snd fst]; rewrite H; reflexivity|]. split; [exact F|]. split; [apply extends_refl|].
  exists x. split; [auto|]. rewrite Di, (tw_ids _ _ Tw). apply trained_ids.
Qed.
Definition is_known (r : res (option value)) : res unit := match r with Ok (Some _) => Ok tt | Ok None => Err AssertionError | Err e => Err e end.
Lemma known_gives back r b k : (forall b', gives b' (db (back k)) r) -> gives b (db_known back i k) (is_known r).
Proof.
  intro H. unfold db_known. eapply (gives_then inode i d b _ _ (fun r => exists x, r = Ok x /\ i_ids x = true)); [apply self_runs|intros e (x & X & _); discriminate|].
  intros b1 x _ (x' & E & Di). apply ok_same in E. subst x'. rewrite Di. cbn [negb].
  replace (is_known r) with (u <- r ;; match u with None => Err AssertionError | Some _ => Ok tt end) by (destruct r as [[v|]|e]; reflexivity).
  apply gives_bind; [apply H|]. intros b2 a _ _. apply gives_ret.
Qed.
Lemma known_form {A} (r : res (option value)) (x : A) : (_ <- is_known r ;; Ok x) = match r with Ok (Some _) => Ok x | Ok None => Err AssertionError | Err e => Err e end.
Proof. destruct r as [[v|]|e]; reflexivity. Qed.
Lemma user_vector_gives b u : gives b (db_user_vector inode ords i u) (mem_user u).
Proof.
  unfold db_user_vector, mem_user. rewrite <- known_form. apply gives_bind; [apply known_gives; intro; apply Ub|]. intros b1 [] _ E.
  apply (compute_runs); [|auto]. intro Y. destruct (no_rows Y) as [Z0 _]. rewrite Z0 in E. discriminate.
Qed.
Lemma item_vector_gives b u : gives b (db_item_vector inode ords i u) (mem_item u).
Proof.
  unfold db_item_vector, mem_item. rewrite <- known_form. apply gives_bind; [apply known_gives; intro; apply Ib|]. intros b1 [] _ E.
  apply (compute_runs); [|auto]. intro Y. destruct (no_rows Y) as [_ Z0]. rewrite Z0 in E. discriminate.
Qed.

(** *** with the caches *)
Definition holds_vecs (f : Z -> list Qc) (c : list (Z * list Qc)) : Prop := forall k v, assoc Z.eqb k c = Some v -> v = f k.
Lemma cached_runs lim f compute b k c : (forall b', gives b' (compute k) (Ok (f k))) -> holds_vecs f c ->
  runs b (db_cached lim compute k c) (fun b' r => extends b b' /\ exists c', r = Ok (f k, c') /\ holds_vecs f c').
Proof.
  intros H K. unfold db_cached. destruct (assoc Z.eqb k c) as [v|] eqn:E.
  - apply runs_ret. split; [apply extends_refl|]. exists c. rewrite (K k v E). auto.
  - eapply runs_bind; [apply H| |intros b' e (_ & X); discriminate]. cbn beta. intros b1 v (X & Ev). apply ok_same in Ev. subst v.
    apply runs_ret. split; [exact X|]. eexists. split; [reflexivity|]. intros k' v. cbn [assoc]. destruct (Z.eqb_spec k' k) as [->|]; [congruence|].
    destruct (lim <? length c)%nat; [discriminate|apply K].
Qed.
Lemma read_runs lu li b x c : holds_vecs uvec (fst c) -> holds_vecs ivec (snd c) ->
  runs b (db_read inode ords lu li i x c) (fun b' r => extends b b' /\
    match one_read x with Ok v => exists c', r = Ok (v, c') /\ holds_vecs uvec (fst c') /\ holds_vecs ivec (snd c') | Err e => r = Err e end).
Proof.
  intros Ku Ki. destruct x as [u|k]; cbn [db_read one_read].
  - unfold db_user_cached, mem_user. eapply runs_bind; [apply (known_gives _ _ b u (fun b' => Ub b' u))| |].
    + cbn beta. intros b1 [] (X1 & E). destruct (uid_to_user m u) as [[v|]|e] eqn:Eu; try discriminate.
      assert (Ne : rows_of m0 <> []). { intro Y. destruct (no_rows Y) as [Z0 _]. rewrite Z0 in Eu. discriminate. }
      eapply runs_bind; [apply (cached_runs lu uvec (db_compute inode ords "uid" "iid" i) b1 u (fst c)); [intro b'; apply (compute_runs Ne b' "uid" u); auto|exact Ku]| |intros b' e (_ & c' & Y & _); discriminate].
      cbn beta. intros b2 r (X2 & c' & E2 & K2). apply ok_same in E2. subst r. apply runs_ret. split; [eapply extends_trans; eauto|]. eexists. split; [reflexivity|]. auto.
    + cbn beta. intros b1 e (X1 & E). split; [exact X1|]. unfold is_known in E. destruct (uid_to_user m u) as [[v|]|e']; [discriminate|injection E as ->; reflexivity|injection E as ->; reflexivity].
  - unfold db_item_cached, mem_item. eapply runs_bind; [apply (known_gives _ _ b k (fun b' => Ib b' k))| |].
    + cbn beta. intros b1 [] (X1 & E). destruct (iid_to_item m k) as [[v|]|e] eqn:Eu; try discriminate.
      assert (Ne : rows_of m0 <> []). { intro Y. destruct (no_rows Y) as [_ Z0]. rewrite Z0 in Eu. discriminate. }
      eapply runs_bind; [apply (cached_runs li ivec (db_compute inode ords "iid" "uid" i) b1 k (snd c)); [intro b'; apply (compute_runs Ne b' "iid" k); auto|exact Ki]| |intros b' e (_ & c' & Y & _); discriminate].
      cbn beta. intros b2 r (X2 & c' & E2 & K2). apply ok_same in E2. subst r. apply runs_ret. split; [eapply extends_trans; eauto|]. eexists. split; [reflexivity|]. auto.
    + cbn beta. intros b1 e (X1 & E). split; [exact X1|]. unfold is_known in E. destruct (iid_to_item m k) as [[v|]|e']; [discriminate|injection E as ->; reflexivity|injection E as ->; reflexivity].
Qed.
Lemma reads_db lu li l : forall b c, holds_vecs uvec (fst c) -> holds_vecs ivec (snd c) -> gives b (db_reads inode ords lu li i l c) (Ok (map one_read l)).
Proof.
  induction l as [|x l IH]; intros b c Ku Ki; [apply gives_ret|]. cbn [db_reads map]. intros s F.
  destruct (read_runs lu li b x c Ku Ki s F) as (s1 & r & b1 & E & F1 & X1 & Hr). rewrite E.
  assert (Go : forall r' c1, r' = one_read x -> holds_vecs uvec (fst c1) -> holds_vecs ivec (snd c1) ->
    exists s2 r2 b2, pbind (db_reads inode ords lu li i l c1) (fun rs => pret (Ok (r' :: rs))) s1 = (s2, r2) /\ fine (snd s2) b2 /\ extends b b2 /\ r2 = Ok (one_read x :: map one_read l)).
  { intros r' c1 -> K1 K2. destruct (IH b1 c1 K1 K2 s1 F1) as (s2 & r2 & b2 & E2 & F2 & X2 & ->).
    exists s2. eexists. exists b2. split; [unfold pbind; rewrite E2; unfold pret; reflexivity|]. split; [exact F2|]. split; [eapply extends_trans; eauto|auto]. }
  destruct (one_read x) as [v|e]; [destruct Hr as (c' & -> & K1 & K2)|subst r]; apply Go; auto.
Qed.
End Back.
End Vec.
