(** The start of a split, the plans of its tasks, and what the tasks add up to. *)
From Coq Require Import String Ascii.
From Coq Require Import List ZArith QArith Qcanon Qround Bool Permutation Sorted Lia.
From Verif Require Import Py PyFacts MemModel MemSpec SplitModel SplitSpec SplitFacts SplitFacts2 SplitFacts3
  DbModel DbFacts DbSpec DbFacts2 DbFacts3 DbFacts4 DbFacts5 DbFacts6 DbFacts7 DbFacts12 DbFacts13 DbFacts14 DbFacts15 DbFacts17
  SampModel DbGenModel DbGenSpec DbGenFacts DbGenFacts2 DbSplitModel DbSplitSpec DbSplitFacts DbSplitFacts2.
Import ListNotations.
Open Scope string_scope.
Open Scope Z_scope.
Open Scope list_scope.

Section Rows.
Variable inode : string -> nat.
Notation reaches := (reaches inode).

Lemma book_rows w b i d : reaches w b -> b i = Some d ->
  NoDup (map rid_of (d_rows d)) /\ In "rid" (d_cols d) /\ (forall row, In row (d_rows d) -> tcell row "rid" = Some (VInt (rid_of row))) /\
  typed (d_cols d) (d_rows d).
Proof.
  intros R H. destruct (reaches_inv _ _ _ R) as [B D]. specialize (D i d H). destruct (shows_inst _ _ _ _ D) as (x & Hx & C & _ & _ & P).
  destruct D as [S _]. destruct (den_good inode w i x B S Hx) as (Ty & N & _ & _ & Rc & Rr). rewrite C in *.
  split; [|split; [auto|split]].
  - eapply Permutation_NoDup; [apply Permutation_map; exact P|exact N].
  - intros row Hr. destruct (Rr row) as [z Hz]; [exact (Permutation_in _ (Permutation_sym P) Hr)|]. unfold rid_of. rewrite Hz. auto.
  - eapply typed_perm; eauto.
Qed.

(** ** The distinct values of a column *)
Definition col_ds (d : ds) (c : string) : ds :=
  mkDs [c; "rid"] (d_types d) (d_ids d) (map (proj [c; "rid"]) (filter (first_of_group [c] (d_rows d)) (d_rows d))).
Lemma unique_call w b i d c w' r : reaches w b -> b i = Some d -> In c (d_cols d) -> c <> "rid" ->
  unique inode i (Some [c]) true w = (w', Ok r) ->
  b (fst r) = None /\ reaches w' (note b (fst r) (Some (col_ds d c))) /\ framed i w w' (fst r).
Proof.
  intros R Hb Hc Nc E.
  assert (S : safe inode w b (OUnique i (Some [c]) true)).
  { exists d. split; [auto|]. cbn [asked]. split; [|discriminate]. constructor; [auto|constructor]. }
  assert (X : exec inode (fun l => l) (OUnique i (Some [c]) true) w = (w', Ok (ADs (fst r)))).
  { cbn [exec]. unfold amap, andthen. rewrite E. auto. }
  assert (Po : permuting (fun l => l)) by (intro; auto).
  pose proof (Calls inode _ _ _ _ _ _ R Po S X) as R'. pose proof (answer_of inode _ _ _ _ _ _ (reaches_inv _ _ _ R) Po S X) as A.
  destruct A as [_ A]. cbn [fresh_result] in A. destruct A as (j' & Ej & Fr). injection Ej as <-.
  split; [auto|]. split; [|eapply unique_frame; eauto].
  cbn [effect] in R'. rewrite Hb in R'. cbn [asked] in R'.
  assert (F : forallb (fun c => existsb (String.eqb c) (d_cols d)) [c] = true).
  { cbn [forallb]. rewrite andb_true_r. apply existsb_exists. exists c. split; [auto|apply String.eqb_refl]. }
  rewrite F in R'. unfold plus_rid in R'. cbn [existsb] in R'. rewrite (proj2 (String.eqb_neq "rid" c)) in R' by congruence. exact R'.
Qed.

Lemma min_exists (l : list trow) : l <> [] -> exists a, In a l /\ forall b, In b l -> rid_of a <= rid_of b.
Proof.
  induction l as [|x l IH]; [congruence|]. intros _. destruct l as [|y l].
  - exists x. split; [left; auto|]. intros b [<-|[]]. lia.
  - destruct IH as (m & Hm & Lm); [discriminate|]. destruct (Z.le_gt_cases (rid_of x) (rid_of m)) as [L|L].
    + exists x. split; [left; auto|]. intros b [<-|Hb]; [lia|]. specialize (Lm b Hb). lia.
    + exists m. split; [right; auto|]. intros b [<-|Hb]; [lia|auto].
Qed.
Lemma rid_inj (l : list trow) a b : NoDup (map rid_of l) -> In a l -> In b l -> rid_of a = rid_of b -> a = b.
Proof.
  induction l as [|x l IH]; intros N Ha Hb E; [destruct Ha|]. cbn in N. inversion N as [|? ? N1 N2]; subst.
  destruct Ha as [->|Ha]; destruct Hb as [->|Hb]; auto; exfalso; apply N1.
  - rewrite E. apply in_map. auto.
  - rewrite <- E. apply in_map. auto.
Qed.
Lemma nodup_map_inj {A B} (f : A -> B) l : NoDup l -> (forall a b, In a l -> In b l -> f a = f b -> a = b) -> NoDup (map f l).
Proof.
  induction l as [|a l IH]; intros N H; [constructor|]. cbn. inversion N as [|? ? N1 N2]; subst. constructor.
  - intro K. apply in_map_iff in K. destruct K as (b & E & Hb). apply N1. rewrite (H a b); auto; [left; auto|right; auto].
  - apply IH; auto. intros; apply H; auto; right; auto.
Qed.
Lemma nodup_rows (l : list trow) : NoDup (map rid_of l) -> NoDup l.
Proof. apply NoDup_map_inv. Qed.
Lemma first_cell c rows row : first_of_group [c] rows row = true <-> forall r, In r rows -> tcell r c = tcell row c -> rid_of row <= rid_of r.
Proof.
  unfold first_of_group. rewrite negb_true_iff. split.
  - intros H r Hr E. destruct (Z.le_gt_cases (rid_of row) (rid_of r)) as [L|L]; [auto|]. exfalso.
    assert (X : existsb (fun r => (same_cells [c] r row && (rid_of r <? rid_of row))%bool) rows = true).
    { apply existsb_exists. exists r. split; [auto|]. apply andb_true_iff. split; [|apply Z.ltb_lt; lia].
      unfold same_cells, cells. cbn [map]. destruct (cells_dec _ _) as [|Q]; [auto|]. congruence. }
    congruence.
  - intro H. apply not_true_is_false. intro K. apply existsb_exists in K. destruct K as (r & Hr & K). apply andb_true_iff in K.
    destruct K as [K1 K2]. apply Z.ltb_lt in K2. unfold same_cells, cells in K1. cbn [map] in K1. destruct (cells_dec _ _) as [Q|]; [|discriminate].
    injection Q as Q. specialize (H r Hr Q). lia.
Qed.
(** The cells of the first rows: each value once. *)
Lemma firsts_cells d c : NoDup (map rid_of (d_rows d)) ->
  let l := map (fun r => tcell r c) (filter (first_of_group [c] (d_rows d)) (d_rows d)) in
  NoDup l /\ forall v, In v l <-> exists row, In row (d_rows d) /\ tcell row c = v.
Proof.
  intro N. cbv zeta. split.
  - apply nodup_map_inj; [apply NoDup_filter, nodup_rows; auto|]. intros x y Hx Hy E. apply filter_In in Hx, Hy.
    destruct Hx as [Hx Fx], Hy as [Hy Fy]. rewrite first_cell in Fx, Fy. apply (rid_inj (d_rows d)); auto.
    specialize (Fx y Hy). specialize (Fy x Hx). rewrite E in *. specialize (Fx eq_refl). specialize (Fy eq_refl). lia.
  - intro v. rewrite in_map_iff. split.
    + intros (row & E & H). apply filter_In in H. exists row. tauto.
    + intros (row & Hr & E). set (g := filter (fun r => cell_is c v r) (d_rows d)).
      destruct (min_exists g) as (m & Hm & Lm).
      { intro K. assert (In row g); [|rewrite K in *; auto]. apply filter_In. split; [auto|]. unfold cell_is.
        destruct (opt_value_dec _ _); auto. }
      apply filter_In in Hm. destruct Hm as [Hm Ev]. unfold cell_is in Ev. destruct (opt_value_dec (tcell m c) v) as [Q|]; [|discriminate].
      exists m. split; [auto|]. apply filter_In. split; [auto|]. apply first_cell. intros r Hr' Er. apply Lm. apply filter_In.
      split; [auto|]. unfold cell_is. destruct (opt_value_dec _ _); [auto|]. congruence.
Qed.
Lemma proj_cell c row : tcell (proj [c; "rid"] row) c = tcell row c.
Proof. apply tcell_proj. left. auto. Qed.

(** Reading the distinct values of a column. *)
Lemma read_column ord w b j d c lo w' vs : permuting ord -> reaches w b -> b j = Some (col_ds d c) -> NoDup (map rid_of (d_rows d)) ->
  values inode ord j (Some [c]) lo w = (w', Ok vs) ->
  exists l, Permutation l (filter (first_of_group [c] (d_rows d)) (d_rows d)) /\ mapM one_cell vs = Ok (map (fun r => tcell r c) l) /\
    (sorting ord -> StronglySorted (fun a b => rid_of a <= rid_of b) l).
Proof.
  intros Po R Hb N E. destruct (values_read inode _ _ _ _ _ _ _ _ _ Po (reaches_inv _ _ _ R) Hb E) as (l & P & -> & So).
  cbn [col_ds d_rows] in P.
  destruct (Permutation_map_inv _ _ P) as (l' & -> & P').
  exists l'. split; [apply Permutation_sym; auto|]. split.
  - cbn [asked]. rewrite map_map. rewrite (mapM_all _ (fun r => hd None r)).
    + rewrite map_map. f_equal. apply map_ext. intro row. cbn [cells map hd]. apply proj_cell.
    + intros a Ha. apply in_map_iff in Ha. destruct Ha as (row & <- & _). auto.
  - intro H. specialize (So H).
    assert (G : forall l, StronglySorted (fun a b => rid_of a <= rid_of b) (map (proj [c; "rid"]) l) -> StronglySorted (fun a b => rid_of a <= rid_of b) l).
    { assert (Q : forall r, rid_of (proj [c; "rid"] r) = rid_of r).
      { intro r. unfold rid_of. rewrite tcell_proj; [auto|right; left; auto]. }
      intro l. induction l as [|a l IH]; intro S; [constructor|]. cbn [map] in S. inversion S as [|? ? S1 S2]; subst. constructor; [auto|].
      apply Forall_forall. intros q Hq. rewrite Forall_forall in S2. specialize (S2 _ (in_map _ _ _ Hq)). 
      change (rid_of (proj [c; "rid"] a) <= rid_of (proj [c; "rid"] q)) in S2. rewrite !Q in S2. exact S2. }
    auto.
Qed.
End Rows.

(** ** What the tasks add up to *)
Section Sum.
Variable d : ds.
Hypothesis Nd : NoDup (map rid_of (d_rows d)).
Definition user_rows_of (z : Z) : list trow := filter (of_user z) (d_rows d).
Definition within (z : Z) (l : list Z) : Prop := forall x, In x l -> In x (map rid_of (user_rows_of z)).

Lemma listed_in rids row : listed rids row = true <-> In (rid_of row) rids.
Proof.
  unfold listed. rewrite existsb_exists. split.
  - intros (x & Hx & E). apply Z.eqb_eq in E. congruence.
  - intro H. exists (rid_of row). split; [auto|apply Z.eqb_refl].
Qed.
Lemma listed_same l l' row : (forall x, In x l <-> In x l') -> listed l row = listed l' row.
Proof. intro H. apply eq_true_iff_eq. rewrite !listed_in. auto. Qed.

Lemma own_part (l : list (Z * list Z)) z x row : NoDup (map fst l) -> Forall (fun p => within (fst p) (snd p)) l -> In (z, x) l ->
  In row (d_rows d) -> of_user z row = true -> (In (rid_of row) (flat_map snd l) <-> In (rid_of row) x).
Proof.
  intros N F Hp Hr Ho. rewrite in_flat_map. split.
  - intros ([z' x'] & Hp' & Hx). cbn [snd] in Hx. rewrite Forall_forall in F. pose proof (F _ Hp' _ Hx) as W. cbn [fst] in W.
    apply in_map_iff in W. destruct W as (r' & E & Hr'). apply filter_In in Hr'. destruct Hr' as [Hr' Ho'].
    assert (r' = row) by (apply (rid_inj (d_rows d)); auto). subst r'.
    assert (z' = z).
    { unfold of_user in *. destruct (tcell row "user") as [[u| |]|]; try discriminate. apply Z.eqb_eq in Ho, Ho'. congruence. }
    subst z'. enough (x' = x) by congruence. clear - N Hp Hp'. induction l as [|[u y] l IH]; [destruct Hp|].
    cbn in N. inversion N as [|? ? N1 N2]; subst. destruct Hp as [E|Hp]; destruct Hp' as [E'|Hp']; auto; try congruence.
    + injection E as -> ->. exfalso. apply N1. apply (in_map fst) in Hp'. auto.
    + injection E' as -> ->. exfalso. apply N1. apply (in_map fst) in Hp. auto.
  - intro H. exists (z, x). auto.
Qed.
(** how many rows of a user are listed *)
Lemma count_listed z x : NoDup x -> within z x -> length (filter (fun row => (listed x row && of_user z row)%bool) (d_rows d)) = length x.
Proof.
  intros N W. set (l := filter _ _). rewrite <- (map_length rid_of l). apply Permutation_length. apply NoDup_Permutation.
  - unfold l. clear l. assert (K : NoDup (map rid_of (d_rows d))) by auto. revert K. generalize (d_rows d) as rows. clear.
    intro rows. induction rows as [|r rows IH]; intro K; [constructor|]. cbn in K |- *. inversion K as [|? ? K1 K2]; subst.
    destruct (_ && _)%bool; [|auto]. cbn. constructor; [|auto]. intro Q. apply K1. apply in_map_iff in Q. destruct Q as (q & E & Hq).
    apply filter_In in Hq. rewrite <- E. apply in_map. tauto.
  - auto.
  - intro r. split.
    + intro H. apply in_map_iff in H. destruct H as (row & <- & H). apply filter_In in H. destruct H as [_ H].
      apply andb_true_iff in H. apply listed_in. tauto.
    + intro H. pose proof (W r H) as K. apply in_map_iff in K. destruct K as (row & <- & Hr). apply filter_In in Hr.
      apply in_map. apply filter_In. split; [tauto|]. apply andb_true_iff. split; [apply listed_in; auto|tauto].
Qed.
Lemma count_part z p : count_of z (part d p) = Z.of_nat (length (filter (fun row => (p row && of_user z row)%bool) (d_rows d))).
Proof.
  unfold count_of, part. cbn [d_rows]. f_equal. f_equal. generalize (d_rows d). intro l. induction l as [|r l IH]; [auto|]. cbn.
  destruct (p r); cbn; [destruct (of_user z r)|]; rewrite ?IH; auto.
Qed.
End Sum.
