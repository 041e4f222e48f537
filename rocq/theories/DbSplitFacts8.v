(** Splits on database data sets: matrix_split. *)
From Coq Require Import String Ascii.
From Coq Require Import List ZArith QArith Qcanon Qround Bool Permutation Sorted Lia.
From Verif Require Import Py PyFacts MemModel MemSpec SplitModel SplitSpec SplitFacts3 SplitFacts4
  DbModel DbFacts DbFacts3 DbFacts5 DbFacts7 DbFacts12 DbFacts13 DbFacts14 DbFacts17 DbSpec SampModel DbGenModel DbGenSpec DbGenFacts2
  DbSplitModel DbSplitSpec DbSplitFacts DbSplitFacts2 DbSplitFacts3 DbSplitFacts4 DbSplitFacts5 DbSplitFacts6 DbSplitFacts7.
Import ListNotations.
Open Scope string_scope.
Open Scope Z_scope.
Open Scope list_scope.

(** ** Reading the distinct values of a column *)
Section Columns.
Variable inode : string -> nat.
Notation reaches := (reaches inode).
Definition col_prelude (c : string) (ord : list trow -> list trow) (lo : bool) (i : nat) : M (nat * list (option value)) :=
  u <~ unique inode i (Some [c]) true ;;
  rows <~ values inode ord (fst u) (Some [c]) lo ;;
  us <~ lift (mapM one_cell rows) ;; ret (fst u, us).

Lemma read_col ord lo w b i d c w1 uj vs : reaches w b -> b i = Some d -> In c (d_cols d) -> c <> "rid" -> permuting ord ->
  col_prelude c ord lo i w = (w1, Ok (uj, vs)) ->
  exists l, Permutation l (firsts_of c d) /\ vs = map (fun r => tcell r c) l /\ (sorting ord -> by_rid_order l) /\
    b uj = None /\ reaches w1 (note b uj (Some (col_ds d c))) /\
    w_open w1 = (w_open w + if lo then 1 else 0)%nat /\
    (forall j, j <> uj -> w_inst w j = None -> w_inst w1 j = None).
Proof.
  intros R Hb Hc Nc Po E. apply andthen_val in E. destruct E as (w2 & u & E1 & E).
  destruct (unique_call inode _ _ _ _ _ _ _ R Hb Hc Nc E1) as (Fr & R1 & F1).
  apply andthen_val in E. destruct E as (w3 & rows & E2 & E). apply andthen_val in E. destruct E as (w4 & us' & E3 & E).
  injection E as <- <- <-. injection E3 as <- E3.
  destruct (book_rows inode _ _ _ _ R Hb) as (N & _ & _ & _).
  destruct (read_column inode _ _ _ _ _ _ _ _ _ Po R1 (note_same _ _ _) N E2) as (l & P & El & So).
  exists l. split; [exact P|]. split; [congruence|]. split; [exact So|]. split; [auto|].
  destruct (values_call inode _ _ _ _ _ _ _ _ _ R1 Po (note_same _ _ _) E2) as [R2 _].
  destruct (values_frame inode _ _ _ _ _ _ _ E2) as (V1 & V2 & V3 & _). specialize (V3 _ eq_refl).
  split; [auto|]. pose proof F1 as (_ & O1 & _). split; [rewrite V3, O1; destruct lo; lia|].
  intros j Nj Hj. rewrite V2 by auto. exact (framed_inst inode _ _ _ _ _ _ R Hb F1 j Nj Hj).
Qed.
Lemma distinct_firsts d c : NoDup (map rid_of (d_rows d)) -> distinct c d = Z.of_nat (length (firsts_of c d)).
Proof.
  intro N. unfold distinct. f_equal. destruct (firsts_cells inode d c N) as [F1 F2].
  rewrite <- (map_length (fun r => tcell r c) (firsts_of c d)). apply Permutation_length. apply NoDup_Permutation.
  - apply NoDup_nodup.
  - exact F1.
  - intro v. rewrite nodup_In, in_map_iff. fold (firsts_of c d) in F2. rewrite F2. split; intros (r & A & B); eauto.
Qed.
Lemma drawn_spec (f : Z -> list (option value) -> nat -> list (option value)) seed d c l n vs : sample_ok f -> NoDup (map rid_of (d_rows d)) ->
  Permutation l (firsts_of c d) -> odraw f seed (map (fun r => tcell r c) l) n = Ok vs -> drawn_from c d n vs.
Proof.
  intros Hf N P E. unfold odraw in E. destruct ((0 <=? n) && (n <=? _))%bool eqn:B; [|discriminate].
  apply andb_true_iff in B. destruct B as [B1 B2]. apply Z.leb_le in B1, B2. injection E as <-.
  destruct (Hf seed (map (fun r => tcell r c) l) (Z.to_nat n)) as (L & rest & Q); [lia|].
  destruct (firsts_cells inode d c N) as [F1 F2].
  assert (N2 : NoDup (map (fun r => tcell r c) l)).
  { eapply Permutation_NoDup; [apply Permutation_map, Permutation_sym; exact P|exact F1]. }
  split; [lia|]. split.
  - apply (Permutation_NoDup Q) in N2. clear - N2. revert N2. generalize (f seed (map (fun r => tcell r c) l) (Z.to_nat n)).
    intros x N. induction x as [|a x IH]; [constructor|]. cbn in N. inversion N as [|? ? K1 K2]; subst. constructor; [|auto].
    intro X. apply K1. apply in_app_iff. auto.
  - intros v Hv. apply F2. apply (Permutation_in _ (Permutation_map (fun r => tcell r c) P)).
    apply (Permutation_in _ (Permutation_sym Q)). apply in_app_iff. auto.
Qed.
End Columns.

Lemma filter_shorter (p : trow -> bool) l : (length (filter p l) <= length l)%nat.
Proof. induction l as [|a l IH]; cbn [filter length]; [auto|]. destruct (p a); cbn [length]; lia. Qed.
Lemma some_left (p : trow -> bool) l : (length (filter p l) < length l)%nat <-> exists r, In r l /\ p r = false.
Proof.
  induction l as [|a l IH]; cbn [filter length]; [split; [lia|intros (r & [] & _)]|].
  pose proof (filter_shorter p l) as L. destruct (p a) eqn:E; cbn [length].
  - rewrite <- Nat.succ_lt_mono, IH. split; intros (r & A & B); exists r; (split; [|auto]); [right; auto|].
    destruct A as [<-|A]; [congruence|auto].
  - split; [|lia]. intros _. exists a. split; [left; auto|auto].
Qed.

(** ** The plan *)
Section Plan.
Variable d : ds.
Variables (minimum : Z) (users items : list (option value)).
Hypothesis U : user_ints d.
Hypothesis Nd : NoDup (map rid_of (d_rows d)).
Hypothesis Rc : In "rid" (d_cols d).
Hypothesis Rr : forall row, In row (d_rows d) -> tcell row "rid" = Some (VInt (rid_of row)).
Hypothesis Ty : typed (d_cols d) (d_rows d).
Hypothesis Hus : forall v, In v users -> exists row, In row (d_rows d) /\ tcell row "user" = v.
Hypothesis His : forall v, In v items -> exists row, In row (d_rows d) /\ tcell row "item" = v.

Lemma omem_drawn c vs row : In c (d_cols d) -> (forall v, In v vs -> exists row, In row (d_rows d) /\ tcell row c = v) ->
  In row (d_rows d) -> omem (tcell row c) vs = drawn_cell c vs row.
Proof.
  intros Hc Hv Hr. unfold omem, drawn_cell. destruct (in_dec opt_value_dec (tcell row c) vs) as [H|H].
  - induction vs as [|v vs IH]; [destruct H|]. cbn [mem_b]. destruct H as [->|H].
    + rewrite (proj2 (typed_cell _ _ c row row Ty Hc Hr Hr)) by auto. auto.
    + rewrite IH; auto; [apply orb_true_r|]. intros v' Hv'. apply Hv. right. auto.
  - apply not_true_is_false. intro K. apply H. clear H. induction vs as [|v vs IH]; [discriminate|]. cbn [mem_b] in K. apply orb_true_iff in K.
    destruct K as [K|K].
    + destruct (Hv v (or_introl eq_refl)) as (r & Hr' & <-). apply (typed_cell _ _ c row r Ty Hc Hr Hr') in K. left. auto.
    + right. apply IH; auto. intros v' Hv'. apply Hv. right. auto.
Qed.
Lemma item_col : In "item" (d_cols d). Proof. apply (ui_complete d U). cbn. auto. Qed.
Lemma user_col : In "user" (d_cols d). Proof. apply (ui_complete d U). cbn. auto. Qed.

Definition picked (z : Z) : list trow := filter (drawn_cell "item" items) (user_rows_of d z).
Definition ms_contrib (seed z : Z) (rem test : list Z) : Prop :=
  if count_of z d <? minimum then Permutation rem (map rid_of (user_rows_of d z)) /\ test = []
  else if omem (Some (VInt z)) users then
    rem = [] /\ Permutation test (if Nat.ltb (length (picked z)) (length (user_rows_of d z)) then map rid_of (picked z) else [])
  else rem = [] /\ test = [].
Lemma one_items l : (forall row, In row l -> In row (d_rows d)) ->
  mapM one_item (map (cells ["rid"; "item"]) l) = Ok (map (fun row => (rid_of row, tcell row "item")) l).
Proof.
  intro H. rewrite (mapM_all _ (fun r => match r with [Some (VInt z); v] => (z, v) | _ => (0, None) end)).
  - rewrite map_map. f_equal. apply map_ext_in. intros row Hr. cbn [cells map]. rewrite Rr by auto. auto.
  - intros x Hx. apply in_map_iff in Hx. destruct Hx as (row & <- & Hr). cbn [cells map one_item]. rewrite Rr by auto. auto.
Qed.
Lemma filter_perm {A} (p : A -> bool) l l' : Permutation l l' -> Permutation (filter p l) (filter p l').
Proof.
  induction 1 as [|x l l' P IH|x y l|l l' l'' P1 IH1 P2 IH2]; cbn [filter]; auto.
  - destruct (p x); auto.
  - destruct (p x); destruct (p y); auto. apply perm_swap.
  - eapply Permutation_trans; eauto.
Qed.
Lemma ms_plan_ok srt us0 : plan_ok d (ms_plan minimum users items) srt ms_contrib us0.
Proof.
  intros seed z _. rewrite uds_rows by auto. unfold ms_plan, ms_contrib, count_of.
  set (n := Z.of_nat (length (filter (of_user z) (d_rows d)))).
  assert (Rl : forall l, Permutation l (filter (of_user z) (d_rows d)) -> forall row, In row l -> In row (d_rows d)).
  { intros l P row Hr. apply (Permutation_in _ P) in Hr. apply filter_In in Hr. tauto. }
  destruct (n <? minimum).
  - split; [intros c [<-|[]]; auto|]. intros l P _. exists (map rid_of l), []. unfold remove_rids.
    rewrite mapM_one_rid by (intros row Hr; apply Rr; eapply Rl; eauto). split; [auto|]. split; [|auto].
    apply Permutation_map. exact P.
  - destruct (omem (Some (VInt z)) users); [|auto]. split; [intros c [<-|[<-|[]]]; [auto|apply item_col]|].
    intros l P _. do 2 eexists. unfold item_rids. rewrite (one_items l) by (eapply Rl; eauto). cbn [bind]. split; [reflexivity|].
    split; [auto|].
    assert (E : map fst (filter (fun x => omem (snd x) items) (map (fun row => (rid_of row, tcell row "item")) l)) =
                map rid_of (filter (drawn_cell "item" items) l)).
    { pose proof (Rl l P) as Hl. clear P. induction l as [|r l IH]; [auto|]. cbn [map filter snd].
      rewrite (omem_drawn "item" items r item_col His) by (apply Hl; left; auto).
      destruct (drawn_cell "item" items r); cbn [map fst]; [f_equal|]; apply IH; intros; apply Hl; right; auto. }
    cbv zeta.
    assert (Pf : Permutation (filter (drawn_cell "item" items) l) (picked z)) by (apply filter_perm; exact P).
    fold (user_rows_of d z). rewrite E, map_length, (Permutation_length Pf).
    destruct (Nat.ltb _ _); [|auto]. apply Permutation_map. exact Pf.
Qed.
Lemma nodup_filter_rids p : NoDup (map rid_of (filter p (d_rows d))).
Proof. apply nodup_sub. auto. Qed.
Lemma ms_contrib_within seed z rem test : ms_contrib seed z rem test -> within d z rem /\ within d z test.
Proof.
  unfold ms_contrib. destruct (_ <? _).
  - intros [P ->]. split; [intros x Hx; apply (Permutation_in _ P); auto|intros ? []].
  - destruct (omem _ _); [|intros [-> ->]; split; intros ? []]. intros [-> P]. split; [intros ? []|].
    intros x Hx. apply (Permutation_in _ P) in Hx. destruct (Nat.ltb _ _); [|destruct Hx].
    apply in_map_iff in Hx. destruct Hx as (r & <- & Hr). apply filter_In in Hr. apply in_map. tauto.
Qed.
Lemma row_listed rows (row : trow) : incl rows (d_rows d) -> In row (d_rows d) -> (In (rid_of row) (map rid_of rows) <-> In row rows).
Proof.
  intros I Hr. split; [|apply in_map]. intro H. apply in_map_iff in H. destruct H as (r & E & Hin).
  assert (r = row) by (apply (rid_inj (d_rows d)); auto). subst; auto.
Qed.
Lemma in_listed row rows l : incl rows (d_rows d) -> In row (d_rows d) -> Permutation l (map rid_of rows) -> (listed l row = true <-> In row rows).
Proof.
  intros I Hr P. rewrite listed_in, <- (row_listed rows row I Hr). split; apply Permutation_in; [auto|apply Permutation_sym; auto].
Qed.
Lemma user_rows_incl z : incl (user_rows_of d z) (d_rows d).
Proof. intros r Hr. apply filter_In in Hr. tauto. Qed.
Lemma picked_incl z : incl (picked z) (d_rows d).
Proof. intros r Hr. apply filter_In in Hr. apply (user_rows_incl z). tauto. Qed.
Lemma ms_row seed z rem test row : ms_contrib seed z rem test -> In row (d_rows d) -> tcell row "user" = Some (VInt z) ->
  listed test row = to_test minimum users items d row /\
  listed (rem ++ test) row = ((count_of z d <? minimum) || to_test minimum users items d row)%bool.
Proof.
  intros C Hr Hz. assert (Ez : user_no row = z) by (unfold user_no; rewrite Hz; auto).
  assert (Ho : of_user z row = true) by (unfold of_user; rewrite Hz; apply Z.eqb_refl).
  assert (Hin : In row (user_rows_of d z)) by (apply filter_In; auto).
  unfold to_test. rewrite Ez. unfold ms_contrib in C. rewrite Z.leb_antisym. destruct (count_of z d <? minimum).
  - destruct C as [P ->]. rewrite app_nil_r. cbn [negb andb orb]. split; [auto|].
    apply (in_listed row (user_rows_of d z)); auto. apply user_rows_incl.
  - cbn [negb andb orb]. rewrite <- (omem_drawn "user" users row user_col Hus Hr), Hz. destruct (omem (Some (VInt z)) users).
    2:{ destruct C as [-> ->]. auto. }
    destruct C as [-> P]. cbn [app andb]. cut (listed test row = (drawn_cell "item" items row && existsb (fun r => of_user z r && negb (drawn_cell "item" items r)) (d_rows d))%bool); [auto|].
    destruct (Nat.ltb (length (picked z)) (length (user_rows_of d z))) eqn:El.
    + apply Nat.ltb_lt in El. apply some_left in El. destruct El as (r & R1 & R2). apply filter_In in R1.
      replace (existsb _ _) with true.
      2:{ symmetry. apply existsb_exists. exists r. rewrite R2. cbn [negb]. rewrite andb_true_r. auto. }
      rewrite andb_true_r. apply eq_true_iff_eq. rewrite (in_listed row (picked z) test (picked_incl z) Hr P).
      unfold picked. rewrite filter_In. tauto.
    + apply Nat.ltb_ge in El. apply Permutation_sym, Permutation_nil in P. subst test. change (listed [] row) with false. symmetry.
      apply andb_false_iff. right. apply not_true_is_false. intro K. apply existsb_exists in K. destruct K as (r & R1 & R2).
      apply andb_true_iff in R2. destruct R2 as [R2 R3]. apply negb_true_iff in R3.
      assert (L : (length (picked z) < length (user_rows_of d z))%nat).
      { apply some_left. exists r. split; [apply filter_In; auto|auto]. }
      lia.
Qed.
Lemma ms_sums l R T us0 : NoDup (map snd us0) -> (forall z, In z (map snd us0) <-> exists row, In row (d_rows d) /\ of_user z row = true) ->
  map (fun s => (s_seed s, s_user s)) l = us0 ->
  Forall (fun s => ms_contrib (s_seed s) (s_user s) (fst (s_out s)) (snd (s_out s))) l ->
  Permutation R (rems l) -> Permutation T (tests l) ->
  matrix_parts minimum users items d (part d (fun row => negb (listed (R ++ T) row))) (part d (listed T)).
Proof.
  intros N Hz Eu F PR PT. assert (Em : map s_user l = map snd us0) by (rewrite <- Eu, map_map; auto).
  assert (G : forall row, In row (d_rows d) -> listed T row = to_test minimum users items d row /\
    listed (R ++ T) row = ((count_of (user_no row) d <? minimum) || to_test minimum users items d row)%bool).
  { intros row Hr. destruct (ui_rows d U row Hr) as [z Hu]. assert (Ez : user_no row = z) by (unfold user_no; rewrite Hu; auto).
    assert (Ho : of_user z row = true) by (unfold of_user; rewrite Hu; apply Z.eqb_refl).
    assert (Hin : In z (map s_user l)) by (rewrite Em; apply Hz; eauto).
    apply in_map_iff in Hin. destruct Hin as (s & Es & Hin). rewrite Forall_forall in F.
    destruct (slots_sum d Nd l R T) with (s := s) (row := row) as [Q1 Q2]; auto.
    - rewrite Em. auto.
    - apply Forall_forall. intros s' Hs'. apply (ms_contrib_within (s_seed s')). auto.
    - rewrite Es. auto.
    - rewrite Q1, Q2, Ez, <- Es. apply (ms_row (s_seed s)); auto. congruence. }
  split; apply part_ext; intros row Hr; destruct (G row Hr) as [G1 G2]; [auto|]. rewrite G2, negb_orb, Z.leb_antisym. auto.
Qed.
End Plan.
