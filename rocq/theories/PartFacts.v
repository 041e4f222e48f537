(** Proofs about a data set and its parts. *)
From Coq Require Import String Ascii.
From Coq Require Import List ZArith QArith Qcanon Bool Lia Permutation.
From Verif Require Import Py PyFacts MemModel MemSpec MemFacts MemFacts2 MemFacts3 MemFacts4 MemFacts5 MemFacts6 MemFacts7.
From Verif Require Import PartSpec.
Import ListNotations.
Open Scope string_scope.
Open Scope Z_scope.
Open Scope list_scope.

(** ** opposite queries *)
(** the values a condition compares with its literal *)
Definition compared (m : mem) (c s : string) : res (list value * option value) :=
  if negb (col_in m c) then Err AssertionError else
  t <- col_type m c ;;
  v <- parse_value c t s ;;
  cl <- redirect m c t v ;;
  _ <- col_type m (fst cl) ;;
  vals <- mapM (row_value (fst cl)) (rows_of m) ;;
  Ok (vals, snd cl).
Lemma segment_asks m c o l : plain c -> plain l ->
  segment_mask m (asks c o l) = (x <- compared m c l ;; mapM (fun v => cmp_vals o v (snd x)) (fst x)).
Proof.
  intros Hc Hl. unfold segment_mask, asks, compared. rewrite parse_segment_cond by auto. cbn [bind].
  destruct (negb (col_in m c)); [reflexivity|]. destruct (col_type m c) as [t|]; cbn [bind]; [|reflexivity].
  destruct (parse_value c t l) as [v|]; cbn [bind]; [|reflexivity].
  destruct (redirect m c t v) as [[c' x]|]; cbn [bind fst snd]; [|reflexivity].
  destruct (col_type m c'); cbn [bind]; [|reflexivity].
  destruct (mapM (row_value c') (rows_of m)) as [vs|]; cbn [bind fst snd]; [|reflexivity].
  rewrite cmp_of_str_text. reflexivity.
Qed.
Lemma mask_asks m c o l : plain c -> plain l -> query_mask m (asks c o l) = segment_mask m (asks c o l).
Proof.
  intros [_ Hc] [_ Hl]. unfold query_mask. rewrite split_on_no.
  - cbn [segments_mask]. destruct (segment_mask m _); reflexivity.
  - unfold asks. apply str_no_app; [apply plain_no_comma; auto|]. apply str_no_app; [cbn; split; auto; discriminate|].
    apply str_no_app; [destruct o; cbn; repeat split; discriminate|].
    apply str_no_app; [cbn; split; auto; discriminate|apply plain_no_comma; auto].
Qed.
Lemma opposite_cmp o v l b : cmp_vals o v l = Ok b -> cmp_vals (opposite o) v l = Ok (negb b).
Proof.
  unfold cmp_vals. destruct l as [l|].
  - cbv zeta. destruct o; cbn [opposite]; try (destruct (val_ltb _ _); [|discriminate]); intros H; injection H as <-;
      rewrite ?negb_involutive; reflexivity.
  - destruct o; cbn [opposite]; try discriminate; intros H; injection H as <-; reflexivity.
Qed.
Lemma mask_perm {A} k (l : list A) : length k = length l ->
  Permutation l (mask_filter k l ++ mask_filter (map negb k) l).
Proof.
  revert l. induction k as [|b k IH]; intros [|a l] H; try discriminate; [constructor|].
  injection H as H. cbn [map]. rewrite !mask_filter_cons. destruct b; cbn [negb].
  - cbn. constructor. auto.
  - apply Permutation_cons_app. auto.
Qed.
Lemma mapM_len {A B} (f : A -> res B) l k : mapM f l = Ok k -> length k = length l.
Proof. apply mapM_length. Qed.
Lemma compared_len m c l vs x : compared m c l = Ok (vs, x) -> length vs = length (rows_of m).
Proof.
  unfold compared. destruct (negb (col_in m c)); [discriminate|]. destruct (col_type m c) as [t|]; cbn [bind]; [|discriminate].
  destruct (parse_value c t l) as [v|]; cbn [bind]; [|discriminate].
  destruct (redirect m c t v) as [[c' y]|]; cbn [bind fst snd]; [|discriminate].
  destruct (col_type m c'); cbn [bind]; [|discriminate].
  destruct (mapM (row_value c') (rows_of m)) as [ws|] eqn:E; cbn [bind]; [|discriminate].
  intros H. injection H as <- <-. eapply mapM_length; eauto.
Qed.
(** a select with one condition: values, literal, mask *)
Lemma select_asks m c o l : plain c -> plain l ->
  select m (asks c o l) = (x <- compared m c l ;; k <- mapM (fun v => cmp_vals o v (snd x)) (fst x) ;;
    Ok (set_rows (mem_copy m) (mask_filter k (rows_of m)))).
Proof.
  intros Hc Hl. unfold select, apply_query. rewrite query_mask_copy, mask_asks, segment_asks by auto.
  destruct (compared m c l) as [x|]; cbn [bind]; [|reflexivity].
  destruct (mapM _ (fst x)); reflexivity.
Qed.
Lemma opposite_queries m c o l m1 : plain c -> plain l -> select m (asks c o l) = Ok m1 ->
  exists m2, select m (asks c (opposite o) l) = Ok m2 /\ parts m m1 m2.
Proof.
  intros Hc Hl. rewrite !select_asks by auto. destruct (compared m c l) as [[vs x]|] eqn:C; cbn [bind fst snd]; [|discriminate].
  destruct (mapM (fun v => cmp_vals o v x) vs) as [k|] eqn:K; cbn [bind]; [|discriminate].
  intros H. injection H as <-.
  assert (K' : mapM (fun v => cmp_vals (opposite o) v x) vs = Ok (map negb k)).
  { clear C. revert k K. induction vs as [|v vs IH]; cbn [mapM]; intros k K.
    - injection K as <-. reflexivity.
    - destruct (cmp_vals o v x) as [b|] eqn:E; cbn [bind] in K; [|discriminate].
      destruct (mapM _ vs) as [k0|]; cbn [bind] in K; [|discriminate]. injection K as <-.
      rewrite (opposite_cmp _ _ _ _ E). cbn [bind]. rewrite (IH k0) by reflexivity. reflexivity. }
  rewrite K'. cbn [bind]. eexists. split; [reflexivity|].
  constructor; auto. unfold rows_of at 2 3. cbn. apply mask_perm.
  rewrite (mapM_len _ _ _ K), (compared_len _ _ _ _ _ C). reflexivity.
Qed.

(** ** less, equal, greater *)
Definition one_of (a b c : bool) : Prop :=
  (a = true /\ b = false /\ c = false) \/ (a = false /\ b = true /\ c = false) \/ (a = false /\ b = false /\ c = true).
Lemma Qc_three x y : one_of (Qcltb x y) (Qc_eq_bool x y) (Qcltb y x).
Proof.
  rewrite !Qcltb_compare, Qc_eq_bool_compare, (Qccompare_antisym x y). unfold one_of.
  destruct (x ?= y)%Qc; cbn [CompOpp]; auto.
Qed.
Lemma string_three s t : one_of (string_ltb s t) (String.eqb s t) (string_ltb t s).
Proof.
  rewrite !string_ltb_compare, string_eqb_compare, (String.compare_antisym t s). unfold one_of.
  destruct (String.compare s t); cbn [CompOpp]; auto.
Qed.
Lemma Z_eqb_Qc x y : Z.eqb x y = Qc_eq_bool (Qc_of_Z x) (Qc_of_Z y).
Proof.
  apply eq_true_iff_eq. rewrite Z.eqb_eq. split.
  - intros ->. unfold Qc_eq_bool. destruct (Qc_eq_dec _ _); congruence.
  - intros H. apply Qc_eq_bool_correct in H. apply Qc_of_Z_inj; auto.
Qed.
Lemma val_three v l a c : val_ltb v l = Some a -> val_ltb l v = Some c -> one_of a (val_eqb v l) c.
Proof.
  destruct v, l; simpl; intros H1 H2; try discriminate; injection H1 as <-; injection H2 as <-;
    rewrite ?Z_eqb_Qc; try apply Qc_three; apply string_three.
Qed.
Lemma cmp_three v l a b c : cmp_vals Lt v l = Ok a -> cmp_vals Eq v l = Ok b -> cmp_vals Gt v l = Ok c -> one_of a b c.
Proof.
  unfold cmp_vals. destruct l as [l|]; [|discriminate]. cbv zeta.
  destruct (val_ltb (coerce v l) l) eqn:E1; [|discriminate]. destruct (val_ltb l (coerce v l)) eqn:E2; [|discriminate].
  intros H1 H2 H3. injection H1 as <-. injection H2 as <-. injection H3 as <-. apply val_three; auto.
Qed.
Lemma mask_three {A} (l : list A) : forall k1 k2 k3, Forall2 (fun (x : A) p => one_of (fst (fst p)) (snd (fst p)) (snd p)) l (combine (combine k1 k2) k3) ->
  length k1 = length l -> length k2 = length l -> length k3 = length l ->
  Permutation l (mask_filter k1 l ++ mask_filter k2 l ++ mask_filter k3 l).
Proof.
  induction l as [|x l IH]; intros [|a k1] [|b k2] [|c k3] F L1 L2 L3; try discriminate; [constructor|].
  cbn [combine] in F. inversion F as [|? ? ? ? H F']; subst. cbn [fst snd] in H.
  injection L1 as L1. injection L2 as L2. injection L3 as L3. specialize (IH k1 k2 k3 F' L1 L2 L3).
  rewrite !mask_filter_cons. destruct H as [(-> & -> & ->)|[(-> & -> & ->)|(-> & -> & ->)]].
  - cbn. constructor. exact IH.
  - apply Permutation_cons_app. exact IH.
  - rewrite app_assoc. apply Permutation_cons_app. rewrite <- app_assoc. exact IH.
Qed.
Lemma three_queries m c l m1 m2 m3 : plain c -> plain l ->
  select m (asks c Lt l) = Ok m1 -> select m (asks c Eq l) = Ok m2 -> select m (asks c Gt l) = Ok m3 ->
  Permutation (rows_of m) (rows_of m1 ++ rows_of m2 ++ rows_of m3).
Proof.
  intros Hc Hl. rewrite !select_asks by auto. destruct (compared m c l) as [[vs x]|] eqn:C; cbn [bind fst snd]; [|discriminate].
  destruct (mapM (fun v => cmp_vals Lt v x) vs) as [k1|] eqn:K1; cbn [bind]; [|discriminate].
  destruct (mapM (fun v => cmp_vals Eq v x) vs) as [k2|] eqn:K2; cbn [bind]; [|discriminate].
  destruct (mapM (fun v => cmp_vals Gt v x) vs) as [k3|] eqn:K3; cbn [bind]; [|discriminate].
  intros H1 H2 H3. injection H1 as <-. injection H2 as <-. injection H3 as <-. unfold rows_of at 2 3 4. cbn.
  pose proof (compared_len _ _ _ _ _ C) as L.
  apply mask_three; try (rewrite <- L; eapply mapM_len; eauto).
  clear C. revert vs k1 k2 k3 K1 K2 K3 L. induction (rows_of m) as [|r rs IH]; intros [|v vs] k1 k2 k3 K1 K2 K3 L; try discriminate.
  - cbn in K1. injection K1 as <-. constructor.
  - cbn [mapM] in K1, K2, K3.
    destruct (cmp_vals Lt v x) as [a|] eqn:E1; cbn [bind] in K1; [|discriminate].
    destruct (mapM (fun v => cmp_vals Lt v x) vs) as [j1|] eqn:J1; cbn [bind] in K1; [|discriminate]. injection K1 as <-.
    destruct (cmp_vals Eq v x) as [b|] eqn:E2; cbn [bind] in K2; [|discriminate].
    destruct (mapM (fun v => cmp_vals Eq v x) vs) as [j2|] eqn:J2; cbn [bind] in K2; [|discriminate]. injection K2 as <-.
    destruct (cmp_vals Gt v x) as [d|] eqn:E3; cbn [bind] in K3; [|discriminate].
    destruct (mapM (fun v => cmp_vals Gt v x) vs) as [j3|] eqn:J3; cbn [bind] in K3; [|discriminate]. injection K3 as <-.
    cbn [combine]. constructor; [cbn [fst snd]; eapply cmp_three; eauto|]. eapply IH; eauto.
Qed.

(** ** dropped rows *)
Lemma drop_parts m ids : parts m (drop m ids true) (drop m ids false).
Proof. constructor; auto. apply drop_spec. Qed.

(** ** well-formed parts *)
Lemma wf_part m m1 : wf_mem m -> incl (rows_of m1) (rows_of m) -> m_columns m1 = m_columns m ->
  f_types (m_df m1) = f_types (m_df m) -> wf_mem m1.
Proof.
  intros [[A1 A2 A3 A4] B C] I E1 E2. constructor; rewrite ?E1, ?E2; auto.
  constructor; rewrite ?E2; auto.
Qed.
Lemma parts_wf m m1 m2 : wf_mem m -> parts m m1 m2 -> wf_mem m1 /\ wf_mem m2.
Proof.
  intros W [P [C1 C2] [T1 T2]]. split.
  - apply (wf_part m); auto. intros r Hr. apply (Permutation_in _ (Permutation_sym P)), in_app_iff; auto.
  - apply (wf_part m); auto. intros r Hr. apply (Permutation_in _ (Permutation_sym P)), in_app_iff; auto.
Qed.
Lemma parts_len m m1 m2 : parts m m1 m2 -> mem_len m = (mem_len m1 + mem_len m2)%nat.
Proof. intros [P _ _]. unfold mem_len. rewrite (Permutation_length P), app_length. reflexivity. Qed.
Lemma parts_In m m1 m2 : parts m m1 m2 -> forall r, In r (rows_of m) <-> In r (rows_of m1) \/ In r (rows_of m2).
Proof.
  intros [P _ _] r. rewrite <- in_app_iff. split; apply Permutation_in; auto. apply Permutation_sym; auto.
Qed.

(** ** extremes *)
Lemma max_none m c t : In c (m_columns m) -> col_type m c = Ok t -> rows_of m = [] -> mem_max m c = Ok None.
Proof.
  intros H T E. unfold mem_max, col_extremum, validate_column, col_in. apply (mem_b_In _ reflects_string) in H.
  rewrite H. cbn [bind]. rewrite T. cbn [bind]. rewrite E. reflexivity.
Qed.
Lemma min_none m c t : In c (m_columns m) -> col_type m c = Ok t -> rows_of m = [] -> mem_min m c = Ok None.
Proof.
  intros H T E. unfold mem_min, col_extremum, validate_column, col_in. apply (mem_b_In _ reflects_string) in H.
  rewrite H. cbn [bind]. rewrite T. cbn [bind]. rewrite E. reflexivity.
Qed.
Definition is_max (m : mem) (c : string) (x : option Qc) : Prop :=
  match x with
  | None => rows_of m = []
  | Some q => (exists r v, In r (rows_of m) /\ row_val r c = Some v /\ num v = q) /\
              forall r v, In r (rows_of m) -> row_val r c = Some v -> (num v <= q)%Qc
  end.
Definition is_min (m : mem) (c : string) (x : option Qc) : Prop :=
  match x with
  | None => rows_of m = []
  | Some q => (exists r v, In r (rows_of m) /\ row_val r c = Some v /\ num v = q) /\
              forall r v, In r (rows_of m) -> row_val r c = Some v -> (q <= num v)%Qc
  end.
Lemma max_is m c t : wf_mem m -> In c (m_columns m) -> col_type m c = Ok t -> t <> DObj ->
  exists x, mem_max m c = Ok x /\ is_max m c (option_map num x).
Proof.
  intros W H T D. destruct (rows_of m) as [|r0 rs] eqn:E.
  - exists None. split; [eapply max_none; eauto|exact E].
  - destruct (max_spec m c t W H T D ltac:(rewrite E; discriminate)) as (v & r & M & Hr & Hv & B).
    exists (Some v). split; auto. cbn. split; [exists r, v; auto|exact B].
Qed.
Lemma min_is m c t : wf_mem m -> In c (m_columns m) -> col_type m c = Ok t -> t <> DObj ->
  exists x, mem_min m c = Ok x /\ is_min m c (option_map num x).
Proof.
  intros W H T D. destruct (rows_of m) as [|r0 rs] eqn:E.
  - exists None. split; [eapply min_none; eauto|exact E].
  - destruct (min_spec m c t W H T D ltac:(rewrite E; discriminate)) as (v & r & M & Hr & Hv & B).
    exists (Some v). split; auto. cbn. split; [exists r, v; auto|exact B].
Qed.
Lemma is_max_unique m c x y : is_max m c x -> is_max m c y -> x = y.
Proof.
  destruct x as [x|], y as [y|]; cbn; auto.
  - intros [(r & v & Hr & Hv & <-) B] [(r' & v' & Hr' & Hv' & <-) B']. f_equal. apply Qcle_antisym; eauto.
  - intros [(r & v & Hr & _) _] E. rewrite E in Hr. contradiction.
  - intros E [(r & v & Hr & _) _]. rewrite E in Hr. contradiction.
Qed.
Lemma is_min_unique m c x y : is_min m c x -> is_min m c y -> x = y.
Proof.
  destruct x as [x|], y as [y|]; cbn; auto.
  - intros [(r & v & Hr & Hv & <-) B] [(r' & v' & Hr' & Hv' & <-) B']. f_equal. apply Qcle_antisym; eauto.
  - intros [(r & v & Hr & _) _] E. rewrite E in Hr. contradiction.
  - intros E [(r & v & Hr & _) _]. rewrite E in Hr. contradiction.
Qed.
Lemma parts_nil m m1 m2 : parts m m1 m2 -> (rows_of m = [] <-> rows_of m1 = [] /\ rows_of m2 = []).
Proof.
  intros P. pose proof (parts_len _ _ _ P) as L. unfold mem_len in L. rewrite <- !length_zero_iff_nil. lia.
Qed.
Lemma is_max_parts m m1 m2 c x1 x2 : parts m m1 m2 -> is_max m1 c x1 -> is_max m2 c x2 -> is_max m c (larger x1 x2).
Proof.
  intros P. pose proof (parts_In _ _ _ P) as I. pose proof (parts_nil _ _ _ P) as N.
  destruct x1 as [x|], x2 as [y|]; cbn [is_max larger].
  - intros [(r & v & Hr & Hv & Ex) B] [(r' & v' & Hr' & Hv' & Ey) B']. destruct (Qclt_le_dec x y) as [L|L]; split.
    + exists r', v'. rewrite I. auto.
    + intros s w Hs Hw. apply I in Hs. destruct Hs as [Hs|Hs]; eauto. eapply Qcle_trans; [eauto|apply Qclt_le_weak; auto].
    + exists r, v. rewrite I. auto.
    + intros s w Hs Hw. apply I in Hs. destruct Hs as [Hs|Hs]; eauto. eapply Qcle_trans; eauto.
  - intros [(r & v & Hr & Hv & Ex) B] E. split; [exists r, v; rewrite I; auto|].
    intros s w Hs Hw. apply I in Hs. destruct Hs as [Hs|Hs]; eauto. rewrite E in Hs. contradiction.
  - intros E [(r & v & Hr & Hv & Ex) B]. split; [exists r, v; rewrite I; auto|].
    intros s w Hs Hw. apply I in Hs. destruct Hs as [Hs|Hs]; eauto. rewrite E in Hs. contradiction.
  - tauto.
Qed.
Lemma is_min_parts m m1 m2 c x1 x2 : parts m m1 m2 -> is_min m1 c x1 -> is_min m2 c x2 -> is_min m c (smaller x1 x2).
Proof.
  intros P. pose proof (parts_In _ _ _ P) as I. pose proof (parts_nil _ _ _ P) as N.
  destruct x1 as [x|], x2 as [y|]; cbn [is_min smaller].
  - intros [(r & v & Hr & Hv & Ex) B] [(r' & v' & Hr' & Hv' & Ey) B']. destruct (Qclt_le_dec x y) as [L|L]; split.
    + exists r, v. rewrite I. auto.
    + intros s w Hs Hw. apply I in Hs. destruct Hs as [Hs|Hs]; eauto. eapply Qcle_trans; [apply Qclt_le_weak; eauto|eauto].
    + exists r', v'. rewrite I. auto.
    + intros s w Hs Hw. apply I in Hs. destruct Hs as [Hs|Hs]; eauto. eapply Qcle_trans; eauto.
  - intros [(r & v & Hr & Hv & Ex) B] E. split; [exists r, v; rewrite I; auto|].
    intros s w Hs Hw. apply I in Hs. destruct Hs as [Hs|Hs]; eauto. rewrite E in Hs. contradiction.
  - intros E [(r & v & Hr & Hv & Ex) B]. split; [exists r, v; rewrite I; auto|].
    intros s w Hs Hw. apply I in Hs. destruct Hs as [Hs|Hs]; eauto. rewrite E in Hs. contradiction.
  - tauto.
Qed.
Lemma part_type m m1 c : f_types (m_df m1) = f_types (m_df m) -> col_type m1 c = col_type m c.
Proof. intros E. unfold col_type. rewrite E. reflexivity. Qed.
Lemma parts_max m m1 m2 c t : wf_mem m -> parts m m1 m2 -> In c (m_columns m) -> col_type m c = Ok t -> t <> DObj ->
  exists x x1 x2, mem_max m c = Ok x /\ mem_max m1 c = Ok x1 /\ mem_max m2 c = Ok x2 /\
    option_map num x = larger (option_map num x1) (option_map num x2).
Proof.
  intros W P H T D. destruct (parts_wf _ _ _ W P) as [W1 W2]. pose proof P as [_ [C1 C2] [T1 T2]].
  destruct (max_is m c t W H T D) as (x & E & M).
  destruct (max_is m1 c t W1 ltac:(rewrite C1; auto) ltac:(rewrite (part_type m m1); auto) D) as (x1 & E1 & M1).
  destruct (max_is m2 c t W2 ltac:(rewrite C2; auto) ltac:(rewrite (part_type m m2); auto) D) as (x2 & E2 & M2).
  exists x, x1, x2. repeat split; auto. eapply is_max_unique; eauto. eapply is_max_parts; eauto.
Qed.
Lemma parts_min m m1 m2 c t : wf_mem m -> parts m m1 m2 -> In c (m_columns m) -> col_type m c = Ok t -> t <> DObj ->
  exists x x1 x2, mem_min m c = Ok x /\ mem_min m1 c = Ok x1 /\ mem_min m2 c = Ok x2 /\
    option_map num x = smaller (option_map num x1) (option_map num x2).
Proof.
  intros W P H T D. destruct (parts_wf _ _ _ W P) as [W1 W2]. pose proof P as [_ [C1 C2] [T1 T2]].
  destruct (min_is m c t W H T D) as (x & E & M).
  destruct (min_is m1 c t W1 ltac:(rewrite C1; auto) ltac:(rewrite (part_type m m1); auto) D) as (x1 & E1 & M1).
  destruct (min_is m2 c t W2 ltac:(rewrite C2; auto) ltac:(rewrite (part_type m m2); auto) D) as (x2 & E2 & M2).
  exists x, x1, x2. repeat split; auto. eapply is_min_unique; eauto. eapply is_min_parts; eauto.
Qed.

(** ** numbers of combinations *)
Definition keys (cs : list string) (m : mem) : list (list (option value)) := dedup key_eqb (map (row_key cs) (rows_of m)).
Lemma count_keys m cs : wf_mem m -> cs <> [] -> ~ In "rid" cs -> (forall c, In c cs -> In c (m_columns m)) ->
  count_unique m (Some cs) = Ok (length (keys cs m)).
Proof.
  intros W N R H. unfold count_unique. rewrite unique_ok by auto. cbn [bind]. f_equal.
  unfold mem_len, rows_of at 1. cbn. rewrite map_length, <- (map_length (row_key cs)), drop_duplicates_keys. reflexivity.
Qed.
Lemma keys_In cs m k : In k (keys cs m) <-> exists r, In r (rows_of m) /\ row_key cs r = k.
Proof. unfold keys. rewrite (dedup_In _ reflects_key), in_map_iff. split; intros (r & A & B); eauto. Qed.
Lemma keys_NoDup cs m : NoDup (keys cs m).
Proof. apply (dedup_NoDup _ reflects_key). Qed.
Lemma agree_key cs r r' : agree cs r r' <-> row_key cs r = row_key cs r'.
Proof.
  unfold agree, row_key. induction cs as [|c cs IH]; simpl; [split; auto; intros _ c []|]. split.
  - intros H. f_equal; [apply H; auto|]. apply IH. intros; apply H; auto.
  - intros H d [<-|Hd]; [congruence|]. apply IH; auto. congruence.
Qed.
Lemma parts_count m m1 m2 cs : wf_mem m -> parts m m1 m2 -> cs <> [] -> ~ In "rid" cs -> (forall c, In c cs -> In c (m_columns m)) ->
  exists k k1 k2, count_unique m (Some cs) = Ok k /\ count_unique m1 (Some cs) = Ok k1 /\ count_unique m2 (Some cs) = Ok k2 /\
    (Nat.max k1 k2 <= k <= k1 + k2)%nat /\
    ((k = k1 + k2)%nat <-> forall r1 r2, In r1 (rows_of m1) -> In r2 (rows_of m2) -> ~ agree cs r1 r2).
Proof.
  intros W P N R H. destruct (parts_wf _ _ _ W P) as [W1 W2]. pose proof P as [_ [C1 C2] _]. pose proof (parts_In _ _ _ P) as I.
  exists (length (keys cs m)), (length (keys cs m1)), (length (keys cs m2)).
  split; [apply count_keys; auto|]. split; [apply count_keys; auto; rewrite C1; auto|].
  split; [apply count_keys; auto; rewrite C2; auto|].
  assert (I1 : incl (keys cs m1) (keys cs m)).
  { intros k. rewrite !keys_In. intros (r & Hr & E). exists r. rewrite I. auto. }
  assert (I2 : incl (keys cs m2) (keys cs m)).
  { intros k. rewrite !keys_In. intros (r & Hr & E). exists r. rewrite I. auto. }
  assert (I3 : forall k, In k (keys cs m) <-> In k (keys cs m1 ++ keys cs m2)).
  { intros k. rewrite in_app_iff, !keys_In. split.
    - intros (r & Hr & E). apply I in Hr. destruct Hr; [left|right]; eauto.
    - intros [(r & Hr & E)|(r & Hr & E)]; exists r; rewrite I; auto. }
  split.
  - split; [apply Nat.max_lub; apply NoDup_incl_length; auto; apply keys_NoDup|].
    rewrite <- app_length. apply NoDup_incl_length; [apply keys_NoDup|]. intros k. apply I3.
  - rewrite <- app_length. split.
    + intros E r1 r2 H1 H2 A. apply agree_key in A.
      assert (D : NoDup (keys cs m1 ++ keys cs m2)).
      { eapply NoDup_incl_NoDup; [apply (keys_NoDup cs m)|lia|]. intros k. apply I3. }
      assert (K1 : In (row_key cs r1) (keys cs m1)) by (apply keys_In; eauto).
      assert (K2 : In (row_key cs r1) (keys cs m2)) by (apply keys_In; rewrite A; eauto).
      apply in_split in K1. destruct K1 as (a & b & E1). rewrite E1, <- app_assoc in D. cbn in D.
      apply NoDup_remove_2 in D. apply D. rewrite !in_app_iff. auto.
    + intros A. apply Permutation_length, NoDup_Permutation; [apply keys_NoDup| |exact I3].
      assert (G : forall a b : list (list (option value)), NoDup a -> NoDup b -> (forall k, In k a -> ~ In k b) -> NoDup (a ++ b)).
      { clear. induction a as [|x a IH]; intros b Na Nb D; simpl; auto. inversion Na; subst. constructor.
        - rewrite in_app_iff. intros [C|C]; [contradiction|]. eapply D; simpl; eauto.
        - apply IH; auto. intros k Hk. apply D. simpl. auto. }
      apply G; try apply keys_NoDup. intros k K1 K2. apply keys_In in K1, K2.
      destruct K1 as (r1 & H1 & E1), K2 as (r2 & H2 & E2). apply (A r1 r2 H1 H2). apply agree_key. congruence.
Qed.
Lemma count_bounds m cs cs' : wf_mem m -> cs <> [] -> incl cs cs' -> ~ In "rid" cs' -> (forall c, In c cs' -> In c (m_columns m)) ->
  exists k k', count_unique m (Some cs) = Ok k /\ count_unique m (Some cs') = Ok k' /\ (k <= k' <= mem_len m)%nat.
Proof.
  intros W N I R H. exists (length (keys cs m)), (length (keys cs' m)).
  split; [apply count_keys; auto|]. split.
  { apply count_keys; auto. intros ->. destruct cs as [|c cs]; [congruence|]. apply (I c). simpl; auto. }
  split.
  - transitivity (length (dedup key_eqb (map (fun k => match find (fun r => key_eqb (row_key cs' r) k) (rows_of m) with
       Some r => row_key cs r | None => [] end) (keys cs' m)))).
    + apply NoDup_incl_length; [apply keys_NoDup|]. intros k Hk. apply keys_In in Hk. destruct Hk as (r & Hr & <-).
      apply (dedup_In _ reflects_key), in_map_iff. exists (row_key cs' r). split; [|apply keys_In; eauto].
      destruct (find _ (rows_of m)) as [r'|] eqn:F.
      * apply find_some in F. destruct F as [_ F]. apply reflects_key in F. apply agree_key in F. apply agree_key.
        intros c Hc. apply F. auto.
      * exfalso. pose proof (find_none _ _ F r Hr) as Q. cbn beta in Q.
        rewrite (proj2 (reflects_key _ _) eq_refl) in Q. discriminate.
    + eapply Nat.le_trans; [apply dedup_length_le|]. rewrite map_length. auto.
  - unfold keys. eapply Nat.le_trans; [apply dedup_length_le|]. rewrite map_length. reflexivity.
Qed.
