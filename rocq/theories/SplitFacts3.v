(** leave_k_out by time, schedule independence, matrix_split, random_split *)
From Coq Require Import String Ascii.
From Coq Require Import List ZArith QArith Qcanon Qround Bool Lia Permutation Sorted.
From Verif Require Import Py PyFacts MemModel MemSpec MemFacts MemFacts2 MemFacts3 MemFacts4 MemFacts5 MemFacts6 MemFacts7
  Conc ConcFacts SplitModel SplitSpec SplitFacts SplitFacts2.
Import ListNotations.
Open Scope string_scope.
Open Scope Z_scope.

(** ** The heap on rows listed by time *)
Definition key (x : value * Z) : Qc := num (fst x).
Definition numeric (x : value * Z) : Prop := num_of (fst x) <> None.

Lemma Qcltb_iff x y : Qcltb x y = true <-> (x < y)%Qc.
Proof.
  unfold Qcltb, Qltb, Qclt. rewrite negb_true_iff. split.
  - intros H. apply Qnot_le_lt. intros L. apply Qle_bool_iff in L. congruence.
  - intros H. destruct (Qle_bool (this y) (this x)) eqn:E; auto. apply Qle_bool_iff in E. 
    exfalso. apply (Qlt_not_le _ _ H E).
Qed.

Lemma stamp_leb_le a b : numeric a -> numeric b -> stamp_leb a b = true -> (key a <= key b)%Qc.
Proof.
  destruct a as [va za], b as [vb zb]. unfold numeric, key, stamp_leb; simpl. intros Na Nb H.
  unfold num. destruct va as [x|x|x], vb as [y|y|y]; simpl in *; try congruence;
  match type of H with context [Qcltb ?p ?q] => destruct (Qcltb p q) eqn:E end;
  try (apply Qcltb_iff in E; apply Qclt_le_weak; exact E);
  apply andb_true_iff in H; destruct H as [H _].
  - apply Z.eqb_eq in H. subst. apply Qcle_refl.
  - apply Qc_eq_bool_correct in H. rewrite H. apply Qcle_refl.
  - apply Qc_eq_bool_correct in H. rewrite H. apply Qcle_refl.
  - apply Qc_eq_bool_correct in H. rewrite H. apply Qcle_refl.
Qed.

Lemma stamp_leb_gt a b : numeric a -> numeric b -> stamp_leb a b = false -> (key b <= key a)%Qc.
Proof.
  destruct a as [va za], b as [vb zb]. unfold numeric, key, stamp_leb; simpl. intros Na Nb H.
  unfold num. destruct va as [x|x|x], vb as [y|y|y]; simpl in *; try congruence;
  match type of H with context [Qcltb ?p ?q] => destruct (Qcltb p q) eqn:E end; try discriminate;
  apply Qcnot_lt_le; intros L; apply Qcltb_iff in L; congruence.
Qed.

Definition key_le (a b : value * Z) : Prop := (key a <= key b)%Qc.

Lemma insert_sorted x h : numeric x -> Forall numeric h -> StronglySorted key_le h ->
  StronglySorted key_le (insert_by stamp_leb x h).
Proof.
  intros Nx. induction h as [|y h IH]; intros Nh S; simpl.
  - constructor; constructor.
  - inversion Nh; subst. inversion S; subst. destruct (stamp_leb x y) eqn:E.
    + assert (L := stamp_leb_le _ _ Nx H1 E). constructor; auto. constructor; auto.
      eapply Forall_impl; [|exact H4]. intros z Hz. unfold key_le in *. eapply Qcle_trans; eauto.
    + assert (L := stamp_leb_gt _ _ Nx H1 E). constructor; [apply IH; auto|].
      apply Forall_forall. intros z Hz.
      apply (Permutation_in _ (Permutation_sym (insert_by_perm stamp_leb x h))) in Hz.
      destruct Hz as [<-|Hz]; auto. rewrite Forall_forall in H4. apply H4; auto.
Qed.

Lemma heap_latest k xs : 0 < k -> forall h d,
  Forall numeric h -> Forall numeric xs -> StronglySorted key_le h ->
  StronglySorted key_le xs ->
  (forall x y, In x h -> In y xs -> key_le x y) ->
  (forall x y, In x d -> In y h -> key_le x y) -> (d <> [] -> Z.of_nat (length h) >= k) ->
  exists d', Permutation (h ++ d ++ xs) (fold_left (heap_step k) xs h ++ d') /\
    forall x y, In x d' -> In y (fold_left (heap_step k) xs h) -> key_le x y.
Proof.
  intros Hk. induction xs as [|x xs IH]; intros h d Nh Nx Sh Sx Hhx Hd Hn; simpl.
  - exists d. rewrite app_nil_r. split; auto.
  - inversion Nx; subst. inversion Sx; subst. unfold heap_step at 2 4.
    assert (PI : forall l z, In z (insert_by stamp_leb x l) <-> z = x \/ In z l).
    { intros l z. split; intros H.
      - apply (Permutation_in _ (Permutation_sym (insert_by_perm stamp_leb x l))) in H. destruct H; auto.
      - apply (Permutation_in _ (insert_by_perm stamp_leb x l)). destruct H; simpl; auto. }
    assert (FN : forall l, Forall numeric l -> Forall numeric (insert_by stamp_leb x l)).
    { intros l Hl. rewrite Forall_forall in *. intros z Hz. apply PI in Hz. destruct Hz; subst; auto. }
    destruct (Z.of_nat (length h) <? k) eqn:E.
    + apply Z.ltb_lt in E. assert (d = []) by (destruct d; auto; exfalso; assert (Z.of_nat (length h) >= k) by (apply Hn; discriminate); lia). subst d.
      destruct (IH (insert_by stamp_leb x h) []) as (d' & P & Q); auto.
      * apply insert_sorted; auto.
      * intros a b Ha Hb. apply PI in Ha. destruct Ha as [->|Ha].
        -- rewrite Forall_forall in H4. apply H4; auto.
        -- apply Hhx; simpl; auto.
      * intros ? ? [].
      * intros C; congruence.
      * exists d'. split; auto. rewrite <- P. simpl.
        rewrite <- (insert_by_perm stamp_leb x h). simpl. symmetry. apply Permutation_middle.
    + apply Z.ltb_ge in E. destruct h as [|y h]; [simpl in E; lia|]. simpl tl.
      inversion Nh; subst. inversion Sh; subst.
      destruct (IH (insert_by stamp_leb x h) (y :: d)) as (d' & P & Q); auto.
      * apply insert_sorted; auto.
      * intros a b Ha Hb. apply PI in Ha. destruct Ha as [->|Ha].
        -- rewrite Forall_forall in H4. apply H4; auto.
        -- apply Hhx; simpl; auto.
      * intros a b Ha Hb. apply PI in Hb. destruct Ha as [<-|Ha], Hb as [->|Hb].
        -- apply Hhx; simpl; auto.
        -- rewrite Forall_forall in H8. auto.
        -- unfold key_le. eapply Qcle_trans; [apply (Hd a y Ha); simpl; auto|apply Hhx; simpl; auto].
        -- apply Hd; simpl; auto.
      * intros _. rewrite <- (Permutation_length (insert_by_perm stamp_leb x h)). simpl length in *. lia.
      * exists d'. split; auto. rewrite <- P.
        rewrite <- (insert_by_perm stamp_leb x h). simpl.
        transitivity (y :: x :: h ++ d ++ xs).
        -- apply perm_skip. rewrite !app_assoc. symmetry. apply Permutation_middle.
        -- eapply perm_trans; [apply perm_swap|]. apply perm_skip. apply Permutation_middle.
Qed.

Lemma last_latest k xs : 0 < k -> Forall numeric xs -> StronglySorted key_le xs ->
  exists kept out, last_rids k xs = map snd kept /\ Permutation xs (kept ++ out) /\
    forall x y, In x out -> In y kept -> key_le x y.
Proof.
  intros Hk Nx Sx. destruct (heap_latest k xs Hk [] []) as (out & P & Q); auto; try constructor.
  - intros ? ? [].
  - intros ? ? [].
  - intros C; congruence.
  - exists (fold_left (heap_step k) xs []), out. split; [reflexivity|]. split; auto.
Qed.

Lemma SSorted_filter_nth {A} (R : A -> A -> Prop) (p : A -> bool) l :
  (forall i j x y, (i < j)%nat -> nth_error l i = Some x -> nth_error l j = Some y -> p x = true -> p y = true -> R x y) ->
  StronglySorted R (filter p l).
Proof.
  induction l as [|x l IH]; intros H; simpl; [constructor|].
  assert (IH' : StronglySorted R (filter p l)).
  { apply IH. intros i j a b Hij Ha Hb. apply (H (S i) (S j)); auto. lia. }
  destruct (p x) eqn:E; auto. constructor; auto. apply Forall_forall. intros y Hy.
  apply filter_In in Hy. destruct Hy as [Hy Py]. apply In_nth_error in Hy. destruct Hy as [n Hn].
  apply (H 0%nat (S n) x y); auto. lia.
Qed.

Lemma SSorted_map {A B} (f : A -> B) (R : B -> B -> Prop) l :
  StronglySorted (fun x y => R (f x) (f y)) l -> StronglySorted R (map f l).
Proof.
  induction 1 as [|x l S IH F]; simpl; constructor; auto. apply Forall_map. exact F.
Qed.

Section Latest.
Variable fmul : Z -> Qc -> Qc.
Variable sample : Z -> list Z -> nat -> list Z.
Hypothesis Hs : sample_ok sample.
Variables (a : lko_args) (m : mem) (ty : dtype).
Hypothesis U : int_users m.
Hypothesis La : a_last a = true.
Hypothesis Hl : In (a_label a) (m_columns m).
Hypothesis Ht : col_type m (a_label a) = Ok ty.
Hypothesis Hn : ty <> DObj.
Hypothesis Hsm : small_col m (a_label a).
Hypothesis Ho : in_time_order (a_label a) m.

Lemma stamp_cell r t : In r (rows_of m) ->
  let v := if String.eqb (a_label a) "rid" then row_val_or (a_label a) r else upcast t (row_val_or (a_label a) r) in
  num_of v <> None /\ num v = stamp (a_label a) r.
Proof.
  intros Hr v. destruct (wf_row_val m (a_label a) ty r (iu_wf _ U) Ht Hr) as (w & E & T).
  assert (Nw : num_of w <> None) by (destruct w; simpl in *; congruence).
  assert (Ew : row_val_or (a_label a) r = w) by (unfold row_val_or; rewrite E; reflexivity).
  unfold stamp. rewrite E. subst v. rewrite Ew. destruct (String.eqb (a_label a) "rid") eqn:R; [auto|].
  assert (S : same_value (upcast t w) w).
  { apply same_upcast. intros z ->. apply (Hsm r z Hr). unfold row_val in E. rewrite R in E. exact E. }
  split; [apply upcast_num; auto|]. unfold num. destruct (upcast t w), w; simpl in *; try contradiction; try congruence;
  injection S as ->; reflexivity.
Qed.

Lemma latest_task p : test_of fmul sample a m p <> [] ->
  exists kept out, test_of fmul sample a m p = map snd kept /\
   (forall r, In r (rows_of (part m (zkey p))) -> exists v, In (v, r_rid r) (kept ++ out) /\ num v = stamp (a_label a) r) /\
   (forall x, In x (kept ++ out) -> exists r, In r (rows_of (part m (zkey p))) /\ r_rid r = snd x /\ num (fst x) = stamp (a_label a) r) /\
   (forall x y, In x out -> In y kept -> key_le x y).
Proof.
  unfold test_of. destruct (_ <? _); [congruence|]. destruct (_ && _) eqn:E; [|congruence]. rewrite La.
  apply andb_true_iff in E. destruct E as [_ K2]. apply Z.ltb_lt in K2.
  destruct (stamps_ok (part m (zkey p)) (a_label a)) as [t Es].
  { apply part_wf, U. }
  { exact Hl. }
  rewrite Es. intros _. set (g := fun r : row => (_, r_rid r)) in *.
  assert (PI : forall r, In r (rows_of (part m (zkey p))) -> In r (rows_of m)).
  { intros r Hr. simpl in Hr. apply filter_In in Hr. tauto. }
  assert (Nx : Forall numeric (map g (rows_of (part m (zkey p))))).
  { apply Forall_map, Forall_forall. intros r Hr. unfold numeric. apply (stamp_cell r t (PI r Hr)). }
  assert (Sx : StronglySorted key_le (map g (rows_of (part m (zkey p))))).
  { apply SSorted_map. simpl rows_of. apply SSorted_filter_nth. intros i j x y Hij Hx Hy Ux Uy.
    assert (Ix := nth_error_In _ _ Hx). assert (Iy := nth_error_In _ _ Hy).
    unfold key_le, key. simpl. rewrite (proj2 (stamp_cell x t Ix)), (proj2 (stamp_cell y t Iy)).
    apply (Ho i j x y Hij Hx Hy). apply user_is_iff in Ux, Uy. congruence. }
  destruct (last_latest (kk fmul a m p) _ K2 Nx Sx) as (kept & out & E1 & P & Q).
  exists kept, out. split; [exact E1|]. split; [|split; auto].
  - intros r Hr. exists (fst (g r)). split; [|apply (proj2 (stamp_cell r t (PI r Hr)))].
    apply (Permutation_in _ P). replace (fst (g r), r_rid r) with (g r) by reflexivity. apply in_map; auto.
  - intros x Hx. apply (Permutation_in _ (Permutation_sym P)) in Hx. apply in_map_iff in Hx.
    destruct Hx as (r & <- & Hr). exists r. split; auto. split; [reflexivity|]. apply (proj2 (stamp_cell r t (PI r Hr))).
Qed.

Lemma lko_latest sched t train test : leave_k_out fmul sample a m sched t = Done train test ->
  test_is_latest (a_label a) train test.
Proof.
  intros H. destruct (lko_done fmul sample a m U (fun _ => Hl) _ _ _ _ H) as (ps & l0 & l1 & N & K & _ & E1 & E2 & L0 & L1). subst.
  destruct (drop_spec m (l0 ++ l1)) as (_ & Ed & _). destruct (drop_spec m l1) as (Ed' & _).
  rewrite Ed, Ed'. clear Ed Ed' H. intros r r' Hr Hr' Eu. simpl in Hr, Hr'. apply filter_In in Hr, Hr'.
  destruct Hr as [Hr Tr]. destruct Hr' as [Hr' Tr']. apply negb_true_iff in Tr'. apply listed_iff in Tr.
  assert (T' : ~ In (r_rid r') (l0 ++ l1)) by (intros I; apply listed_iff in I; congruence). clear Tr'.
  destruct (int_user m r U Hr) as (z & Ez & _).
  assert (Kz : In z (map zkey ps)) by (apply K; eauto). apply in_map_iff in Kz. destruct Kz as (p & Kp & Hp).
  assert (O : forall x, In x ps -> own m zkey x (test_of fmul sample a m x)).
  { intros x _. destruct (test_of_spec fmul sample Hs a m U (fun _ => Hl) x) as (rest & P & _).
    exact (proj2 (sample_own fmul sample a m U x rest P)). }
  assert (Ur : user_is (zkey p) r = true) by (apply user_is_iff; congruence).
  assert (Ur' : user_is (zkey p) r' = true) by (apply user_is_iff; congruence).
  apply (own_only m ps zkey U N _ l1 O L1 p r Hp Hr Ur) in Tr.
  assert (T2 : ~ In (r_rid r') (test_of fmul sample a m p)).
  { intros I. apply T'. apply in_or_app. right. apply L1. eauto. }
  destruct (latest_task p) as (kept & out & Et & A & B & C).
  { intros Z. rewrite Z in Tr. destruct Tr. }
  rewrite Et in Tr, T2. apply in_map_iff in Tr. destruct Tr as (x & Ex & Hx).
  destruct (B x) as (r1 & Hr1 & Er1 & Nx); [apply in_or_app; auto|].
  assert (r1 = r).
  { simpl in Hr1. apply filter_In in Hr1. apply (NoDup_map_inj r_rid (rows_of m)); try tauto; [apply U|congruence]. }
  subst r1. destruct (A r') as (v & Hv & Nv); [simpl; apply filter_In; auto|].
  assert (Hv2 : In (v, r_rid r') out).
  { apply in_app_or in Hv. destruct Hv as [Hv|Hv]; auto. exfalso. apply T2. apply in_map_iff. exists (v, r_rid r'). auto. }
  assert (L := C _ _ Hv2 Hx). unfold key_le, key in L. simpl in L. rewrite Nv, Nx in L. exact L.
Qed.
End Latest.

(** ** The result of a split depends on the tasks only *)
Definition lists_only (ts : list (list (section cellv))) : Prop :=
  forall l t f, (l < 2)%nat -> In t ts -> In f (updates cellv l t) -> exists xs, f = extend xs.

Lemma extends_list fs : (forall f, In f fs -> exists xs, f = extend xs) -> exists xss, fs = map extend xss.
Proof.
  induction fs as [|f fs IH]; intros H; [exists []; reflexivity|].
  destruct IH as [xss ->]; [intros; apply H; simpl; auto|]. destruct (H f (or_introl eq_refl)) as [xs ->].
  exists (xs :: xss). reflexivity.
Qed.

Lemma drop_ext m l l' keep : (forall x, In x l <-> In x l') -> drop m l keep = drop m l' keep.
Proof.
  intros H. destruct (drop_spec m l) as (A & B & _). destruct (drop_spec m l') as (A' & B' & _).
  assert (E : forall r, listed l r = listed l' r) by (intros r; apply eq_true_iff_eq; rewrite !listed_iff; apply H).
  destruct keep; [rewrite A, A'|rewrite B, B']; f_equal; apply filter_ext; intros r; rewrite E; reflexivity.
Qed.

Lemma split_same ts m n1 v1 s1 t1 a1 b1 n2 v2 s2 t2 a2 b2 : lists_only ts ->
  run_split n1 v1 m (Ok ts) s1 t1 = Done a1 b1 -> run_split n2 v2 m (Ok ts) s2 t2 = Done a2 b2 ->
  a1 = a2 /\ b1 = b2.
Proof.
  intros LO. 
  assert (G : forall n v s t a b, run_split n v m (Ok ts) s t = Done a b ->
    exists l0 l1, a = drop m (l0 ++ l1) false /\ b = drop m l1 true /\
      (forall x, In x l0 <-> exists xss xs, flat_map (updates cellv 0) ts = map extend xss /\ In xs xss /\ In x xs) /\
      (forall x, In x l1 <-> exists xss xs, flat_map (updates cellv 1) ts = map extend xss /\ In xs xss /\ In x xs)).
  { intros n v s t a b. unfold run_split. set (w0 := mkWorld _ _). set (en := enough _).
    destruct (w_main (wrun en s t w0)) eqn:M; try discriminate.
    intros H. injection H as <- <-.
    assert (F : finished (w_pool (wrun en s t w0)) = true).
    { apply returned_finished; auto. destruct v; discriminate. }
    assert (R := finished_result cellv en n init_shared ts _ s t F). fold w0 in R.
    assert (Q : forall l, (l < 2)%nat -> exists xs, shared (w_pool (wrun en s t w0)) l = CList xs /\
       forall x, In x xs <-> exists xss ys, flat_map (updates cellv l) ts = map extend xss /\ In ys xss /\ In x ys).
    { intros l Hl. destruct (R l) as (fs & E & P).
      destruct (extends_list (flat_map (updates cellv l) ts)) as [xss EX].
      { intros f Hf. apply in_flat_map in Hf. destruct Hf as (t0 & I1 & I2). apply (LO l t0 f Hl I1 I2). }
      assert (I : init_shared l = CList []) by (destruct l as [|[|l]]; simpl; auto; lia).
      rewrite I in E. rewrite EX in P. destruct (extends_result fs xss [] P) as (xs & E' & Q).
      exists xs. split; [congruence|]. intros x. rewrite Q. split.
      - intros [[]|(ys & Hy & Hx)]. exists xss, ys. auto.
      - intros (xss' & ys & E2 & Hy & Hx). right. rewrite EX in E2.
        assert (xss = xss').
        { clear - E2. revert xss' E2. induction xss as [|y l IH]; intros [|y' l'] E2; simpl in *; try discriminate; auto.
          assert (E1 : extend y (CList []) = extend y' (CList [])) by (injection E2 as E2 _; rewrite E2; reflexivity).
          simpl in E1. injection E1 as ->. f_equal. apply IH. injection E2 as E2'. exact E2'. }
        subst xss'. exists ys. auto. }
    destruct (Q 0%nat ltac:(lia)) as (l0 & E0 & Q0). destruct (Q 1%nat ltac:(lia)) as (l1 & E1 & Q1).
    exists l0, l1. unfold split_sets. rewrite E0, E1. auto. }
  intros H1 H2. destruct (G _ _ _ _ _ _ H1) as (l0 & l1 & -> & -> & A0 & A1).
  destruct (G _ _ _ _ _ _ H2) as (l0' & l1' & -> & -> & B0 & B1).
  assert (S0 : forall x, In x l0 <-> In x l0') by (intros x; rewrite A0, B0; tauto).
  assert (S1 : forall x, In x l1 <-> In x l1') by (intros x; rewrite A1, B1; tauto).
  split; apply drop_ext; auto. intros x. rewrite !in_app_iff, S0, S1. tauto.
Qed.
