(** Caser on a data set in a database and on the same data set in memory. *)
From Coq Require Import String Ascii.
From Coq Require Import List ZArith QArith Qcanon Bool Permutation Sorted Lia.
From Verif Require Import Py PyFacts MemModel MemSpec MemFacts MemFacts2 MemFacts3 MemFacts4 MemFacts5 MemFacts6 MemFacts7 RankModel RankSpec RankFacts RankFacts2 KnnModel KnnSpec KnnFacts KnnFacts2 KnnFacts3 FitModel NetModel
  DbModel DbFacts DbSpec DbFacts3 DbFacts7 DbFacts12 DbFacts13 DbFacts14 DbFacts15 DbFacts16 DbFacts17 SampModel SampFacts2 DbGenModel DbGenSpec DbGenFacts DbGenFacts2
  DbSplitModel DbSplitSpec DbSplitFacts DbSplitFacts3 DbSplitFacts6 TwinSpec TwinFacts TwinFacts5 TwinFacts6 RecDbModel RecDbModel2 RecDbModel3 RecDbFacts RecDbFacts2 RecDbFacts3 RecDbFacts4 RecDbFacts6 RecDbFacts7 RecDbFacts8 RecDbSpec RecDbSpec2 RecDbSpec3.
Import ListNotations.
Open Scope string_scope.
Open Scope Z_scope.
Open Scope list_scope.

(** ** Sorting does not depend on the order before *)
Lemma sorted_same {A} (R : A -> A -> Prop) : forall l l', StronglySorted R l -> StronglySorted R l' -> Permutation l l' ->
  (forall x y, In x l -> In y l -> R x y -> R y x -> x = y) -> l = l'.
Proof.
  induction l as [|x l IH]; intros l' S S' P An.
  - apply Permutation_nil in P. auto.
  - destruct l' as [|y l']; [apply Permutation_sym, Permutation_nil in P; discriminate|].
    inversion S as [|? ? Sl Fx]; subst. inversion S' as [|? ? Sl' Fy]; subst. rewrite Forall_forall in Fx, Fy.
    assert (x = y) as <-.
    { assert (Hx : In x (y :: l')) by (eapply Permutation_in; [exact P|left; auto]).
      assert (Hy : In y (x :: l)) by (eapply Permutation_in; [apply Permutation_sym; exact P|left; auto]).
      destruct Hx as [<-|Hx]; [auto|]. destruct Hy as [->|Hy]; [auto|]. apply An; [left; auto|right; auto| |]; auto. }
    f_equal. apply Permutation_cons_inv in P. apply IH; auto. intros a b Ha Hb. apply An; right; auto.
Qed.
Lemma sort_same {A} (leb : A -> A -> bool) (P : A -> Prop) l l' :
  (forall x y, P x -> P y -> leb x y = true \/ leb y x = true) ->
  (forall x y z, P x -> P y -> P z -> leb x y = true -> leb y z = true -> leb x z = true) ->
  Forall P l -> Permutation l l' -> (forall x y, In x l -> In y l -> leb x y = true -> leb y x = true -> x = y) ->
  sort_by leb l = sort_by leb l'.
Proof.
  intros To Tr F Pm An. assert (F' : Forall P l') by (eapply Permutation_Forall; eauto).
  apply (sorted_same (le_rel leb)).
  - apply (sort_on_sorted leb P); auto.
  - apply (sort_on_sorted leb P); auto.
  - eapply Permutation_trans; [apply Permutation_sym, sort_by_perm|]. eapply Permutation_trans; [exact Pm|apply sort_by_perm].
  - intros x y Hx Hy. apply (Permutation_in _ (Permutation_sym (sort_by_perm leb l))) in Hx, Hy. apply An; auto.
Qed.
Lemma string_same a b : string_ltb a b = false -> string_ltb b a = false -> a = b.
Proof.
  revert b; induction a as [|x a IH]; intros [|y b]; cbn [string_ltb]; auto; try discriminate.
  destruct (nat_of_ascii x <? nat_of_ascii y)%nat eqn:E1; [discriminate|]. destruct (nat_of_ascii y <? nat_of_ascii x)%nat eqn:E2; [discriminate|].
  apply Nat.ltb_ge in E1, E2. intros H1 H2. f_equal; [|apply IH; auto].
  rewrite <- (ascii_nat_embedding x), <- (ascii_nat_embedding y). f_equal. lia.
Qed.
Lemma Qc_eq_bool_refl p : Qc_eq_bool p p = true.
Proof. unfold Qc_eq_bool. destruct (Qc_eq_dec p p); congruence. Qed.
Lemma kleb_same x y : is_str x = is_str y -> kleb x y = true -> kleb y x = true -> val_eqb x y = true.
Proof.
  intros H A B.
  assert (Q : forall p q, num_of x = Some p -> num_of y = Some q -> val_eqb x y = Qc_eq_bool p q /\ kleb x y = negb (Qcltb q p) /\ kleb y x = negb (Qcltb p q)).
  { intros p q Ex Ey. unfold kleb. destruct x as [a|a|a], y as [b|b|b]; try discriminate; cbn [val_eqb val_ltb]; rewrite ?Ex, ?Ey;
      (split; [|split; destruct (Qcltb _ _); reflexivity]); auto.
    cbn [num_of] in Ex, Ey. injection Ex as <-. injection Ey as <-. apply eq_true_iff_eq. rewrite Z.eqb_eq. split; [intros ->; apply Qc_eq_bool_refl|].
    intro X. apply Qc_eq_bool_correct in X. rewrite <- (floor_of_Z a), <- (floor_of_Z b), X. auto. }
  destruct (num_of x) as [p|] eqn:Ex, (num_of y) as [q|] eqn:Ey.
  - destruct (Q p q eq_refl eq_refl) as (-> & Ha & Hb). rewrite Ha in A. rewrite Hb in B. rewrite negb_true_iff in A, B.
    apply Qcltb_false in A, B. replace q with p by (apply Qcle_antisym; auto). apply Qc_eq_bool_refl.
  - destruct x, y; discriminate.
  - destruct x, y; discriminate.
  - destruct x as [a|a|a], y as [b|b|b]; try discriminate. unfold kleb in A, B. cbn [val_ltb] in A, B. cbn [val_eqb]. apply String.eqb_eq.
    destruct (string_ltb b a) eqn:E1; [discriminate|]. destruct (string_ltb a b) eqn:E2; [discriminate|]. apply string_same; auto.
Qed.

(** ** The last items of a user *)
Definition shows_as (cs : list string) (r : row) (v : list value) : Prop :=
  Forall2 (fun c x => exists y, row_val r c = Some y /\ same_value x y) cs v.
Lemma shown_key k cs r v r' v' : shows_as (k :: cs) r v -> shows_as (k :: cs) r' v' -> row_leb k r r' = key_leb v v'.
Proof.
  intros H H'. inversion H as [|? x ? ? (y & Ey & S) _]; subst. inversion H' as [|? x' ? ? (y' & Ey' & S') _]; subst.
  unfold row_leb, key_leb. rewrite Ey, Ey'. unfold kleb. rewrite (same_ltb _ _ _ _ S' S). reflexivity.
Qed.
Definition iid_of (r : row) : Z := match cell r "iid" with Some (VInt z) => z | _ => 0 end.
Lemma shown_id cs r v z : shows_as (cs ++ ["iid"]) r v -> cell r "iid" = Some (VInt z) -> last_cell v = Ok z.
Proof.
  intros H E. apply Forall2_app_inv_l in H. destruct H as (v1 & v2 & _ & H & ->). inversion H as [|? x ? ? (y & Ey & S) H2]; subst. inversion H2; subst.
  unfold last_cell. rewrite rev_app_distr. cbn [rev app]. change (row_val r "iid") with (cell r "iid") in Ey. rewrite E in Ey. injection Ey as <-.
  apply int_value_same. exact S.
Qed.
Lemma shown_ids cs rs vs : Forall2 (shows_as (cs ++ ["iid"])) rs vs -> (forall r, In r rs -> exists z, cell r "iid" = Some (VInt z)) ->
  mapM last_cell vs = Ok (map iid_of rs).
Proof.
  induction 1 as [|r v rs vs H F IH]; intro I; [auto|]. cbn [mapM map]. destruct (I r (or_introl eq_refl)) as [z E].
  rewrite (shown_id cs r v z H E). cbn [bind]. rewrite IH by (intros; apply I; right; auto). cbn [bind]. replace (iid_of r) with z by (unfold iid_of; rewrite E; auto). auto.
Qed.
(** two ways to read the same rows *)
Lemma history_same k rs rs' vs vs' :
  Forall2 (shows_as [k; "iid"]) rs vs -> Forall2 (shows_as [k; "iid"]) rs' vs' ->
  (forall r, In r rs -> exists z, cell r "iid" = Some (VInt z)) ->
  Permutation rs rs' -> sort_by (row_leb k) rs = sort_by (row_leb k) rs' ->
  user_history true vs = user_history true vs' /\ user_history true vs = Ok (map iid_of (sort_by (row_leb k) rs)).
Proof.
  intros F F' I P Es. unfold user_history.
  assert (G : forall r v r' v', shows_as [k; "iid"] r v -> shows_as [k; "iid"] r' v' -> row_leb k r r' = key_leb v v') by (intros; eapply shown_key; eauto).
  assert (K : forall rs vs, Forall2 (shows_as [k; "iid"]) rs vs -> Forall2 (shows_as [k; "iid"]) (sort_by (row_leb k) rs) (sort_by key_leb vs)).
  { intros a b H. apply (sort_F2 (shows_as [k; "iid"])); [|exact H]. intros; apply G; auto. }
  assert (Is : forall r, In r (sort_by (row_leb k) rs) -> exists z, cell r "iid" = Some (VInt z)).
  { intros r Hr. apply I. eapply Permutation_in; [apply Permutation_sym, sort_by_perm|exact Hr]. }
  rewrite (shown_ids [k] _ _ (K _ _ F) Is). split; [|auto]. symmetry. rewrite Es. apply (shown_ids [k]); [apply K; exact F'|]. rewrite <- Es. exact Is.
Qed.

Section Caser.
Variable inode : string -> nat.
Variable ords : nat -> list trow -> list trow.
Hypothesis Po : forall k, permuting (ords k).
Variables (i : nat) (d : ds) (m0 m : mem) (tu ti : dtype).
Hypothesis T : trained_on m0 m tu ti.
Hypothesis Nm : numeric m0.
Hypothesis Tw : twin d m.
Hypothesis Cm : complete d.
Local Notation runs := (runs inode i d).
Local Notation gives := (gives inode i d).
Local Notation sub := (sub d).
Local Notation rdy := (rec_ready d m0 m tu ti T Nm Tw Cm).
Local Notation srdy := (sub_ready inode d m0 m tu ti T Nm Tw Cm).
Local Notation cs := (m_columns m).
Local Notation rows_u u := (filter (int_is "uid" u) (rows_of m)).

Lemma values_in_order b j dj us : b j = Some dj -> complete dj -> incl us (d_cols dj) ->
  (forall row, In row (d_rows dj) -> forall c, In c us -> tcell row c <> None) ->
  runs b (db_values inode ords j us) (fun b' r => extends b b' /\ exists l, Permutation l (d_rows dj) /\
    ((forall k, sorting (ords k)) -> StronglySorted (fun a b => rid_of a <= rid_of b) l) /\
    r = Ok (map (fun row => map (fun c => match tcell row c with Some v => v | None => VInt 0 end) us) l)).
Proof.
  intros Hb C I Nn s F. destruct (values_fine inode i d (ords (fst s)) j dj us false (snd s) b (Po _) Hb C I F) as (w' & vs & E & F' & _).
  destruct F as ((b0 & Eb & R) & _). assert (Hb0 : b0 j = Some dj) by (rewrite Eb; exact Hb).
  destruct (values_read inode (ords (fst s)) (snd s) b0 j dj (Some us) false w' vs (Po _) (reaches_inv _ _ _ R) Hb0 E) as (l & Pl & -> & Sl).
  cbn [asked] in *. eexists. eexists. exists b. split; [unfold db_values, pbind, dbo; rewrite E; unfold pret; reflexivity|]. split; [exact F'|]. split; [apply extends_refl|].
  exists l. split; [exact Pl|]. split; [intro H; apply Sl, H|].
  assert (Nl : forall row, In row l -> forall c, In c us -> tcell row c <> None) by (intros row Hr; apply Nn; eapply Permutation_in; eauto).
  clear - Nl. induction l as [|row l IH]; [auto|]. cbn [map mapM].
  assert (X : mapM filled (cells us row) = Ok (map (fun c => match tcell row c with Some v => v | None => VInt 0 end) us)).
  { assert (X : forall c, In c us -> tcell row c <> None) by (intros; apply Nl; [left; auto|auto]). clear - X.
    unfold cells. induction us as [|c us IH]; [auto|]. cbn [map mapM]. destruct (tcell row c) as [v|] eqn:Ev; [|destruct (X c); [left; auto|auto]].
    cbn [filled]. cbn [bind]. rewrite IH by (intros; apply X; right; auto). reflexivity. }
  rewrite X. cbn [bind]. rewrite IH by (intros; apply Nl; [right; auto|auto]). reflexivity.
Qed.

(** the rows of a user in the database are those in memory *)
Lemma sub_as u : Permutation (d_rows (sub "uid" u)) (map (as_trow cs) (rows_u u)).
Proof.
  unfold RecDbFacts3.sub, restricted. cbn [d_rows]. 
  eapply Permutation_trans; [apply filter_perm, (tw_rows _ _ Tw)|]. 
  assert (G : forall r, In r (rows_of m) -> forallb (holds (as_trow cs r)) [is_id "uid" u] = int_is "uid" u r).
  { intros r Hr. cbn [forallb]. rewrite andb_true_r, (id_holds d "uid" u _ rdy (or_introl eq_refl)).
    - destruct (dtri_as m0 m tu ti T Nm r Hr) as (_ & X & _). destruct (KnnFacts.good m0 m tu ti T Nm r Hr) as (Eu & _).
      unfold zcell. rewrite X. unfold int_is. rewrite Eu. reflexivity.
    - apply (twin_row d m Tw). eauto. }
  clear - G. induction (rows_of m) as [|r l IH]; [auto|]. cbn [map filter]. rewrite (G r (or_introl eq_refl)).
  assert (G' : forall r, In r l -> forallb (holds (as_trow cs r)) [is_id "uid" u] = int_is "uid" u r) by (intros; apply G; right; auto).
  destruct (int_is "uid" u r); cbn [map]; [constructor|]; auto.
Qed.
Lemma user_in u r : In r (rows_u u) -> In r (rows_of m).
Proof. intro H. apply filter_In in H. tauto. Qed.
Lemma rid_sorted u : StronglySorted Z.lt (map r_rid (rows_u u)).
Proof.
  pose proof (tw_order _ _ Tw) as S. induction (rows_of m) as [|r l IH]; [constructor|]. cbn [map] in S. inversion S as [|? ? S1 S2]; subst.
  cbn [filter]. destruct (int_is "uid" u r); [|auto]. cbn [map]. constructor; [auto|]. rewrite Forall_forall in *. intros z Hz.
  apply S2. apply in_map_iff in Hz. destruct Hz as (x & <- & Hx). apply in_map. apply filter_In in Hx. tauto.
Qed.

Lemma iid_int r : In r (rows_of m) -> exists z, cell r "iid" = Some (VInt z).
Proof. intro H. destruct (KnnFacts.good m0 m tu ti T Nm r H) as (_ & Ei & _). eauto. Qed.
Lemma has_value k r : In k cs -> In r (rows_of m) -> exists t v, row_val r k = Some v /\ (k = "rid" -> t = DInt) /\ (k <> "rid" -> In (k, t) (f_types (m_df m))) /\ type_of v = t.
Proof.
  intros Hk Hr. pose proof (tw_wf _ _ Tw) as W. apply (wf_cols _ W) in Hk. unfold row_val. destruct (String.eqb k "rid") eqn:E.
  - apply String.eqb_eq in E. subst. exists DInt. eexists. split; [reflexivity|]. split; [auto|]. split; [intro X; destruct (X eq_refl)|reflexivity].
  - destruct Hk as [->|Hk]; [discriminate|]. apply in_map_iff in Hk. destruct Hk as ([c t] & <- & Ht). cbn [fst] in *.
    destruct (wf_typed _ (wf_df _ W) r c t Hr Ht) as (v & Ev & Tv). exists t, v. split; [auto|]. split; [intros ->; discriminate|]. split; auto.
Qed.
Lemma same_kind k r r' x y : In k cs -> In r (rows_of m) -> In r' (rows_of m) -> row_val r k = Some x -> row_val r' k = Some y -> is_str x = is_str y.
Proof.
  intros Hk Hr Hr' Ex Ey. destruct (has_value k r Hk Hr) as (t & v & Ev & R1 & R2 & Tv). destruct (has_value k r' Hk Hr') as (t' & v' & Ev' & R1' & R2' & Tv').
  assert (t = t') as <-.
  { destruct (string_dec k "rid") as [e|n]; [rewrite R1, R1'; auto|].
    pose proof (wf_names _ (wf_df _ (tw_wf _ _ Tw))) as N. specialize (R2 n). specialize (R2' n).
    clear - N R2 R2'. induction (f_types (m_df m)) as [|[c a] l IH]; [contradiction|]. cbn [map fst] in N. inversion N as [|? ? Nc Nl]; subst.
    destruct R2 as [E|R2], R2' as [E'|R2']; try congruence; [injection E as -> ->; destruct Nc; apply (in_map fst _ _ R2')|injection E' as -> ->; destruct Nc; apply (in_map fst _ _ R2)|auto]. }
  assert (x = v) as -> by congruence. assert (y = v') as -> by congruence. subst t. destruct v, v'; try discriminate; auto.
Qed.
Lemma user_sort k u rs : In k cs -> distinct_keys m k -> Permutation (rows_u u) rs -> sort_by (row_leb k) (rows_u u) = sort_by (row_leb k) rs.
Proof.
  intros Hk Dk P. 
  assert (Val : forall r, In r (rows_of m) -> exists v, row_val r k = Some v) by (intros r Hr; destruct (has_value k r Hk Hr) as (t & v & E & _); eauto).
  apply (sort_same (row_leb k) (fun r => In r (rows_of m))); [| | |exact P|].
  - intros r r' Hr Hr'. destruct (Val r Hr) as [x Ex], (Val r' Hr') as [y Ey]. unfold row_leb. rewrite Ex, Ey. apply kleb_total. exact (same_kind k r r' x y Hk Hr Hr' Ex Ey).
  - intros r1 r2 r3 H1 H2 H3. destruct (Val _ H1) as [x Ex], (Val _ H2) as [y Ey], (Val _ H3) as [z Ez]. unfold row_leb. rewrite Ex, Ey, Ez.
    exact (kleb_trans x y z (same_kind k r1 r2 x y Hk H1 H2 Ex Ey) (same_kind k r2 r3 y z Hk H2 H3 Ey Ez)).
  - apply Forall_forall. intros r Hr. apply (user_in u r Hr).
  - intros r r' Hr Hr' L1 L2. pose proof (user_in u r Hr) as H1. pose proof (user_in u r' Hr') as H2.
    destruct (Val r H1) as [x Ex], (Val r' H2) as [y Ey]. unfold row_leb in L1, L2. rewrite Ex, Ey in L1. rewrite Ex, Ey in L2.
    pose proof (kleb_same x y (same_kind k r r' x y Hk H1 H2 Ex Ey) L1 L2) as Eq.
    assert (Er : r_rid r = r_rid r').
    { destruct (Z.eq_dec (r_rid r) (r_rid r')) as [e|n]; [auto|]. exfalso.
      assert (Eu : cell r "uid" = cell r' "uid").
      { apply filter_In in Hr, Hr'. destruct Hr as [_ A], Hr' as [_ B]. unfold int_is in A, B.
        destruct (cell r "uid") as [[a| |]|]; try discriminate. destruct (cell r' "uid") as [[a'| |]|]; try discriminate. apply Z.eqb_eq in A, B. congruence. }
      rewrite (Dk r r' x y H1 H2 n Eu Ex Ey) in Eq. discriminate. }
    pose proof (sorted_nodup _ (rid_sorted u)) as N. clear - N Er Hr Hr'. induction (rows_u u) as [|a l IH]; [contradiction|].
    cbn [map] in N. inversion N as [|? ? Na Nl]; subst. destruct Hr as [->|Hr], Hr' as [->|Hr']; auto.
    + destruct Na. rewrite Er. apply in_map. exact Hr'.
    + destruct Na. rewrite <- Er. apply in_map. exact Hr.
Qed.

Lemma db_shown us l : incl us cs -> (forall r, In r l -> In r (rows_of m)) ->
  Forall2 (shows_as us) l (map (fun row => map (fun c => match tcell row c with Some v => v | None => VInt 0 end) us) (map (as_trow cs) l)).
Proof.
  intros I H. induction l as [|r l IH]; [constructor|]. cbn [map]. constructor; [|apply IH; intros; apply H; right; auto].
  assert (G : forall c, In c us -> exists v, row_val r c = Some v /\ tcell (as_trow cs r) c = Some v).
  { intros c Hc. destruct (has_value c r (I c Hc) (H r (or_introl eq_refl))) as (t & v & Ev & _). exists v. split; [auto|].
    pose proof (cells_as [c] cs r ltac:(intros x [<-|[]]; apply I; auto)) as X. cbn [cells map] in X. injection X as X. congruence. }
  clear - G. unfold shows_as. induction us as [|c us IH]; [constructor|]. cbn [map]. constructor; [|apply IH; intros; apply G; right; auto].
  destruct (G c (or_introl eq_refl)) as (v & E1 & ->). exists v. split; [auto|]. apply same_value_refl.
Qed.
Lemma sorted_read u l : Permutation l (d_rows (sub "uid" u)) -> StronglySorted (fun a b => rid_of a <= rid_of b) l -> l = map (as_trow cs) (rows_u u).
Proof.
  intros P S. pose proof (Permutation_trans P (sub_as u)) as Q.
  assert (R : forall r, rid_of (as_trow cs r) = r_rid r) by (intro r; apply rid_as, (twin_rid d m Tw)).
  pose proof (rid_sorted u) as O.
  assert (S2 : StronglySorted (fun a b => rid_of a <= rid_of b) (map (as_trow cs) (rows_u u))).
  { clear - R O. induction (rows_u u) as [|r l IH]; [constructor|]. cbn [map] in *. inversion O as [|? ? O1 O2]; subst. constructor; [auto|].
    rewrite Forall_forall in *. intros x Hx. apply in_map_iff in Hx. destruct Hx as (r' & <- & Hr). rewrite !R. apply Z.lt_le_incl, O2, in_map, Hr. }
  eapply (sorted_same _ _ _ S S2 Q). intros x y Hx Hy L1 L2. apply (Permutation_in _ Q) in Hx, Hy.
  apply in_map_iff in Hx, Hy. destruct Hx as (r & <- & Hr), Hy as (r' & <- & Hr'). rewrite !R in *. assert (Er : r_rid r = r_rid r') by lia. f_equal.
  pose proof (sorted_nodup _ O) as N. clear - N Er Hr Hr'. induction (rows_u u) as [|a l IH]; [contradiction|].
  cbn [map] in N. inversion N as [|? ? Na Nl]; subst. destruct Hr as [->|Hr], Hr' as [->|Hr']; auto.
  + destruct Na. rewrite Er. apply in_map. exact Hr'.
  + destruct Na. rewrite <- Er. apply in_map. exact Hr.
Qed.

Variable c : caser.
(** the records of a user have an order *)
Definition times_ok : Prop := exists k, cs_sort c = Some k /\ In k cs /\ small_col m k /\ distinct_keys m k.
Definition file_order : Prop := (forall t, sorting (ords t)) /\ forall k, cs_sort c = Some k -> In k cs -> small_col m k.
Hypothesis Ord : times_ok \/ file_order.

Lemma cols_self b : runs b (db (self i)) (fun b' r => extends b b' /\ exists x, r = Ok x /\ i_cols x = cs).
Proof.
  intros [n w] F. cbn [snd] in F. pose proof F as ((b' & Eb & R) & Hb & _). pose proof (inv_ds _ _ _ (reaches_inv _ _ _ R) i d) as Sh.
  rewrite Eb in Sh. specialize (Sh Hb). destruct (shows_inst inode w i d Sh) as (x & H & Dc & _).
  exists (n, w), (Ok x), b. split; [unfold db, self; cbn [snd fst]; rewrite H; reflexivity|]. split; [exact F|]. split; [apply extends_refl|].
  exists x. split; [auto|]. rewrite Dc. apply (tw_cols _ _ Tw).
Qed.
Lemma looked_cols : incl (looked_at c cs) cs.
Proof.
  destruct (trained_cols m0 m tu ti T) as [_ Ci]. unfold looked_at. destruct (cs_sort c) as [k|]; [|intros x [<-|[]]; auto].
  destruct (mem_b String.eqb k cs) eqn:E; [|intros x [<-|[]]; auto]. intros x [<-|[<-|[]]]; [|auto].
  apply mem_b_exists in E. destruct E as (y & Hy & E). apply String.eqb_eq in E. subst. auto.
Qed.
Lemma iid_small : small_col m "iid".
Proof. intros r z Hr E. exact (trained_small _ _ _ _ T "iid" (or_intror eq_refl) r z Hr E). Qed.
Lemma user_history_same u mu l :
  MemModel.select m ("uid == " ++ str_of_Z u)%string = Ok mu ->
  Permutation l (d_rows (sub "uid" u)) -> ((forall k, sorting (ords k)) -> StronglySorted (fun a b => rid_of a <= rid_of b) l) ->
  let vs' := map (fun row => map (fun c => match tcell row c with Some v => v | None => VInt 0 end) (looked_at c cs)) l in
  exists vs, MemModel.values mu (Some (looked_at c cs)) = Ok vs /\ user_history (sorts c cs) vs' = user_history (sorts c cs) vs /\
  exists h, user_history (sorts c cs) vs = Ok h /\ forall k, mem_b Z.eqb k h = true <-> pair_in m u k.
Proof.
  intros S P So vs'. destruct (user_rows_ok m0 m tu ti T u) as (mu' & S' & Wu & Iu & Cu & Ru). rewrite S in S'. apply ok_same in S'. subst mu'.
  pose proof looked_cols as Lc.
  assert (Sm : forall k, In k (looked_at c cs) -> small_col mu k).
  { assert (Sub : forall k, small_col m k -> small_col mu k) by (intros k H r z Hr; rewrite Ru in Hr; apply H; apply (user_in u r Hr)).
    intros k Hk. apply Sub. unfold looked_at in Hk. destruct (cs_sort c) as [k0|] eqn:Es.
    - destruct (mem_b String.eqb k0 cs) eqn:E; [|destruct Hk as [<-|[]]; apply iid_small]. destruct Hk as [<-|[<-|[]]]; [|apply iid_small].
      apply mem_b_exists in E. destruct E as (y & Hy & E). apply String.eqb_eq in E. subst y.
      destruct Ord as [(k1 & E1 & _ & Sk & _)|[_ Sk]]; [rewrite Es in E1; injection E1 as <-; exact Sk|apply Sk; auto].
    - destruct Hk as [<-|[]]. apply iid_small. }
  destruct (values_ok mu (looked_at c cs) Wu ltac:(intros x Hx; rewrite Cu; apply Lc; exact Hx) Sm) as (vs & V & _ & F). rewrite Ru in F. exists vs. split; [exact V|].
  assert (X : exists rs, l = map (as_trow cs) rs /\ Permutation (rows_u u) rs /\ (times_ok \/ rs = rows_u u)).
  { destruct Ord as [O|[So2 _]].
    - destruct (Permutation_map_inv _ _ (Permutation_trans P (sub_as u))) as (rs & -> & Pr). eauto.
    - exists (rows_u u). rewrite (sorted_read u _ P (So So2)). auto. }
  destruct X as (rs & -> & Pr & Or). unfold vs'. clear vs'.
  pose proof (db_shown (looked_at c cs) rs Lc ltac:(intros r Hr; apply (user_in u); eapply Permutation_in; [apply Permutation_sym; exact Pr|exact Hr])) as F'.
  assert (Ii : forall r, In r (rows_u u) -> exists z, cell r "iid" = Some (VInt z)) by (intros r Hr; apply iid_int, (user_in u r Hr)).
  assert (Seen : forall l, Permutation (rows_u u) l -> forall k, mem_b Z.eqb k (map iid_of l) = true <-> pair_in m u k).
  { intros l Pl k. rewrite mem_b_exists. unfold pair_in. split.
    - intros (z & Hz & E). apply Z.eqb_eq in E. subst z. apply in_map_iff in Hz. destruct Hz as (r & E & Hr). apply (Permutation_in _ (Permutation_sym Pl)) in Hr.
      exists r. split; [apply (user_in u r Hr)|]. destruct (Ii r Hr) as (z & Ez). unfold iid_of in E. rewrite Ez in E. subst z. split; [|exact Ez].
      apply filter_In in Hr. destruct Hr as [_ A]. unfold int_is in A. destruct (cell r "uid") as [[a| |]|]; try discriminate. apply Z.eqb_eq in A. congruence.
    - intros (r & Hr & Eu & Ei). exists k. split; [|apply Z.eqb_refl]. apply in_map_iff. exists r. split; [unfold iid_of; rewrite Ei; auto|].
      apply (Permutation_in _ Pl). apply filter_In. split; [exact Hr|]. unfold int_is. rewrite Eu. apply Z.eqb_refl. }
  assert (Cs : (exists k, sorts c cs = true /\ looked_at c cs = [k; "iid"] /\ cs_sort c = Some k /\ In k cs) \/ (sorts c cs = false /\ looked_at c cs = ["iid"])).
  { unfold sorts, looked_at. destruct (cs_sort c) as [k|]; [|auto]. destruct (mem_b String.eqb k cs) eqn:E; [|auto]. left. exists k.
    apply mem_b_exists in E. destruct E as (y & Hy & E). apply String.eqb_eq in E. subst y. auto. }
  destruct Cs as [(k & -> & El & Ek & Hk)|[Es El]].
  - rewrite El in F, F' |- *. destruct (history_same k (rows_u u) rs vs _ F F' Ii Pr) as [E1 E2].
    { destruct Or as [(k1 & E1 & _ & _ & Dk)| ->]; [|auto]. rewrite Ek in E1. injection E1 as <-. apply (user_sort k u rs Hk Dk Pr). }
    split; [symmetry; exact E1|]. eexists. split; [exact E2|]. apply Seen, sort_by_perm.
  - assert (rs = rows_u u) as ->.
    { destruct Or as [(k1 & E1 & Hk & _)|E]; [|auto]. unfold sorts in Es. rewrite E1 in Es. exfalso.
      assert (mem_b String.eqb k1 cs = true) by (apply mem_b_exists; exists k1; split; [auto|apply String.eqb_refl]). congruence. }
    rewrite Es, El in *. unfold user_history. rewrite (shown_ids [] _ _ F' Ii), (shown_ids [] _ _ F Ii). split; [auto|]. eexists. split; [reflexivity|]. apply Seen. auto.
Qed.

(** *** one question *)
Lemma history_gives b u : runs b (db_history inode ords c i u) (fun b' r => extends b b' /\ exists h, r = Ok h /\ history c m u = Ok h /\ forall k, mem_b Z.eqb k h = true <-> pair_in m u k).
Proof.
  unfold db_history, history. destruct (user_rows_ok m0 m tu ti T u) as (mu & S & Wu & Iu & Cu & Ru). rewrite S. cbn [bind].
  apply runs_book. intro Hb0.
  eapply runs_bind; [apply cols_self| |intros b' e (_ & x & X & _); discriminate]. cbn beta. intros b1 x (X1 & x' & E & Ex). apply ok_same in E. subst x'. rewrite Ex.
  eapply runs_bind; [apply (select_runs inode i d rdy b1 "uid" u (or_introl eq_refl))| |intros b' e (j & X & _); discriminate].
  cbn beta. intros b2 j0 (j & Ej & Fr & ->). apply ok_same in Ej. subst j0. fold (sub "uid" u).
  assert (Nj : j <> i). { intros ->. rewrite X1 in Fr; congruence. }
  pose proof looked_cols as Lc.
  eapply runs_bind.
  - apply (values_in_order _ j (sub "uid" u) (looked_at c cs)); [apply note_same|apply srdy| |].
    + intros y Hy. cbn [d_cols RecDbFacts3.sub restricted]. rewrite (tw_cols _ _ Tw). apply Lc. exact Hy.
    + intros row Hr y Hy. apply (Permutation_in _ (sub_as u)) in Hr. apply in_map_iff in Hr. destruct Hr as (r & <- & Hr).
      pose proof (db_shown [y] [r] ltac:(intros z [<-|[]]; apply Lc; auto) ltac:(intros z [<-|[]]; apply (user_in u r Hr))) as Z.
      pose proof (cells_as [y] cs r ltac:(intros z [<-|[]]; apply Lc; auto)) as Y. cbn [cells map] in Y. injection Y as Y. rewrite Y.
      destruct (has_value y r (Lc y Hy) (user_in u r Hr)) as (t & v & -> & _). discriminate.
  - cbn beta. intros b3 vs (X3 & l & Pl & Sl & E). apply ok_same in E.
    eapply runs_bind; [apply (close_runs inode i d b3 j (sub "uid" u) (ext_at _ _ _ _ X3) Nj)| |intros b' e (X & _); discriminate].
    cbn beta. intros b4 _u (_ & ->). apply runs_ret. split; [eapply extends_trans; [exact X1|]; eapply ext_close; eauto|].
    destruct (user_history_same u mu l S Pl Sl) as (ws & V & Eh & h & Eh2 & K). rewrite V. cbn [bind]. rewrite E, Eh, Eh2. exists h. auto.
  - intros b' e (_ & l & _ & _ & X). discriminate.
Qed.

Lemma caser_rank_gives ni b u iids n nov : gives b (db_rank_caser inode ords c i ni u iids n nov) (rank_caser (caser_vec c m) m ni u iids n nov).
Proof.
  unfold db_rank_caser, rank_caser, caser_vec. destruct (rated_spec m0 m tu ti T u) as (seen & -> & Ks). cbn [bind].
  eapply (gives_then inode i d b _ _ _ _ (history_gives b u)); [intros e (h & X & _); discriminate|].
  intros b1 h _ (h' & E & -> & K). apply ok_same in E. subst h'. cbn [bind].
  apply gives_bind; [apply gives_ret|]. intros b2 v _ _. apply runs_ret. split; [apply extends_refl|]. destruct nov; [|auto].
  do 3 f_equal. apply filter_ext. intro k. f_equal. apply eq_true_iff_eq. rewrite K, Ks. tauto.
Qed.
End Caser.

Section Start.
Variable inode : string -> nat.
Variable ords : nat -> list trow -> list trow.
Hypothesis Po : forall k, permuting (ords k).
Variables (w0 : world) (b0 : book) (i : nat) (d0 : ds) (m0 m : mem) (tu ti : dtype).
Hypothesis R0 : reaches inode w0 b0.
Hypothesis S0 : safe inode w0 b0 (OAssign i).
Hypothesis H0 : b0 i = Some d0.
Hypothesis Tw0 : twin d0 m0.
Hypothesis T : trained_on m0 m tu ti.
Hypothesis Nm : numeric m0.
Hypothesis Cd0 : complete d0.
Variable c : caser.
Hypothesis Ord : times_ok m c \/ file_order ords m c.
Local Notation d := (assigned d0).
Local Notation fine := (fine inode i d).
Local Notation gives := (gives inode i d).
Local Notation Em := (RecDbFacts6.Em m0 m tu ti T).
Local Notation Tw := (RecDbFacts6.Tw inode w0 b0 i d0 m0 m tu ti S0 H0 Tw0 T).
Local Notation Cd := (RecDbFacts6.Cd inode d0 Cd0).

Lemma caser_ask_gives ni a b : asks_ids m0 a -> gives b (db_caser_ask inode ords c i ni a) (caser_ask c m ni a).
Proof.
  pose proof (reaches_inv _ _ _ R0) as I0.
  assert (Pr : forall b u iids n nov, gives b (db_rank_caser inode ords c i ni u iids n nov) (rank_caser (caser_vec c m) m ni u iids n nov)).
  { intros. apply (caser_rank_gives inode ords Po i d m0 m tu ti T Nm Tw Cd c Ord). }
  destruct a as [u it sk|u items nov sk n|u n nov th]; cbn [db_caser_ask caser_ask asks_ids].
  - intros [Ru Ri]. unfold net_score. apply gives_bind; [|intros; apply gives_ret]. rewrite Em. apply (predict_gives inode w0 b0 i d0 m0 I0 S0 H0 Tw0); auto.
    intros. apply gives_ret.
  - intros [Ru Ri]. rewrite Forall_forall in Ri. apply gives_bind; [|intros; apply gives_ret]. 
    pose proof (rank_gives inode w0 b0 i d0 m0 I0 S0 H0 Tw0 _ _ true u items nov sk n b Ru Ri Pr) as G. rewrite <- Em in G. exact G.
  - intros Ru. apply gives_bind; [|intros; apply gives_ret].
    pose proof (recommend_gives inode w0 b0 i d0 m0 I0 S0 H0 Tw0 _ _ true ni u n nov th b Ru Pr) as G. rewrite <- Em in G. exact G.
Qed.
Lemma caser_asks_give ni l : Forall (asks_ids m0) l -> forall b, gives b (db_caser_asks inode ords c i ni l) (Ok (map (caser_ask c m ni) l)).
Proof.
  induction 1 as [|a l Ha _ IH]; intro b; [apply gives_ret|]. cbn [db_caser_asks map]. intros s F.
  destruct (caser_ask_gives ni a b Ha s F) as (s1 & r & b1 & E & F1 & X1 & ->). rewrite E.
  destruct (IH b1 s1 F1) as (s2 & r2 & b2 & E2 & F2 & X2 & ->).
  exists s2. eexists. exists b2. split; [unfold pbind; rewrite E2; unfold pret; reflexivity|]. split; [exact F2|]. split; [eapply extends_trans; eauto|auto].
Qed.
Lemma caser_run_same l n : Forall (asks_ids m0) l ->
  exists s' b', db_caser_run inode ords c i l (n, w0) = (s', caser_run c m0 l) /\ fine (snd s') b' /\ extends (note b0 i (Some d)) b'.
Proof.
  intro Hl. destruct (begin_runs inode w0 b0 i d0 m0 m tu ti R0 S0 H0 Tw0 T Nm Cd0 n) as (s1 & b1 & r & E1 & F1 & X1 & r' & Em0 & Sr & _).
  unfold db_caser_run, caser_run. rewrite Em0. unfold pbind at 1. rewrite E1. destruct r as [f|e], r' as [f'|e']; cbn [same_start] in Sr; try contradiction.
  2:{ subst e'. exists s1, b1. auto. }
  cbn [bind]. destruct Sr as (_ & _ & _ & Si & _). rewrite <- Si.
  destruct (caser_asks_give (fi_items f) l Hl b1 s1 F1) as (s3 & r3 & b3 & E3 & F3 & X3 & ->).
  exists s3, b3. rewrite E3. split; [auto|]. split; [auto|]. eapply extends_trans; eauto.
Qed.
End Start.
