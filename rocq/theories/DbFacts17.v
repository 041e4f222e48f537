(** Saving and loading again, live tables and interaction vectors. *)
From Coq Require Import String Ascii.
From Coq Require Import List ZArith QArith Qcanon Bool Permutation Lia.
From Verif Require Import Py PyFacts MemModel MemSpec DbModel DbFacts DbFacts2 DbFacts3 DbFacts4 DbFacts5 DbFacts7 DbFacts10 DbSpec DbFacts12 DbFacts13 DbFacts14 DbFacts15.
Import ListNotations.
Open Scope string_scope.
Open Scope Z_scope.

Section More.
Variable inode : string -> nat.
Notation tables := (tables inode).
Notation Inv := (Inv inode).

Lemma live_tables w b j y : Inv w b -> w_inst w j = Some y -> tables w (i_path y) (i_table y) <> None.
Proof. intros I H. destruct (table_i inode w j y (inv_base _ _ _ I) H) as (tb & T & _). congruence. Qed.

Lemma unused_after w w' p : (forall j, works inode w w' j) -> unused inode w p -> unused inode w' p.
Proof.
  intros W Un j y Hy. assert (N : j <> Datatypes.S j) by lia. destruct (w_inst w j) as [x|] eqn:H.
  - destruct (wk_others _ _ _ _ (W (Datatypes.S j)) j N x H) as (x' & Hx' & F & _). destruct F as (F & _).
    assert (y = x') by congruence. subst x'. rewrite F. apply (Un j x H).
  - rewrite (wk_none _ _ _ _ (W (Datatypes.S j)) j N H) in Hy. discriminate.
Qed.

(** A data set saved and loaded again. *)
Lemma round_trip w b i d p ord ord1 w1 w2 r :
  Inv w b -> b i = Some d -> p <> "" -> unused inode w p -> permuting ord ->
  exec inode ord (OSave i p) w = (w1, Ok AUnit) -> exec inode ord1 (OLoad p) w1 = (w2, r) ->
  exists j d', r = Ok (ADs j) /\ b j = None /\ d_cols d' = "rid" :: names (d_cols d) /\
    Permutation (map (cells (names (d_cols d))) (d_rows d')) (map (cells (names (d_cols d))) (d_rows d)) /\
    map rid_of (d_rows d') = map Z.of_nat (seq 0 (length (d_rows d))) /\
    Inv w2 (note b j (Some d')) /\ at_rest w2 j.
Proof.
  intros I Hb Np Un Po E1 E2. destruct (saved inode w b i d p ord w1 I Hb Np Un Po E1) as (T & C & rows & P & Ce & Ri).
  assert (Sf : safe inode w b (OSave i p)) by (cbn [safe]; split; [congruence|auto]).
  destruct (step inode ord w b (OSave i p) w1 _ Po I Sf E1) as [I1 _]. cbn [effect] in I1.
  assert (Un1 : unused inode w1 p).
  { pose proof E1 as E. apply amap_inv in E. destruct E as (r0 & E & Er). destruct r0 as [[]|]; [|discriminate].
    pose proof (inv_ds _ _ _ I i d Hb) as Sh. destruct (shows_inst inode w i d Sh) as (x & H & Cx & _).
    destruct (save_spec inode ord w i x p w1 _ Po (inv_base _ _ _ I) (proj1 Sh) H Np Un E) as (W & _).
    apply (unused_after w); auto. }
  assert (Sf1 : safe inode w1 b (OLoad p)).
  { cbn [safe]. intros j y Hy Ei. exfalso. exact (Un1 j y Hy Ei). }
  destruct (step_load inode ord1 w1 b p w2 r I1 Sf1 E2) as [I2 A2].
  pose proof E2 as E. apply amap_inv in E. destruct E as (r0 & E & ->).
  unfold load, open_db in E. destruct (tables w1 p main_table) as [tb|] eqn:Et; [|congruence].
  assert (Hf : exists f, w_file w1 (inode p) = Some f).
  { unfold DbModel.tables in Et. destruct (w_file w1 (inode p)); [eauto|discriminate]. }
  destruct Hf as [f Hf]. unfold andthen, file_exists in E. rewrite Hf in E. cbn [eval] in E. rewrite Et in E. cbn [ret] in E.
  unfold register in E. injection E as <- <-. cbn [effect] in I2. cbn [answered fresh_result] in A2.
  destruct A2 as [_ (j & Ej & Bj)]. injection Ej as <-.
  exists (w_next w1), (stored inode w1 p). split; [auto|]. split; [auto|]. split; [auto|]. split.
  { rewrite Ce. apply Permutation_map. auto. }
  split; [rewrite Ri; rewrite (Permutation_length P); auto|]. split; [exact I2|].
  eexists. split; [cbn; apply upd_nat_same|auto].
Qed.

(** ** Interaction vectors *)
Lemma sum_perm l l' : Permutation l l' -> sum l = sum l'.
Proof. induction 1; cbn [sum fold_right] in *; [auto|unfold sum in *; congruence|ring|congruence]. Qed.
Lemma filter_perm {A} (f : A -> bool) l l' : Permutation l l' -> Permutation (filter f l) (filter f l').
Proof.
  induction 1; cbn [filter]; auto.
  - destruct (f x); auto.
  - destruct (f x), (f y); auto. apply perm_swap.
  - eapply Permutation_trans; eauto.
Qed.
Lemma uid_is z row : holds row (mkCond "uid" Eq (LInt z)) = number_is z (tcell row "uid").
Proof.
  unfold holds. cbn [sc_col sc_op sc_lit]. destruct (tcell row "uid") as [[a|q|s]|]; cbn [number_is key_of lit_key lit_num key_compare op_holds]; auto.
  - destruct (Z.eqb_spec a z) as [->|N].
    + destruct (Qc_of_Z z ?= Qc_of_Z z)%Qc eqn:E; auto; [apply Qclt_alt in E|apply Qcgt_alt in E]; exfalso; apply (Qclt_not_eq _ _ E); auto.
    + destruct (Qc_of_Z a ?= Qc_of_Z z)%Qc eqn:E; auto. apply Qceq_alt in E. exfalso. apply N.
      apply PyFacts.Qc_of_Z_inj. auto.
  - unfold Qc_eq_bool. destruct (Qc_eq_dec q (Qc_of_Z z)) as [->|N].
    + destruct (Qc_of_Z z ?= Qc_of_Z z)%Qc eqn:E; auto; [apply Qclt_alt in E|apply Qcgt_alt in E]; exfalso; apply (Qclt_not_eq _ _ E); auto.
    + destruct (q ?= Qc_of_Z z)%Qc eqn:E; auto. apply Qceq_alt in E. contradiction.
Qed.

Lemma id_to_raw_world raw id i z w w' r : id_to_raw inode raw id i z w = (w', r) -> w' = w.
Proof.
  unfold id_to_raw, lookup, andthen, self, query, raise, ret. intro E. destruct (w_inst w i) as [x|]; [|congruence].
  destruct (negb (i_ids x)); [congruence|]. destruct (eval _ _) as [r0|]; [|congruence]. destruct (_ && _)%bool; congruence.
Qed.
Lemma dense_nth es n k : (k < n)%nat ->
  nth k (dense n es) 0%Qc = sum (map snd (filter (fun e => fst e =? Z.of_nat k) es)).
Proof.
  intro H. unfold dense. rewrite (nth_indep _ 0%Qc (fold_right (fun e s => if fst e =? Z.of_nat 0 then (snd e + s)%Qc else s) 0%Qc es)).
  2:{ rewrite map_length, seq_length. auto. }
  rewrite (map_nth (fun k => fold_right (fun e s => if fst e =? Z.of_nat k then (snd e + s)%Qc else s) 0%Qc es)).
  rewrite seq_nth by auto. cbn [Nat.add]. induction es as [|e es IH]; [reflexivity|]. cbn [fold_right filter].
  destruct (fst e =? Z.of_nat k); cbn [map sum fold_right]; rewrite IH; auto.
Qed.
Lemma entries rows es : mapM vec_entry (map (cells ["iid"; "interaction"]) rows) = Ok es ->
  forall n, map snd (filter (fun e => fst e =? n) es) =
            map (fun row => number (tcell row "interaction")) (filter (fun row => number_is n (tcell row "iid")) rows).
Proof.
  revert es. induction rows as [|row rows IH]; intros es E n; cbn [map mapM bind] in E; [injection E as <-; auto|].
  destruct (vec_entry (cells ["iid"; "interaction"] row)) as [e|] eqn:Ee; [|discriminate].
  destruct (mapM vec_entry _) as [es0|] eqn:Em; [|discriminate]. injection E as <-. cbn [filter].
  unfold vec_entry, cells in Ee. cbn [map] in Ee. destruct (tcell row "iid") as [[k| |]|]; try discriminate.
  destruct (tcell row "interaction") as [v|] eqn:Ev; [|discriminate].
  destruct (num_of v) as [q|] eqn:Eq; [|discriminate]. injection Ee as <-. cbn [fst number_is].
  destruct (k =? n); cbn [map snd]; rewrite (IH es0 eq_refl n); [|auto]. f_equal. rewrite Ev.
  destruct v; cbn [num_of number] in *; congruence.
Qed.

Lemma andthen_val {A B} (m : M A) (f : A -> M B) w w' b : andthen m f w = (w', Ok b) ->
  exists w1 a, m w = (w1, Ok a) /\ f a w1 = (w', Ok b).
Proof. intro E. apply andthen_inv in E. destruct E as [E|(e & _ & X)]; [auto|discriminate]. Qed.
Theorem fresh_vector ord w b i d x ts uid w' v : permuting ord -> Inv w b -> b i = Some d -> w_inst w i = Some x ->
  d_types d = Some ts -> assoc String.eqb "uid" ts = Some DInt -> In "uid" (d_cols d) ->
  assoc Z.eqb uid (i_ucache x) = None -> user_vec inode ord i uid w = (w', Ok v) ->
  exists k, extreme Datatypes.Gt "iid" (d_rows d) (Some (VInt k)) /\ length v = Z.to_nat (k + 1) /\
    forall n, (n < length v)%nat -> nth n v 0%Qc = interaction_of (d_rows d) uid (Z.of_nat n).
Proof.
  intros Po I Hb Hx Ts Tu Iu Nc E. unfold user_vec in E. rewrite (andthen_ok _ _ _ _ _ (self_ok i w x Hx)) in E.
  destruct (negb (i_ids x)); [discriminate|]. apply andthen_val in E. destruct E as (w1 & r1 & E1 & E).
  pose proof (id_to_raw_world _ _ _ _ _ _ _ E1) as ->. destruct r1 as [u|]; [|discriminate]. rewrite Nc in E.
  apply andthen_val in E. destruct E as (w2 & m & E2 & E).
  assert (X2 : exec inode ord (OMax i "iid") w = (w2, Ok (AVal m))) by (cbn [exec]; unfold amap; rewrite (andthen_ok _ _ _ _ _ E2); auto).
  assert (S2 : safe inode w b (OMax i "iid")) by (cbn [safe]; congruence).
  destruct (step inode ord w b _ w2 _ Po I S2 X2) as [I2 [A2 _]]. cbn [effect] in I2.
  destruct (A2 i d eq_refl Hb) as (m' & Em & Ex). injection Em as <-.
  apply andthen_val in E. destruct E as (w3 & j & E3 & E).
  assert (X3 : exec inode ord (OSelect i [mkCond "uid" Eq (LInt uid)] true) w2 = (w3, Ok (ADs j)))
    by (cbn [exec]; unfold amap; erewrite andthen_ok by exact E3; auto).
  assert (S3 : safe inode w2 b (OSelect i [mkCond "uid" Eq (LInt uid)] true)).
  { cbn [safe]. exists d. split; [auto|]. split; [discriminate|]. split; constructor; auto; [|exact Logic.I].
    split; [auto|]. split; [|exists ts, DInt; cbn [sc_col sc_lit lit_fits]; auto].
    cbn [sc_col]. split; [discriminate|]. cbn. unfold plain_char. repeat split; intro; discriminate. }
  destruct (step inode ord w2 b _ w3 _ Po I2 S3 X3) as [I3 A3]. cbn [effect] in I3. rewrite Hb in I3. cbn [result] in I3.
  set (d3 := mkDs _ _ _ _) in I3.
  apply andthen_val in E. destruct E as (w4 & rows & E4 & E).
  assert (X4 : exec inode ord (OValues j (Some ["iid"; "interaction"])) w3 = (w4, Ok (ARows rows)))
    by (cbn [exec]; unfold amap; rewrite (andthen_ok _ _ _ _ _ E4); auto).
  assert (S4 : safe inode w3 (note b j (Some d3)) (OValues j (Some ["iid"; "interaction"]))) by (cbn [safe]; rewrite note_same; discriminate).
  destruct (step inode ord w3 _ _ w4 _ Po I3 S4 X4) as [_ [A4 _]].
  destruct (A4 j d3 eq_refl (note_same _ _ _)) as (rows' & Er & P). injection Er as <-. cbn [asked] in P.
  apply andthen_val in E. destruct E as (w5 & es & E5 & E). unfold lift in E5. injection E5 as <- Em0. rename Em0 into Em.
  destruct m as [[k| |]|]; try discriminate. destruct (forallb _ es) eqn:Fb; [|discriminate].
  apply andthen_val in E. destruct E as (w6 & y & E6 & E).
  apply andthen_val in E. destruct E as (w7 & [] & E7 & E). injection E as _ <-.
  exists k. split; [auto|]. assert (L : length (dense (Z.to_nat (k + 1)) es) = Z.to_nat (k + 1)) by (unfold dense; rewrite map_length, seq_length; auto).
  split; [auto|]. intros n Hn. rewrite L in Hn. rewrite dense_nth by auto.
  destruct (Permutation_map_inv _ _ P) as (rows0 & Er0 & P0). rewrite Er0 in Em. rewrite (entries rows0 es Em).
  unfold interaction_of. rewrite (sum_perm _ (map (fun row => number (tcell row "interaction")) (filter (fun row => number_is (Z.of_nat n) (tcell row "iid")) (d_rows d3)))).
  2:{ apply Permutation_map, filter_perm, Permutation_sym. auto. }
  unfold d3. cbn [d_rows forallb]. f_equal. f_equal. clear. induction (d_rows d) as [|row l IH]; [auto|]. cbn [filter].
  rewrite andb_true_r, uid_is. destruct (number_is uid (tcell row "uid")); cbn [filter andb]; rewrite IH; auto.
Qed.
End More.
