(** The point sampler and the item vectors on a database data set. *)
From Coq Require Import String Ascii.
From Coq Require Import List ZArith QArith Qcanon Bool Permutation Lia.
From Verif Require MemFacts4 KnnFacts2.
From Verif Require Import Py PyFacts MemModel MemFacts MemSpec DbModel DbFacts DbFacts2 DbFacts3 DbFacts4 DbFacts5 DbFacts7 DbFacts10
  DbSpec DbFacts11 DbFacts12 DbFacts13 DbFacts14 DbFacts15 DbFacts17 KnnModel SplitModel SampModel DbGenModel DbGenSpec DbGenFacts DbGenFacts2 DbGenFacts3.
Import ListNotations.
Open Scope string_scope.
Open Scope Z_scope.

Section Facts.
Variable inode : string -> nat.
Notation tables := (tables inode).
Notation Inv := (Inv inode).

(** ** A pull at any later time *)
Theorem later_pair fuel ord s s2 i mu mi neg k w b d w' p g' : permuting ord -> Inv w b -> b i = Some d -> id_column d "uid" -> id_column d "iid" ->
  neg_ok b neg -> (forall j g dj, neg = Some (j, g) -> b j = Some dj -> id_column dj "uid") ->
  null_next inode fuel ord s s2 (NAt i mu mi neg k) w = (w', Some (Ok (Some p), g')) ->
  w' = w /\
  ((exists u v, p = (Some (VInt u), Some (VInt v)) /\ 0 <= u <= mu /\ 0 <= v <= mi /\ ~ observed d u v) \/
   (exists j g dj row, neg = Some (j, g) /\ b j = Some dj /\ In row (d_rows dj) /\ p = pair_of row)).
Proof.
  intros Po I Hb Iu Ii No Ij E. destruct (null_next_at inode _ _ _ _ _ _ _ _ _ _ _ _ _ _ No E) as [-> _]. split; [auto|].
  unfold null_next, fthen in E. destruct (pair_loop inode fuel ord s s2 i mu mi neg k w) as [w1 o1] eqn:El.
  destruct o1 as [[[[q n] k']|e]|]; cbn [runs ret] in E; try discriminate. injection E as X1 X2 _. subst w1 q.
  destruct (pair_loop_spec inode fuel ord s s2 i mu mi w b d Po I Hb Iu Ii neg k w p n k' No Ij El) as [(u & v & H1 & H2 & H3 & H4 & _)|H]; [left|right; auto].
  exists u, v. auto.
Qed.

(** Where the two generators stand after a pull. *)
Lemma pair_loop_next fuel ord s s2 i mu mi w b : permuting ord -> Inv w b ->
  forall neg k w' p neg' k', neg_ok b neg ->
  pair_loop inode fuel ord s s2 i mu mi neg k w = (w', Some (Ok (p, neg', k'))) ->
  (k < k')%nat /\
  ((exists u v, p = (Some (VInt u), Some (VInt v)) /\ neg' = neg /\ rows_where inode i ("uid == " ++ str_of_Z u ++ ", iid == " ++ str_of_Z v) w = (w, Ok [])) \/
   (exists j g fuel' row g2, neg = Some (j, g) /\ rand_next inode fuel' ord s2 g w = (w, Some (Ok (Some row), g2)) /\
      p = pair_of row /\ neg' = Some (j, g2))).
Proof.
  intros Po I. induction fuel as [|fuel IH]; intros neg k w' p neg' k' No E; cbn [pair_loop] in E; [discriminate|].
  apply fthen_inv in E. destruct E as [(w1 & ek & E1 & E)|[(e & E1 & X)|(E1 & X)]]; try discriminate.
  apply runs_inv in E1. destruct E1 as (r1 & E1 & X1). destruct (takes_spec _ _ _ _ _ _ _ _ E1) as [-> Te].
  injection X1 as <-. destruct ek as [e1 k1]. cbn [fst snd] in E.
  assert (K1 : (k <= k1)%nat /\ (e1 <> None -> k < k1)%nat).
  { unfold takes_existing in E1. destruct neg as [[j g]|].
    - unfold andthen in E1. destruct (ds_len j w) as [w1 [n|e]]; [|discriminate]. unfold lift, ret in E1.
      destruct (randint s k 0 _); [|discriminate]. injection E1 as _ _ <-. lia.
    - unfold ret in E1. injection E1 as <- <-. split; [lia|congruence]. }
  destruct e1 as [[j g]|].
  - destruct (Te _ _ eq_refl) as [X|<-]; [discriminate|]. destruct No as (Nb & m & k0 & ->).
    apply fthen_inv in E. destruct E as [(w3 & rg & E2 & E)|[(e & E2 & X)|(E2 & X)]]; try discriminate.
    destruct (rand_pull_at inode _ _ _ _ _ _ _ _ _ E2) as [-> Rg].
    apply fthen_inv in E. destruct E as [(w4 & p0 & E3 & E)|[(e & E3 & X)|(E3 & X)]]; try discriminate.
    apply runs_inv in E3. destruct E3 as (r3 & E3 & X3). injection X3 as <-. unfold lift in E3. injection E3 as <- E3.
    unfold runs, ret in E. injection E as _ <- <- <-. destruct rg as [r g']. destruct (Rg r g' eq_refl) as [En _].
    split; [apply K1; discriminate|]. right. exists j, (RAt j m k0), fuel, r, g'. split; [auto|]. split; [auto|]. split; [|auto]. apply record_pair_ok. auto.
  - apply fthen_inv in E. destruct E as [(w3 & uvr & E2 & E)|[(e & E2 & X)|(E2 & X)]]; try discriminate.
    apply runs_inv in E2. destruct E2 as (r2 & E2 & X2). injection X2 as <-. pose proof (draw_world inode _ _ _ _ _ _ _ _ E2) as ->.
    destruct uvr as [[u v] rows]. destruct rows.
    2:{ destruct (IH neg (Datatypes.S (Datatypes.S k1)) w' p neg' k' No E) as [L D]. split; [lia|auto]. }
    unfold runs, ret in E. injection E as _ <- <- <-. split; [lia|]. left. exists u, v. split; [auto|]. split; [auto|].
    unfold draw_pair, lift, andthen in E2. destruct (randint s k1 0 mu) as [u'|] eqn:Eu; [|discriminate].
    destruct (randint s (Datatypes.S k1) 0 mi) as [v'|] eqn:Ev; [|discriminate].
    destruct (rows_where inode i _ w) as [w1 [rows|e]] eqn:Er; [|discriminate]. unfold ret in E2. injection E2 as -> -> -> ->. auto.
Qed.
Theorem later_next fuel ord s s2 i mu mi neg k w b d w' p g' : permuting ord -> Inv w b -> b i = Some d -> id_column d "uid" -> id_column d "iid" ->
  neg_ok b neg -> null_next inode fuel ord s s2 (NAt i mu mi neg k) w = (w', Some (Ok (Some p), g')) ->
  exists neg' k', g' = NAt i mu mi neg' k' /\ (k < k')%nat /\
  ((exists u v, p = (Some (VInt u), Some (VInt v)) /\ ~ observed d u v /\ neg' = neg) \/
   (exists j g fuel' row g2, neg = Some (j, g) /\ rand_next inode fuel' ord s2 g w = (w, Some (Ok (Some row), g2)) /\
      p = pair_of row /\ neg' = Some (j, g2))).
Proof.
  intros Po I Hb Iu Ii No E.
  unfold null_next, fthen in E. destruct (pair_loop inode fuel ord s s2 i mu mi neg k w) as [w1 o1] eqn:El.
  destruct o1 as [[[[q n] k']|e]|]; cbn [runs ret] in E; try discriminate. injection E as X1 X2 <-. subst w1 q.
  destruct (pair_loop_next fuel ord s s2 i mu mi w b Po I neg k w' p n k' No El) as [L D].
  exists n, k'. split; [auto|]. split; [auto|]. destruct D as [(u & v & -> & -> & Er)|D]; [left|right; auto].
  exists u, v. split; [auto|]. split; [|auto]. destruct (pair_rows inode w b i d u v I Hb Iu Ii) as (rows & Er' & Hr).
  rewrite Er in Er'. injection Er' as <-. apply not_observed, Hr; auto.
Qed.

(** ** Pairs without a row at or above the threshold *)
Lemma not_both row l : forallb (holds row) (below l) = true -> forallb (holds row) (at_least l) = true -> False.
Proof.
  cbn [below at_least forallb]. rewrite !andb_true_r. unfold holds. cbn [sc_col sc_op sc_lit].
  destruct (tcell row "interaction") as [v|]; [|discriminate]. destruct (key_compare _ _); cbn; discriminate.
Qed.
Lemma unique_row (rows : list trow) r1 r2 : NoDup (map pair_of rows) -> In r1 rows -> In r2 rows -> pair_of r1 = pair_of r2 -> r1 = r2.
Proof.
  induction rows as [|r rows IH]; intros N H1 H2 E; [contradiction|]. cbn [map] in N. inversion N as [|? ? Ni Nt]; subst.
  destruct H1 as [->|H1], H2 as [->|H2]; auto.
  - exfalso. apply Ni. rewrite E. apply in_map. auto.
  - exfalso. apply Ni. rewrite <- E. apply in_map. auto.
Qed.
Theorem null_not_positive d t p : NoDup (map pair_of (d_rows d)) -> null_pair d t p -> forall row, positive_row d t row -> pair_of row <> p.
Proof.
  intros N H row [Hr Hp] E. destruct H as [(u & v & -> & _ & No)|(l & row' & -> & Hr' & Hh & ->)].
  - apply No. exists row. unfold pair_of in E. injection E as E1 E2. auto.
  - assert (row = row') by (eapply unique_row; eauto). subst row'. apply (not_both row l Hh Hp).
Qed.

(** ** The sampler *)
Definition positives (d : ds) (t : option slit) : ds := match t with None => d | Some l => restricted d (at_least l) end.
Definition sampler_ok (b : book) (d : ds) (t : option slit) (p : dbpoint) : Prop :=
  ((exists i, dp_null p = NNew i (thr_text t) /\ b i = Some d /\ threshold_fits d t) \/ pulled b d t (dp_null p)) /\
  exists j, owner (dp_pos p) = Some j /\ b j = Some (positives d t) /\
    match dp_pos p with RAt _ mu _ => 0 <= mu | _ => True end.
Lemma pulled_sub b b' d t g : (forall k d0, b k = Some d0 -> b' k = Some d0) -> pulled b d t g -> pulled b' d t g.
Proof.
  intros Sub (i & mu & mi & neg & k & -> & Hb & Eu & Ei & Hn). exists i, mu, mi, neg, k. repeat (split; [auto|]).
  destruct neg as [[j g]|]; [|auto]. destruct Hn as (l & -> & Bj & H). exists l. auto.
Qed.
Lemma positives_rows d t row : In row (d_rows (positives d t)) <-> positive_row d t row.
Proof.
  unfold positives, positive_row. destruct t as [l|]; [|intuition]. cbn [restricted d_rows]. rewrite filter_In. intuition.
Qed.
Lemma positives_numbered d t : numbered d -> numbered (positives d t).
Proof. destruct t; cbn [positives]; [apply restricted_numbered|auto]. Qed.
Lemma positives_complete d t : complete d -> complete (positives d t).
Proof. destruct t; auto. Qed.

Lemma negative_step fuel ord dr p w b d t w' x p' : permuting ord -> Inv w b -> sampler_ok b d t p -> numbered d ->
  db_sample_negative inode fuel ord dr p w = (w', Some (x, p')) ->
  match x with
  | Ok tr => dp_k p' = dp_k p /\ (exists q, null_pair d t q /\ tr = (fst q, snd q, Some (VInt 0))) /\
      exists b', Inv w' b' /\ (forall k d0, b k = Some d0 -> b' k = Some d0) /\ sampler_ok b' d t p'
  | Err _ => complete d -> d_ids d = true -> d_rows d <> [] -> False
  end.
Proof.
  intros Po I (Hn & j & Ow & Hj & Hm) Nd E. unfold db_sample_negative in E. destruct (numbered_numbers d Nd) as [Nu Ni].
  destruct (null_next inode fuel ord (dd_null dr) (dd_neg dr) (dp_null p) w) as [w1 [[o g]|]] eqn:En; [|discriminate].
  injection E as <- <- <-. destruct Hn as [(i & Eg & Hb & Tf)|Pg].
  - rewrite Eg in En. destruct (null_next_new inode _ _ _ _ _ _ _ _ _ _ _ Po I Hb Tf En) as (I1 & A). specialize (A _ _ eq_refl).
    destruct o as [[[u v]|]|e]; [|contradiction|].
    + destruct A as (In1 & Sub & Pg' & Hq & _). cbn [dp_k dp_null dp_pos]. split; [auto|]. split; [eexists; split; [apply (Hq (nb_uid _ Nd) (nb_iid _ Nd))|auto]|].
      eexists. split; [exact In1|]. split; [exact Sub|]. split; [right; exact Pg'|]. exists j. auto.
    + intros Cm Hi Nr. destruct A as [_ A]. apply A; auto; [apply (nb_uid _ Nd)|apply (nb_iid _ Nd)].
  - destruct (null_next_pulled inode _ _ _ _ _ _ _ _ _ _ _ Po I Pg En) as (-> & A). specialize (A _ _ eq_refl).
    destruct o as [[[u v]|]|e]; [|contradiction|].
    + destruct A as (Pg' & Hq & _). cbn [dp_k dp_null dp_pos]. split; [auto|]. split; [eexists; split; [apply (Hq (nb_uid _ Nd) (nb_iid _ Nd))|auto]|].
      exists b. split; [auto|]. split; [auto|]. split; [right; exact Pg'|]. exists j. auto.
    + intros Cm Hi Nr. destruct A as [_ A]. apply A; auto; [apply (nb_uid _ Nd)|apply (nb_iid _ Nd)].
Qed.

Lemma positive_step fuel ord dr p w b d t w' x p' : permuting ord -> Inv w b -> sampler_ok b d t p -> numbered d ->
  db_sample_positive inode fuel ord dr p w = (w', Some (x, p')) ->
  match x with
  | Ok tr => dp_k p' = dp_k p /\ (exists row, positive_row d t row /\ tr = (tcell row "uid", tcell row "iid", tcell row "interaction")) /\
      Inv w' b /\ sampler_ok b d t p'
  | Err _ => complete d -> d_rows (positives d t) <> [] -> False
  end.
Proof.
  intros Po I (Hn & j & Ow & Hj & Hm) Nd E. unfold db_sample_positive in E. pose proof (positives_numbered d t Nd) as Np. destruct (numbered_numbers _ Np) as [Nu _].
  destruct (rand_next inode fuel ord (dd_pos dr) (dp_pos p) w) as [w1 [[o g]|]] eqn:En; [|discriminate].
  injection E as <- <- <-. destruct (rand_next_spec inode _ _ _ _ j _ _ _ _ _ Po I Ow Hj En) as (I1 & A & Ne).
  specialize (A _ _ eq_refl). destruct o as [[r|]|e]; [|contradiction|].
  - destruct A as [Hr (mu & k & -> & Hmu)]. specialize (Hr (nb_uid _ Np)). pose proof (row_keys inode w1 b j _ r I1 Hj Hr) as Ks.
    assert (Er : record_pair r = Ok (pair_of r)).
    { unfold record_pair. rewrite !pick_key by (rewrite Ks; [apply (nb_uid _ Np) || apply (nb_iid _ Np)]). reflexivity. }
    rewrite Er. cbn [bind]. destruct (pick_cell r "interaction") as [v|e] eqn:Ev.
    + apply pick_tcell in Ev. subst v. cbn [dp_k dp_null dp_pos pair_of fst snd]. split; [auto|]. split.
      * exists r. split; [apply positives_rows; auto|auto].
      * split; [auto|]. split; [auto|]. exists j. split; [auto|]. split; [auto|]. cbn [dp_pos]. destruct (dp_pos p) as [j0|j0 m k0|]; [|subst mu; auto|contradiction].
        apply (extreme_nonneg _ "uid" _ Nu Hmu).
    + intros Cm Nr. rewrite pick_key in Ev; [discriminate|]. rewrite Ks. destruct (positives_complete d t Cm) as [C _]. apply C. cbn. auto.
  - intros Cm Nr. apply (Ne (nb_uid _ Np)) with (e := e) (g' := g); [|auto]. destruct (dp_pos p); [|auto|discriminate].
    apply numbered_bound; auto. apply positives_complete. auto.
Qed.

Lemma label_gt neg x : Qcgtb (0 + (neg + 1 - 0) * x)%Qc 1 = true <-> (1 < (neg + 1) * x)%Qc.
Proof.
  unfold Qcgtb. assert (E : (0 + (neg + 1 - 0) * x = (neg + 1) * x)%Qc) by ring. rewrite E.
  split; [apply MemFacts4.Qcltb_true|apply KnnFacts2.Qcltb_lt].
Qed.

Theorem db_sample_spec neg dr ord d t : permuting ord -> numbered d ->
  forall n fuel p w b w' x p', Inv w b -> sampler_ok b d t p ->
  db_sample inode n fuel ord neg dr p w = (w', Some (x, p')) ->
  match x with
  | Ok l => length l = n /\ dp_k p' = (dp_k p + n)%nat /\
      (forall k tr, nth_error l k = Some tr -> sampled d t neg (dd_label dr (dp_k p + k)) tr) /\
      exists b', Inv w' b' /\ (forall k d0, b k = Some d0 -> b' k = Some d0) /\ sampler_ok b' d t p'
  | Err _ => complete d -> d_ids d = true -> d_rows (positives d t) <> [] -> False
  end.
Proof.
  intros Po Nd. induction n as [|n IH]; intros fuel p w b w' x p' I Sk E; cbn [db_sample] in E.
  { injection E as <- <- <-. split; [auto|]. split; [lia|]. split; [intros [|k] tr X; discriminate|]. exists b. auto. }
  set (p1 := mkDbPoint (Datatypes.S (dp_k p)) (dp_null p) (dp_pos p)) in E.
  assert (Sk1 : sampler_ok b d t p1) by exact Sk.
  assert (Nr : d_rows (positives d t) <> [] -> d_rows d <> []).
  { intros H X. apply H. destruct t as [l|]; cbn [positives restricted d_rows]; rewrite ?X; auto. }
  set (step := if Qcgtb _ _ then _ else _) in E. destruct step as [w1 [[o p2]|]] eqn:Es; [|discriminate]. unfold step in Es. clear step.
  assert (K : match o with
    | Ok tr => dp_k p2 = dp_k p1 /\ sampled d t neg (dd_label dr (dp_k p)) tr /\
        exists b', Inv w1 b' /\ (forall k d0, b k = Some d0 -> b' k = Some d0) /\ sampler_ok b' d t p2
    | Err _ => complete d -> d_ids d = true -> d_rows (positives d t) <> [] -> False
    end).
  { destruct (Qcgtb (0 + (neg + 1 - 0) * dd_label dr (dp_k p))%Qc 1) eqn:G.
    - pose proof (negative_step _ _ _ _ _ _ _ _ _ _ _ Po I Sk1 Nd Es) as H. apply label_gt in G. destruct o as [tr|e]; [|auto].
      destruct H as (H1 & H2 & H3). split; [auto|]. split; [|auto]. split; [auto|]. intro X. contradiction.
    - pose proof (positive_step _ _ _ _ _ _ _ _ _ _ _ Po I Sk1 Nd Es) as H. destruct o as [tr|e]; [|auto].
      destruct H as (H1 & H2 & H3 & H4). split; [auto|]. split; [|exists b; auto]. split; [|auto].
      intro X. apply label_gt in X. congruence. }
  destruct o as [tr|e].
  - destruct K as (K1 & K2 & b1 & I1 & Sub1 & Sk2). destruct (db_sample inode n fuel ord neg dr p2 w1) as [w2 [[o2 p3]|]] eqn:Er; [|discriminate].
    pose proof (IH _ _ _ _ _ _ _ I1 Sk2 Er) as H. destruct o2 as [l|e].
    + injection E as <- <- <-. destruct H as (H1 & H2 & H3 & b2 & I2 & Sub2 & Sk3). rewrite K1 in *. cbn [dp_k] in *.
      split; [cbn; auto|]. split; [rewrite H2; unfold p1; cbn [dp_k]; lia|]. split; [|exists b2; eauto].
      intros [|k] tr0 X; cbn [nth_error] in X.
      * injection X as <-. rewrite Nat.add_0_r. auto.
      * replace (dp_k p + Datatypes.S k)%nat with (Datatypes.S (dp_k p) + k)%nat by lia. apply (H3 k tr0 X).
    + injection E as <- <- <-. auto.
  - injection E as <- <- <-. auto.
Qed.

Theorem db_point_init_spec ord i d t w b w' r : permuting ord -> Inv w b -> b i = Some d -> threshold_fits d t ->
  db_point_init inode i (thr_text t) w = (w', r) ->
  (forall p, r = Ok p -> d_ids d = true /\ dp_k p = 0%nat /\ exists b', Inv w' b' /\ (forall k d0, b k = Some d0 -> b' k = Some d0) /\ sampler_ok b' d t p) /\
  (forall e, r = Err e -> d_ids d = false \/ ~ complete d).
Proof.
  intros Po I Hb Tf E. unfold db_point_init in E. destruct (inv_attributes inode w b i d I Hb) as (x & Hx & _ & Di & Nx & _).
  rewrite (andthen_ok _ _ _ _ _ (self_ok i w x Hx)), Di in E. destruct (d_ids d) eqn:Hi; cbn [negb] in E.
  2:{ unfold raise in E. injection E as <- <-. split; [discriminate|auto]. }
  destruct t as [l|]; cbn [thr_text option_map] in E.
  - change ("interaction >= " ++ lit_text l) with (query_text (at_least l)) in E.
    destruct (random_generator inode i (Some (query_text (at_least l))) w) as [w1 r1] eqn:Eg. destruct Tf as [Nt Fc].
    destruct (random_generator_spec inode ord w b i d (at_least l) w1 r1 Po I Hb) as (I1 & A & Ne); [discriminate|constructor; [exact Fc|constructor]| |exact Eg|].
    { constructor; [intro s; apply Nt|constructor]. }
    destruct r1 as [g|e].
    + rewrite (andthen_ok _ _ _ _ _ Eg) in E. unfold ret in E. injection E as <- <-. split; [|discriminate]. intros p X. injection X as <-.
      destruct (A g eq_refl) as (j & -> & _ & Bj & I2). split; [auto|]. split; [auto|]. eexists. split; [exact I2|].
      assert (Sub : forall k d0, b k = Some d0 -> note b j (Some (restricted d (at_least l))) k = Some d0) by (intros k d0 Hk; rewrite note_other; [auto|congruence]).
      split; [exact Sub|]. split.
      * left. exists i. split; [reflexivity|]. split; [apply Sub; auto|split; auto].
      * exists j. split; [reflexivity|]. split; [apply note_same|exact Logic.I].
    + rewrite (andthen_err _ _ _ _ _ Eg) in E. injection E as <- <-. split; [discriminate|]. intros e0 X. right.
      destruct (Ne e eq_refl); [congruence|auto].
  - pose proof (random_generator_all inode w b i d I Hb) as Eg. rewrite Hi in Eg. rewrite (andthen_ok _ _ _ _ _ Eg) in E. unfold ret in E.
    injection E as <- <-. split; [|discriminate]. intros p X. injection X as <-. split; [auto|]. split; [auto|]. exists b. split; [auto|]. split; [auto|]. split.
    + left. exists i. split; [reflexivity|]. split; [auto|exact Logic.I].
    + exists i. split; [reflexivity|]. split; [auto|exact Logic.I].
Qed.

(** ** Item vectors *)
Lemma entries_u rows es : mapM vec_entry (map (cells ["uid"; "interaction"]) rows) = Ok es ->
  forall n, map snd (filter (fun e => fst e =? n) es) =
            map (fun row => number (tcell row "interaction")) (filter (fun row => number_is n (tcell row "uid")) rows).
Proof.
  revert es. induction rows as [|row rows IH]; intros es E n; cbn [map mapM bind] in E; [injection E as <-; auto|].
  destruct (vec_entry (cells ["uid"; "interaction"] row)) as [e|] eqn:Ee; [|discriminate].
  destruct (mapM vec_entry _) as [es0|] eqn:Em; [|discriminate]. injection E as <-. cbn [filter].
  unfold vec_entry, cells in Ee. cbn [map] in Ee. destruct (tcell row "uid") as [[k| |]|]; try discriminate.
  destruct (tcell row "interaction") as [v|] eqn:Ev; [|discriminate].
  destruct (num_of v) as [q|] eqn:Eq; [|discriminate]. injection Ee as <-. cbn [fst number_is].
  destruct (k =? n); cbn [map snd]; rewrite (IH es0 eq_refl n); [|auto]. f_equal. rewrite Ev.
  destruct v; cbn [num_of number] in *; congruence.
Qed.
Theorem fresh_item_vector ord w b i d iid cache w' v cache' : permuting ord -> Inv w b -> b i = Some d -> id_column d "iid" ->
  assoc Z.eqb iid cache = None -> item_vec inode ord i iid cache w = (w', Ok (v, cache')) ->
  (exists k, extreme Datatypes.Gt "uid" (d_rows d) (Some (VInt k)) /\ length v = Z.to_nat (k + 1) /\
    forall n, (n < length v)%nat -> nth n v 0%Qc = interaction_of (d_rows d) (Z.of_nat n) iid) /\
  assoc Z.eqb iid cache' = Some v /\ Inv w' b.
Proof.
  intros Po I Hb Ii Nc E. unfold item_vec in E. destruct (inv_attributes inode w b i d I Hb) as (x & Hx & _ & Di & Nx & _).
  rewrite (andthen_ok _ _ _ _ _ (self_ok i w x Hx)) in E.
  destruct (negb (i_ids x)); [discriminate|]. apply andthen_val in E. destruct E as (w1 & r1 & E1 & E).
  pose proof (id_to_raw_world inode _ _ _ _ _ _ _ E1) as ->. destruct r1 as [u|]; [|discriminate]. rewrite Nc in E.
  apply andthen_val in E. destruct E as (w2 & m & E2 & E).
  destruct (max_spec inode ord w b i d "uid" w2 _ Po I Hb E2) as (I2 & Ex & _). specialize (Ex m eq_refl).
  apply andthen_val in E. destruct E as (w3 & j & E3 & E).
  assert (X3 : exec inode ord (OSelect i [mkCond "iid" Eq (LInt iid)] true) w2 = (w3, Ok (ADs j)))
    by (cbn [exec]; unfold amap; erewrite andthen_ok by exact E3; auto).
  assert (S3 : safe inode w2 b (OSelect i [mkCond "iid" Eq (LInt iid)] true)).
  { cbn [safe]. exists d. split; [auto|]. split; [discriminate|]. split; (constructor; [|constructor]); [apply id_cond; auto|exact Logic.I]. }
  destruct (step inode ord w2 b _ w3 _ Po I2 S3 X3) as [I3 A3]. cbn [effect] in I3. rewrite Hb in I3. cbn [result] in I3.
  set (d3 := mkDs _ _ _ _) in I3.
  apply andthen_val in E. destruct E as (w4 & rows & E4 & E).
  assert (X4 : exec inode ord (OValues j (Some ["uid"; "interaction"])) w3 = (w4, Ok (ARows rows)))
    by (cbn [exec]; unfold amap; rewrite (andthen_ok _ _ _ _ _ E4); auto).
  assert (S4 : safe inode w3 (note b j (Some d3)) (OValues j (Some ["uid"; "interaction"]))) by (cbn [safe]; rewrite note_same; discriminate).
  destruct (step inode ord w3 _ _ w4 _ Po I3 S4 X4) as [I4 [A4 _]]. cbn [effect] in I4.
  destruct (A4 j d3 eq_refl (note_same _ _ _)) as (rows' & Er & P). injection Er as <-. cbn [asked] in P.
  apply andthen_val in E. destruct E as (w5 & es & E5 & E). unfold lift in E5. injection E5 as <- Em0. rename Em0 into Em.
  destruct m as [[k| |]|]; try discriminate. destruct (forallb _ es) eqn:Fb; [|discriminate].
  unfold ret in E. injection E as <- <- <-.
  assert (Bj : b j = None).
  { pose proof A3 as A. cbn [answered fresh_result] in A. destruct A as [_ A]. destruct A as (j' & Ej & Bj); injection Ej as <-; auto. }
  split; [|split].
  2:{ cbn [assoc]. rewrite Z.eqb_refl. auto. }
  2:{ eapply Inv_sub; [exact I4|]. intros k0 d0 Hk. rewrite note_other; [auto|congruence]. }
  exists k. split; [auto|]. assert (L : length (dense (Z.to_nat (k + 1)) es) = Z.to_nat (k + 1)) by (unfold dense; rewrite map_length, seq_length; auto).
  split; [auto|]. intros n Hn. rewrite L in Hn. rewrite dense_nth by auto.
  destruct (Permutation_map_inv _ _ P) as (rows0 & Er0 & P0). rewrite Er0 in Em. rewrite (entries_u rows0 es Em).
  unfold interaction_of. rewrite (sum_perm _ (map (fun row => number (tcell row "interaction")) (filter (fun row => number_is (Z.of_nat n) (tcell row "uid")) (d_rows d3)))).
  2:{ apply Permutation_map, filter_perm, Permutation_sym. auto. }
  unfold d3. cbn [d_rows forallb]. f_equal. f_equal. clear. induction (d_rows d) as [|row l IH]; [auto|]. cbn [filter].
  rewrite andb_true_r, id_is. destruct (number_is iid (tcell row "iid")); cbn [filter].
  - rewrite andb_true_r. destruct (number_is (Z.of_nat n) (tcell row "uid")); rewrite IH; auto.
  - rewrite andb_false_r. auto.
Qed.
End Facts.
