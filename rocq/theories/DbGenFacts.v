(** Lemmas about the generators of database data sets. *)
From Coq Require Import String Ascii.
From Coq Require Import List ZArith QArith Qcanon Bool Permutation Lia.
From Verif Require Import Py PyFacts MemModel MemSpec DbModel DbFacts DbFacts2 DbFacts3 DbFacts4 DbFacts5 DbFacts7 DbFacts10
  DbSpec DbFacts11 DbFacts12 DbFacts13 DbFacts14 DbFacts15 DbFacts17 SampModel DbGenModel DbGenSpec.
Import ListNotations.
Open Scope string_scope.
Open Scope Z_scope.

Section Facts.
Variable inode : string -> nat.
Notation tables := (tables inode).
Notation Inv := (Inv inode).

(** ** Computations *)
Lemma runs_inv {A} (m : M A) w w' o : runs m w = (w', o) -> exists r, m w = (w', r) /\ o = Some r.
Proof. unfold runs. destruct (m w) as [w1 r]. intro E. injection E as <- <-. eauto. Qed.
Lemma fthen_inv {A B} (m : F A) (f : A -> F B) w w' o : fthen m f w = (w', o) ->
  (exists w1 a, m w = (w1, Some (Ok a)) /\ f a w1 = (w', o)) \/
  (exists e, m w = (w', Some (Err e)) /\ o = Some (Err e)) \/ (m w = (w', None) /\ o = None).
Proof.
  unfold fthen. destruct (m w) as [w1 [[a|e]|]]; intro E; [left; eauto|right; left|right; right]; injection E as <- <-; eauto.
Qed.
Lemma fthen_ok {A B} (m : F A) (f : A -> F B) w w1 a : m w = (w1, Some (Ok a)) -> fthen m f w = f a w1.
Proof. unfold fthen. intros ->. auto. Qed.
Lemma runs_ok {A} (m : M A) w w1 r : m w = (w1, r) -> runs m w = (w1, Some r).
Proof. unfold runs. intros ->. auto. Qed.

Lemma Inv_sub w b b' : Inv w b' -> (forall i d, b i = Some d -> b' i = Some d) -> Inv w b.
Proof. intros [B D] S. constructor; [auto|]. intros i d E. apply D, S, E. Qed.

(** ** Reads *)
Lemma rows_where_spec w b i d cs : Inv w b -> b i = Some d -> query_fits inode w i d cs ->
  exists rows x, rows_where inode i (query_text cs) w = (w, Ok rows) /\ w_inst w i = Some x /\
    Permutation (map (zip_row x) rows) (filter (fun row => forallb (holds row) cs) (d_rows d)).
Proof.
  intros I Hb Qf. pose proof (inv_ds _ _ _ I i d Hb) as Sh. pose proof (inv_base _ _ _ I) as B.
  destruct (shows_inst inode w i d Sh) as (x & H & C & T & Di & P).
  destruct (query_facts inode w i d x cs Sh H C T Qf) as (ts & Ts & Pq & Ua & Ct).
  destruct (table_i inode w i x B H) as (tb & Tb & Wf).
  destruct (select_fits inode (tables w (i_path x)) x tb (map (wcond_of ts) cs) Wf Tb (b_inst inode w B i x H) (proj1 Sh x H)) as (rows & Ft & Dr).
  { intros c Hc. eapply parse_query_plain; eauto. }
  { intros c Hc. exact (Ua _ Pq tb c Tb Hc). }
  exists rows, x. split; [|split; [auto|]].
  - unfold rows_where. rewrite (andthen_ok _ _ _ _ _ (self_ok i w x H)), Pq.
    unfold lift, andthen, query. pose proof Ft as (_ & Ev & _). rewrite Ev. auto.
  - rewrite (fits_zip _ _ _ _ Ft), Dr. rewrite (filter_ext _ (fun row => forallb (holds row) cs)) by (intro; apply Ct).
    apply filter_perm. auto.
Qed.

Lemma id_is c z row : holds row (mkCond c Eq (LInt z)) = number_is z (tcell row c).
Proof.
  pose proof (uid_is z [("uid", tcell row c)]) as E. unfold holds in *. cbn [sc_col sc_op sc_lit] in *.
  unfold tcell at 1 3 in E. cbn in E. exact E.
Qed.

Lemma id_cond d c z : c = "uid" \/ c = "iid" -> id_column d c -> cond_fits d (mkCond c Eq (LInt z)).
Proof.
  intros Hc (Ic & ts & Ts & A). split; [auto|]. split; [|exists ts, DInt; cbn [sc_col sc_lit lit_fits]; auto].
  cbn [sc_col]. destruct Hc as [-> | ->]; (split; [discriminate|]); cbn; unfold plain_char; repeat split; intro; discriminate.
Qed.
Lemma max_spec ord w b i d c w' r : permuting ord -> Inv w b -> b i = Some d -> db_max inode i c w = (w', r) ->
  Inv w' b /\ (forall v, r = Ok v -> extreme Datatypes.Gt c (d_rows d) v) /\
  (forall e, r = Err e -> ~ ((complete d \/ at_rest w i) /\ In c (d_cols d))).
Proof.
  intros Po I Hb E.
  assert (X : exec inode ord (OMax i c) w = (w', match r with Ok v => Ok (AVal v) | Err e => Err e end)).
  { cbn [exec]. unfold amap, andthen. rewrite E. destruct r; auto. }
  assert (Sf : safe inode w b (OMax i c)) by (cbn [safe]; congruence).
  destruct (step inode ord w b _ w' _ Po I Sf X) as [I' A]. cbn [effect] in I'. split; [auto|]. split.
  - intros v ->. cbn [answered] in A. destruct A as [A _]. destruct (A i d eq_refl Hb) as (v' & Ev & Ex). congruence.
  - intros e ->. cbn [answered must_succeed] in A. intros [Cm Ic]. apply A. eauto.
Qed.
Lemma len_is w b i d : Inv w b -> b i = Some d -> ds_len i w = (w, Ok (length (d_rows d))).
Proof.
  intros I Hb. destruct (inv_attributes inode w b i d I Hb) as (x & H & _ & _ & N & _).
  unfold ds_len. rewrite (andthen_ok _ _ _ _ _ (self_ok i w x H)). rewrite N. auto.
Qed.

(** ** Copies with conditions *)
Lemma filtered_copy_spec ord w b i d cs w' r : permuting ord -> Inv w b -> b i = Some d ->
  cs <> [] -> Forall (cond_fits d) cs -> Forall (fun c => forall s, sc_lit c <> LText s) cs ->
  filtered_copy inode i (query_text cs) w = (w', r) ->
  Inv w' b /\ (forall j, r = Ok j -> b j = None /\ Inv w' (note b j (Some (restricted d cs)))) /\
  (forall e, r = Err e -> ~ complete d).
Proof.
  intros Po I Hb Nc Fc Nt E. unfold filtered_copy in E. destruct (copy inode i w) as [w1 r1] eqn:E1.
  assert (X1 : exec inode ord (OCopy i) w = (w1, match r1 with Ok j => Ok (ADs j) | Err e => Err e end)).
  { cbn [exec]. unfold amap, andthen. rewrite E1. destruct r1; auto. }
  assert (S1 : safe inode w b (OCopy i)) by (cbn [safe]; congruence).
  destruct (step inode ord w b _ w1 _ Po I S1 X1) as [I1 A1]. cbn [effect] in I1. rewrite Hb in I1.
  destruct r1 as [j|e].
  2:{ exfalso. apply A1. exact Logic.I. }
  rewrite (andthen_ok _ _ _ _ _ E1) in E. cbn [result] in I1. cbn [answered fresh_result] in A1.
  destruct A1 as [_ (j' & Ej & Bj)]. injection Ej as <-.
  assert (X2 : exec inode ord (OSelect j cs false) w1 = (w', match r with Ok j => Ok (ADs j) | Err e => Err e end)).
  { cbn [exec]. unfold amap, select, target, touched. unfold andthen at 1. cbn [ret]. unfold andthen at 1. cbn [ret].
    unfold andthen at 1. cbn [ret].
    match goal with |- context [match ?a with _ => _ end] => replace a with (w', r) end. destruct r; auto. }
  assert (S2 : safe inode w1 (note b j (Some d)) (OSelect j cs false)).
  { cbn [safe]. exists d. split; [apply note_same|]. split; [auto|]. split; [auto|].
    apply Forall_forall. intros c Hc. rewrite Forall_forall in Nt. specialize (Nt c Hc). unfold no_name.
    destruct (sc_lit c) as [| |s]; auto. exfalso. apply (Nt s). auto. }
  destruct (step inode ord w1 _ _ w' _ Po I1 S2 X2) as [I2 A2]. cbn [effect] in I2. rewrite note_same in I2.
  unfold result in I2. cbn [d_cols d_types d_ids d_rows] in I2.
  assert (Ext : forall k d0, b k = Some d0 -> note (note b j (Some d)) j (Some (restricted d cs)) k = Some d0).
  { intros k d0 Hk. assert (k <> j) by congruence. rewrite !note_other; auto. }
  split; [|split].
  - eapply Inv_sub; [exact I2|]. exact Ext.
  - intros k ->. cbn [answered fresh_result subject] in A2. destruct A2 as [_ A2]. specialize (A2 k eq_refl). injection A2 as <-.
    split; [auto|]. eapply Inv_sub; [exact I2|]. intros k0 d0 Hk. destruct (Nat.eq_dec k0 j) as [->|N].
    + rewrite note_same in *. auto.
    + rewrite note_other in Hk by auto. apply Ext. auto.
  - intros e ->. cbn [answered must_succeed] in A2. intro Cm. apply A2. exists d. split; [apply note_same|auto].
Qed.

(** ** The random generator *)
Lemma rows_where_world i q w w' r : rows_where inode i q w = (w', r) -> w' = w.
Proof.
  unfold rows_where, andthen, self, lift, query, ret. intro E. destruct (w_inst w i) as [x|]; [|congruence].
  destruct (parse_query x q); [|congruence]. destruct (eval _ _); congruence.
Qed.
Lemma self_world i w w' r : self i w = (w', r) -> w' = w.
Proof. unfold self. destruct (w_inst w i); congruence. Qed.
Lemma len_world i w w' r : ds_len i w = (w', r) -> w' = w.
Proof. unfold ds_len, andthen, self, ret. destruct (w_inst w i); congruence. Qed.
Ltac same_world E :=
  apply runs_inv in E; destruct E as (? & E & ?);
  first [apply rows_where_world in E|apply self_world in E|apply len_world in E|unfold lift, ret in E; injection E as E _]; try subst.
Lemma rand_loop_world fuel ord s j mu : forall k w w' o, rand_loop inode fuel ord s j mu k w = (w', o) -> w' = w.
Proof.
  induction fuel as [|fuel IH]; intros k w w' o E; cbn [rand_loop] in E; [unfold hangs in E; congruence|].
  apply fthen_inv in E. destruct E as [(w1 & u & E1 & E)|[(e & E1 & _)|(E1 & _)]]; same_world E1; auto.
  apply fthen_inv in E. destruct E as [(w2 & rows & E1 & E)|[(e & E1 & _)|(E1 & _)]]; same_world E1; auto.
  destruct (Nat.eqb (length rows) 0); [eapply IH; eauto|].
  apply fthen_inv in E. destruct E as [(w3 & idx & E1 & E)|[(e & E1 & _)|(E1 & _)]]; same_world E1; auto.
  apply fthen_inv in E. destruct E as [(w4 & xx & E1 & E)|[(e & E1 & _)|(E1 & _)]]; same_world E1; auto.
  destruct (nth_error (ord rows) (Z.to_nat idx)); [same_world E; auto|eapply IH; eauto].
Qed.

Lemma randint_ok s k a b : a <= b -> exists z, randint s k a b = Ok z /\ a <= z <= b.
Proof.
  intro L. unfold randint. destruct (Z.ltb_spec b a); [lia|]. eexists. split; [reflexivity|].
  pose proof (Z.mod_pos_bound (Z.of_nat (s k)) (b - a + 1)). lia.
Qed.
Lemma randint_range s k a b z : randint s k a b = Ok z -> a <= z <= b.
Proof.
  unfold randint. destruct (Z.ltb_spec b a) as [L|L]; [discriminate|]. intro E. injection E as <-.
  pose proof (Z.mod_pos_bound (Z.of_nat (s k)) (b - a + 1)). lia.
Qed.
Lemma randint_err s k a b e : randint s k a b = Err e -> b < a.
Proof. unfold randint. destruct (Z.ltb_spec b a); [auto|discriminate]. Qed.

(** the rows of user [u] *)
Lemma uid_rows w b j d u : Inv w b -> b j = Some d -> id_column d "uid" ->
  exists rows x, rows_where inode j ("uid == " ++ str_of_Z u) w = (w, Ok rows) /\ w_inst w j = Some x /\
    Permutation (map (zip_row x) rows) (filter (fun row => number_is u (tcell row "uid")) (d_rows d)).
Proof.
  intros I Hb Ic.
  destruct (rows_where_spec w b j d [mkCond "uid" Eq (LInt u)] I Hb) as (rows & x & E & H & P).
  { split; [discriminate|]. split; (constructor; [|constructor]); [apply id_cond; auto|exact Logic.I]. }
  exists rows, x. split; [exact E|]. split; [auto|]. apply (Permutation_trans P). apply Permutation_refl'. apply filter_ext.
  intro row. cbn [forallb]. rewrite andb_true_r. apply id_is.
Qed.

(** One step of the loop. *)
Lemma rand_step fuel ord s j mu k w b d : permuting ord -> Inv w b -> b j = Some d -> id_column d "uid" -> 0 <= mu ->
  exists u, randint s k 0 mu = Ok u /\ 0 <= u <= mu /\
    (((forall row, In row (d_rows d) -> number_is u (tcell row "uid") = false) /\
      rand_loop inode (Datatypes.S fuel) ord s j mu k w = rand_loop inode fuel ord s j mu (Datatypes.S k) w) \/
     (exists rec rows x, rand_loop inode (Datatypes.S fuel) ord s j mu k w = (w, Some (Ok (rec, Datatypes.S (Datatypes.S k)))) /\
        In rec (d_rows d) /\ number_is u (tcell rec "uid") = true /\
        rows_where inode j ("uid == " ++ str_of_Z u) w = (w, Ok rows) /\ w_inst w j = Some x /\
        Permutation (map (zip_row x) rows) (filter (fun row => number_is u (tcell row "uid")) (d_rows d)) /\
        exists idx, randint s (Datatypes.S k) 0 (Z.of_nat (length rows) - 1) = Ok idx /\
          nth_error (map (zip_row x) (ord rows)) (Z.to_nat idx) = Some rec)).
Proof.
  intros Po I Hb Ic Hm. destruct (randint_ok s k 0 mu Hm) as (u & Eu & Ru). exists u. split; [auto|]. split; [auto|].
  destruct (uid_rows w b j d u I Hb Ic) as (rows & x & Er & Hx & P). cbn [rand_loop].
  rewrite (fthen_ok _ _ w w u) by (unfold runs, lift; rewrite Eu; auto).
  rewrite (fthen_ok _ _ w w rows) by (apply runs_ok; auto).
  destruct (Nat.eqb_spec (length rows) 0) as [Z|N].
  - left. split; [|auto]. destruct rows; [|discriminate]. cbn [map] in P. apply Permutation_nil in P.
    intros row Hr. destruct (number_is u (tcell row "uid")) eqn:En; [|auto]. exfalso.
    assert (X : In row (filter (fun row => number_is u (tcell row "uid")) (d_rows d))) by (apply filter_In; auto). rewrite P in X. destruct X.
  - right. destruct (randint_ok s (Datatypes.S k) 0 (Z.of_nat (length rows) - 1)) as (idx & Ei & Ri); [lia|].
    rewrite (fthen_ok _ _ w w idx) by (unfold runs, lift; rewrite Ei; auto).
    rewrite (fthen_ok _ _ w w x) by (apply runs_ok, self_ok; auto).
    destruct (nth_error (ord rows) (Z.to_nat idx)) as [r|] eqn:En.
    2:{ exfalso. apply nth_error_None in En. rewrite (Permutation_length (Po rows)) in En. lia. }
    assert (Hr : In (zip_row x r) (filter (fun row => number_is u (tcell row "uid")) (d_rows d))).
    { eapply Permutation_in; [exact P|]. apply in_map. eapply Permutation_in; [apply Po|]. eapply nth_error_In; eauto. }
    apply filter_In in Hr. exists (zip_row x r), rows, x. split; [reflexivity|]. split; [apply Hr|]. split; [apply Hr|].
    split; [auto|]. split; [auto|]. split; [auto|]. exists idx. split; [auto|]. apply map_nth_error. auto.
Qed.

Lemma rand_loop_spec fuel ord s j mu w b d : permuting ord -> Inv w b -> b j = Some d -> id_column d "uid" -> 0 <= mu ->
  forall k, (exists rec k', rand_loop inode fuel ord s j mu k w = (w, Some (Ok (rec, k'))) /\ In rec (d_rows d)) \/
    rand_loop inode fuel ord s j mu k w = (w, None).
Proof.
  intros Po I Hb Ic Hm. induction fuel as [|fuel IH]; intro k; [right; reflexivity|].
  destruct (rand_step fuel ord s j mu k w b d Po I Hb Ic Hm) as (u & _ & _ & [[_ E]|(rec & rows & x & E & Hr & _)]).
  - rewrite E. apply IH.
  - left. eauto.
Qed.
(** it returns once a user with rows is drawn *)
Lemma rand_loop_returns ord s j mu w b d : permuting ord -> Inv w b -> b j = Some d -> id_column d "uid" -> 0 <= mu ->
  forall n k u row, randint s (k + n) 0 mu = Ok u -> In row (d_rows d) -> number_is u (tcell row "uid") = true ->
  exists rec k', rand_loop inode (Datatypes.S n) ord s j mu k w = (w, Some (Ok (rec, k'))) /\ In rec (d_rows d).
Proof.
  intros Po I Hb Ic Hm. induction n as [|n IH]; intros k u row Eu Hr Hn.
  - destruct (rand_step 0 ord s j mu k w b d Po I Hb Ic Hm) as (v & Ev & _ & [[Nr E]|(rec & rows & x & E & Hrec & _)]).
    + exfalso. rewrite Nat.add_0_r in Eu. assert (v = u) by congruence. subst v. rewrite (Nr row Hr) in Hn. discriminate.
    + eauto.
  - destruct (rand_step (Datatypes.S n) ord s j mu k w b d Po I Hb Ic Hm) as (v & Ev & _ & [[Nr E]|(rec & rows & x & E & Hrec & _)]).
    + rewrite E. apply (IH (Datatypes.S k) u row); auto. replace (Datatypes.S k + n)%nat with (k + Datatypes.S n)%nat by lia. auto.
    + eauto.
Qed.

(** A generator that can be pulled: the bound is not negative. *)
Definition ready (g : rgen) : Prop := match g with RNew _ => True | RAt _ mu _ => 0 <= mu | REnd => False end.

Lemma rand_start_spec ord g j w b d w' r : permuting ord -> Inv w b -> owner g = Some j -> b j = Some d ->
  rand_start inode g w = (w', r) ->
  Inv w' b /\ (forall t, r = Ok t -> exists mu k, t = (j, mu, k) /\
     match g with
     | RNew _ => k = 0%nat /\ d_rows d <> [] /\ extreme Datatypes.Gt "uid" (d_rows d) (Some (VInt mu))
     | RAt _ m k0 => mu = m /\ k = k0 /\ w' = w
     | REnd => False
     end) /\
  (forall e, r = Err e -> g = RNew j /\ (d_rows d = [] /\ e = AssertionError \/ ~ ((complete d \/ at_rest w j) /\ In "uid" (d_cols d)) \/
     exists v, extreme Datatypes.Gt "uid" (d_rows d) v /\ forall z, v <> Some (VInt z))).
Proof.
  intros Po I Ow Hb E. destruct g as [j'|j' mu k|]; [| |discriminate]; injection Ow as ->; cbn [rand_start] in E.
  - rewrite (andthen_ok _ _ _ _ _ (len_is w b j d I Hb)) in E. destruct (Nat.eqb_spec (length (d_rows d)) 0) as [Z|N].
    + apply length_zero_iff_nil in Z. unfold raise in E. injection E as <- <-. split; [auto|]. split; [discriminate|].
      intros e X. injection X as <-. auto.
    + destruct (db_max inode j "uid" w) as [w1 r1] eqn:Em. destruct (max_spec ord w b j d "uid" w1 r1 Po I Hb Em) as (I1 & A & Ne).
      destruct r1 as [v|e].
      * rewrite (andthen_ok _ _ _ _ _ Em) in E. specialize (A v eq_refl). destruct v as [[z| |]|].
        1:{ unfold ret in E. injection E as <- <-. split; [auto|]. split; [|discriminate]. intros t X. injection X as <-.
            exists z, 0%nat. split; [auto|]. split; [auto|]. split; [|auto]. intro X. rewrite X in N. auto. }
        all: unfold raise in E; injection E as <- <-; (split; [auto|]); (split; [discriminate|]); intros e X; injection X as <-;
             (split; [auto|]); right; right; eexists; (split; [exact A|]); intros z0 X; discriminate X.
      * rewrite (andthen_err _ _ _ _ _ Em) in E. injection E as <- <-. split; [auto|]. split; [discriminate|].
        intros e' X. injection X as <-. split; [auto|]. right. left. apply (Ne e eq_refl).
  - unfold ret in E. injection E as <- <-. split; [auto|]. split; [|discriminate]. intros t X. injection X as <-. exists mu, k. auto.
Qed.

Lemma rand_loop_negative fuel ord s j mu k w : mu < 0 ->
  rand_loop inode fuel ord s j mu k w = (w, None) \/ rand_loop inode fuel ord s j mu k w = (w, Some (Err ValueError)).
Proof.
  intro L. destruct fuel; [auto|]. right. cbn [rand_loop]. unfold fthen, runs, lift, randint. destruct (Z.ltb_spec mu 0); [auto|lia].
Qed.
(** the bound found by the first pull *)
Definition bound_ok (d : ds) : Prop :=
  (complete d) /\ In "uid" (d_cols d) /\ d_rows d <> [] /\
  forall row, In row (d_rows d) -> exists u, tcell row "uid" = Some (VInt u) /\ 0 <= u.
Lemma bound_max d v : bound_ok d -> extreme Datatypes.Gt "uid" (d_rows d) v -> exists z, v = Some (VInt z) /\ 0 <= z.
Proof.
  intros (_ & _ & Ne & Hu) Ex. destruct (d_rows d) as [|r0 l]; [contradiction|]. destruct v as [v|].
  - destruct Ex as ((row & Hr & Ev) & _). destruct (Hu row Hr) as (u & E & L). rewrite E in Ev. injection Ev as <-. eauto.
  - destruct (Hu r0 (or_introl eq_refl)) as (u & E & _). cbn [extreme] in Ex. rewrite (Ex r0 (or_introl eq_refl)) in E. discriminate.
Qed.

Lemma rand_next_spec fuel ord s g j w b d w' o : permuting ord -> Inv w b -> owner g = Some j -> b j = Some d ->
  rand_next inode fuel ord s g w = (w', o) ->
  Inv w' b /\
  (forall x g', o = Some (x, g') -> match x with
     | Ok (Some rec) => (id_column d "uid" -> In rec (d_rows d)) /\ exists mu k, g' = RAt j mu k /\
         match g with RNew _ => extreme Datatypes.Gt "uid" (d_rows d) (Some (VInt mu)) | RAt _ m _ => mu = m | REnd => False end
     | Ok None => False
     | Err _ => g' = REnd
     end) /\
  (id_column d "uid" -> match g with RNew _ => bound_ok d | RAt _ mu _ => 0 <= mu | REnd => False end ->
     forall e g', o <> Some (Err e, g')).
Proof.
  intros Po I Ow Hb E. destruct g as [j'|j' m k0|]; [| |discriminate]; unfold rand_next in E.
  all: match type of E with context [fthen ?a ?f ?v] => destruct (fthen a f v) as [w1 o1] eqn:Et end;
       apply fthen_inv in Et; destruct Et as [(w2 & st & Es & Et)|[(e & Es & ->)|(Es & ->)]].
  all: apply runs_inv in Es; destruct Es as (r & Es & Er); try discriminate.
  all: destruct (rand_start_spec ord _ j _ _ d _ r Po I Ow Hb Es) as (I1 & Ok1 & Err1).
  1,3: injection Er as <-; destruct (Ok1 st eq_refl) as (mu & k & -> & Hm);
       apply fthen_inv in Et; destruct Et as [(w3 & rk & El & Et)|[(e & El & ->)|(El & ->)]].
  all: try (pose proof (rand_loop_world _ _ _ _ _ _ _ _ _ El) as ->).
  - apply runs_inv in Et. destruct Et as (r2 & Et & ->). unfold ret in Et. injection Et as <- <-. injection E as <- <-.
    split; [auto|]. split; [|discriminate]. intros x g' X. injection X as <- <-. split.
    + intro Ic. destruct (Z_lt_le_dec mu 0) as [L|L].
      * destruct (rand_loop_negative fuel ord s j mu k w2 L) as [X|X]; congruence.
      * destruct (rand_loop_spec fuel ord s j mu w2 b d Po I1 Hb Ic L k) as [(rec & k' & X & Hr)|X]; [|congruence].
        rewrite X in El. injection El as <-. auto.
    + exists mu, (snd rk). split; [auto|]. apply Hm.
  - injection E as <- <-. split; [auto|]. split; [intros x g' X; injection X as <- <-; auto|].
    intros Ic Bd e0 g' _. destruct Hm as (_ & _ & Ex). destruct (bound_max d _ Bd Ex) as (z & Ez & Lz). injection Ez as <-.
    destruct (rand_loop_spec fuel ord s j mu w2 b d Po I1 Hb Ic Lz k) as [(rec & k' & X & Hr)|X]; congruence.
  - injection E as <- <-. split; [auto|]. split; discriminate.
  - apply runs_inv in Et. destruct Et as (r2 & Et & ->). unfold ret in Et. injection Et as <- <-. injection E as <- <-.
    split; [auto|]. split; [|discriminate]. intros x g' X. injection X as <- <-. split.
    + intro Ic. destruct (Z_lt_le_dec mu 0) as [L|L].
      * destruct (rand_loop_negative fuel ord s j mu k w2 L) as [X|X]; congruence.
      * destruct (rand_loop_spec fuel ord s j mu w2 b d Po I1 Hb Ic L k) as [(rec & k' & X & Hr)|X]; [|congruence].
        rewrite X in El. injection El as <-. auto.
    + exists mu, (snd rk). split; [auto|]. apply Hm.
  - injection E as <- <-. split; [auto|]. split; [intros x g' X; injection X as <- <-; auto|].
    intros Ic Bd e0 g' _. destruct Hm as (-> & _ & _).
    destruct (rand_loop_spec fuel ord s j m w2 b d Po I1 Hb Ic Bd k) as [(rec & k' & X & Hr)|X]; congruence.
  - injection E as <- <-. split; [auto|]. split; discriminate.
  - injection Er as <-. injection E as <- <-. split; [auto|]. split; [intros x g' X; injection X as <- <-; auto|].
    intros Ic Bd e0 g' _. destruct (Err1 e eq_refl) as (_ & [[Z _]|[N|(v & Ex & Nz)]]); destruct Bd as (Cm & Iu & Ne & Hu).
    + contradiction.
    + apply N. auto.
    + destruct (bound_max d v (conj Cm (conj Iu (conj Ne Hu))) Ex) as (z & -> & _). apply (Nz z). auto.
  - injection Er as <-. destruct (Err1 e eq_refl) as (X & _). discriminate.
Qed.

(** a pull of a generator in the middle leaves the state alone *)
Lemma rand_next_at_world fuel ord s j mu k w w' o : rand_next inode fuel ord s (RAt j mu k) w = (w', o) -> w' = w.
Proof.
  unfold rand_next. cbn [rand_start]. intro E.
  rewrite (fthen_ok _ _ w w (j, mu, k)) in E by reflexivity. unfold fthen in E.
  destruct (rand_loop inode fuel ord s j mu k w) as [w1 [[r|e]|]] eqn:El; pose proof (rand_loop_world _ _ _ _ _ _ _ _ _ El) as ->;
    cbn [runs ret] in E; congruence.
Qed.

(** ** The generator of pairs *)
Lemma row_keys w b j d row : Inv w b -> b j = Some d -> In row (d_rows d) -> map fst row = d_cols d.
Proof.
  intros I Hb Hr. pose proof (inv_ds _ _ _ I j d Hb) as Sh. destruct (shows_inst inode w j d Sh) as (x & H & C & T & Di & P).
  destruct (den_good inode w j x (inv_base _ _ _ I) (proj1 Sh) H) as (_ & _ & K & _). rewrite <- C. apply K.
  eapply Permutation_in; [apply Permutation_sym; exact P|auto].
Qed.
Lemma pick_tcell (r : trow) c v : pick_cell r c = Ok v -> v = tcell r c.
Proof. unfold pick_cell, tcell. destruct (assoc String.eqb c r); [|discriminate]. intro E. injection E as <-. auto. Qed.
Lemma pick_key (r : trow) c : In c (map fst r) -> pick_cell r c = Ok (tcell r c).
Proof.
  unfold pick_cell, tcell. intro H. destruct (assoc String.eqb c r) eqn:E; [auto|]. exfalso.
  induction r as [|[c' v] r IH]; [destruct H|]. cbn [assoc map] in *. destruct (String.eqb_spec c c') as [->|N]; [discriminate|].
  destruct H as [H|H]; [cbn in H; congruence|auto].
Qed.
Lemma record_pair_ok r p : record_pair r = Ok p -> p = pair_of r.
Proof.
  unfold record_pair, pair_of. destruct (pick_cell r "uid") as [u|] eqn:E1; [|discriminate]. cbn [bind].
  destruct (pick_cell r "iid") as [i|] eqn:E2; [|discriminate]. cbn [bind]. intro E. injection E as <-.
  rewrite (pick_tcell _ _ _ E1), (pick_tcell _ _ _ E2). auto.
Qed.

Lemma pair_rows w b i d u v : Inv w b -> b i = Some d -> id_column d "uid" -> id_column d "iid" ->
  exists rows, rows_where inode i ("uid == " ++ str_of_Z u ++ ", iid == " ++ str_of_Z v) w = (w, Ok rows) /\
    (rows = [] <-> forall row, In row (d_rows d) -> (number_is u (tcell row "uid") && number_is v (tcell row "iid"))%bool = false).
Proof.
  intros I Hb Iu Ii.
  destruct (rows_where_spec w b i d [mkCond "uid" Eq (LInt u); mkCond "iid" Eq (LInt v)] I Hb) as (rows & x & E & H & P).
  { split; [discriminate|]. split; (constructor; [|constructor; [|constructor]]); try (apply id_cond; auto); exact Logic.I. }
  exists rows. split; [exact E|].
  assert (Q : forall row, forallb (holds row) [mkCond "uid" Eq (LInt u); mkCond "iid" Eq (LInt v)] =
                          (number_is u (tcell row "uid") && number_is v (tcell row "iid"))%bool).
  { intro row. cbn [forallb]. rewrite andb_true_r, !id_is. auto. }
  split.
  - intros -> row Hr. apply Permutation_nil in P. destruct (_ && _)%bool eqn:B; [|auto]. exfalso.
    assert (X : In row (filter (fun row => forallb (holds row) [mkCond "uid" Eq (LInt u); mkCond "iid" Eq (LInt v)]) (d_rows d)))
      by (apply filter_In; rewrite Q; auto). rewrite P in X. destruct X.
  - intro N. destruct rows as [|r rows]; [auto|]. exfalso.
    assert (X : In (zip_row x r) (filter (fun row => forallb (holds row) [mkCond "uid" Eq (LInt u); mkCond "iid" Eq (LInt v)]) (d_rows d)))
      by (eapply Permutation_in; [exact P|left; auto]). apply filter_In in X. rewrite Q in X. rewrite (N _ (proj1 X)) in X. destruct X. discriminate.
Qed.
Lemma not_observed (d : ds) u v :
  (forall row, In row (d_rows d) -> (number_is u (tcell row "uid") && number_is v (tcell row "iid"))%bool = false) -> ~ observed d u v.
Proof.
  intros N (row & Hr & Hu & Hv). specialize (N row Hr). rewrite Hu, Hv in N. cbn [number_is] in N. rewrite !Z.eqb_refl in N. discriminate.
Qed.

(** the copy with the rows below the threshold, and its generator *)
Definition neg_ok (b : book) (neg : option (nat * rgen)) : Prop :=
  match neg with None => True | Some (j, g) => b j <> None /\ exists m k, g = RAt j m k end.
Definition neg_same (neg neg' : option (nat * rgen)) : Prop :=
  match neg, neg' with
  | None, None => True
  | Some (j, RAt _ m _), Some (j', g') => j' = j /\ exists k, g' = RAt j m k
  | _, _ => False
  end.
Lemma rand_pull_at fuel ord s j m k w w' o : rand_pull inode fuel ord s (RAt j m k) w = (w', o) ->
  w' = w /\ (forall r g', o = Some (Ok (r, g')) -> rand_next inode fuel ord s (RAt j m k) w = (w, Some (Ok (Some r), g')) /\ exists k', g' = RAt j m k').
Proof.
  unfold rand_pull. intro E. destruct (rand_next inode fuel ord s (RAt j m k) w) as [w1 o1] eqn:En.
  pose proof (rand_next_at_world _ _ _ _ _ _ _ _ _ En) as ->.
  destruct o1 as [[[[r|]|e] g]|]; injection E as <- <-; (split; [auto|]); intros r0 g0 X; try discriminate.
  injection X as <- <-. split; [auto|].
  unfold rand_next in En. cbn [rand_start] in En. rewrite (fthen_ok _ _ w w (j, m, k)) in En by reflexivity. unfold fthen in En.
  destruct (rand_loop inode fuel ord s j m k w) as [w1 [[rk|e]|]]; cbn [runs ret] in En; try congruence.
  injection En as _ _ <-. eauto.
Qed.
Lemma takes_spec s mu mi neg k w w' r : takes_existing s mu mi neg k w = (w', r) ->
  w' = w /\ forall e k', r = Ok (e, k') -> e = None \/ e = neg.
Proof.
  unfold takes_existing. destruct neg as [[j g]|]; intro E.
  - unfold andthen in E. destruct (ds_len j w) as [w1 [n|e]] eqn:El; pose proof (len_world _ _ _ _ El) as ->.
    2:{ injection E as <- <-. split; [auto|discriminate]. }
    unfold lift, ret in E. destruct (randint s k 0 _); injection E as <- <-; (split; [auto|]); [|discriminate].
    intros e k' X. injection X as <- _. destruct (_ <=? _); auto.
  - unfold ret in E. injection E as <- <-. split; [auto|]. intros e k' X. injection X as <- _. auto.
Qed.
Lemma draw_world s i mu mi k w w' r : draw_pair inode s i mu mi k w = (w', r) -> w' = w.
Proof.
  unfold draw_pair, lift, andthen. destruct (randint s k 0 mu); [|congruence]. destruct (randint s (Datatypes.S k) 0 mi); [|congruence].
  destruct (rows_where inode i _ w) as [w1 [rows|e]] eqn:E; pose proof (rows_where_world _ _ _ _ _ E) as ->; unfold ret; congruence.
Qed.
Lemma pair_loop_world fuel ord s s2 i mu mi b : forall neg k w w' o, neg_ok b neg ->
  pair_loop inode fuel ord s s2 i mu mi neg k w = (w', o) ->
  w' = w /\ forall p neg' k', o = Some (Ok (p, neg', k')) -> neg_same neg neg'.
Proof.
  induction fuel as [|fuel IH]; intros neg k w w' o No E; cbn [pair_loop] in E.
  { unfold hangs in E. injection E as <- <-. split; [auto|discriminate]. }
  assert (Sm : neg_same neg neg).
  { destruct neg as [[j g]|]; [|exact Logic.I]. destruct No as (_ & m & k0 & ->). cbn. eauto. }
  apply fthen_inv in E. destruct E as [(w1 & ek & E1 & E)|[(e & E1 & ->)|(E1 & ->)]];
    apply runs_inv in E1; destruct E1 as (r1 & E1 & X1); destruct (takes_spec _ _ _ _ _ _ _ _ E1) as [-> Te]; try (split; [auto|discriminate]).
  injection X1 as <-. destruct ek as [e1 k1]. cbn [fst snd] in E. destruct e1 as [[j g]|].
  - destruct (Te _ _ eq_refl) as [X|<-]; [discriminate|]. destruct No as (Nb & m & k0 & ->).
    apply fthen_inv in E. destruct E as [(w3 & rg & E2 & E)|[(e & E2 & ->)|(E2 & ->)]];
      destruct (rand_pull_at _ _ _ _ _ _ _ _ _ E2) as [-> Rg]; try (split; [auto|discriminate]).
    apply fthen_inv in E. destruct E as [(w4 & p & E3 & E)|[(e & E3 & ->)|(E3 & ->)]]; same_world E3; try (split; [auto|discriminate]).
    unfold runs, ret in E. injection E as <- <-. split; [auto|]. intros p' neg' k' X. injection X as <- <- <-.
    destruct rg as [r g']. destruct (Rg r g' eq_refl) as [_ (k' & ->)]. cbn. eauto.
  - apply fthen_inv in E. destruct E as [(w3 & uvr & E2 & E)|[(e & E2 & ->)|(E2 & ->)]];
      apply runs_inv in E2; destruct E2 as (r2 & E2 & X2); pose proof (draw_world _ _ _ _ _ _ _ _ E2) as ->; try (split; [auto|discriminate]).
    destruct uvr as [[u v] rows]. destruct rows; [|eapply IH; eauto]. unfold runs, ret in E. injection E as <- <-. split; [auto|].
    intros p neg' k' X. injection X as <- <- <-. auto.
Qed.

Lemma pair_loop_spec fuel ord s s2 i mu mi w b d : permuting ord -> Inv w b -> b i = Some d -> id_column d "uid" -> id_column d "iid" ->
  forall neg k w' p neg' k', neg_ok b neg -> (forall j g dj, neg = Some (j, g) -> b j = Some dj -> id_column dj "uid") ->
  pair_loop inode fuel ord s s2 i mu mi neg k w = (w', Some (Ok (p, neg', k'))) ->
  (exists u v, p = (Some (VInt u), Some (VInt v)) /\ 0 <= u <= mu /\ 0 <= v <= mi /\ ~ observed d u v /\
     (neg <> None -> 0 < mu * mi)) \/
  (exists j g dj row, neg = Some (j, g) /\ b j = Some dj /\ In row (d_rows dj) /\ p = pair_of row).
Proof.
  intros Po I Hb Iu Ii. induction fuel as [|fuel IH]; intros neg k w' p neg' k' No Ij E; cbn [pair_loop] in E; [discriminate|].
  apply fthen_inv in E. destruct E as [(w1 & ek & E1 & E)|[(e & E1 & X)|(E1 & X)]]; try discriminate.
  apply runs_inv in E1. destruct E1 as (r1 & E1 & X1). destruct (takes_spec _ _ _ _ _ _ _ _ E1) as [-> Te].
  injection X1 as <-. destruct ek as [e1 k1]. cbn [fst snd] in E. destruct e1 as [[j g]|].
  - destruct (Te _ _ eq_refl) as [X|<-]; [discriminate|]. destruct No as (Nb & m & k0 & ->).
    apply fthen_inv in E. destruct E as [(w3 & rg & E2 & E)|[(e & E2 & X)|(E2 & X)]]; try discriminate.
    destruct (rand_pull_at _ _ _ _ _ _ _ _ _ E2) as [-> Rg].
    apply fthen_inv in E. destruct E as [(w4 & p0 & E3 & E)|[(e & E3 & X)|(E3 & X)]]; try discriminate.
    apply runs_inv in E3. destruct E3 as (r3 & E3 & X3). injection X3 as <-. unfold lift in E3. injection E3 as <- E3.
    unfold runs, ret in E. injection E as _ <- _ _. destruct rg as [r g']. destruct (Rg r g' eq_refl) as [En _].
    destruct (b j) as [dj|] eqn:Hj; [|contradiction].
    destruct (rand_next_spec _ _ _ (RAt j m k0) j _ _ dj _ _ Po I eq_refl Hj En) as (_ & A & _). destruct (A _ _ eq_refl) as [Hr _].
    right. exists j, (RAt j m k0), dj, r. split; [auto|]. split; [auto|]. split; [apply Hr; eapply Ij; eauto|]. apply record_pair_ok. auto.
  - apply fthen_inv in E. destruct E as [(w3 & uvr & E2 & E)|[(e & E2 & X)|(E2 & X)]]; try discriminate.
    apply runs_inv in E2. destruct E2 as (r2 & E2 & X2). injection X2 as <-. pose proof (draw_world _ _ _ _ _ _ _ _ E2) as ->.
    destruct uvr as [[u v] rows]. destruct rows; [|apply (IH neg (Datatypes.S (Datatypes.S k1)) w' p neg' k'); auto].
    unfold runs, ret in E. injection E as _ <- _ _. left. exists u, v. split; [auto|].
    unfold draw_pair, lift, andthen in E2. destruct (randint s k1 0 mu) as [u'|] eqn:Eu; [|discriminate].
    destruct (randint s (Datatypes.S k1) 0 mi) as [v'|] eqn:Ev; [|discriminate].
    destruct (pair_rows w b i d u' v' I Hb Iu Ii) as (rows & Er & Hr). rewrite Er in E2. unfold ret in E2. injection E2 as -> -> ->.
    split; [apply (randint_range s k1); auto|]. split; [apply (randint_range s (Datatypes.S k1)); auto|].
    split; [apply not_observed, Hr; auto|]. intro Nn. destruct neg as [[j g]|]; [|contradiction].
    unfold takes_existing, andthen in E1. destruct (ds_len j w) as [w1 [n|e]]; [|discriminate]. unfold lift, ret in E1.
    destruct (randint s k 0 (mu * mi + Z.of_nat n)) as [c|] eqn:Ec; [|discriminate].
    destruct (Z.leb_spec (mu * mi) c); [discriminate|]. pose proof (randint_range _ _ _ _ _ Ec). lia.
Qed.

Lemma takes_ok s mu mi neg k w b : Inv w b -> neg_ok b neg -> 0 <= mu -> 0 <= mi ->
  exists e k', takes_existing s mu mi neg k w = (w, Ok (e, k')) /\ (e = None \/ e = neg).
Proof.
  intros I No Hu Hi. unfold takes_existing. destruct neg as [[j g]|]; [|exists None, k; auto].
  destruct No as [Nb _]. destruct (b j) as [dj|] eqn:Hj; [|contradiction].
  rewrite (andthen_ok _ _ _ _ _ (len_is w b j dj I Hj)). unfold andthen, lift, ret.
  destruct (randint_ok s k 0 (mu * mi + Z.of_nat (length (d_rows dj)))) as (c & -> & _); [nia|].
  destruct (_ <=? _); eauto.
Qed.
Lemma draw_ok s i mu mi k w b d : Inv w b -> b i = Some d -> id_column d "uid" -> id_column d "iid" -> 0 <= mu -> 0 <= mi ->
  exists u v rows, draw_pair inode s i mu mi k w = (w, Ok (u, v, rows)) /\
    randint s k 0 mu = Ok u /\ randint s (Datatypes.S k) 0 mi = Ok v /\
    (rows = [] <-> forall row, In row (d_rows d) -> (number_is u (tcell row "uid") && number_is v (tcell row "iid"))%bool = false).
Proof.
  intros I Hb Iu Ii Hu Hi. destruct (randint_ok s k 0 mu Hu) as (u & Eu & _). destruct (randint_ok s (Datatypes.S k) 0 mi Hi) as (v & Ev & _).
  destruct (pair_rows w b i d u v I Hb Iu Ii) as (rows & Er & Hr). exists u, v, rows. split; [|auto].
  unfold draw_pair, lift, andthen. rewrite Eu, Ev, Er. auto.
Qed.
Lemma pair_loop_no_error fuel ord s s2 i mu mi w b d : permuting ord -> Inv w b -> b i = Some d ->
  id_column d "uid" -> id_column d "iid" -> 0 <= mu -> 0 <= mi ->
  forall neg k w' e, neg_ok b neg ->
  (forall j g dj, neg = Some (j, g) -> b j = Some dj -> id_column dj "uid" /\ In "iid" (d_cols dj) /\ exists m k, g = RAt j m k /\ 0 <= m) ->
  pair_loop inode fuel ord s s2 i mu mi neg k w <> (w', Some (Err e)).
Proof.
  intros Po I Hb Iu Ii Hu Hi. induction fuel as [|fuel IH]; intros neg k w' e No Ij E; cbn [pair_loop] in E; [discriminate|].
  destruct (takes_ok s mu mi neg k w b I No Hu Hi) as (e1 & k1 & Et & He1).
  rewrite (fthen_ok _ _ w w (e1, k1)) in E by (apply runs_ok; auto). cbn [fst snd] in E. destruct e1 as [[j g]|].
  - destruct He1 as [X|<-]; [discriminate|]. pose proof No as [Nb _]. destruct (b j) as [dj|] eqn:Hj; [|contradiction].
    destruct (Ij j g dj eq_refl Hj) as (Iju & Iji & m & k0 & -> & Hm).
    apply fthen_inv in E. destruct E as [(w3 & rg & E2 & E)|[(e2 & E2 & X)|(E2 & X)]]; [| |discriminate].
    + destruct (rand_pull_at _ _ _ _ _ _ _ _ _ E2) as [-> Rg]. destruct rg as [r g']. destruct (Rg r g' eq_refl) as [En _].
      destruct (rand_next_spec _ _ _ (RAt j m k0) j _ _ dj _ _ Po I eq_refl Hj En) as (_ & A & _). destruct (A _ _ eq_refl) as [Hr _].
      specialize (Hr Iju). pose proof (row_keys w b j dj r I Hj Hr) as Ks. unfold fthen, runs, lift, record_pair in E. cbn [fst snd] in E.
      rewrite !pick_key in E by (rewrite Ks; [apply Iju || exact Iji]). cbn [bind ret] in E. discriminate.
    + unfold rand_pull in E2. destruct (rand_next inode fuel ord s2 (RAt j m k0) w) as [w1 o1] eqn:En.
      destruct (rand_next_spec _ _ _ (RAt j m k0) j _ _ dj _ _ Po I eq_refl Hj En) as (_ & A & Ne).
      destruct o1 as [[[[r|]|e3] g']|]; try discriminate.
      * destruct (A _ _ eq_refl).
      * apply (Ne Iju Hm e3 g'). auto.
  - destruct (draw_ok s i mu mi k1 w b d I Hb Iu Ii Hu Hi) as (u & v & rows & Ed & _).
    rewrite (fthen_ok _ _ w w (u, v, rows)) in E by (apply runs_ok; auto). destruct rows; [discriminate|].
    eapply IH; eauto.
Qed.

Lemma attempt_inv {A} (m : F A) w w' o : attempt m w = (w', o) ->
  (exists a, m w = (w', Some (Ok a)) /\ o = Some (Ok (Some a))) \/
  (exists e, m w = (w', Some (Err e)) /\ o = Some (Ok None)) \/ (m w = (w', None) /\ o = None).
Proof. unfold attempt. destruct (m w) as [w1 [[a|e]|]]; intro E; injection E as <- <-; eauto 6. Qed.

Lemma below_text l : query_text (below l) = "interaction < " ++ lit_text l.
Proof. reflexivity. Qed.
Lemma at_least_text l : query_text (at_least l) = "interaction >= " ++ lit_text l.
Proof. reflexivity. Qed.

(** the copy the first pull makes *)
Lemma existing_spec fuel ord s2 i l w b d w' o : permuting ord -> Inv w b -> b i = Some d -> threshold_fits d (Some l) ->
  (j <~~ runs (filtered_copy inode i ("interaction < " ++ lit_text l)) ;; rg <~~ rand_pull inode fuel ord s2 (RNew j) ;; runs (ret (j, snd rg))) w = (w', o) ->
  Inv w' b /\
  (forall j g, o = Some (Ok (j, g)) -> b j = None /\ Inv w' (note b j (Some (restricted d (below l)))) /\
     (exists m k, g = RAt j m k /\ extreme Datatypes.Gt "uid" (d_rows (restricted d (below l))) (Some (VInt m)))) /\
  (forall e, o = Some (Err e) -> complete d -> id_column d "uid" -> 
     (forall row, In row (d_rows d) -> exists u, tcell row "uid" = Some (VInt u) /\ 0 <= u) -> d_rows (restricted d (below l)) = []).
Proof.
  intros Po I Hb [Nt Fc] E.
  assert (FC : forall w1 r1, filtered_copy inode i ("interaction < " ++ lit_text l) w = (w1, r1) ->
    Inv w1 b /\ (forall j, r1 = Ok j -> b j = None /\ Inv w1 (note b j (Some (restricted d (below l))))) /\
    (forall e, r1 = Err e -> ~ complete d)).
  { intros w1 r1 E1. apply (filtered_copy_spec ord w b i d (below l) w1 r1 Po I Hb); [discriminate|constructor; [auto|constructor]| |exact E1].
    constructor; [intros s; cbn; apply Nt|constructor]. }
  apply fthen_inv in E. destruct E as [(w1 & j & E1 & E)|[(e & E1 & ->)|(E1 & ->)]];
    apply runs_inv in E1; destruct E1 as (r1 & E1 & X1); try discriminate; injection X1 as <-;
    destruct (FC _ _ E1) as (I1 & A1 & N1).
  2:{ split; [auto|]. split; [discriminate|]. intros e0 X Cm. injection X as <-. exfalso. apply (N1 e eq_refl Cm). }
  destruct (A1 j eq_refl) as [Bj I2]. set (dj := restricted d (below l)) in *.
  assert (Sub : forall w0, Inv w0 (note b j (Some dj)) -> Inv w0 b).
  { intros w0 I0. eapply Inv_sub; [exact I0|]. intros k d0 Hk. rewrite note_other; [auto|congruence]. }
  unfold fthen, rand_pull in E.
  destruct (rand_next inode fuel ord s2 (RNew j) w1) as [w2 o2] eqn:En.
  destruct (rand_next_spec _ _ _ (RNew j) j _ _ dj _ _ Po I2 eq_refl (note_same _ _ _) En) as (I3 & A & Ne).
  destruct o2 as [[[[r|]|e3] g']|]; unfold runs, ret in E; injection E as <- <-.
  - split; [auto|]. split; [|discriminate]. intros j0 g X. injection X as <- <-. split; [auto|]. split; [auto|].
    destruct (A _ _ eq_refl) as [_ (mu & k & -> & Ex)]. eauto.
  - destruct (A _ _ eq_refl).
  - split; [auto|]. split; [discriminate|]. intros e0 X Cm Ic Hu. injection X as <-.
    destruct (d_rows dj) as [|r0 rs] eqn:Er; [auto|]. exfalso. apply (Ne Ic) with (e := e3) (g' := g'); [|auto].
    split; [exact Cm|]. split; [apply Ic|]. split; [congruence|]. intros row Hr. apply Hu. unfold dj in Hr. cbn [restricted d_rows] in Hr.
    apply filter_In in Hr. apply Hr.
  - split; [auto|]. split; discriminate.
Qed.

Lemma max_of_spec ord w b i d c w' r : permuting ord -> Inv w b -> b i = Some d -> max_of inode i c w = (w', r) ->
  Inv w' b /\ (forall z, r = Ok z -> extreme Datatypes.Gt c (d_rows d) (Some (VInt z))) /\
  (forall e, r = Err e -> complete d -> In c (d_cols d) -> d_rows d <> [] ->
     (forall row, In row (d_rows d) -> exists u, tcell row c = Some (VInt u) /\ 0 <= u) -> False).
Proof.
  intros Po I Hb E. unfold max_of in E. destruct (db_max inode i c w) as [w1 r1] eqn:Em.
  destruct (max_spec ord w b i d c w1 r1 Po I Hb Em) as (I1 & A & Ne). destruct r1 as [v|e].
  - rewrite (andthen_ok _ _ _ _ _ Em) in E. specialize (A v eq_refl).
    assert (Nb : (forall z, v <> Some (VInt z)) -> d_rows d <> [] -> (forall row, In row (d_rows d) -> exists u, tcell row c = Some (VInt u) /\ 0 <= u) -> False).
    { intros Nz Nr Hu. destruct v as [v|]; cbn [extreme] in A.
      - destruct A as ((row & Hr & Ev) & _). destruct (Hu row Hr) as (u & Eu & _). rewrite Eu in Ev. injection Ev as <-. apply (Nz u). auto.
      - destruct (d_rows d) as [|r0 l]; [contradiction|]. destruct (Hu r0 (or_introl eq_refl)) as (u & Eu & _).
        rewrite (A r0 (or_introl eq_refl)) in Eu. discriminate. }
    destruct v as [[z| |]|]; unfold ret, raise in E; injection E as <- <-; (split; [auto|]); (split; [|intros; discriminate || (eapply Nb; eauto; discriminate)]).
    all: intros z0 X; try discriminate. injection X as <-. auto.
  - rewrite (andthen_err _ _ _ _ _ Em) in E. injection E as <- <-. split; [auto|]. split; [discriminate|].
    intros e0 X Cm Ic Nr Hu. apply (Ne e eq_refl). auto.
Qed.

Definition numbers (d : ds) (c : string) : Prop := forall row, In row (d_rows d) -> exists u, tcell row c = Some (VInt u) /\ 0 <= u.

Lemma maxes ord w i d neg w' o : permuting ord ->
  (mu <~~ runs (max_of inode i "uid") ;; mi <~~ runs (max_of inode i "iid") ;; runs (ret (mu, mi, neg))) w = (w', o) ->
  forall b, b i = Some d -> Inv w b ->
  Inv w' b /\
  (forall mu mi (neg' : option (nat * rgen)), o = Some (Ok (mu, mi, neg')) -> neg' = neg /\
     extreme Datatypes.Gt "uid" (d_rows d) (Some (VInt mu)) /\ extreme Datatypes.Gt "iid" (d_rows d) (Some (VInt mi))) /\
  (forall e, o = Some (Err e) -> complete d -> In "uid" (d_cols d) -> In "iid" (d_cols d) -> d_rows d <> [] ->
     numbers d "uid" -> numbers d "iid" -> False).
Proof.
  intros Po E b Hb I.
  apply fthen_inv in E. destruct E as [(w1 & mu & E1 & E)|[(e & E1 & ->)|(E1 & ->)]];
    apply runs_inv in E1; destruct E1 as (r1 & E1 & X1); try discriminate; injection X1 as <-;
    destruct (max_of_spec ord _ _ _ _ _ _ _ Po I Hb E1) as (I1 & A1 & N1).
  2:{ split; [auto|]. split; [discriminate|]. intros e0 X Cm Iu Ii Nr Hu Hi. exact (N1 e eq_refl Cm Iu Nr Hu). }
  apply fthen_inv in E. destruct E as [(w2 & mi & E2 & E)|[(e & E2 & ->)|(E2 & ->)]];
    apply runs_inv in E2; destruct E2 as (r2 & E2 & X2); try discriminate; injection X2 as <-;
    destruct (max_of_spec ord _ _ _ _ _ _ _ Po I1 Hb E2) as (I2 & A2 & N2).
  2:{ split; [auto|]. split; [discriminate|]. intros e0 X Cm Iu Ii Nr Hu Hi. exact (N2 e eq_refl Cm Ii Nr Hi). }
  unfold runs, ret in E. injection E as <- <-. split; [auto|]. split; [|discriminate].
  intros a c neg' X. injection X as <- <- <-. auto.
Qed.

Lemma null_start_spec fuel ord s2 i t w b d w' o : permuting ord -> Inv w b -> b i = Some d -> threshold_fits d t ->
  null_start inode fuel ord s2 i (thr_text t) w = (w', o) ->
  Inv w' b /\
  (forall mu mi neg, o = Some (Ok (mu, mi, neg)) ->
     d_ids d = true /\ d_rows d <> [] /\
     extreme Datatypes.Gt "uid" (d_rows d) (Some (VInt mu)) /\ extreme Datatypes.Gt "iid" (d_rows d) (Some (VInt mi)) /\
     match neg with
     | Some (j, g) => exists l, t = Some l /\ b j = None /\ Inv w' (note b j (Some (restricted d (below l)))) /\
         exists m k, g = RAt j m k /\ extreme Datatypes.Gt "uid" (d_rows (restricted d (below l))) (Some (VInt m))
     | None => forall l, t = Some l -> complete d -> id_column d "uid" -> numbers d "uid" -> d_rows (restricted d (below l)) = []
     end) /\
  (forall e, o = Some (Err e) -> d_ids d = true -> complete d -> In "uid" (d_cols d) -> In "iid" (d_cols d) -> d_rows d <> [] ->
     numbers d "uid" -> numbers d "iid" -> False).
Proof.
  intros Po I Hb Tf E. unfold null_start in E. destruct (inv_attributes inode w b i d I Hb) as (x & Hx & _ & Di & Nx & _).
  assert (Eg : (x <~ self i ;; n <~ ds_len i ;; if negb (i_ids x) || Nat.eqb n 0 then raise AssertionError else ret tt)%bool w =
               (w, if (negb (d_ids d) || Nat.eqb (length (d_rows d)) 0)%bool then Err AssertionError else Ok tt)).
  { rewrite (andthen_ok _ _ _ _ _ (self_ok i w x Hx)), (andthen_ok _ _ _ _ _ (len_is w b i d I Hb)), Di.
    destruct (_ || _)%bool; auto. }
  destruct (negb (d_ids d) || Nat.eqb (length (d_rows d)) 0)%bool eqn:G.
  { unfold fthen at 1 in E. rewrite (runs_ok _ _ _ _ Eg) in E. injection E as <- <-. split; [auto|]. split; [discriminate|].
    intros e X Hi _ _ _ Nr. rewrite Hi in G. cbn [negb orb] in G. apply Nat.eqb_eq, length_zero_iff_nil in G. contradiction. }
  rewrite (fthen_ok _ _ w w tt) in E by (apply runs_ok; exact Eg). clear Eg.
  apply orb_false_iff in G. destruct G as [G1 G2]. apply negb_false_iff in G1.
  assert (Nr : d_rows d <> []) by (intro X; rewrite X in G2; discriminate). clear G2.
  apply fthen_inv in E. destruct t as [l|]; cbn [thr_text option_map] in E.
  2:{ destruct E as [(w1 & neg & E1 & E)|[(e & E1 & ->)|(E1 & ->)]]; unfold runs, ret in E1; try discriminate.
      injection E1 as <- <-. destruct (maxes ord _ _ _ _ _ _ Po E b Hb I) as (I1 & A & N). split; [auto|]. split.
      - intros mu mi neg Eo. destruct (A _ _ _ Eo) as (-> & B & C). repeat (split; [auto|]). discriminate.
      - intros e X Hi Cm Iu Ii _ Hu Hv. exact (N e X Cm Iu Ii Nr Hu Hv). }
  destruct E as [(w1 & neg & E1 & E)|[(e & E1 & ->)|(E1 & ->)]]; apply attempt_inv in E1;
    destruct E1 as [([j g] & E1 & X1)|[(e1 & E1 & X1)|(E1 & X1)]]; try discriminate;
    destruct (existing_spec _ _ _ _ _ _ _ _ _ _ Po I Hb Tf E1) as (I1 & A1 & N1).
  3:{ split; [auto|]. split; discriminate. }
  - injection X1 as ->. destruct (A1 _ _ eq_refl) as (Bj & I2 & m & k & -> & Em).
    assert (Hj : note b j (Some (restricted d (below l))) i = Some d) by (rewrite note_other; [auto|congruence]).
    destruct (maxes ord _ _ _ _ _ _ Po E b Hb I1) as (I3 & A & N).
    destruct (maxes ord _ _ _ _ _ _ Po E _ Hj I2) as (I4 & _ & _).
    split; [auto|]. split.
    + intros mu mi neg Eo. destruct (A _ _ _ Eo) as (-> & B & C). repeat (split; [auto|]). exists l. repeat (split; [auto|]). eauto.
    + intros e X Hi Cm Iu Ii _ Hu Hv. exact (N e X Cm Iu Ii Nr Hu Hv).
  - injection X1 as ->. destruct (maxes ord _ _ _ _ _ _ Po E b Hb I1) as (I3 & A & N). split; [auto|]. split.
    + intros mu mi neg Eo. destruct (A _ _ _ Eo) as (-> & B & C). repeat (split; [auto|]). intros l0 X Cm Ic Hu. injection X as <-.
      exact (N1 e1 eq_refl Cm Ic Hu).
    + intros e X Hi Cm Iu Ii _ Hu Hv. exact (N e X Cm Iu Ii Nr Hu Hv).
Qed.

(** ** Pulls of the generator of pairs *)
Lemma extreme_nonneg d c m : numbers d c -> extreme Datatypes.Gt c (d_rows d) (Some (VInt m)) -> 0 <= m.
Proof. intros N ((row & Hr & E) & _). destruct (N row Hr) as (u & Eu & Hu). congruence. Qed.
Lemma numbers_restricted d cs c : numbers d c -> numbers (restricted d cs) c.
Proof. intros N row Hr. apply N. cbn [restricted d_rows] in Hr. apply filter_In in Hr. apply Hr. Qed.

(** a started generator, of the rows [d], with threshold [t] *)
Definition pulled (b : book) (d : ds) (t : option slit) (g : ngen) : Prop :=
  exists i mu mi neg k, g = NAt i mu mi neg k /\ b i = Some d /\
    extreme Datatypes.Gt "uid" (d_rows d) (Some (VInt mu)) /\ extreme Datatypes.Gt "iid" (d_rows d) (Some (VInt mi)) /\
    match neg with
    | None => True
    | Some (j, g) => exists l, t = Some l /\ b j = Some (restricted d (below l)) /\ 
        exists m k, g = RAt j m k /\ extreme Datatypes.Gt "uid" (d_rows (restricted d (below l))) (Some (VInt m))
    end.
Lemma go_spec fuel ord s s2 i mu mi neg k w b d t w' o : permuting ord -> Inv w b -> b i = Some d ->
  pulled b d t (NAt i mu mi neg k) ->
  (r <~~ pair_loop inode fuel ord s s2 i mu mi neg k ;; let '(p, neg', k') := r in runs (ret (p, NAt i mu mi neg' k'))) w = (w', o) ->
  w' = w /\
  (forall p g', o = Some (Ok (p, g')) -> pulled b d t g' /\ (exists neg' k', g' = NAt i mu mi neg' k' /\ neg_same neg neg') /\
     (id_column d "uid" -> id_column d "iid" ->
      null_pair d t p /\ (neg <> None -> mu * mi <= 0 -> exists l row, t = Some l /\ In row (d_rows d) /\ forallb (holds row) (below l) = true /\ p = pair_of row))) /\
  (forall e, o = Some (Err e) -> id_column d "uid" -> id_column d "iid" -> numbers d "uid" -> numbers d "iid" -> False).
Proof.
  intros Po I Hb (i0 & mu0 & mi0 & neg0 & k0 & Eg & _ & Eu & Ei & Hn) E. injection Eg as <- <- <- <- <-.
  assert (No : neg_ok b neg).
  { destruct neg as [[j g]|]; cbn [neg_ok]; [|auto]. destruct Hn as (l & _ & Bj & m & k1 & -> & _). split; [congruence|eauto]. }
  destruct (pair_loop inode fuel ord s s2 i mu mi neg k w) as [w1 o1] eqn:El.
  destruct (pair_loop_world fuel ord s s2 i mu mi b neg k w w1 o1 No El) as [-> Sm]. unfold fthen in E. rewrite El in E.
  destruct o1 as [[[[p0 neg'] k']|e]|]; cbn [runs ret] in E; injection E as <- <-; (split; [auto|]); (split; [|try discriminate]).
  2,4: discriminate.
  - intros p g' X. injection X as <- <-. specialize (Sm _ _ _ eq_refl). split; [|split; [exists neg', k'; auto|]].
    { exists i, mu, mi, neg', k'. repeat (split; [auto|]). destruct neg as [[j g]|], neg' as [[j' g']|]; cbn [neg_same] in Sm; auto.
      - destruct Hn as (l & -> & Bj & m & k1 & -> & Em). destruct Sm as (-> & k2 & ->). exists l. eauto 7.
      - contradiction. }
    intros Iu Ii.
    assert (Ij : forall j g dj, neg = Some (j, g) -> b j = Some dj -> id_column dj "uid").
    { intros j g dj -> Bj. destruct Hn as (l & -> & Bj' & _). rewrite Bj' in Bj. injection Bj as <-. exact Iu. }
    destruct (pair_loop_spec fuel ord s s2 i mu mi w b d Po I Hb Iu Ii neg k w p0 neg' k' No Ij El) as [(u & v & -> & Hu & Hv & Hno & Hp)|(j & g & dj & row & Hj & Bj & Hr & ->)].
    + split.
      * left. exists u, v. split; [auto|]. split; [|auto]. split; [apply Hu|]. split; [apply Hv|].
        destruct Eu as ((r1 & H1 & E1) & _), Ei as ((r2 & H2 & E2) & _). split; [exists r1, mu|exists r2, mi]; repeat (split; [auto|]); lia.
      * intros Nn Le. specialize (Hp Nn). lia.
    + subst neg. destruct Hn as (l & -> & Bj' & _). rewrite Bj' in Bj. injection Bj as <-. cbn [restricted d_rows] in Hr. apply filter_In in Hr. destruct Hr as [Hr Hh].
      split; [right|intros _ _]; exists l, row; auto.
  - intros e0 _ Iu Ii Nu Ni. pose proof (extreme_nonneg _ _ _ Nu Eu). pose proof (extreme_nonneg _ _ _ Ni Ei).
    apply (pair_loop_no_error fuel ord s s2 i mu mi w b d Po I Hb Iu Ii) with (neg := neg) (k := k) (w' := w) (e := e); auto.
    intros j g dj -> Bj. destruct Hn as (l & -> & Bj' & m & k1 & -> & Em). rewrite Bj' in Bj. injection Bj as <-.
    split; [exact Iu|]. split; [apply Ii|]. exists m, k1. split; [auto|]. apply (extreme_nonneg _ "uid" _ (numbers_restricted _ _ _ Nu) Em).
Qed.

Definition short (g : ngen) : Prop := match g with NAt _ mu mi (Some _) _ => mu * mi <= 0 | _ => False end.
Definition below_pair (d : ds) (t : option slit) (p : pair) : Prop :=
  exists l row, t = Some l /\ In row (d_rows d) /\ forallb (holds row) (below l) = true /\ p = pair_of row.
Lemma neg_same_some neg neg' : neg_same neg neg' -> neg <> None -> neg' <> None.
Proof. destruct neg as [[j g]|], neg' as [[j' g']|]; cbn [neg_same]; try congruence. destruct g; contradiction. Qed.
Lemma null_next_pulled fuel ord s s2 g w b d t w' o : permuting ord -> Inv w b -> pulled b d t g ->
  null_next inode fuel ord s s2 g w = (w', o) ->
  w' = w /\
  (forall x g', o = Some (x, g') -> match x with
     | Ok (Some p) => pulled b d t g' /\ (id_column d "uid" -> id_column d "iid" -> null_pair d t p /\ (short g -> below_pair d t p)) /\ (short g -> short g')
     | Ok None => False
     | Err _ => g' = NEnd /\ (id_column d "uid" -> id_column d "iid" -> numbers d "uid" -> numbers d "iid" -> False)
     end).
Proof.
  intros Po I Pg E. pose proof Pg as (i & mu & mi & neg & k & -> & Hb & _). unfold null_next in E.
  match type of E with (match ?m with _ => _ end) = _ => destruct m as [w1 o1] eqn:El end.
  destruct (go_spec _ _ _ _ _ _ _ _ _ _ _ _ _ _ _ Po I Hb Pg El) as (-> & A & N).
  destruct o1 as [[[p g']|e]|]; injection E as <- <-; (split; [auto|]); intros x g0 X; [| |discriminate]; injection X as <- <-.
  - destruct (A _ _ eq_refl) as (P1 & (neg' & k' & -> & Sm) & P2). split; [auto|]. split.
    + intros Iu Ii. destruct (P2 Iu Ii) as [P3 P4]. split; [auto|]. destruct neg as [n|]; [|contradiction]. intro Sh. apply P4; [discriminate|exact Sh].
    + intro Sh. cbn [short] in *. destruct neg as [n|]; [|contradiction]. pose proof (neg_same_some _ _ Sm) as Q. destruct neg'; [auto|].
      exfalso. apply Q; [discriminate|auto].
  - split; [auto|]. intros. eapply N; eauto.
Qed.

Lemma null_next_new fuel ord s s2 i w b d t w' o : permuting ord -> Inv w b -> b i = Some d -> threshold_fits d t ->
  null_next inode fuel ord s s2 (NNew i (thr_text t)) w = (w', o) ->
  Inv w' b /\
  (forall x g', o = Some (x, g') -> match x with
     | Ok (Some p) => Inv w' (noted b (NNew i (thr_text t)) g' t) /\ (forall k d0, b k = Some d0 -> noted b (NNew i (thr_text t)) g' t k = Some d0) /\
         pulled (noted b (NNew i (thr_text t)) g' t) d t g' /\ (id_column d "uid" -> id_column d "iid" -> null_pair d t p) /\ d_ids d = true /\ d_rows d <> [] /\
         (id_column d "uid" -> id_column d "iid" -> complete d -> numbers d "uid" -> 
          (exists l row, t = Some l /\ In row (d_rows d) /\ forallb (holds row) (below l) = true) ->
          (forall row, In row (d_rows d) -> tcell row "uid" = Some (VInt 0)) \/ (forall row, In row (d_rows d) -> tcell row "iid" = Some (VInt 0)) ->
          short g' /\ below_pair d t p)
     | Ok None => False
     | Err _ => g' = NEnd /\ (d_ids d = true -> d_rows d <> [] -> complete d -> id_column d "uid" -> id_column d "iid" -> numbers d "uid" -> numbers d "iid" -> False)
     end).
Proof.
  intros Po I Hb Tf E. unfold null_next in E.
  match type of E with (match ?m with _ => _ end) = _ => destruct m as [w1 o1] eqn:El end.
  apply fthen_inv in El. destruct El as [(w2 & st & E1 & El)|[(e & E1 & ->)|(E1 & ->)]];
    destruct (null_start_spec _ _ _ _ _ _ _ _ _ _ Po I Hb Tf E1) as (I1 & A1 & N1).
  2:{ injection E as <- <-. split; [auto|]. intros x g' X. injection X as <- <-. split; [auto|]. intros Hi Nr Cm Iu Ii Nu Ni.
      apply (N1 e eq_refl Hi Cm (proj1 Iu) (proj1 Ii) Nr Nu Ni). }
  2:{ injection E as <- <-. split; [auto|]. discriminate. }
  destruct st as [[mu mi] neg]. destruct (A1 _ _ _ eq_refl) as (Hi & Nr & Eu & Ei & Hn).
  set (b' := match neg with Some (j, _) => match t with Some l => note b j (Some (restricted d (below l))) | None => b end | None => b end).
  assert (I2 : Inv w2 b' /\ (forall k d0, b k = Some d0 -> b' k = Some d0)).
  { unfold b'. destruct neg as [[j g]|]; [|auto]. destruct Hn as (l & -> & Bj & I2 & _). split; [auto|].
    intros k d0 Hk. rewrite note_other; [auto|congruence]. }
  destruct I2 as [I2 Sub].
  assert (Pg : pulled b' d t (NAt i mu mi neg 0)).
  { exists i, mu, mi, neg, 0%nat. repeat (split; [auto|]). unfold b'. destruct neg as [[j g]|]; [|auto].
    destruct Hn as (l & -> & Bj & _ & Hm). exists l. split; [auto|]. split; [apply note_same|auto]. }
  destruct (go_spec _ _ _ _ _ _ _ _ _ _ _ _ _ _ _ Po I2 (Sub _ _ Hb) Pg El) as (-> & A & N).
  assert (Ib : Inv w2 b) by (eapply Inv_sub; eauto).
  destruct o1 as [[[p g']|e]|]; injection E as <- <-; (split; [auto|]); intros x g0 X; [| |discriminate]; injection X as <- <-.
  - destruct (A _ _ eq_refl) as (P1 & (neg' & k' & -> & Sm0) & P2).
    assert (Nb : noted b (NNew i (thr_text t)) (NAt i mu mi neg' k') t = b').
    { unfold noted, b'. destruct P1 as (i1 & mu1 & mi1 & n1 & k1 & X & _ & _ & _ & Hn1). injection X as <- <- <- <- <-.
      pose proof El as El'. unfold fthen in El'. 
      destruct (pair_loop inode fuel ord s s2 i mu mi neg 0 w2) as [w3 o3] eqn:Ep.
      assert (No : neg_ok b' neg).
      { destruct neg as [[j g]|]; cbn [neg_ok]; [|auto]. destruct Hn as (l & -> & Bj & _ & m & k1 & -> & _). split; [|eauto]. unfold b'. rewrite note_same. discriminate. }
      destruct (pair_loop_world _ _ _ _ _ _ _ _ _ _ _ _ _ No Ep) as [-> Sm].
      destruct o3 as [[[[p3 n3] k3]|]|]; cbn [runs ret] in El'; try discriminate. injection El' as <- <- <-.
      specialize (Sm _ _ _ eq_refl). unfold neg_same in Sm. rewrite Hb. destruct neg as [[j g]|], n3 as [[j3 g3]|]; auto.
      - destruct Hn as (l & -> & Bj & _ & m & k1 & -> & _). destruct Sm as (-> & _). auto.
      - destruct Hn as (l & -> & Bj & _ & m & k1 & -> & _). contradiction.
      - contradiction. }
    rewrite Nb. split; [auto|]. split; [auto|]. split; [auto|]. split; [intros Iu Ii; apply P2; auto|]. split; [auto|]. split; [auto|].
    intros Iu Ii Cm Nu (l & row & -> & Hr & Hh) Zr.
    assert (Nn : neg <> None).
    { intros ->. specialize (Hn l eq_refl Cm Iu Nu). cbn [restricted d_rows] in Hn. assert (X : In row []); [|contradiction].
      rewrite <- Hn. apply filter_In. auto. }
    assert (Mz : mu * mi <= 0).
    { destruct Eu as ((r1 & H1 & E2) & _), Ei as ((r2 & H2 & E3) & _). destruct Zr as [Z|Z].
      - rewrite (Z r1 H1) in E2. injection E2 as <-. lia.
      - rewrite (Z r2 H2) in E3. injection E3 as <-. lia. }
    split; [|apply P2; auto]. cbn [short]. pose proof (neg_same_some _ _ Sm0 Nn). destruct neg'; [auto|contradiction].
  - split; [auto|]. intros _ _ _ Iu Ii Nu Ni. eapply N; eauto.
Qed.
End Facts.
