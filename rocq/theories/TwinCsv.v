(** The same csv file, read into a database and into memory. *)
From Coq Require Import String Ascii DecimalString.
From Coq Require Import List ZArith QArith Qcanon Bool Permutation Sorted Lia.
From Verif Require Import Py PyFacts MemModel MemSpec MemFacts MemFacts2 DbModel DbFacts DbSpec DbFacts13 DbFacts14 DbFacts15 DbFacts17
  CsvModel CsvSpec CsvFacts CsvFacts2 CsvFacts3 CsvFacts4 CsvFacts5 FileModel TwinSpec TwinFacts TwinFacts5.
Import ListNotations.
Open Scope string_scope.
Open Scope Z_scope.

(** ** Vocabulary *)

(** The value a text stands for: an integer, a float or the text itself. *)
Definition read_as (s : string) : value :=
  match Z_of_str s, float_of_str s with Some z, _ => VInt z | None, Some q => VFlt q | None, None => VStr s end.
(** The row of the nth record. *)
Definition file_row (cols : list (option string)) (n : nat) (fields : list string) : trow :=
  (map (fun c => (c, option_map read_as (field_of cols fields c))) (named_columns cols) ++ [("rid", Some (VInt (Z.of_nat n)))])%list.
Definition file_cells (cols : list (option string)) (rows : list (list string)) : list trow :=
  map (fun p => file_row cols (fst p) (snd p)) (combine (seq 0 (length rows)) rows).
(** A file whose columns are of one kind each: every record has every field, a
    column has integers, other numbers or texts, no field looks like a missing
    value, interactions are numbers. *)
Record even (cols : list (option string)) (rows : list (list string)) : Prop := {
  ev_fields : Forall (fun r => length r = length cols) rows;
  ev_kind : forall r r' c f f', In r rows -> In r' rows -> In c (named_columns cols) ->
     field_of cols r c = Some f -> field_of cols r' c = Some f' -> text_type f = text_type f';
  ev_missing : forall r c f, In r rows -> In c (named_columns cols) -> field_of cols r c = Some f -> f <> "" /\ ~ In f missing_texts;
  ev_number : forall r f, In r rows -> field_of cols r "interaction" = Some f ->
     text_type f <> DObj /\ forall z, Z_of_str f = Some z -> Z.abs z <= 2 ^ 53 }.
(** MemoryInteractionDataset of a csv file. *)
Definition read_mem (text : string) (d : ascii) (has_header : bool) (cols : list (option string)) : res mem :=
  t <- read_csv_mem text d has_header cols ;; frame_mem t.

(** ** Texts of integers *)
Lemma uint_split sep s u : NilEmpty.uint_of_string s = Some u -> (sep = "e" \/ sep = ".")%char -> split_on sep s = [s].
Proof.
  revert u. induction s as [|a s IH]; intros u H Hs; cbn [split_on]; [auto|]. cbn [NilEmpty.uint_of_string] in H.
  destruct (NilEmpty.uint_of_string s) as [u'|] eqn:E; [|destruct a as [[] [] [] [] [] [] [] []]; discriminate H].
  rewrite (IH u' eq_refl Hs). destruct (Ascii.eqb_spec a sep) as [->|N]; [|auto]. destruct Hs as [-> | ->]; discriminate H.
Qed.
Lemma nat_lit_some s z : nat_lit s = Some z -> exists u, NilEmpty.uint_of_string s = Some u /\ z = Z.of_uint u.
Proof.
  unfold nat_lit, NilZero.uint_of_string. destruct s as [|a s]; [discriminate|]. intro H.
  destruct (NilEmpty.uint_of_string (String a s)) as [u|]; [|discriminate]. injection H as <-. eauto.
Qed.
Lemma float_nat s z : nat_lit s = Some z -> Z.abs z <= 2 ^ 53 -> unsigned_float s = Some (inject_Z z).
Proof.
  intros H L. destruct (nat_lit_some s z H) as (u & Hu & _). unfold unsigned_float. rewrite (uint_split "e" s u Hu) by auto.
  unfold mantissa. rewrite (uint_split "." s u Hu) by auto. rewrite H, f64_exact by auto. auto.
Qed.
Lemma float_text s z : Z_of_str s = Some z -> Z.abs z <= 2 ^ 53 -> float_of_str s = Some (Qc_of_Z z).
Proof.
  unfold Z_of_str, NilZero.int_of_string, float_of_str. destruct s as [|a s]; [discriminate|]. destruct (Ascii.eqb a "-") eqn:A.
  - intros H L. destruct (NilZero.uint_of_string s) as [u|] eqn:E; [|discriminate]. cbn [option_map] in H. injection H as <-.
    cbn [Z.of_int] in *. rewrite (float_nat s (Z.of_uint u)) by (try (unfold nat_lit; rewrite E; auto); lia).
    reflexivity.
  - intros H L. destruct (NilZero.uint_of_string (String a s)) as [u|] eqn:E; [|discriminate]. cbn [option_map] in H. injection H as <-.
    cbn [Z.of_int] in *. rewrite (float_nat (String a s) (Z.of_uint u)) by (try (unfold nat_lit; rewrite E; auto); lia). reflexivity.
Qed.

(** ** Cells *)
Lemma read_type s : type_of (read_as s) = text_type s.
Proof. unfold read_as, text_type. destruct (Z_of_str s); [auto|]. destruct (float_of_str s); auto. Qed.
Lemma stored_cell c f v : (c = "interaction" -> text_type f <> DObj /\ forall z, Z_of_str f = Some z -> Z.abs z <= 2 ^ 53) ->
  given c f = Some v -> affine (text_type f) v = read_as f.
Proof.
  unfold given, text_type, read_as. destruct (String.eqb_spec c "interaction") as [->|N]; intros Hn Hv.
  - destruct (Hn eq_refl) as [Ht Hz]. destruct (float_of_str f) as [q|] eqn:F; [|discriminate]. injection Hv as <-.
    destruct (Z_of_str f) as [z|] eqn:E.
    + rewrite (float_text f z E (Hz z eq_refl)) in F. injection F as <-. apply integral_Z.
    + reflexivity.
  - injection Hv as <-. destruct (Z_of_str f) as [z|] eqn:E; [cbn [affine]; rewrite E; auto|].
    destruct (float_of_str f) as [q|] eqn:F; cbn [affine]; [rewrite F; auto|auto].
Qed.
Lemma affine_id v : affine (type_of v) v = v.
Proof. destruct v; reflexivity. Qed.

(** ** Reading into memory *)
Fixpoint pos (cols : list (option string)) (c : string) : nat :=
  match cols with
  | [] => O
  | Some c' :: l => if String.eqb c' c then O else S (pos l c)
  | None :: l => S (pos l c)
  end.
Lemma field_pos cols : forall r c, length r = length cols -> In c (named_columns cols) -> field_of cols r c = Some (nth (pos cols c) r "").
Proof.
  induction cols as [|o cols IH]; intros r c L I; [destruct I|]. destruct r as [|f r]; [discriminate|]. cbn [length] in L.
  destruct o as [c'|]; cbn [field_of pos named_columns] in *.
  - destruct (String.eqb_spec c' c) as [->|N]; [auto|]. destruct I as [->|I]; [congruence|]. cbn [nth]. apply IH; [lia|auto].
  - cbn [nth]. apply IH; [lia|auto].
Qed.
Lemma typed_named {B} (g : nat -> B) cols : forall s, NoDup (named_columns cols) ->
  named (combine cols (map g (seq s (length cols)))) = map (fun c => (c, g (s + pos cols c)%nat)) (named_columns cols).
Proof.
  induction cols as [|o cols IH]; intros s N; [auto|]. cbn [length seq map combine]. destruct o as [c|]; cbn [named named_columns map pos] in *.
  - inversion N as [|? ? Nc N']; subst. rewrite String.eqb_refl, Nat.add_0_r. f_equal. rewrite (IH (S s) N'). apply map_ext_in. intros x Hx.
    destruct (String.eqb_spec c x) as [->|Nx]; [contradiction|]. rewrite Nat.add_succ_comm. auto.
  - rewrite (IH (S s) N). apply map_ext. intro x. rewrite Nat.add_succ_comm. auto.
Qed.
Lemma kind_column t l : l <> [] -> (forall s, In s l -> text_type s = t /\ s <> "" /\ ~ In s missing_texts) -> column_type l = t.
Proof.
  intros Ne H. unfold column_type. destruct l as [|s0 l]; [congruence|]. clear Ne. cbn match. destruct (H s0 (or_introl eq_refl)) as (T0 & N0 & M0).
  destruct (forallb is_int (s0 :: l)) eqn:Fi.
  - cbn [forallb] in Fi. apply andb_true_iff in Fi. destruct Fi as [F0 _]. rewrite <- T0. symmetry. apply int_is_num. exact F0.
  - destruct t.
    + exfalso. assert (forallb is_int (s0 :: l) = true); [|congruence]. apply forallb_forall. intros s Hs. destruct (H s Hs) as (Ts & _).
      unfold is_int. unfold text_type in Ts. destruct (Z_of_str s); [auto|]. destruct (float_of_str s); discriminate.
    + replace (forallb (fun s => (is_na s || is_num s)%bool) (s0 :: l)) with true; [auto|]. symmetry. apply forallb_forall. intros s Hs.
      destruct (H s Hs) as (Ts & _). apply orb_true_iff. right. unfold is_num. unfold text_type in Ts. destruct (Z_of_str s); [discriminate|].
      destruct (float_of_str s); [auto|discriminate].
    + cbn [forallb]. replace (is_na s0 || is_num s0)%bool with false; [auto|]. symmetry. apply orb_false_iff. split.
      * destruct (is_na s0) eqn:Na; [|auto]. destruct (na_cases _ Na); [congruence|contradiction].
      * unfold is_num. unfold text_type in T0. destruct (Z_of_str s0); [discriminate|]. destruct (float_of_str s0); [discriminate|auto].
Qed.
Lemma kind_cell s : s <> "" -> ~ In s missing_texts -> read_cell (text_type s) s = Some (read_as s).
Proof.
  intros N M. assert (Na : is_na s = false).
  { destruct (is_na s) eqn:Na; [|auto]. destruct (na_cases _ Na); [congruence|contradiction]. }
  unfold text_type, read_as, read_cell. destruct (Z_of_str s) as [z|]; [auto|]. rewrite Na. destruct (float_of_str s); auto.
Qed.

Section File.
Variables (d : ascii) (has_header : bool) (cols : list (option string)) (r : list string) (rows : list (list string)) (text : string).
Hypothesis Hd : delimiter_ok d.
Hypothesis Hc : columns_ok cols.
Hypothesis Hu : ~ In "uid" (named_columns cols).
Hypothesis Hi : ~ In "iid" (named_columns cols).
Hypothesis Hf : csv_file d has_header (r :: rows) text.
Hypothesis He : even cols (r :: rows).
Local Notation names := (named_columns cols).
Local Notation all := (r :: rows).

Lemma len_of x : In x all -> length x = length cols.
Proof. pose proof (ev_fields _ _ He) as F. rewrite Forall_forall in F. apply F. Qed.
Lemma field_there x c : In x all -> In c names -> field_of cols x c = Some (nth (pos cols c) x "").
Proof. intros Hx Ic. apply field_pos; [apply len_of; auto|auto]. Qed.
Definition kind (c : string) : dtype := text_type (nth (pos cols c) r "").
Lemma kind_of x c : In x all -> In c names -> text_type (nth (pos cols c) x "") = kind c.
Proof.
  intros Hx Ic. apply (ev_kind _ _ He x r c); [auto|left; auto|auto| |]; apply field_there; auto. left; auto.
Qed.
Lemma present x c : In x all -> In c names -> nth (pos cols c) x "" <> "" /\ ~ In (nth (pos cols c) x "") missing_texts.
Proof. intros Hx Ic. apply (ev_missing _ _ He x c); auto. apply field_there; auto. Qed.
Lemma inter_in : In "interaction" names.
Proof. apply (proj1 Hc). cbn; auto. Qed.
Lemma all_usable : Forall (usable cols) all.
Proof.
  apply Forall_forall. intros x Hx c Ic. exists (nth (pos cols c) x ""). rewrite (field_there x c Hx Ic).
  unfold given. destruct (String.eqb_spec c "interaction") as [->|N]; [|eauto].
  destruct (ev_number _ _ He x _ Hx (field_there x "interaction" Hx inter_in)) as [Nt Nz].
  destruct (Z_of_str (nth (pos cols "interaction") x "")) as [z|] eqn:E.
  - rewrite (float_text _ z E (Nz z eq_refl)). cbn. eauto.
  - unfold text_type in Nt. rewrite E in Nt. destruct (float_of_str _); [cbn; eauto|congruence].
Qed.

Lemma mem_frame : read_csv_mem text d has_header cols =
  Ok (map (fun c => (c, kind c)) names, map (fun x => map (fun c => (c, Some (read_as (nth (pos cols c) x "")))) names) all).
Proof.
  unfold read_csv_mem. pose proof (reader_file d has_header all text Hd Hf) as E. unfold body_lines in E. rewrite E. cbn [bind].
  assert (Nn : length cols <> 0%nat). { intro E0. apply length_zero_iff_nil in E0. pose proof inter_in as X. rewrite E0 in X. exact X. }
  rewrite (filter_all _ all).
  2:{ intros x Hx. pose proof (len_of x Hx) as L. destruct x; [|auto]. cbn [length] in L. congruence. }
  replace (forallb (fun x => Nat.eqb (length x) (length cols)) all) with true.
  2:{ symmetry. apply forallb_forall. intros x Hx. apply Nat.eqb_eq. apply len_of. auto. }
  cbn [negb]. unfold typed_columns. rewrite (typed_named (fun k => (k, column_type (column_texts k all))) cols 0 (proj1 (proj2 Hc))). cbn [Nat.add].
  replace (forallb (fun c => in_cols c (map fst (map (fun c => (c, (pos cols c, column_type (column_texts (pos cols c) all)))) names))) ["user"; "item"; "interaction"]) with true.
  2:{ symmetry. rewrite map_map. cbn [fst]. rewrite map_id. apply forallb_forall. intros c Ic. apply (mem_b_In String.eqb reflects_string). apply (proj1 Hc). auto. }
  cbn [negb]. assert (K : forall c, In c names -> column_type (column_texts (pos cols c) all) = kind c).
  { intros c Ic. apply kind_column; [discriminate|]. intros s Hs. unfold column_texts in Hs. apply in_map_iff in Hs. destruct Hs as (x & <- & Hx).
    split; [apply kind_of; auto|apply present; auto]. }
  f_equal. f_equal.
  - rewrite map_map. apply map_ext_in. intros c Ic. cbn [fst snd]. rewrite (K c Ic). auto.
  - apply map_ext_in. intros x Hx. rewrite map_map. apply map_ext_in. intros c Ic. cbn [fst snd]. rewrite (K c Ic), <- (kind_of x c Hx Ic).
    destruct (present x c Hx Ic) as [P1 P2]. rewrite (kind_cell _ P1 P2). auto.
Qed.

Lemma index_cells l : forall n, index_rows n (map (fun x => map (fun c => (c, Some (read_as (nth (pos cols c) x "")))) names) l) =
  Ok (map (fun p => mkRow (n + Z.of_nat (fst p)) (map (fun c => (c, read_as (nth (pos cols c) (snd p) ""))) names)) (combine (seq 0 (length l)) l)).
Proof.
  assert (G : forall l k n, index_rows n (map (fun x => map (fun c => (c, Some (read_as (nth (pos cols c) x "")))) names) l) =
     Ok (map (fun p => mkRow (n - Z.of_nat k + Z.of_nat (fst p)) (map (fun c => (c, read_as (nth (pos cols c) (snd p) ""))) names)) (combine (seq k (length l)) l))).
  { clear. induction l as [|x l IH]; intros k n; [auto|]. cbn [map index_rows length seq combine].
    rewrite (mapM_Ok _ (fun p => match snd p with Some v => (fst p, v) | None => (fst p, VInt 0) end)).
    2:{ intros [c o] Hp. apply in_map_iff in Hp. destruct Hp as (c' & E & _). injection E as <- <-. auto. }
    cbn [bind]. rewrite (IH (S k) (n + 1)). cbn [bind fst snd]. f_equal. f_equal.
    - f_equal; [lia|]. rewrite map_map. apply map_ext. intro c. auto.
    - apply map_ext. intro p. f_equal. lia. }
  intro n. rewrite (G l 0%nat n). f_equal. apply map_ext. intro p. f_equal. lia.
Qed.

(** ** The data set in memory is one made of the cells of the file *)
Lemma df_columns_names : df_columns (names ++ ["rid"]) = names.
Proof.
  unfold df_columns. rewrite filter_app. cbn [filter]. destruct Hc as (_ & _ & Nr & _). rewrite filter_all; [cbn; apply app_nil_r|].
  intros c Ic. apply negb_true_iff. destruct (String.eqb_spec c "rid") as [->|]; [contradiction|auto].
Qed.
Lemma assoc_names {B} (g : string -> B) l x v c : assoc String.eqb c (map (fun c => (c, g c)) l ++ [(x, v)])%list =
  if existsb (String.eqb c) l then Some (g c) else if String.eqb c x then Some v else None.
Proof.
  induction l as [|a l IH]; cbn [map app assoc existsb]; [auto|]. destruct (String.eqb_spec c a) as [->|N]; cbn [orb]; auto.
Qed.
Lemma tcell_file n x c : In c names -> tcell (file_row cols n x) c = option_map read_as (field_of cols x c).
Proof.
  intro Ic. unfold file_row, tcell. rewrite assoc_names. replace (existsb (String.eqb c) names) with true; [auto|].
  symmetry. apply existsb_exists. exists c. split; [auto|apply String.eqb_refl].
Qed.
Lemma no_b c l : ~ In c l -> existsb (String.eqb c) l = false.
Proof. intro N. apply not_true_is_false. intro H. apply existsb_exists in H. destruct H as (x & Hx & E). apply String.eqb_eq in E. subst x. auto. Qed.
Lemma tcell_rid n x : tcell (file_row cols n x) "rid" = Some (VInt (Z.of_nat n)).
Proof. unfold file_row, tcell. rewrite assoc_names, no_b by apply Hc. auto. Qed.
Lemma tcell_none n x c : ~ In c names -> c <> "rid" -> tcell (file_row cols n x) c = None.
Proof. intros N R. unfold file_row, tcell. rewrite assoc_names, no_b by auto. destruct (String.eqb_spec c "rid"); [contradiction|auto]. Qed.
Lemma tcell_line_name n x c : In c names -> tcell (line_row cols n x) c = match field_of cols x c with Some f => given c f | None => None end.
Proof.
  intro Ic. unfold line_row, tcell. rewrite assoc_names. replace (existsb (String.eqb c) names) with true; [auto|].
  symmetry. apply existsb_exists. exists c. split; [auto|apply String.eqb_refl].
Qed.
Lemma tcell_line_rid n x : tcell (line_row cols n x) "rid" = Some (VInt (Z.of_nat n)).
Proof. unfold line_row, tcell. rewrite assoc_names, no_b by apply Hc. auto. Qed.
Lemma tcell_line_none n x c : ~ In c names -> c <> "rid" -> tcell (line_row cols n x) c = None.
Proof. intros N R. unfold line_row, tcell. rewrite assoc_names, no_b by auto. destruct (String.eqb_spec c "rid"); [contradiction|auto]. Qed.

Lemma project_known (k : string -> dtype) types l : (forall c, In c l -> assoc String.eqb c types = Some (k c)) ->
  project_types l types = map (fun c => (c, k c)) l.
Proof.
  induction l as [|c l IH]; intro X; [auto|]. unfold project_types. cbn [map flat_map]. rewrite (X c) by (left; auto). cbn [app]. f_equal.
  apply IH. intros y Hy. apply X. right. auto.
Qed.
Lemma cells_known (k : string -> value) row l : (forall c, In c l -> tcell row c = Some (k c)) ->
  flat_map (fun c => match tcell row c with Some v => [(c, v)] | None => [] end) l = map (fun c => (c, k c)) l.
Proof.
  induction l as [|c l IH]; intro X; [auto|]. cbn [map flat_map]. rewrite (X c) by (left; auto). cbn [app]. f_equal.
  apply IH. intros y Hy. apply X. right. auto.
Qed.
Lemma read_memory types : types_from cols r types ->
  read_mem text d has_header cols = Ok (memory_of (names ++ ["rid"]) types (file_cells cols all)).
Proof.
  intros (_ & Tf & _). unfold read_mem. rewrite mem_frame. cbn [bind]. unfold frame_mem. cbn [fst snd]. rewrite index_cells. cbn [bind].
  unfold memory_of, mem_of_frame. cbn [f_types f_rows]. rewrite df_columns_names. rewrite map_map. cbn [fst]. rewrite map_id.
  f_equal. f_equal. f_equal.
  - symmetry. apply project_known. intros c Ic. apply (Tf c _ Ic). apply field_there; [left; auto|auto].
  - unfold file_cells. rewrite map_map. apply map_ext_in. intros [n x] Hp. cbn [fst snd]. assert (Hx : In x all) by (eapply in_combine_r; exact Hp).
    unfold memory_row, rid_of. rewrite tcell_rid, df_columns_names. f_equal. symmetry. apply cells_known.
    intros c Ic. rewrite (tcell_file n x c Ic), (field_there x c Hx Ic). auto.
Qed.

(** ** The data set in the database is the one made of these cells *)
Lemma same_store types (tys : list (string * dtype)) : types_from cols r types ->
  (forall c t, In (c, t) tys -> In c ["rid"; "uid"; "iid"] /\ t = DInt \/ assoc String.eqb c types = Some t) ->
  map (store tys) (file_rows cols all) = map (store tys) (file_cells cols all).
Proof.
  intros (T1 & T2 & T3) H. unfold file_rows, file_cells. rewrite !map_map. apply map_ext_in. intros [n x] Hp. cbn [fst snd].
  assert (Hx : In x all) by (eapply in_combine_r; exact Hp). unfold store. apply map_ext_in. intros [c t] Hct. cbn [fst snd]. f_equal.
  assert (D : In c names /\ t = kind c \/ ~ In c names).
  { destruct (in_dec string_dec c names) as [Ic|N]; [|auto]. left. split; [auto|]. destruct (H c t Hct) as [[Hc' _]|E].
    - exfalso. destruct Hc as (_ & _ & Nr & _). cbn [In] in Hc'. destruct Hc' as [<-|[<-|[<-|[]]]]; contradiction.
    - rewrite (T2 c _ Ic (field_there r c (or_introl eq_refl) Ic)) in E. injection E as <-. reflexivity. }
  destruct D as [[Ic ->]|N].
  - rewrite (tcell_file n x c Ic), (tcell_line_name n x c Ic), (field_there x c Hx Ic). cbn [option_map].
    pose proof all_usable as U. rewrite Forall_forall in U. destruct (U x Hx c Ic) as (f & v & Ef & Ev). rewrite (field_there x c Hx Ic) in Ef. injection Ef as <-.
    rewrite Ev. cbn [option_map]. f_equal. rewrite <- (kind_of x c Hx Ic).
    rewrite (stored_cell c _ v) with (2 := Ev); [rewrite <- read_type, affine_id; auto|]. intros ->.
    apply (ev_number _ _ He x); auto. apply field_there; auto.
  - destruct (string_dec c "rid") as [->|Nr]; [rewrite tcell_rid, tcell_line_rid; auto|].
    rewrite (tcell_none n x c N Nr), (tcell_line_none n x c N Nr). auto.
Qed.
Variable inode : string -> nat.
Lemma same_create types p w : types_from cols r types ->
  create inode p (names ++ ["rid"]) types (file_rows cols all) w = create inode p (names ++ ["rid"]) types (file_cells cols all) w.
Proof.
  intro Tf. unfold create.
  assert (L : length (file_rows cols all) = length (file_cells cols all)) by (unfold file_rows, file_cells; rewrite !map_length; auto). rewrite L.
  set (x := mkInst _ _ _ _ _ _ _ _ _ _ _). unfold andthen, lift. destruct (build_types x) as [tys|e] eqn:B; [|auto].
  assert (F : DbModel.fill tys (file_rows cols all) = DbModel.fill tys (file_cells cols all)); [|rewrite F; auto].
  unfold DbModel.fill. rewrite (same_store types tys Tf); [auto|]. intros c t Hct. unfold build_types in B.
  destruct (negb (forallb (fun c => in_cols c (i_cols x)) required)); [discriminate|].
  destruct (mapM _ (filter _ (i_cols x))) as [o|] eqn:M; [|discriminate]. cbn [bind] in B. injection B as <-.
  destruct Hct as [Hct|[Hct|[Hct|Hct]]]; [left; injection Hct as <- <-; cbn; auto..|].
  right. revert M Hct. generalize (filter (fun c => negb (in_cols c id_cols)) (i_cols x)). intros l. revert o. induction l as [|a l IH]; intros o M Hct; cbn [mapM] in M; [injection M as <-; destruct Hct|].
    cbn [x i_types] in M. destruct (assoc String.eqb a types) as [ta|] eqn:Ea; [|discriminate]. cbn [bind] in M.
    destruct (mapM _ l) as [o1|] eqn:M1; [|discriminate]. cbn [bind] in M. injection M as <-. destruct Hct as [X|Hct]; [injection X as <- <-; auto|].
    apply (IH o1); auto.
Qed.

Lemma cells_fit mb types p : types_from cols r types -> fits mb (OCreate p (names ++ ["rid"]) types (file_cells cols all)).
Proof.
  intros (T1 & T2 & T3). cbn [fits]. rewrite df_columns_names.
  split; [apply in_or_app; right; left; auto|]. split.
  { intros c Ic. pose proof (T2 c _ Ic (field_there r c (or_introl eq_refl) Ic)) as E. apply (assoc_In _ reflects_string) in E.
    apply in_map_iff. eexists. split; [|exact E]. auto. }
  split; [exact T1|]. split.
  { unfold file_cells. rewrite map_map. rewrite (map_ext _ (fun p => Z.of_nat (fst p))) by (intros [n x]; unfold rid_of; cbn [fst snd]; rewrite tcell_rid; auto).
    rewrite <- (map_map fst Z.of_nat). assert (G : forall (l : list (list string)) k, map fst (combine (seq k (length l)) l) = seq k (length l)).
    { clear. induction l as [|x l IH]; intro k; cbn [length seq combine map]; [auto|]. rewrite IH. auto. }
    rewrite G. clear. generalize 0%nat. induction (length all) as [|n IH]; intro k; cbn [seq map]; constructor; [apply IH|].
    apply Forall_forall. intros z Hz. apply in_map_iff in Hz. destruct Hz as (j & <- & Hj). apply in_seq in Hj. lia. }
  intros row c t Hr Ic Et. unfold file_cells in Hr. apply in_map_iff in Hr. destruct Hr as ([n x] & <- & Hp). cbn [fst snd].
  assert (Hx : In x all) by (eapply in_combine_r; exact Hp). rewrite (tcell_file n x c Ic), (field_there x c Hx Ic). cbn [option_map].
  eexists. split; [reflexivity|]. rewrite read_type, (kind_of x c Hx Ic). rewrite (T2 c _ Ic (field_there r c (or_introl eq_refl) Ic)) in Et. injection Et as <-. auto.
Qed.

Lemma imported_cells types : types_from cols r types -> d_rows (imported (names ++ ["rid"]) types (file_cells cols all)) = file_cells cols all.
Proof.
  intros (T1 & T2 & T3). cbn [imported d_rows]. unfold file_cells. rewrite map_map. apply map_ext_in. intros [n x] Hp. cbn [fst snd].
  assert (Hx : In x all) by (eapply in_combine_r; exact Hp). rewrite map_app. cbn [map]. unfold file_row at 3. f_equal.
  - apply map_ext_in. intros c Ic. f_equal. rewrite (tcell_file n x c Ic), (field_there x c Hx Ic). cbn [option_map].
    rewrite (T2 c _ Ic (field_there r c (or_introl eq_refl) Ic)). rewrite no_b.
    + f_equal. fold (kind c). rewrite <- (kind_of x c Hx Ic), <- read_type. apply affine_id.
    + destruct Hc as (_ & _ & Nr & _). intros [<-|[<-|[<-|[]]]]; contradiction.
  - rewrite tcell_rid. cbn [option_map existsb String.eqb Ascii.eqb Bool.eqb orb]. destruct (assoc String.eqb "rid" types); auto.
Qed.
Theorem read_both w b mb p size : both inode w b mb -> unused inode w p ->
  Forall (str_no newline) r -> Forall (Forall (str_no newline)) rows \/ size = 0%nat \/ (length (lines text) <= size)%nat ->
  exists types ds m w' j, import_csv inode p text (String d "") has_header cols size w = (w', Ok j) /\
    read_mem text d has_header cols = Ok m /\ b j = None /\
    both inode w' (note b j (Some ds)) (mnote mb j (Some m)) /\ types_from cols r types /\
    d_cols ds = (names ++ ["rid"])%list /\ d_types ds = Some types /\ d_rows ds = file_cells cols all /\
    m = memory_of (names ++ ["rid"]) types (file_cells cols all).
Proof.
  intros B U N1 N2. destruct (both_inv inode w b mb B) as [I Tw].
  assert (Lr : length r = length cols) by (apply len_of; left; auto).
  destruct (import_rows d has_header cols r rows text size Hd Hc ltac:(lia) Hf N1 N2) as [H _]. destruct (H all_usable) as (types & Et & Tf).
  destruct (import_inv inode w b p text (String d "") has_header cols size types r all I U Hc Hu Hi Et Tf ltac:(lia)) as (Sf & Cd & w' & j & Ei & Hb & I' & Ex).
  unfold csv_columns in *. rewrite somes_named in *.
  assert (Sf' : safe inode w b (OCreate p (names ++ ["rid"]) types (file_cells cols all))).
  { cbn [safe] in *. destruct Sf as (S1 & S2 & S3 & S4). split; [auto|]. split; [auto|]. split; [auto|]. intros row Hr. unfold file_cells in Hr.
    apply in_map_iff in Hr. destruct Hr as ([n x] & <- & _). cbn [fst snd]. rewrite tcell_rid. eauto. }
  exists types, (imported (names ++ ["rid"]) types (file_cells cols all)), (memory_of (names ++ ["rid"]) types (file_cells cols all)), w', j.
  split; [exact Ei|]. split; [apply read_memory; exact Tf|]. split; [exact Hb|].
  assert (E : exec inode (fun l => l) (OCreate p (names ++ ["rid"]) types (file_cells cols all)) w = (w', Ok (ADs j))).
  { specialize (Ex (fun l => l)). cbn [exec] in *. unfold amap, andthen in *. rewrite <- (same_create types p w Tf). exact Ex. }
  split; [|split; [exact Tf|split; [reflexivity|split; [reflexivity|split; [|reflexivity]]]]].
  - exact (BCall inode w b mb (fun l => l) _ w' _ B (fun l => Permutation_refl l) Sf' (cells_fit mb types p Tf) E).
  - apply imported_cells; auto.
Qed.
End File.
