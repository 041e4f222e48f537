(** Saving an in-memory data set as csv and reading the file again. *)
From Coq Require Import String Ascii.
From Coq Require Import List ZArith QArith Qcanon Bool Lia.
From Verif Require Import Py PyFacts MemModel MemSpec MemFacts DbModel CsvModel CsvSpec CsvFacts CsvFacts2 CsvFacts3.
Import ListNotations.
Open Scope string_scope.
Open Scope Z_scope.

(** ** Fields as pandas writes them *)
Lemma has_char_no q s : has_char q s = false -> str_no q s.
Proof.
  induction s as [|c s IH]; intro H; [exact I|]. cbn [has_char] in H. apply orb_false_iff in H. destruct H as [H1 H2].
  split; [apply Ascii.eqb_neq; exact H1|auto].
Qed.
Lemma double_escaped s : escaped s (double_quotes s).
Proof.
  induction s as [|c s IH]; [constructor|]. cbn [double_quotes]. rewrite quote_same. destruct (Ascii.eqb_spec c quote_char) as [->|E].
  - apply esc_quote. exact IH.
  - apply esc_char; auto.
Qed.
Lemma csv_field_text s : str_no return_char s -> field_text "," (csv_field s) s.
Proof.
  intro R. unfold csv_field. destruct (has_char "," s || has_char CsvModel.quote s || has_char CsvModel.nl s)%bool eqn:E.
  - unfold quoted. rewrite quote_same. apply quoted_field. apply double_escaped.
  - apply orb_false_iff in E. destruct E as [E N]. apply orb_false_iff in E. destruct E as [C Q].
    apply raw_field; [apply has_char_no; exact C|apply has_char_no; exact Q|apply has_char_no; exact N|exact R].
Qed.
Lemma written_text fs : (2 <= length fs)%nat -> Forall (str_no return_char) fs ->
  exists t, written_line fs = with_newline t /\ record_text "," t fs.
Proof.
  intros L F. exists (String.concat "," (map csv_field fs)). split.
  - destruct fs as [|a [|b fs]]; cbn [length] in L; try lia. reflexivity.
  - split.
    + destruct fs as [|a [|b fs]]; cbn [length] in L; try lia. cbn [map]. destruct (csv_field a); discriminate.
    + exists (map csv_field fs). split; [reflexivity|]. clear L. induction F; cbn [map]; constructor; auto. apply csv_field_text. assumption.
Qed.
Lemma field_no_newline s : str_no newline s -> str_no newline (csv_field s).
Proof.
  intro N. unfold csv_field. destruct (_ || _ || _)%bool; [|exact N]. unfold quoted. split; [discriminate|].
  apply str_no_app; [apply (escaped_no s); [apply double_escaped|exact N]|split; [discriminate|exact I]].
Qed.

(** ** Types of columns *)
Lemma missing_na s : In s missing_texts -> is_na s = true.
Proof. intro H. apply (mem_b_In String.eqb reflects_string). right. exact H. Qed.
Lemma na_cases s : is_na s = true -> s = "" \/ In s missing_texts.
Proof. intro H. apply (mem_b_In String.eqb reflects_string) in H. destruct H as [<-|H]; [left; reflexivity|right; exact H]. Qed.
Lemma na_no_number s : is_na s = true -> float_of_str s = None.
Proof.
  intro H. apply (mem_b_In String.eqb reflects_string) in H. unfold na_texts in H.
  repeat (destruct H as [<-|H]; [vm_compute; reflexivity|]). destruct H.
Qed.
Lemma int_is_num s : is_int s = true -> text_type s = DInt.
Proof. unfold is_int, text_type. destruct (Z_of_str s); [reflexivity|discriminate]. Qed.

Section Mem.
Variable show : Qc -> string.

Lemma column_back t vs : vs <> [] -> column_survives show t vs ->
  column_type (map (show_value show) vs) = t /\ Forall (fun v => read_cell t (show_value show v) = Some v) vs.
Proof.
  intros Ne S. unfold column_type. destruct vs as [|v0 vs]; [congruence|]. clear Ne. set (l := v0 :: vs) in *.
  replace (match map (show_value show) l with [] => true | _ => false end) with false by reflexivity.
  destruct t; cbn [column_survives] in S.
  - replace (forallb is_int (map (show_value show) l)) with true.
    2: { symmetry. apply forallb_forall. intros s Hs. apply in_map_iff in Hs. destruct Hs as (v & <- & Hv). destruct (S v Hv) as (z & ->).
         cbn [show_value]. unfold is_int. rewrite Z_of_str_of_Z. reflexivity. }
    split; [reflexivity|]. apply Forall_forall. intros v Hv. destruct (S v Hv) as (z & ->). cbn [show_value read_cell]. rewrite Z_of_str_of_Z. reflexivity.
  - replace (forallb is_int (map (show_value show) l)) with false.
    2: { symmetry. destruct (S v0 (or_introl eq_refl)) as (q & E & (_ & _ & Pz)). unfold l. cbn [map forallb]. rewrite E. cbn [show_value].
         unfold is_int at 1. rewrite Pz. reflexivity. }
    replace (forallb (fun s => (is_na s || is_num s)%bool) (map (show_value show) l)) with true.
    2: { symmetry. apply forallb_forall. intros s Hs. apply in_map_iff in Hs. destruct Hs as (v & <- & Hv). destruct (S v Hv) as (q & -> & (_ & P & _)).
         cbn [show_value]. unfold is_num. rewrite P. apply orb_true_r. }
    split; [reflexivity|]. apply Forall_forall. intros v Hv. destruct (S v Hv) as (q & -> & (_ & P & _)). cbn [show_value read_cell].
    destruct (is_na (show q)) eqn:Na; [rewrite (na_no_number _ Na) in P; discriminate|]. rewrite P. reflexivity.
  - destruct S as [S [X|(s0 & In0 & Ne0 & Tt)]]; [discriminate|].
    assert (N0 : is_int s0 = false) by (unfold is_int; unfold text_type in Tt; destruct (Z_of_str s0); [discriminate|reflexivity]).
    assert (M0 : (is_na s0 || is_num s0)%bool = false).
    { apply orb_false_iff. split.
      - destruct (is_na s0) eqn:Na; [|reflexivity]. destruct (na_cases _ Na) as [->|X]; [congruence|].
        destruct (S _ In0) as (s & E & _ & Nm). injection E as <-. contradiction.
      - unfold is_num. unfold text_type in Tt. destruct (Z_of_str s0); [discriminate|]. destruct (float_of_str s0); [discriminate|reflexivity]. }
    assert (F : forall f, f s0 = false -> forallb f (map (show_value show) l) = false).
    { intros f Hf. apply not_true_is_false. intro X. rewrite forallb_forall in X. rewrite (X s0) in Hf; [discriminate|].
      apply in_map_iff. exists (VStr s0). auto. }
    rewrite (F _ N0), (F (fun s => (is_na s || is_num s)%bool) M0). split; [reflexivity|].
    apply Forall_forall. intros v Hv. destruct (S v Hv) as (s & -> & _ & Nm). cbn [show_value read_cell]. destruct (is_na s) eqn:Na; [|reflexivity].
    destruct (na_cases _ Na) as [->|X]; [reflexivity|contradiction].
Qed.

(** ** The frame read from the file *)
Lemma named_combine {B} ns (l : list B) : named (combine (map Some ns) l) = combine ns l.
Proof. revert l. induction ns as [|c ns IH]; intros [|b l]; cbn; try reflexivity. rewrite IH. reflexivity. Qed.
Lemma combine_index {B C} (g : nat -> B) (h : string * B -> C) (k : string -> C) ns : forall j,
  (forall i c, nth_error ns i = Some c -> h (c, g (j + i)%nat) = k c) ->
  map h (combine ns (map g (seq j (length ns)))) = map k ns.
Proof.
  induction ns as [|c ns IH]; intros j H; [reflexivity|]. cbn [length seq map combine]. f_equal.
  - specialize (H 0%nat c eq_refl). rewrite Nat.add_0_r in H. exact H.
  - apply IH. intros i c' Hi. specialize (H (S i) c' Hi). rewrite Nat.add_succ_comm. exact H.
Qed.
Lemma nth_map_error (f : string -> string) ns : forall i c, nth_error ns i = Some c -> nth i (map f ns) "" = f c.
Proof. induction ns as [|c0 ns IH]; intros [|i] c H; try discriminate; cbn in *; [congruence|auto]. Qed.

(** [vals r c] is the cell of row [r] in column [c]. *)
Lemma read_back {R} (vals : R -> string -> value) ns (types : string -> dtype) (rows : list R) :
  incl ["user"; "item"; "interaction"] ns -> rows <> [] ->
  (forall c, In c ns -> column_survives show (types c) (map (fun r => vals r c) rows)) ->
  forall text header, csv_file "," header (map (fun r => map (fun c => show_value show (vals r c)) ns) rows) text ->
  read_csv_mem text "," header (map Some ns) =
    Ok (map (fun c => (c, types c)) ns, map (fun r => map (fun c => (c, Some (vals r c))) ns) rows).
Proof.
  intros Rq Ne Sv text header F. unfold read_csv_mem.
  assert (E := reader_file "," header _ text ltac:(repeat split; discriminate) F). unfold body_lines in E. rewrite E. cbn [bind].
  set (txt := map (fun r => map (fun c => show_value show (vals r c)) ns) rows) in *.
  assert (Nn : ns <> []) by (intros ->; exact (Rq "user" ltac:(cbn; auto))).
  replace (filter (fun r : list string => negb match r with [] => true | _ => false end) txt) with txt.
  2: { symmetry. apply filter_all. intros r Hr. apply in_map_iff in Hr. destruct Hr as (x & <- & _). destruct ns; [congruence|reflexivity]. }
  replace (forallb (fun r : list string => Nat.eqb (length r) (length (map Some ns))) txt) with true.
  2: { symmetry. apply forallb_forall. intros r Hr. apply in_map_iff in Hr. destruct Hr as (x & <- & _). rewrite !map_length. apply Nat.eqb_refl. }
  cbn [negb].
  assert (Ct : forall i c, nth_error ns i = Some c -> column_texts i txt = map (show_value show) (map (fun r => vals r c) rows)).
  { intros i c Hi. unfold column_texts, txt. rewrite !map_map. apply map_ext. intro r. apply (nth_map_error (fun c => show_value show (vals r c))). exact Hi. }
  assert (Ne' : forall c, map (fun r => vals r c) rows <> []) by (intro c; destruct rows; [congruence|discriminate]).
  assert (Ety : forall i c, nth_error ns i = Some c -> column_type (column_texts i txt) = types c /\
      Forall (fun v => read_cell (types c) (show_value show v) = Some v) (map (fun r => vals r c) rows)).
  { intros i c Hi. rewrite (Ct i c Hi). apply column_back; [apply Ne'|]. apply Sv. exact (nth_error_In _ _ Hi). }
  unfold typed_columns. rewrite map_length, named_combine.
  assert (Efst : map fst (combine ns (map (fun k => (k, column_type (column_texts k txt))) (seq 0 (length ns)))) = ns).
  { rewrite (combine_index (fun k => (k, column_type (column_texts k txt))) fst (fun c => c) ns 0) by reflexivity. apply map_id. }
  rewrite Efst.
  replace (forallb (fun c => in_cols c ns) ["user"; "item"; "interaction"]) with true.
  2: { symmetry. apply forallb_forall. intros c Hc. apply (mem_b_In String.eqb reflects_string). apply Rq. exact Hc. }
  cbn [negb]. f_equal. f_equal.
  - apply combine_index. intros i c Hi. cbn [fst snd]. rewrite Nat.add_0_l, (proj1 (Ety i c Hi)). reflexivity.
  - unfold txt at 2. rewrite map_map. apply map_ext_in. intros r Hr. apply combine_index. intros i c Hi. cbn [fst snd]. rewrite Nat.add_0_l.
    destruct (Ety i c Hi) as [E1 E2]. rewrite E1. rewrite (nth_map_error (fun c => show_value show (vals r c)) ns i c Hi). f_equal.
    rewrite Forall_forall in E2. apply E2. apply in_map_iff. exists r. auto.
Qed.

(** ** The call *)
Definition value_at (r : row) (c : string) : value := match cell r c with Some v => v | None => VInt 0 end.
Lemma survives_return t vs v : column_survives show t vs -> In v vs -> str_no return_char (show_value show v).
Proof.
  intros S H. destruct t; cbn [column_survives] in S.
  - destruct (S v H) as (z & ->). cbn [show_value]. apply (no_char_Z return_char z). unfold digit_char; cbn; intuition discriminate.
  - destruct (S v H) as (q & -> & (C & _)). apply C.
  - destruct S as [S _]. destruct (S v H) as (s & -> & R & _). exact R.
Qed.
Theorem mem_csv_round_trip m columns header (types : string -> dtype) : NoDup (m_columns m) ->
  incl ["user"; "item"; "interaction"] (m_columns m) -> rows_of m <> [] ->
  (forall r c, In r (rows_of m) -> In c (written_columns (m_columns m)) -> cell r c <> None) ->
  (forall c, In c (written_columns (m_columns m)) -> column_survives show (types c) (map (fun r => value_at r c) (rows_of m))) ->
  (header = true -> Forall (fun c => str_no newline c) (m_columns m)) ->
  exists text, mem_save show m columns header = Ok text /\
    read_csv_mem text "," header (map Some (written_columns (m_columns m))) =
      Ok (map (fun c => (c, types c)) (written_columns (m_columns m)),
          map (fun r => map (fun c => (c, cell r c)) (written_columns (m_columns m))) (rows_of m)).
Proof.
  intros ND Rq Ne Hc Sv Hh. unfold mem_save. rewrite (strip_written _ ND). set (ns := written_columns (m_columns m)) in *.
  assert (Rn : incl ["user"; "item"; "interaction"] ns).
  { intros c H. apply filter_In. split; [apply Rq; exact H|]. destruct H as [<-|[<-|[<-|[]]]]; reflexivity. }
  assert (L2 : (2 <= length ns)%nat).
  { assert (A := Rn "user" ltac:(cbn; auto)). assert (B := Rn "item" ltac:(cbn; auto)).
    destruct ns as [|a [|b l]]; cbn [length]; [destruct A| |lia]. destruct A as [->|[]]. destruct B as [B|[]]. discriminate. }
  assert (Em : mapM (fun r => mapM (fun c => match cell r c with Some v => Ok (show_value show v) | None => Err KeyError end) ns) (rows_of m)
     = Ok (map (fun r => map (fun c => show_value show (value_at r c)) ns) (rows_of m))).
  { assert (G : forall r, In r (rows_of m) -> forall l, incl l ns -> mapM (fun c => match cell r c with Some v => Ok (show_value show v) | None => Err KeyError end) l = Ok (map (fun c => show_value show (value_at r c)) l)).
    { intros r Hr. induction l as [|c l IH]; intro Il; [reflexivity|]. cbn [mapM map]. unfold value_at at 1. destruct (cell r c) as [v|] eqn:Ec.
      - cbn [bind]. rewrite IH; [reflexivity|]. intros x Hx. apply Il. right. exact Hx.
      - destruct (Hc r c Hr (Il c (or_introl eq_refl)) Ec). }
    assert (G2 : forall rs, incl rs (rows_of m) -> mapM (fun r => mapM (fun c => match cell r c with Some v => Ok (show_value show v) | None => Err KeyError end) ns) rs
       = Ok (map (fun r => map (fun c => show_value show (value_at r c)) ns) rs)).
    { induction rs as [|r rs IH]; intro Ir; [reflexivity|]. cbn [mapM map]. rewrite (G r (Ir r (or_introl eq_refl)) ns (incl_refl ns)). cbn [bind].
      rewrite IH; [reflexivity|]. intros x Hx. apply Ir. right. exact Hx. }
    apply G2. apply incl_refl. }
  rewrite Em. cbn [bind]. eexists. split; [reflexivity|].
  assert (Er : forall r, In r (rows_of m) -> Forall (str_no return_char) (map (fun c => show_value show (value_at r c)) ns)).
  { intros r Hr. apply Forall_forall. intros s Hs. apply in_map_iff in Hs. destruct Hs as (c & <- & Hcn).
    apply (survives_return (types c) (map (fun r => value_at r c) (rows_of m))); [apply Sv; exact Hcn|]. apply in_map_iff. exists r. auto. }
  rewrite (read_back value_at ns types (rows_of m) Rn Ne Sv).
  - f_equal. f_equal. apply map_ext_in. intros r Hr. apply map_ext_in. intros c Hcn. unfold value_at.
    destruct (cell r c) eqn:E; [reflexivity|]. destruct (Hc r c Hr Hcn E).
  - (* the file *)
    assert (Gt : exists ts, Forall2 (record_text ",") ts (map (fun r => map (fun c => show_value show (value_at r c)) ns) (rows_of m)) /\
       map written_line (map (fun r => map (fun c => show_value show (value_at r c)) ns) (rows_of m)) = map with_newline ts).
    { clear Em Sv Ne Hc. revert Er. generalize (rows_of m). induction l as [|r l IH]; intro Er; [exists []; split; [constructor|reflexivity]|].
      destruct IH as (ts & F & E); [intros x Hx; apply Er; right; exact Hx|].
      destruct (written_text (map (fun c => show_value show (value_at r c)) ns)) as (t & Et & R); [rewrite map_length; exact L2|apply Er; left; reflexivity|].
      exists (t :: ts). split; [constructor; auto|]. cbn [map]. rewrite Et, E. reflexivity. }
    destruct Gt as (ts & F & Et). rewrite Et.
    exists (if header then String.concat "," (map csv_field ns) else ""), ts. split; [exact F|]. split.
    + destruct header; [|reflexivity]. apply concat_no; [split; [discriminate|exact I]|]. apply Forall_forall. intros s Hs. apply in_map_iff in Hs.
      destruct Hs as (c & <- & Hcn). apply field_no_newline. specialize (Hh eq_refl). rewrite Forall_forall in Hh. apply Hh. apply filter_In in Hcn. tauto.
    + left. destruct header; [|reflexivity]. f_equal. destruct ns as [|a [|b l]]; cbn [length] in L2; try lia. reflexivity.
Qed.
End Mem.
