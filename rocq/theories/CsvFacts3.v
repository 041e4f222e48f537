(** Saving a database data set as csv and importing the file again. *)
From Coq Require Import String Ascii.
From Coq Require Import List ZArith QArith Qcanon Bool Lia Permutation.
From Verif Require Import Py PyFacts MemModel MemSpec MemFacts DbModel DbFacts3 DbFacts7 DbSpec DbFacts13 DbFacts14 DbFacts15 DbFacts17.
From Verif Require Import CsvModel CsvSpec CsvFacts CsvFacts2.
Import ListNotations.
Open Scope string_scope.
Open Scope Z_scope.

(** ** Columns *)
Lemma filter_all {A} (f : A -> bool) l : (forall x, In x l -> f x = true) -> filter f l = l.
Proof. induction l as [|a l IH]; intro H; [reflexivity|]. cbn [filter]. rewrite (H a) by (left; reflexivity). rewrite IH; [reflexivity|]. intros x Hx. apply H. right. exact Hx. Qed.
Lemma remove_first_filter c l : NoDup l -> remove_first String.eqb c l = filter (fun x => negb (String.eqb c x)) l.
Proof.
  intro N. induction N as [|x l Nx N IH]; [reflexivity|]. cbn [remove_first filter]. destruct (String.eqb_spec c x) as [->|E]; cbn [negb].
  - symmetry. apply filter_all. intros y Hy. destruct (String.eqb_spec x y); [congruence|reflexivity].
  - rewrite IH. reflexivity.
Qed.
Lemma filter_filter {A} (f g : A -> bool) l : filter f (filter g l) = filter (fun x => (f x && g x)%bool) l.
Proof. induction l as [|a l IH]; [reflexivity|]. cbn [filter]. destruct (g a) eqn:G; cbn [filter]; rewrite ?G, IH; destruct (f a); reflexivity. Qed.
Lemma strip_written l : NoDup l -> strip_ids l = written_columns l.
Proof.
  intro N. unfold strip_ids, written_columns. rewrite (remove_first_filter "rid" l N).
  rewrite (remove_first_filter "uid") by (apply NoDup_filter; exact N).
  rewrite (remove_first_filter "iid") by (apply NoDup_filter, NoDup_filter; exact N).
  rewrite !filter_filter. apply filter_ext. intro c. cbn [existsb]. rewrite !(String.eqb_sym c).
  destruct (String.eqb "rid" c), (String.eqb "uid" c), (String.eqb "iid" c); reflexivity.
Qed.
Lemma named_all ns : named_columns (map Some ns) = ns.
Proof. induction ns as [|c ns IH]; [reflexivity|]. cbn. rewrite IH. reflexivity. Qed.
Lemma field_all (f : string -> string) ns c : In c ns -> field_of (map Some ns) (map f ns) c = Some (f c).
Proof.
  induction ns as [|c0 ns IH]; [intros []|]. intro H. cbn [map field_of]. destruct (String.eqb_spec c0 c) as [->|E]; [reflexivity|].
  destruct H as [H|H]; [congruence|auto].
Qed.

(** ** Values *)
Section Show.
Variable show : Qc -> string.

Lemma int_text z : text_type (str_of_Z z) = DInt.
Proof. unfold text_type. rewrite Z_of_str_of_Z. reflexivity. Qed.
Lemma no_char_Z q z : ~ digit_char q -> str_no q (str_of_Z z).
Proof. intro H. apply (str_all_no digit_char); [apply str_of_Z_digits|exact H]. Qed.
Lemma clean_Z z : clean (str_of_Z z).
Proof. repeat split; apply no_char_Z; unfold digit_char; cbn; intuition discriminate. Qed.
Lemma clean_value c v : survives show c v -> clean (show_value show v).
Proof. destruct v as [z|q|s]; cbn [survives show_value]; [intros _; apply clean_Z|intros (H & _); exact H|intros (_ & H & _); exact H]. Qed.
Lemma value_type c v : survives show c v -> text_type (show_value show v) = type_of v.
Proof.
  destruct v as [z|q|s]; cbn [survives show_value type_of]; [intros _; apply int_text| |intros (_ & _ & H); exact H].
  intros (_ & F & N). unfold text_type. rewrite N, F. reflexivity.
Qed.
Lemma integral_Z z : int_if_integral (Qc_of_Z z) = VInt z.
Proof.
  unfold int_if_integral, Qc_of_Z. assert (E : this (Q2Qc (inject_Z z)) = inject_Z z).
  { cbn [this Q2Qc]. unfold inject_Z, Qred. rewrite (surjective_pairing (Z.ggcd z 1)). rewrite (surjective_pairing (snd (Z.ggcd z 1))).
    pose proof (Z.ggcd_gcd z 1) as G. pose proof (Z.ggcd_correct_divisors z 1) as C. destruct (Z.ggcd z 1) as (g & a & b). cbn [fst snd] in *.
    rewrite Z.gcd_1_r in G. subst g. destruct C as [C1 C2]. rewrite !Z.mul_1_l in *. subst a b. reflexivity. }
  rewrite E. reflexivity.
Qed.
(** the value given to the database, stored in a column of the type of the text *)
Lemma value_back c v : survives show c v -> exists g, given c (show_value show v) = Some g /\ affine (type_of v) g = v.
Proof.
  intro S. unfold given. destruct (String.eqb_spec c "interaction") as [Ec|Ec].
  - destruct v as [z|q|s]; cbn [survives show_value type_of] in *.
    + exists (VFlt (Qc_of_Z z)). rewrite float_of_str_Z by auto. split; [reflexivity|]. cbn [affine]. apply integral_Z.
    + destruct S as (_ & F & _). rewrite F. exists (VFlt q). auto.
    + destruct S. congruence.
  - exists (VStr (show_value show v)). split; [reflexivity|]. destruct v as [z|q|s]; cbn [survives show_value type_of affine] in *.
    + rewrite Z_of_str_of_Z. reflexivity.
    + destruct S as (_ & F & _). rewrite F. reflexivity.
    + reflexivity.
Qed.

(** ** The text of the file *)
Definition line_of (row : list (option value)) : string := String.concat "," (map (show_cell show) row).
Lemma csv_line_many row : (2 <= length row)%nat -> csv_line show row = Ok (with_newline (line_of row)).
Proof. destruct row as [|a [|b row]]; cbn [length]; try lia. intros _. cbn [csv_line]. destruct a as [[]|]; reflexivity. Qed.
Lemma mapM_lines rows : Forall (fun r => (2 <= length r)%nat) rows -> mapM (csv_line show) rows = Ok (map (fun r => with_newline (line_of r)) rows).
Proof. intro F. induction F as [|r rows L F IH]; [reflexivity|]. cbn [mapM map]. rewrite (csv_line_many r L), IH. reflexivity. Qed.

Lemma record_line (fs : list string) : (2 <= length fs)%nat -> Forall clean fs -> record_text "," (String.concat "," fs) fs.
Proof.
  intros L F. split; [destruct fs as [|f [|f2 fs]]; cbn [length] in L; try lia; destruct f; discriminate|].
  exists fs. split; [reflexivity|]. clear L. induction F as [|f fs (A & B & C & D) F IH]; constructor; [constructor; auto|exact IH].
Qed.
Lemma csv_file_of header h (rows : list (list string)) : Forall (fun r => (2 <= length r)%nat /\ Forall clean r) rows ->
  (header = true -> str_no newline h) ->
  csv_file "," header rows ((if header then with_newline h else "") ++ String.concat "" (map (fun r => with_newline (String.concat "," r)) rows)).
Proof.
  intros F N. exists (if header then h else ""), (map (String.concat ",") rows). split.
  - induction F as [|r rows (L & C) F IH]; cbn [map]; constructor; [apply record_line; auto|exact IH].
  - split; [destruct header; auto|]. cbn zeta. left. rewrite map_map. destruct header; reflexivity.
Qed.

(** ** Reading the rows back *)
Section Back.
Variables (ns : list string) (rows : list trow).
Hypothesis Cols : columns_ok (map Some ns).
Hypothesis Sv : all_survive show ns rows.

Definition texts (row : trow) : list string := map (fun c => show_cell show (tcell row c)) ns.
Lemma ns_nodup : NoDup ns.
Proof. destruct Cols as (_ & N & _). rewrite named_all in N. exact N. Qed.
Lemma ns_two : (2 <= length ns)%nat.
Proof.
  destruct Cols as (I & _). rewrite named_all in I. assert (A := I "user" ltac:(cbn; auto)). assert (B := I "item" ltac:(cbn; auto)).
  destruct ns as [|a [|b l]]; cbn [length]; [destruct A| |lia]. destruct A as [->|[]]. destruct B as [B|[]]. discriminate.
Qed.
Lemma texts_clean row : In row rows -> Forall clean (texts row).
Proof.
  intro H. apply Forall_forall. intros s Hs. apply in_map_iff in Hs. destruct Hs as (c & <- & Hc).
  destruct (Sv c Hc) as (t & Ht). destruct (Ht row H) as (v & Ev & _ & S). rewrite Ev. exact (clean_value c v S).
Qed.
Lemma texts_usable row : In row rows -> usable (map Some ns) (texts row).
Proof.
  intros H c Hc. rewrite named_all in Hc. unfold texts. rewrite (field_all _ ns c Hc). destruct (Sv c Hc) as (t & Ht). destruct (Ht row H) as (v & Ev & _ & S).
  destruct (value_back c v S) as (g & G & _). rewrite Ev. exists (show_value show v), g. auto.
Qed.
Lemma texts_newline row : In row rows -> Forall (str_no newline) (texts row).
Proof. intro H. eapply Forall_impl; [|exact (texts_clean row H)]. intros s (_ & _ & N & _). exact N. Qed.

Lemma tcell_line n fields c : In c ns -> tcell (line_row (map Some ns) n fields) c =
  match field_of (map Some ns) fields c with Some f => given c f | None => None end.
Proof.
  intro Hc. unfold line_row, tcell. rewrite named_all.
  assert (G : forall l rest, In c l -> assoc String.eqb c (map (fun c => (c, match field_of (map Some ns) fields c with Some f => given c f | None => None end)) l ++ rest)
     = Some (match field_of (map Some ns) fields c with Some f => given c f | None => None end)).
  { induction l as [|c0 l IH]; intros rest H; [destruct H|]. cbn [map app assoc]. destruct (String.eqb_spec c c0) as [->|E]; [reflexivity|].
    apply IH. destruct H; [congruence|auto]. }
  rewrite G by exact Hc. reflexivity.
Qed.
Lemma cell_back first row n types : In first rows -> In row rows -> types_from (map Some ns) (texts first) types -> forall c, In c ns ->
  option_map (affine (match assoc String.eqb c types with
                      | Some t => if existsb (String.eqb c) ["rid"; "uid"; "iid"] then DInt else t
                      | None => DInt end)) (tcell (line_row (map Some ns) n (texts row)) c)
  = (if existsb (String.eqb c) ["uid"; "iid"] then option_map (affine DInt) (tcell (line_row (map Some ns) n (texts row)) c) else tcell row c).
Proof.
  intros Hf Hr (Tr & Tc & _) c Hc. destruct Cols as (_ & _ & Nr & _). rewrite named_all in Nr.
  assert (Er : String.eqb c "rid" = false) by (apply String.eqb_neq; congruence).
  destruct (Sv c Hc) as (t & Ht). destruct (Ht row Hr) as (v & Ev & Et & S). destruct (Ht first Hf) as (v0 & Ev0 & Et0 & S0).
  assert (F0 : field_of (map Some ns) (texts first) c = Some (show_value show v0)).
  { unfold texts. rewrite (field_all _ ns c Hc), Ev0. reflexivity. }
  rewrite (Tc c _ ltac:(rewrite named_all; exact Hc) F0), (value_type c v0 S0), Et0.
  cbn [existsb]. rewrite Er. cbn [orb]. destruct (String.eqb c "uid" || (String.eqb c "iid" || false))%bool; [reflexivity|].
  rewrite (tcell_line n (texts row) c Hc). unfold texts at 1. rewrite (field_all _ ns c Hc), Ev. cbn [show_cell].
  destruct (value_back c v S) as (g & G & A). rewrite G. cbn [option_map]. rewrite <- Et, A. reflexivity.
Qed.
End Back.

Lemma tcell_project (f : string -> option value) l c : In c l -> tcell (map (fun c => (c, f c)) l) c = f c.
Proof.
  unfold tcell. induction l as [|c0 l IH]; [intros []|]. intro H. cbn [map assoc]. destruct (String.eqb_spec c c0) as [->|E]; [reflexivity|].
  apply IH. destruct H; [congruence|auto].
Qed.
Definition no_ids (ns : list string) : Prop := ~ In "uid" ns /\ ~ In "iid" ns.
Lemma imported_back ns rows first (L : list (nat * trow)) types : columns_ok (map Some ns) -> no_ids ns -> all_survive show ns rows ->
  In first rows -> Forall (fun p => In (snd p) rows) L -> types_from (map Some ns) (texts ns first) types ->
  map (cells ns) (d_rows (imported (ns ++ ["rid"]) types (map (fun p => line_row (map Some ns) (fst p) (texts ns (snd p))) L))) = map (cells ns) (map snd L).
Proof.
  intros Co (Nu & Ni) Sv Hf F Tf. cbn [imported d_rows]. rewrite !map_map. apply map_ext_in. intros [n row] HL.
  rewrite Forall_forall in F. specialize (F _ HL). cbn [fst snd] in *. unfold cells. apply map_ext_in. intros c Hc.
  rewrite tcell_project by (apply in_app_iff; auto).
  rewrite (cell_back ns rows Co Sv first row n types Hf F Tf c Hc).
  replace (existsb (String.eqb c) ["uid"; "iid"]) with false; [reflexivity|]. symmetry. cbn [existsb].
  destruct (String.eqb_spec c "uid") as [->|]; [contradiction|]. destruct (String.eqb_spec c "iid") as [->|]; [contradiction|]. reflexivity.
Qed.
End Show.

(** ** The call *)
Section Call.
Variable show : Qc -> string.
Variable inode : string -> nat.
Notation Inv := (Inv inode).

Lemma written_incl l : incl (written_columns l) l.
Proof. intros c H. apply filter_In in H. tauto. Qed.
Lemma save_values ord w b i d columns header w' r : permuting ord -> Inv w b -> b i = Some d -> NoDup (asked d columns) ->
  incl (asked d columns) (d_cols d) -> complete d \/ at_rest w i ->
  save_csv show inode ord i columns header w = (w', r) ->
  Inv w' b /\ exists vals, Permutation vals (map (cells (written_columns (asked d columns))) (d_rows d)) /\
    r = (ls <- mapM (csv_line show) vals ;;
         Ok ((if header then with_newline (String.concat "," (written_columns (asked d columns))) else "") ++ String.concat "" ls,
             option_map (fun _ => written_columns (asked d columns)) columns)).
Proof.
  intros Po I Hb ND Ic Cr E. pose proof (inv_ds _ _ _ I i d Hb) as Sh. destruct (shows_inst inode w i d Sh) as (x & H & C & _).
  unfold save_csv in E. unfold andthen at 1, self in E. rewrite H in E. unfold lift at 1 in E. unfold andthen at 1 in E.
  assert (Eh : DbModel.handle_columns x columns = Ok (asked d columns)).
  { unfold DbModel.handle_columns, asked in *. rewrite C. replace (forallb _ _) with true; [reflexivity|]. symmetry.
    apply forallb_forall. intros c Hc. apply (mem_b_In String.eqb reflects_string). apply Ic. exact Hc. }
  rewrite Eh in E. rewrite (strip_written _ ND) in E. set (cs := written_columns (asked d columns)) in *.
  unfold andthen at 1 in E. destruct (values inode ord i (Some cs) false w) as [w1 r1] eqn:Ev.
  assert (Ea : amap ARows (values inode ord i (Some cs) false) w = (w1, match r1 with Ok a => Ok (ARows a) | Err e => Err e end)).
  { unfold amap, andthen, ret. rewrite Ev. destruct r1; reflexivity. }
  destruct (step_values inode ord w b i (Some cs) w1 _ false Po I ltac:(congruence) Ea) as [I1 A]. cbn [effect] in I1.
  destruct r1 as [vals|e].
  - cbn [answered fresh_result] in A. destruct A as [A _]. destruct (A i d eq_refl Hb) as (rows & Er & P). injection Er as <-.
    unfold lift, andthen, ret in E. assert (Ew : w' = w1) by (destruct (mapM (csv_line show) vals); injection E as <- _; reflexivity). subst w'.
    split; [exact I1|]. exists vals. split; [exact P|]. cbn [asked]. unfold with_newline.
    destruct (mapM (csv_line show) vals); injection E as <-; reflexivity.
  - exfalso. apply A. exists d. split; [exact Hb|]. split; [exact Cr|]. cbn [asked]. unfold cs. intros c Hc. apply Ic. apply written_incl. exact Hc.
Qed.

Lemma assoc_skip (f : string -> option value) ns c v : ~ In c ns -> assoc String.eqb c (map (fun x => (x, f x)) ns ++ [(c, v)]) = Some v.
Proof.
  induction ns as [|x ns IH]; intro N; cbn [map app assoc]; [rewrite String.eqb_refl; reflexivity|].
  destruct (String.eqb_spec c x) as [->|E]; [destruct N; left; reflexivity|]. apply IH. intro X. apply N. right. exact X.
Qed.
Lemma perm_rows {A B} (f : A -> B) l : forall m, Permutation m (map f l) -> exists l', Permutation l' l /\ m = map f l'.
Proof. intros m P. destruct (Permutation_map_inv f l P) as (l' & E & Q). exists l'. split; [apply Permutation_sym; exact Q|exact E]. Qed.

Theorem csv_round_trip ord w b i d columns header w' r size : permuting ord -> Inv w b -> b i = Some d -> NoDup (asked d columns) ->
  incl (asked d columns) (d_cols d) -> complete d \/ at_rest w i ->
  incl ["user"; "item"; "interaction"] (asked d columns) -> d_rows d <> [] ->
  all_survive show (written_columns (asked d columns)) (d_rows d) ->
  (header = true -> Forall (str_no newline) (asked d columns)) ->
  save_csv show inode ord i columns header w = (w', r) ->
  exists text types rows,
    r = Ok (text, option_map (fun _ => written_columns (asked d columns)) columns) /\
    csv_table text "," header (map Some (written_columns (asked d columns))) size = Ok (types, rows) /\
    (exists first recs, rows = file_rows (map Some (written_columns (asked d columns))) recs /\
       types_from (map Some (written_columns (asked d columns))) first types /\ length first = length (written_columns (asked d columns))) /\
    Permutation (map (cells (written_columns (asked d columns))) (d_rows (imported (written_columns (asked d columns) ++ ["rid"]) types rows)))
                (map (cells (written_columns (asked d columns))) (d_rows d)) /\
    map rid_of rows = map Z.of_nat (seq 0 (length (d_rows d))).
Proof.
  intros Po I Hb ND Ic Cr Rq Ne Sv Hh E. destruct (save_values ord w b i d columns header w' r Po I Hb ND Ic Cr E) as (_ & vals & P & ->).
  set (ns := written_columns (asked d columns)) in *.
  assert (Nn : NoDup ns) by (apply NoDup_filter; exact ND).
  assert (Hid : forall c, In c ns -> c <> "rid" /\ c <> "uid" /\ c <> "iid").
  { intros c Hc. apply filter_In in Hc. destruct Hc as [_ Hc]. repeat split; intros ->; discriminate. }
  assert (Co : columns_ok (map Some ns)).
  { unfold columns_ok. rewrite named_all, map_length. split; [|split; [exact Nn|split; [intro X; apply Hid in X; tauto|lia]]].
    intros c Hc. apply filter_In. split; [apply Rq; exact Hc|]. destruct Hc as [<-|[<-|[<-|[]]]]; reflexivity. }
  assert (Nid : no_ids ns) by (split; intro X; apply Hid in X; tauto).
  destruct (perm_rows _ _ _ P) as (rows & Pr & Ev).
  assert (Sr : all_survive show ns rows).
  { intros c Hc. destruct (Sv c Hc) as (t & Ht). exists t. intros row Hr. apply Ht. apply (Permutation_in _ Pr). exact Hr. }
  assert (L2 : (2 <= length ns)%nat) by (eapply ns_two; eauto).
  assert (Eml : mapM (csv_line show) vals = Ok (map (fun r => with_newline (String.concat "," r)) (map (texts show ns) rows))).
  { rewrite mapM_lines.
    - f_equal. rewrite Ev, !map_map. apply map_ext. intro row. unfold line_of, cells, texts. rewrite map_map. reflexivity.
    - rewrite Ev. apply Forall_forall. intros v Hv. apply in_map_iff in Hv. destruct Hv as (row & <- & _). unfold cells. rewrite map_length. exact L2. }
  rewrite Eml. cbn [bind].
  set (text := (if header then with_newline (String.concat "," ns) else "") ++ String.concat "" (map (fun r => with_newline (String.concat "," r)) (map (texts show ns) rows))).
  assert (Cf : csv_file "," header (map (texts show ns) rows) text).
  { apply csv_file_of.
    - apply Forall_forall. intros v Hv. apply in_map_iff in Hv. destruct Hv as (row & <- & Hr). split.
      + unfold texts. rewrite map_length. exact L2.
      + exact (texts_clean show ns rows Sr row Hr).
    - intro Ht. apply concat_no; [split; [discriminate|exact Logic.I]|]. apply Forall_forall. intros c Hc. specialize (Hh Ht). rewrite Forall_forall in Hh. apply Hh. apply written_incl. exact Hc. }
  destruct rows as [|first rest]; [apply Permutation_nil in Pr; congruence|].
  cbn [map] in Cf.
  assert (Nl : Forall (Forall (str_no newline)) (texts show ns first :: map (texts show ns) rest)).
  { apply (Forall_map (texts show ns) (Forall (str_no newline)) (first :: rest)). apply Forall_forall. intros row Hr. exact (texts_newline show ns _ Sr row Hr). }
  inversion Nl as [|? ? N1 N2]; subst.
  destruct (import_rows "," header (map Some ns) (texts show ns first) (map (texts show ns) rest) text size) as [Hok _]; auto.
  { repeat split; discriminate. }
  { unfold texts. rewrite !map_length. lia. }
  assert (U : Forall (usable (map Some ns)) (map (texts show ns) (first :: rest))).
  { apply Forall_map. apply Forall_forall. intros row Hr. exact (texts_usable show ns _ Sr row Hr). }
  destruct (Hok U) as (types & Ec & Tf). exists text, types. eexists. split; [reflexivity|]. split; [exact Ec|].
  split; [eexists; eexists; split; [reflexivity|]; split; [exact Tf|unfold texts; apply map_length]|].
  assert (Ef : file_rows (map Some ns) (map (texts show ns) (first :: rest)) =
     map (fun p => line_row (map Some ns) (fst p) (texts show ns (snd p))) (combine (seq 0 (length (first :: rest))) (first :: rest))).
  { unfold file_rows. rewrite map_length. generalize 0%nat. generalize (first :: rest). induction l as [|a l IH]; intro n; [reflexivity|].
    cbn [map length seq combine fst snd]. rewrite IH. reflexivity. }
  cbn [map] in Ef. rewrite Ef.
  assert (Esn : forall n (l : list trow), map snd (combine (seq n (length l)) l) = l).
  { intros n l. revert n. induction l as [|a l IH]; intro n; [reflexivity|]. cbn. rewrite IH. reflexivity. }
  split.
  - rewrite (imported_back show ns (first :: rest) first _ types Co Nid Sr); [|left; reflexivity| |exact Tf].
    + rewrite Esn. apply Permutation_map. exact Pr.
    + apply Forall_forall. intros [n row] Hp. apply in_combine_r in Hp. exact Hp.
  - rewrite map_map, <- (Permutation_length Pr). generalize 0%nat. generalize (first :: rest). induction l as [|a l IH]; intro n; [reflexivity|].
    cbn [length seq combine map fst]. rewrite IH. f_equal. unfold rid_of, tcell, line_row. rewrite named_all.
    rewrite assoc_skip; [reflexivity|]. intro X. apply Hid in X. tauto.
Qed.
End Call.
