(** Properties C59, C60 (saving) and C61: csv files. *)
From Coq Require Import String Ascii.
From Coq Require Import List ZArith QArith Qcanon Bool Permutation Lia.
From Verif Require Import Py PyFacts MemModel MemSpec DbModel DbFacts3 DbFacts7 DbSpec DbFacts13 DbFacts14 DbFacts15 DbFacts17 DbCheck DbExamples.
From Verif Require Import CsvModel CsvSpec CsvFacts CsvFacts2 CsvFacts3 CsvFacts4 CsvFacts5.
Import ListNotations.
Open Scope string_scope.
Open Scope Z_scope.

(** a file with these lines *)
Definition file (ls : list string) : string := String.concat "" (map with_newline ls).
Definition uii : list (option string) := [Some "user"; Some "item"; Some "interaction"].

(** ** C61 importing a csv file *)

(** The table of the new data set has a row for each record of the file, in
    order and numbered from zero, for every chunk size; if a record is not
    usable the import raises. *)
Theorem C61_import_partial d has_header cols r rows text size : delimiter_ok d -> columns_ok cols -> (length cols <= length r)%nat ->
  csv_file d has_header (r :: rows) text -> Forall (str_no newline) r ->
  Forall (Forall (str_no newline)) rows \/ size = 0%nat \/ (length (lines text) <= size)%nat ->
  (Forall (usable cols) (r :: rows) -> exists types,
     csv_table text (String d "") has_header cols size = Ok (types, file_rows cols (r :: rows)) /\ types_from cols r types) /\
  (forall t, csv_table text (String d "") has_header cols size = Ok t -> Forall (usable cols) (r :: rows)).
Proof. exact (import_rows d has_header cols r rows text size). Qed.
Print Assumptions C61_import_partial.

(** The same for delimiters of several characters. *)
Theorem C61_split_partial delim has_header cols r rows text size : long_delimiter delim -> columns_ok cols -> (length cols <= length r)%nat ->
  split_file delim has_header (r :: rows) text ->
  (Forall (usable cols) (r :: rows) -> exists types,
     csv_table text delim has_header cols size = Ok (types, file_rows cols (r :: rows)) /\ types_from cols r types) /\
  (forall t, csv_table text delim has_header cols size = Ok t -> Forall (usable cols) (r :: rows)).
Proof. exact (import_split_rows delim has_header cols r rows text size). Qed.
Print Assumptions C61_split_partial.

(** Two chunk sizes give the same table. *)
Theorem C61_chunks_partial d has_header cols r rows text s1 s2 t : delimiter_ok d -> columns_ok cols -> (length cols <= length r)%nat ->
  csv_file d has_header (r :: rows) text -> Forall (str_no newline) r -> Forall (Forall (str_no newline)) rows ->
  csv_table text (String d "") has_header cols s1 = Ok t -> csv_table text (String d "") has_header cols s2 = Ok t.
Proof.
  intros D Co L F N Ns E.
  destruct (import_rows d has_header cols r rows text s1 D Co L F N (or_introl Ns)) as [H1 K1].
  destruct (import_rows d has_header cols r rows text s2 D Co L F N (or_introl Ns)) as [H2 _].
  destruct (H1 (K1 t E)) as (t1 & E1 & _). destruct (H2 (K1 t E)) as (t2 & E2 & _).
  pose proof (csv_types _ _ _ _ _ _ _ _ E1 E2) as X. cbn [fst] in X. congruence.
Qed.
Print Assumptions C61_chunks_partial.

(** The data set in a running program: it is the data set made from these rows,
    it can be read, and the program goes on as after any other constructor. *)
Theorem C61_data_set_partial inode fs h p d has_header cols r rows text size : files_ok fs -> all_safe inode (start fs) no_book h ->
  delimiter_ok d -> columns_ok cols -> ~ In "uid" (named_columns cols) -> ~ In "iid" (named_columns cols) ->
  (length cols <= length r)%nat -> csv_file d has_header (r :: rows) text ->
  Forall (Forall (str_no newline)) (r :: rows) -> Forall (usable cols) (r :: rows) ->
  let w := fst (after inode (start fs) no_book h) in
  let b := snd (after inode (start fs) no_book h) in
  unused inode w p ->
  exists types w' j, import_csv inode p text (String d "") has_header cols size w = (w', Ok j) /\
    types_from cols r types /\ b j = None /\
    safe inode w b (OCreate p (named_columns cols ++ ["rid"])%list types (file_rows cols (r :: rows))) /\
    (forall ord, exec inode ord (OCreate p (named_columns cols ++ ["rid"])%list types (file_rows cols (r :: rows))) w = (w', Ok (ADs j))) /\
    (forall ord, permuting ord -> exists w2 out, exec inode ord (OValues j None) w' = (w2, Ok (ARows out)) /\
       Permutation out (map (cells (named_columns cols ++ ["rid"])%list)
                            (d_rows (imported (named_columns cols ++ ["rid"])%list types (file_rows cols (r :: rows)))))).
Proof.
  intros F S D Co Nu Ni L Fi Ns Us w b Un. inversion Ns as [|? ? N1 N2]; subst.
  destruct (import_rows d has_header cols r rows text size D Co L Fi N1 (or_introl N2)) as [H _].
  destruct (H Us) as (types & E & Tf). pose proof (history_inv inode fs h F S) as I. fold w b in I.
  destruct (import_inv inode w b p text (String d "") has_header cols size types r (r :: rows) I Un Co Nu Ni E Tf L) as (Sf & Cd & w' & j & Ei & Hb & I' & Ex).
  unfold csv_columns in *. rewrite somes_named in *. exists types, w', j. repeat (split; [assumption|]).
  intros ord Po. destruct (read_inv inode w' _ j _ None ord I' ltac:(apply note_same) Cd ltac:(cbn [asked]; apply incl_refl) Po) as (w2 & out & E2 & _ & P).
  exists w2, out. split; [exact E2|exact P].
Qed.
Print Assumptions C61_data_set_partial.

(** A file with a header, a quoted field, an ignored column and no newline at the
    end, read in chunks of one line, two lines and at once. *)
Definition example_file : string :=
  file ["name,thing,when,stars"; "7,""a,b"",1,4"; "8,c,2,3.5"] ++ "7,c,3,5".
Definition example_columns : list (option string) := [Some "user"; Some "item"; None; Some "interaction"].
Definition example_records : list (list string) := [["7"; "a,b"; "1"; "4"]; ["8"; "c"; "2"; "3.5"]; ["7"; "c"; "3"; "5"]].
Example C61_example : csv_file "," true example_records example_file /\ columns_ok example_columns /\
  Forall (usable example_columns) example_records /\ Forall (Forall (str_no newline)) example_records /\
  csv_table example_file "," true example_columns 1 = csv_table example_file "," true example_columns 2 /\
  (let s := import_csv disk "db.tmp.sqlite" example_file "," true example_columns 2 (start no_files) in
    snd s = Ok 0%nat /\
    snd (exec disk asis (OValues 0 (Some ["user"; "item"; "rid"])) (fst s)) =
      Ok (ARows [[Some (VInt 7); Some (VStr "a,b"); Some (VInt 0)]; [Some (VInt 8); Some (VStr "c"); Some (VInt 1)];
                 [Some (VInt 7); Some (VStr "c"); Some (VInt 2)]])).
Proof.
  split; [|split; [|split; [|split; [|split]]]].
  - exists "name,thing,when,stars", ["7,""a,b"",1,4"; "8,c,2,3.5"; "7,c,3,5"].
    assert (R : forall v, str_no "," v -> str_no quote_char v -> str_no newline v -> str_no return_char v -> field_text "," v v) by (intros; apply raw_field; assumption).
    assert (T : forall t ts fs, t <> "" -> t = String.concat "," ts -> Forall2 (field_text ",") ts fs -> record_text "," t fs) by (intros t ts fs A B C; split; eauto).
    split; [|split].
    + constructor; [|constructor; [|constructor; [|constructor]]].
      * apply (T _ ["7"; """a,b"""; "1"; "4"]); [discriminate|reflexivity|].
        constructor; [apply R; cbn; intuition discriminate|]. constructor.
        { apply (quoted_field _ "a,b" "a,b"). repeat (apply esc_char; [discriminate|]). constructor. }
        repeat (constructor; [apply R; cbn; intuition discriminate|]). constructor.
      * apply (T _ ["8"; "c"; "2"; "3.5"]); [discriminate|reflexivity|]. repeat (constructor; [apply R; cbn; intuition discriminate|]). constructor.
      * apply (T _ ["7"; "c"; "3"; "5"]); [discriminate|reflexivity|]. repeat (constructor; [apply R; cbn; intuition discriminate|]). constructor.
    + cbn; intuition discriminate.
    + right. vm_compute. reflexivity.
  - split; [intros c; cbn; tauto|]. split; [repeat constructor; cbn; intuition discriminate|]. split; [cbn; intuition discriminate|cbn; lia].
  - repeat constructor; intros c Hc; cbn [named_columns example_columns] in Hc;
      destruct Hc as [<-|[<-|[<-|[]]]]; eexists; eexists; (split; [reflexivity|]); vm_compute; reflexivity.
  - repeat constructor; cbn; intuition discriminate.
  - vm_compute. reflexivity.
  - split; vm_compute; reflexivity.
Qed.
Example C61_split_example : long_delimiter "::" /\ split_file "::" false [["1"; "a b"; "5"]; ["2"; "c"; "4"]] (file ["1::a b::5"; "2::c::4"]) /\
  exists types, csv_table (file ["1::a b::5"; "2::c::4"]) "::" false uii 1 = Ok (types, file_rows uii [["1"; "a b"; "5"]; ["2"; "c"; "4"]]) /\
    types = [("rid", DInt); ("user", DInt); ("item", DObj); ("interaction", DInt)].
Proof.
  split; [|split].
  - exists ":"%char, ":"%char, "". split; [reflexivity|]. repeat split; discriminate.
  - exists "". split; [reflexivity|]. split; [|left; reflexivity].
    repeat constructor; cbn; try discriminate; intuition discriminate.
  - eexists. split; vm_compute; reflexivity.
Qed.

(** Refuted as stated.  A quoted field with a newline is cut at the end of a
    chunk: the record is one row or an error, depending on the chunk size. *)
Definition newline_file : string := file ["1,a,2"; "2,""b"; "c"",3"].
Theorem C61_newline_refuted : csv_file "," false [["1"; "a"; "2"]; ["2"; with_newline "b" ++ "c"; "3"]] newline_file /\
  (exists types, csv_table newline_file "," false uii 3 = Ok (types, file_rows uii [["1"; "a"; "2"]; ["2"; with_newline "b" ++ "c"; "3"]])) /\
  csv_table newline_file "," false uii 2 = Err ProgrammingError.
Proof.
  split; [|split; [eexists|]; vm_compute; reflexivity].
  exists "", ["1,a,2"; "2,""" ++ with_newline "b" ++ "c"",3"]. split; [|split; [reflexivity|left; vm_compute; reflexivity]].
  constructor; [|constructor; [|constructor]].
  - split; [discriminate|]. exists ["1"; "a"; "2"]. split; [reflexivity|].
    repeat constructor; cbn; intuition discriminate.
  - split; [discriminate|]. exists ["2"; """" ++ with_newline "b" ++ "c"""; "3"]. split; [reflexivity|].
    constructor; [apply raw_field; cbn; intuition discriminate|]. constructor.
    + apply (quoted_field "," (with_newline "b" ++ "c") (with_newline "b" ++ "c")). repeat (apply esc_char; [discriminate|]). constructor.
    + constructor; [apply raw_field; cbn; intuition discriminate|constructor].
Qed.
Print Assumptions C61_newline_refuted.
(** It can also go unnoticed: one record becomes two rows. *)
Definition quiet_file : string := file ["1,a,2,""x"; "3,b,4,y"""].
Definition quiet_columns : list (option string) := (uii ++ [Some "note"])%list.
Theorem C61_unnoticed_refuted : csv_file "," false [["1"; "a"; "2"; with_newline "x" ++ "3,b,4,y"]] quiet_file /\
  (exists types, csv_table quiet_file "," false quiet_columns 2 = Ok (types, file_rows quiet_columns [["1"; "a"; "2"; with_newline "x" ++ "3,b,4,y"]])) /\
  (exists types, csv_table quiet_file "," false quiet_columns 1 =
     Ok (types, file_rows quiet_columns [["1"; "a"; "2"; with_newline "x"]; ["3"; "b"; "4"; "y"""]])).
Proof.
  split; [|split; eexists; vm_compute; reflexivity].
  exists "", ["1,a,2,""" ++ with_newline "x" ++ "3,b,4,y"""]. split; [|split; [reflexivity|left; vm_compute; reflexivity]].
  constructor; [|constructor].
  split; [discriminate|]. exists ["1"; "a"; "2"; """" ++ with_newline "x" ++ "3,b,4,y"""]. split; [reflexivity|].
  do 3 (constructor; [apply raw_field; cbn; intuition discriminate|]). constructor; [|constructor].
  apply (quoted_field "," (with_newline "x" ++ "3,b,4,y") (with_newline "x" ++ "3,b,4,y")). repeat (apply esc_char; [discriminate|]). constructor.
Qed.
Print Assumptions C61_unnoticed_refuted.

(** A blank line, a file without records and two ignored columns are errors. *)
Theorem C61_blank_refuted :
  csv_table (file ["1,a,2"; ""; "2,b,3"]) "," false uii 10 = Err ProgrammingError /\
  csv_table (file []) "," false uii 10 = Err TypeError /\
  csv_table (file ["user,item,interaction"]) "," true uii 10 = Err TypeError /\
  csv_table (file ["1,a,2,x,y"]) "," false (uii ++ [None; None])%list 10 = Err OperationalError.
Proof. repeat split; vm_compute; reflexivity. Qed.
Print Assumptions C61_blank_refuted.

(** The type of a column is that of the first record alone: a later text "x1" is
    kept as it is in a column of integers. *)
Example C61_types : exists types, csv_table (file ["1,a,2"; "x1,b,3"]) "," false uii 10 =
    Ok (types, file_rows uii [["1"; "a"; "2"]; ["x1"; "b"; "3"]]) /\ assoc String.eqb "user" types = Some DInt.
Proof. eexists. split; vm_compute; reflexivity. Qed.

(** ** C60 saving and the caller's list of columns *)

Lemma remove_first_length c l : In c l -> S (length (remove_first String.eqb c l)) = length l.
Proof.
  induction l as [|x l IH]; intros H; [destruct H|]. cbn [remove_first]. destruct (String.eqb_spec c x) as [->|E]; [reflexivity|].
  cbn [length]. rewrite IH; [reflexivity|]. destruct H; [congruence|auto].
Qed.
Lemma remove_first_out c l : ~ In c l -> remove_first String.eqb c l = l.
Proof.
  induction l as [|x l IH]; intros H; [reflexivity|]. cbn [remove_first]. destruct (String.eqb_spec c x) as [->|E]; [destruct H; left; reflexivity|].
  rewrite IH; [reflexivity|]. intro X. apply H. right. exact X.
Qed.
Lemma remove_first_le c l : (length (remove_first String.eqb c l) <= length l)%nat.
Proof. destruct (in_dec string_dec c l) as [H|H]; [pose proof (remove_first_length c l H); lia|rewrite remove_first_out by exact H; lia]. Qed.

(** The columns named rid, uid and iid are removed from the caller's list; it is
    left alone exactly when it has none. *)
Theorem C60_save_partial show inode ord i cs header w w' text cs' : save_csv show inode ord i (Some cs) header w = (w', Ok (text, cs')) ->
  (NoDup cs -> cs' = Some (written_columns cs)) /\
  (cs' = Some cs <-> ~ In "rid" cs /\ ~ In "uid" cs /\ ~ In "iid" cs).
Proof.
  intro E. unfold save_csv in E.
  apply andthen_val in E. destruct E as (w1 & x & E1 & E).
  apply andthen_val in E. destruct E as (w2 & l & E2 & E).
  assert (l = cs); [|subst l]. { unfold lift, DbModel.handle_columns in E2. destruct (forallb _ _); congruence. }
  apply andthen_val in E. destruct E as (w3 & rows & E3 & E).
  apply andthen_val in E. destruct E as (w4 & ls & E4 & E).
  injection E as _ _ <-. cbn [option_map]. split; [intro ND; rewrite strip_written by exact ND; reflexivity|].
  unfold strip_ids. split.
  - intro X. injection X as X. apply (f_equal (@length string)) in X.
    set (a := remove_first String.eqb "rid" cs) in *. set (b := remove_first String.eqb "uid" a) in *.
    assert (L1 := remove_first_le "rid" cs). assert (L2 := remove_first_le "uid" a). assert (L3 := remove_first_le "iid" b).
    fold a in L1. fold b in L2.
    assert (A : ~ In "rid" cs) by (intro Y; apply remove_first_length in Y; fold a in Y; lia).
    assert (Ea : a = cs) by (apply remove_first_out; exact A).
    assert (B : ~ In "uid" cs) by (intro Y; rewrite <- Ea in Y; apply remove_first_length in Y; fold b in Y; lia).
    assert (Eb : b = cs) by (unfold b; rewrite Ea; apply remove_first_out; exact B).
    split; [exact A|]. split; [exact B|]. intro Y. rewrite <- Eb in Y. apply remove_first_length in Y. lia.
  - intros (A & B & C). rewrite (remove_first_out "rid" cs A), (remove_first_out "uid" cs B), (remove_first_out "iid" cs C). reflexivity.
Qed.
Print Assumptions C60_save_partial.

(** str() of a float; only 1.5 occurs in the examples *)
Definition show15 (q : Qc) : string := "1.5".
Theorem C60_save_refuted : exists w i cs text cs',
  snd (save_csv show15 disk asis i (Some cs) true w) = Ok (text, Some cs') /\ cs' <> cs.
Proof.
  exists (world_of [new3]), 0%nat, ["user"; "item"; "rid"], (file ["user,item"; "7,a"; "8,b"; "7,b"]), ["user"; "item"].
  split; [vm_compute; reflexivity|discriminate].
Qed.
Print Assumptions C60_save_refuted.
Example C60_save_example :
  snd (save_csv show15 disk asis 0 (Some ["user"; "item"]) false (world_of [new3])) = Ok (file ["7,a"; "8,b"; "7,b"], Some ["user"; "item"]).
Proof. vm_compute. reflexivity. Qed.

(** ** C59 round trips *)

(** The database: saving a data set and importing the file, with any chunk size,
    gives a data set with the same rows, up to their order and ids. *)
Theorem C59_database_partial show inode fs h ord i d columns header w' r : files_ok fs -> all_safe inode (start fs) no_book h ->
  (forall l, Permutation (ord l) l) ->
  snd (after inode (start fs) no_book h) i = Some d -> complete d \/ at_rest (fst (after inode (start fs) no_book h)) i ->
  NoDup (asked d columns) -> incl (asked d columns) (d_cols d) -> incl ["user"; "item"; "interaction"] (asked d columns) ->
  let ns := written_columns (asked d columns) in
  d_rows d <> [] -> all_survive show ns (d_rows d) -> (header = true -> Forall (str_no newline) (asked d columns)) ->
  save_csv show inode ord i columns header (fst (after inode (start fs) no_book h)) = (w', r) ->
  exists text, r = Ok (text, option_map (fun _ => ns) columns) /\
    forall size p, unused inode w' p -> exists w2 j, import_csv inode p text "," header (map Some ns) size w' = (w2, Ok j) /\
      forall ord', (forall l, Permutation (ord' l) l) -> exists w3 out, exec inode ord' (OValues j (Some ns)) w2 = (w3, Ok (ARows out)) /\
        Permutation out (map (cells ns) (d_rows d)).
Proof.
  intros F S Po Hb Cr ND Ic Rq ns Ne Sv Hh E. pose proof (history_inv inode fs h F S) as I.
  destruct (save_values show inode ord _ _ i d columns header w' r Po I Hb ND Ic Cr E) as [I' _].
  destruct (csv_round_trip show inode ord _ _ i d columns header w' r 0 Po I Hb ND Ic Cr Rq Ne Sv Hh E) as (text & _ & _ & Er & _).
  exists text. split; [exact Er|]. intros size p Un.
  destruct (csv_round_trip show inode ord _ _ i d columns header w' r size Po I Hb ND Ic Cr Rq Ne Sv Hh E) as (text' & types & rows & Er' & Ec & (first & recs & Ef & Tf & Lf) & P & _).
  rewrite Er in Er'. injection Er' as <-. fold ns in Ec, Ef, Tf, Lf, P. subst rows.
  assert (Hid : forall c, In c ns -> c <> "rid" /\ c <> "uid" /\ c <> "iid").
  { intros c Hc. apply filter_In in Hc. destruct Hc as [_ Hc]. repeat split; intros ->; discriminate. }
  assert (Co : columns_ok (map Some ns)).
  { unfold columns_ok. rewrite named_all, map_length. split; [|split; [apply NoDup_filter; exact ND|split; [intro X; apply Hid in X; tauto|lia]]].
    intros c Hc. apply filter_In. split; [apply Rq; exact Hc|]. destruct Hc as [<-|[<-|[<-|[]]]]; reflexivity. }
  destruct (import_inv inode w' _ p text "," header (map Some ns) size types first recs I' Un Co) as (_ & Cd & w2 & j & Ei & Hj & I2 & _); auto.
  { rewrite named_all. intro X. apply Hid in X. tauto. }
  { rewrite named_all. intro X. apply Hid in X. tauto. }
  { rewrite map_length. lia. }
  exists w2, j. split; [exact Ei|]. intros ord' Po'.
  destruct (read_inv inode w2 _ j _ (Some ns) ord' I2 ltac:(apply note_same) Cd) as (w3 & out & E3 & _ & P3); auto.
  { cbn [asked imported d_cols]. unfold csv_columns. rewrite somes_named, named_all. intros c Hc. apply in_app_iff. left. exact Hc. }
  exists w3, out. split; [exact E3|]. cbn [asked] in P3. apply (Permutation_trans P3). unfold csv_columns. rewrite somes_named, named_all. exact P.
Qed.
Print Assumptions C59_database_partial.

(** In memory: the rows come back in order. *)
Theorem C59_memory_partial show m columns header (types : string -> dtype) : NoDup (m_columns m) ->
  incl ["user"; "item"; "interaction"] (m_columns m) -> rows_of m <> [] ->
  let ns := written_columns (m_columns m) in
  (forall r c, In r (rows_of m) -> In c ns -> cell r c <> None) ->
  (forall c l, In c ns -> map Some l = map (fun r => cell r c) (rows_of m) -> column_survives show (types c) l) ->
  (header = true -> Forall (str_no newline) (m_columns m)) ->
  exists text, mem_save show m columns header = Ok text /\
    read_csv_mem text "," header (map Some ns) =
      Ok (map (fun c => (c, types c)) ns, map (fun r => map (fun c => (c, cell r c)) ns) (rows_of m)).
Proof.
  intros ND Rq Ne ns Hc Sv Hh. apply (mem_csv_round_trip show m columns header types ND Rq Ne Hc); [|exact Hh].
  intros c Hcn. apply Sv; [exact Hcn|]. rewrite map_map. apply map_ext_in. intros r Hr. unfold value_at.
  destruct (cell r c) eqn:E; [reflexivity|]. destruct (Hc r c Hr Hcn E).
Qed.
Print Assumptions C59_memory_partial.

(** A data set of the database with integers, floats and texts. *)
Definition half3 : Qc := Q2Qc (3 # 2).
Lemma show15_prints : prints show15 half3.
Proof.
  split; [repeat split; cbn; intuition discriminate|]. split; [|vm_compute; reflexivity].
  unfold show15, half3. vm_compute. f_equal. apply Qc_is_canon. reflexivity.
Qed.
Definition csv_history : list op :=
  [OCreate "db.tmp.sqlite" cols3 [("rid", DInt); ("user", DInt); ("item", DObj); ("interaction", DFloat)]
     [[("user", Some (VInt 7)); ("item", Some (VStr "a b")); ("interaction", Some (VFlt half3)); ("rid", Some (VInt 0))];
      [("user", Some (VInt (-8))); ("item", Some (VStr "c")); ("interaction", Some (VFlt half3)); ("rid", Some (VInt 1))]]].
Definition csv_ds : ds :=
  mkDs cols3 (Some [("rid", DInt); ("user", DInt); ("item", DObj); ("interaction", DFloat)]) false
     [[("user", Some (VInt 7)); ("item", Some (VStr "a b")); ("interaction", Some (VFlt half3)); ("rid", Some (VInt 0))];
      [("user", Some (VInt (-8))); ("item", Some (VStr "c")); ("interaction", Some (VFlt half3)); ("rid", Some (VInt 1))]].
Example C59_database_example : all_safe disk (start no_files) no_book (plainly csv_history) /\
  snd (run csv_history) 0%nat = Some csv_ds /\ complete csv_ds /\
  all_survive show15 (written_columns (d_cols csv_ds)) (d_rows csv_ds) /\
  snd (save_csv show15 disk asis 0 None true (world_of csv_history)) = Ok (file ["user,item,interaction"; "7,a b,1.5"; "-8,c,1.5"], None) /\
  (let s := import_csv disk "x.sqlite" (file ["user,item,interaction"; "7,a b,1.5"; "-8,c,1.5"]) "," true uii 1 (world_of csv_history) in
   snd s = Ok 1%nat /\
   snd (exec disk asis (OValues 1 (Some ["user"; "item"])) (fst s)) =
     Ok (ARows [[Some (VInt 7); Some (VStr "a b")]; [Some (VInt (-8)); Some (VStr "c")]])).
Proof.
  split; [used|]. split; [vm_compute; reflexivity|]. split; [|split; [|split; [|split]]].
  - split; [apply inclb_ok; vm_compute; reflexivity|]. eexists. split; [reflexivity|].
    intros c [<-|[<-|[<-|[<-|[]]]]] _; eexists; vm_compute; reflexivity.
  - intros c Hc. cbn in Hc. destruct Hc as [<-|[<-|[<-|[]]]].
    + exists DInt. intros row [<-|[<-|[]]]; eexists; (split; [reflexivity|]); (split; [reflexivity|]); intro; discriminate.
    + exists DObj. intros row [<-|[<-|[]]]; eexists; (split; [reflexivity|]); (split; [reflexivity|]);
        (split; [discriminate|]); (split; [repeat split; cbn; intuition discriminate|reflexivity]).
    + exists DFloat. intros row [<-|[<-|[]]]; eexists; (split; [reflexivity|]); (split; [reflexivity|]); exact show15_prints.
  - vm_compute. reflexivity.
  - vm_compute. reflexivity.
  - vm_compute. reflexivity.
Qed.

(** A data set in memory, with separators, quotes and newlines in its texts. *)
Definition mem_row (rid u : Z) (i : string) : row :=
  mkRow rid [("user", VInt u); ("item", VStr i); ("interaction", VFlt half3)].
Definition csv_mem (items : list string) : mem :=
  mem_of_frame (mkFrame [("user", DInt); ("item", DObj); ("interaction", DFloat)]
                        (map (fun p => mem_row (Z.of_nat (fst p)) (7 + Z.of_nat (fst p)) (snd p)) (combine (seq 0 (length items)) items))).
Definition strange_items : list string := ["a,b"; "say ""x"""; with_newline "two" ++ "lines"; "12"].
Definition type3 (c : string) : dtype := if String.eqb c "user" then DInt else if String.eqb c "item" then DObj else DFloat.
Example C59_memory_example :
  (forall c l, In c (written_columns (m_columns (csv_mem strange_items))) ->
     map Some l = map (fun r => cell r c) (rows_of (csv_mem strange_items)) -> column_survives show15 (type3 c) l) /\
  mem_save show15 (csv_mem strange_items) None false =
    Ok (file ["7,""a,b"",1.5"; "8,""say """"x"""""",1.5"; "9,""two"; "lines"",1.5"; "10,12,1.5"]).
Proof.
  split; [|vm_compute; reflexivity].
  assert (G : forall (l : list value) m, map Some l = map Some m -> l = m).
  { induction l as [|a l IH]; intros [|b m] H; try discriminate; [reflexivity|]. cbn in H. injection H as <- H. f_equal. auto. }
  intros c l Hc. cbn in Hc. destruct Hc as [<-|[<-|[<-|[]]]]; intro E.
  - apply (G l [VInt 7; VInt 8; VInt 9; VInt 10]) in E. subst l. cbn [type3 String.eqb column_survives].
    intros v [<-|[<-|[<-|[<-|[]]]]]; eexists; reflexivity.
  - apply (G l (map VStr strange_items)) in E. subst l. split.
    + intros v Hv. apply in_map_iff in Hv. destruct Hv as (s & <- & Hs). exists s. split; [reflexivity|].
      destruct Hs as [<-|[<-|[<-|[<-|[]]]]]; (split; [cbn; intuition discriminate|cbn; intuition discriminate]).
    + right. exists "a,b". split; [left; reflexivity|]. split; [discriminate|reflexivity].
  - apply (G l [VFlt half3; VFlt half3; VFlt half3; VFlt half3]) in E. subst l. cbn [type3 column_survives].
    intros v [<-|[<-|[<-|[<-|[]]]]]; exists half3; split; try reflexivity; exact show15_prints.
Qed.

(** Refuted as stated.  The database does not quote: *)
Definition one (u : value) (i : string) : list op :=
  [OCreate "db.tmp.sqlite" cols3 [("rid", DInt); ("user", type_of u); ("item", DObj); ("interaction", DInt)]
     [[("user", Some u); ("item", Some (VStr i)); ("interaction", Some (VInt 5)); ("rid", Some (VInt 0))]]].
Definition saved (h : list op) : res (string * option (list string)) := snd (save_csv show15 disk asis 0 None false (world_of h)).
Theorem C59_comma_refuted : all_safe disk (start no_files) no_book (plainly (one (VInt 7) "a,b")) /\
  saved (one (VInt 7) "a,b") = Ok (file ["7,a,b,5"], None) /\
  csv_table (file ["7,a,b,5"]) "," false uii 10 = Err GenericException.
Proof. split; [used|]. split; vm_compute; reflexivity. Qed.
Print Assumptions C59_comma_refuted.
(** or another data set is read without an error; *)
Theorem C59_shift_refuted : all_safe disk (start no_files) no_book (plainly (one (VInt 7) "a,3")) /\
  saved (one (VInt 7) "a,3") = Ok (file ["7,a,3,5"], None) /\
  (let s := import_csv disk "x.sqlite" (file ["7,a,3,5"]) "," false uii 10 (world_of (one (VInt 7) "a,3")) in
   snd s = Ok 1%nat /\ snd (exec disk asis (OValues 1 (Some ["user"; "item"; "interaction"])) (fst s)) =
     Ok (ARows [[Some (VInt 7); Some (VStr "a"); Some (VInt 3)]])).
Proof. split; [used|]. split; [vm_compute; reflexivity|]. split; vm_compute; reflexivity. Qed.
Print Assumptions C59_shift_refuted.

(** a text that looks like a number comes back as that number; *)
Theorem C59_number_refuted : all_safe disk (start no_files) no_book (plainly (one (VStr "007") "a")) /\
  ask (OValues 0 (Some ["user"])) (one (VStr "007") "a") = Ok (ARows [[Some (VStr "007")]]) /\
  saved (one (VStr "007") "a") = Ok (file ["007,a,5"], None) /\
  (let s := import_csv disk "x.sqlite" (file ["007,a,5"]) "," false uii 10 (world_of (one (VStr "007") "a")) in
   snd (exec disk asis (OValues 1 (Some ["user"])) (fst s)) = Ok (ARows [[Some (VInt 7)]])).
Proof. split; [used|]. repeat split; vm_compute; reflexivity. Qed.
Print Assumptions C59_number_refuted.

(** an empty data set cannot be read again. *)
Definition none_left : list op := [new3; ODrop 0 [0; 1; 2] false false].
Theorem C59_empty_refuted : all_safe disk (start no_files) no_book (plainly none_left) /\
  snd (save_csv show15 disk asis 0 None true (world_of none_left)) = Ok (file ["user,item,interaction"], None) /\
  csv_table (file ["user,item,interaction"]) "," true uii 10 = Err TypeError.
Proof. split; [used|]. split; vm_compute; reflexivity. Qed.
Print Assumptions C59_empty_refuted.

(** A single column is written one character per field, or not at all. *)
Theorem C59_single_refuted : all_safe disk (start no_files) no_book (plainly (one (VInt 7) "abc")) /\
  snd (save_csv show15 disk asis 0 (Some ["item"; "rid"]) false (world_of (one (VInt 7) "abc"))) = Ok (file ["a,b,c"], Some ["item"]) /\
  snd (save_csv show15 disk asis 0 (Some ["user"]) false (world_of (one (VInt 7) "abc"))) = Err TypeError.
Proof. split; [used|]. split; vm_compute; reflexivity. Qed.
Print Assumptions C59_single_refuted.

(** In memory, texts pandas takes for missing values become empty, numbers in
    text columns become numbers, and the argument columns is ignored. *)
Theorem C59_memory_refuted :
  (let text := file ["7,NA,1.5"; "8,x,1.5"] in
   mem_save show15 (csv_mem ["NA"; "x"]) None false = Ok text /\
   match read_csv_mem text "," false uii with
   | Ok (_, rows) => map (fun r => assoc String.eqb "item" r) rows = [Some (Some (VStr "")); Some (Some (VStr "x"))]
   | Err _ => False
   end) /\
  (let text := file ["7,007,1.5"; "8,12,1.5"] in
   mem_save show15 (csv_mem ["007"; "12"]) None false = Ok text /\
   match read_csv_mem text "," false uii with
   | Ok (_, rows) => map (fun r => assoc String.eqb "item" r) rows = [Some (Some (VInt 7)); Some (Some (VInt 12))]
   | Err _ => False
   end) /\
  mem_save show15 (csv_mem ["x"]) (Some ["item"]) true = Ok (file ["user,item,interaction"; "7,x,1.5"]).
Proof. repeat split; vm_compute; reflexivity. Qed.
Print Assumptions C59_memory_refuted.
