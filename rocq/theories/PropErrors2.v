(** Errors and boundary cases of the properties of database data sets, csv files
    and built-in data sets (C54, C57, C59, C61, C63, C75), and C79. *)
From Coq Require Import String Ascii.
From Coq Require Import List ZArith QArith Qcanon Bool Permutation Lia.
From Verif Require Import Py PyFacts MemModel MemSpec MemFacts DbModel DbFacts2 DbSpec DbFacts11 DbFacts13 DbFacts15 DbFacts17 DbCheck DbExamples.
From Verif Require Import CsvModel CsvSpec CsvFacts CsvFacts2 PropCsv.
From Verif Require DbFacts FileModel FileSpec FileFacts4 PropFile PropDb PropSplit.
Import ListNotations.
Open Scope string_scope.
Open Scope Z_scope.

(** *** C54: conditions that do not fit the type of their column *)

(** A text for an integer column, a number for a text column. *)
Lemma query_raises x ts c o t l e : In c (i_cols x) -> plain c -> i_types x = Some ts -> lit_fits t l ->
  (v <- eval_lit (lit_text l) ;; check_value (Some ts) c v) = Err e ->
  parse_query x (query_text [mkCond c o l]) = Err e.
Proof.
  intros I P T F E. unfold parse_query. cbn [query_text].
  rewrite split_on_no.
  - cbn [mapM]. unfold parse_cond. rewrite (cond_split (mkCond c o l) t P F). cbn [sc_col sc_op sc_lit].
    replace (in_cols c (i_cols x)) with true by (symmetry; apply DbFacts.in_cols_In; exact I). cbn [negb].
    rewrite cmp_of_str_text. rewrite T. destruct (eval_lit (lit_text l)) as [v|e']; cbn [bind] in E |- *.
    + rewrite E. reflexivity.
    + congruence.
  - unfold cond_text. cbn [sc_col sc_op sc_lit]. apply lit_text_plain in F.
    apply str_no_app; [apply plain_no_comma, P|]. simpl. split; [discriminate|].
    apply str_no_app; [apply plain_no_comma, op_text_plain|]. simpl. split; [discriminate|].
    apply plain_no_comma, F.
Qed.
Theorem C54_wrong_type_raises : forall inode ord w i x ts c o s z columns,
  w_inst w i = Some x -> In c (i_cols x) -> plain c -> i_types x = Some ts ->
  (assoc String.eqb c ts = Some DInt -> plain_text s ->
     select inode i (query_text [mkCond c o (LText s)]) false w = (w, Err GenericException)) /\
  (assoc String.eqb c ts = Some DObj ->
     select inode i (query_text [mkCond c o (LInt z)]) false w = (w, Err TypeError)) /\
  (forall w1 x1, record_interaction inode i w = (w1, Ok tt) -> w_inst w1 i = Some x1 -> i_cols x1 = i_cols x -> i_types x1 = i_types x ->
     (assoc String.eqb c ts = Some DInt -> plain_text s ->
        select_one inode ord i (query_text [mkCond c o (LText s)]) columns w = (w1, Err GenericException)) /\
     (assoc String.eqb c ts = Some DObj ->
        select_one inode ord i (query_text [mkCond c o (LInt z)]) columns w = (w1, Err TypeError))).
Proof.
  intros inode ord w i x ts c o s z columns Hi Hc Hp Ht.
  assert (Q1 : forall y, i_cols y = i_cols x -> i_types y = i_types x -> assoc String.eqb c ts = Some DInt -> plain_text s ->
    parse_query y (query_text [mkCond c o (LText s)]) = Err GenericException).
  { intros y Cy Ty A F. rewrite <- Cy in Hc. rewrite <- Ty in Ht. apply (query_raises y ts c o DObj); auto.
    cbn [lit_text]. rewrite eval_lit_text by exact F. cbn [bind check_value]. rewrite A. reflexivity. }
  assert (Q2 : forall y, i_cols y = i_cols x -> i_types y = i_types x -> assoc String.eqb c ts = Some DObj ->
    parse_query y (query_text [mkCond c o (LInt z)]) = Err TypeError).
  { intros y Cy Ty A. rewrite <- Cy in Hc. rewrite <- Ty in Ht. apply (query_raises y ts c o DInt); cbn; auto.
    rewrite eval_lit_no by (apply str_of_Z_no; [reflexivity|discriminate]). rewrite Z_of_str_of_Z. cbn [bind check_value]. rewrite A. reflexivity. }
  split; [|split].
  - intros A F. unfold select, target, touched, andthen, ret, self, lift. rewrite Hi. rewrite (Q1 x eq_refl eq_refl A F). reflexivity.
  - intros A. unfold select, target, touched, andthen, ret, self, lift. rewrite Hi. rewrite (Q2 x eq_refl eq_refl A). reflexivity.
  - intros w1 x1 R H1 Cx Tx. split.
    + intros A F. unfold select_one, andthen at 1. rewrite R. unfold andthen, self, lift. rewrite H1.
      rewrite (Q1 x1 Cx Tx A F). reflexivity.
    + intros A. unfold select_one, andthen at 1. rewrite R. unfold andthen, self, lift. rewrite H1.
      rewrite (Q2 x1 Cx Tx A). reflexivity.
Qed.
Print Assumptions C54_wrong_type_raises.
Example C54_wrong_type_example :
  ask (OSelect 0 [cond_eq "user" (LText "7")] false) [new3] = Err GenericException /\
  ask (OSelectOne 0 [cond_eq "user" (LText "7")] None) [new3] = Err GenericException /\
  ask (OSelectOne 0 [cond_eq "item" (LInt 7)] None) [new3] = Err TypeError.
Proof. repeat split; vm_compute; reflexivity. Qed.

(** A text that is the name of a column in other letters is also taken for the
    column: no row has item = user, but the row whose item is USER is not found. *)
Definition case_rows : list trow :=
  [[("user", Some (VStr "a")); ("item", Some (VStr "b")); ("interaction", Some (VInt 1)); ("rid", Some (VInt 0))];
   [("user", Some (VStr "b")); ("item", Some (VStr "USER")); ("interaction", Some (VInt 1)); ("rid", Some (VInt 1))]].
Definition case_history : list op :=
  [OCreate "db.tmp.sqlite" cols3 [("rid", DInt); ("user", DObj); ("item", DObj); ("interaction", DInt)] case_rows].
Theorem C54_letter_case_refuted : exists fs h d, files_ok fs /\ all_safe disk (start fs) no_book h /\
  snd (after disk (start fs) no_book h) 0%nat = Some d /\ cond_fits d (cond_eq "item" (LText "USER")) /\
  map rid_of (filter (fun row => holds row (cond_eq "item" (LText "USER"))) (d_rows d)) = [1] /\
  snd (exec disk asis (OSelectOne 0 [cond_eq "item" (LText "USER")] (Some ["rid"])) (fst (after disk (start fs) no_book h))) =
    Ok (ARow None).
Proof.
  exists no_files, (plainly case_history). eexists. split; [apply no_files_ok|]. split; [used|].
  split; [vm_compute; reflexivity|]. split; [apply cond_fitsb_ok; vm_compute; reflexivity|]. split; vm_compute; reflexivity.
Qed.
Print Assumptions C54_letter_case_refuted.

(** *** C57: a file in use is not overwritten *)

(** Saving onto the file of another live data set, under the path it was opened
    with, or a temporary data set without a path. *)
Theorem C57_save_refused inode fs h i d : files_ok fs -> all_safe inode (start fs) no_book h ->
  let w := fst (after inode (start fs) no_book h) in
  snd (after inode (start fs) no_book h) i = Some d ->
  (forall ord j y, w_inst w j = Some y -> j <> i -> i_path y <> "" ->
     exec inode ord (OSave i (i_path y)) w = (w, Err GenericException)) /\
  (forall ord x, w_inst w i = Some x -> is_temp (i_path x) = true -> exec inode ord (OSave i "") w = (w, Err GenericException)).
Proof.
  intros F S. cbv zeta. intros Hd. pose proof (history_inv inode fs h F S) as [B D].
  destruct (shows_inst inode _ i d (D i d Hd)) as (x & Hx & _). set (w := fst (after inode (start fs) no_book h)) in *.
  split.
  - intros ord j y Hy N Np. cbn [exec]. unfold amap, save_db, andthen, self. rewrite Hx. cbn beta iota.
    replace (String.eqb (i_path y) "") with false by (symmetry; apply String.eqb_neq; exact Np). cbn [andb].
    destruct (w_dbs w (i_path y)) as [l|] eqn:L; [|exfalso; exact (b_dbs2 inode w B j y Hy L)].
    destruct (b_dbs inode w B _ l L) as (Nd & _ & M).
    assert (Mj : In j l) by (apply M; eauto).
    destruct (String.eqb (i_path y) (i_path x)) eqn:E.
    + apply String.eqb_eq in E. assert (Mi : In i l) by (apply M; exists x; auto).
      replace (Nat.ltb 1 (length l)) with true; [reflexivity|]. symmetry. apply Nat.ltb_lt.
      destruct l as [|a [|b l]]; [contradiction| |cbn; lia]. destruct Mj as [->|[]]. destruct Mi as [->|[]]. contradiction.
    + replace (Nat.ltb 0 (length l)) with true; [reflexivity|]. symmetry. apply Nat.ltb_lt.
      destruct l; [contradiction|cbn; lia].
  - intros ord x' Hx' T. assert (x' = x) as -> by congruence. cbn [exec]. unfold amap, save_db, andthen, self. rewrite Hx. cbn beta iota.
    rewrite T. reflexivity.
Qed.
Print Assumptions C57_save_refused.
Example C57_save_refused_example :
  let h := [new3; OSave 0 "x.sqlite"; OLoad "x.sqlite"] in
  all_safe disk (start no_files) no_book (plainly h) /\
  ask (OSave 0 "x.sqlite") h = Err GenericException /\ ask (OSave 0 "") h = Err GenericException.
Proof. cbv zeta. split; [used|]. split; vm_compute; reflexivity. Qed.

(** *** C75: raw ids given as text or as number *)
Theorem C75_ids_as_text : forall inode raw id i w x ts z,
  w_inst w i = Some x -> i_types x = Some ts -> assoc String.eqb raw ts = Some DObj \/ assoc String.eqb raw ts = Some DInt ->
  raw_to_id inode raw id i (VInt z) w = raw_to_id inode raw id i (VStr (str_of_Z z)) w.
Proof.
  intros inode raw id i w x ts z Hi Ht A. unfold raw_to_id, andthen, self. rewrite Hi, Ht.
  destruct (negb (i_ids x)); [reflexivity|]. destruct A as [A|A]; rewrite A; cbn [lift].
  - reflexivity.
  - rewrite Z_of_str_of_Z. reflexivity.
Qed.
Print Assumptions C75_ids_as_text.
Definition five_rows : list trow := [row4 0 7 "5" 3; row4 1 8 "b" 4].
Example C75_ids_as_text_example :
  let w := world_of [OCreate "db.tmp.sqlite" cols3 types3 five_rows; OAssign 0] in
  snd (db_item_to_iid disk 0 (VInt 5) w) = Ok (Some (VInt 0)) /\
  snd (db_user_to_uid disk 0 (VStr "8") w) = Ok (Some (VInt 1)) /\
  snd (db_user_to_uid disk 0 (VStr "x") w) = Err GenericException.
Proof. cbv zeta. repeat split; vm_compute; reflexivity. Qed.

(** *** C61: arguments of an import *)
Theorem C61_arguments : forall text delim has_header cols size,
  csv_table text "" has_header cols size = Err TypeError /\
  (forall t, csv_table text delim has_header cols size = Ok t -> incl ["user"; "item"; "interaction"] (named_columns cols)).
Proof.
  intros text delim has_header cols size. split.
  - unfold csv_table. destruct (first_line has_header (lines text)); reflexivity.
  - unfold csv_table. destruct (first_line has_header (lines text)) as [l|]; [|discriminate].
    intros t. destruct (delimiter_of delim) as [dr|]; [|discriminate]. cbn [bind].
    destruct (reader (fst dr) [snd dr l]) as [rs|]; [|discriminate]. cbn [bind].
    unfold table_of at 1. rewrite named_somes.
    destruct (forallb (fun c => in_cols c ("rid" :: somes cols)%list) required) eqn:E; [|discriminate]. intros _.
    rewrite forallb_forall in E. intros c Hc.
    assert (Hr : In c required) by (cbn in Hc |- *; tauto). apply E in Hr. apply DbFacts.in_cols_In in Hr.
    destruct Hr as [<-|Hr]; [|exact Hr]. cbn in Hc. destruct Hc as [Hc|[Hc|[Hc|[]]]]; discriminate.
Qed.
Print Assumptions C61_arguments.
Example C61_arguments_example :
  csv_table (file ["1,a,2"]) "," false [Some "user"; Some "thing"; Some "interaction"] 10 = Err AssertionError /\
  csv_table (file ["1,a,2"]) "" false uii 10 = Err TypeError /\
  exists t, csv_table (file ["1,a,2"]) "," false uii 10 = Ok t.
Proof. split; [vm_compute; reflexivity|]. split; [vm_compute; reflexivity|]. eexists; vm_compute; reflexivity. Qed.

(** *** C59: missing values *)

(** NULL is written as an empty field and comes back as an empty text. *)
Definition null_history : list op :=
  [OCreate "db.tmp.sqlite" cols3 types3
     [[("user", Some (VInt 7)); ("item", None); ("interaction", Some (VInt 5)); ("rid", Some (VInt 0))]]].
Theorem C59_null_refuted : all_safe disk (start no_files) no_book (plainly null_history) /\
  ask (OValues 0 (Some ["item"])) null_history = Ok (ARows [[None]]) /\
  saved null_history = Ok (file ["7,,5"], None) /\
  (let s := import_csv disk "x.sqlite" (file ["7,,5"]) "," false uii 10 (world_of null_history) in
   snd (exec disk asis (OValues 1 (Some ["item"])) (fst s)) = Ok (ARows [[Some (VStr "")]])).
Proof. split; [used|]. repeat split; vm_compute; reflexivity. Qed.
Print Assumptions C59_null_refuted.

(** In memory: a missing number is NaN, blank lines are no rows. *)
Theorem C59_memory_missing :
  match read_csv_mem (file ["7,a,1.5"; ""; "8,b,"; ""]) "," false uii with
  | Ok (types, rows) => types = [("user", DInt); ("item", DObj); ("interaction", DFloat)] /\
      map (fun r => (assoc String.eqb "item" r, match assoc String.eqb "interaction" r with Some (Some (VFlt q)) => Some (Some (this q)) | Some None => Some None | _ => None end)) rows =
      [(Some (Some (VStr "a")), Some (Some (3 # 2))); (Some (Some (VStr "b")), Some None)]
  | Err _ => False
  end.
Proof. vm_compute. auto. Qed.
Print Assumptions C59_memory_missing.

Import FileModel FileSpec.
(** *** C63: what a finished download leaves *)

(** The archive is deleted. *)
Theorem C63_archive_deleted : forall unzip arrange g net d d',
  g_unzip g = true -> complete_run (download unzip arrange g net) d = (d', Some (Ok tt)) -> contents d' (tmp_zip g) = None.
Proof.
  intros unzip arrange g net d d' U. unfold download. destruct net as [data|]; [|discriminate]. rewrite U.
  assert (P : forall {A} os (p : prog A) d0, complete_run (performs os p) d0 = complete_run p (fold_left (fun d o => perform o d) os d0)).
  { intros A os. induction os as [|o os IH]; intros p d0; [reflexivity|]. cbn [performs complete_run fold_left]. apply IH. }
  assert (R : forall l p, assoc String.eqb p (unlink p l) = None).
  { intros l p. unfold unlink. induction l as [|[q t] l IH]; [reflexivity|]. cbn [filter fst].
    destruct (String.eqb q p) eqn:E; cbn [negb]; [exact IH|]. cbn [assoc]. rewrite String.eqb_sym, E. exact IH. }
  cbn [complete_run]. rewrite P. cbn [complete_run]. destruct (unzip data) as [ms|]; [|discriminate]. rewrite P, P. cbn [complete_run].
  destruct (g_folder g) as [f|].
  - match goal with |- context[if ?b then _ else _] => destruct b end; [|discriminate]. rewrite P. cbn [complete_run].
    intros E. injection E as <-. cbn [perform files contents]. apply R.
  - intros E. injection E as <-. cbn [perform files contents]. apply R.
Qed.
Print Assumptions C63_archive_deleted.
Example C63_archive_deleted_example :
  let g := mkConfig "n" "full" None None [] true None in
  complete_run (download (fun s => if String.eqb s "PK" then Some [("full", "1,2,3")] else None) (fun l => l) g (Some "PK")) no_disk =
    (mkDisk ["n"] [("n/full", "1,2,3")], Some (Ok tt)).
Proof. vm_compute. reflexivity. Qed.

(** *** C79: a download that failed can be repeated *)

(** Without a connection nothing is changed. *)
Theorem C79_offline_partial : forall show unzip arrange read_full fmul sample g c sched steps d,
  nothing_stored g d ->
  complete_run (prog_of show unzip arrange read_full fmul sample g c None sched steps) d = (d, Some (Err GenericException)).
Proof.
  intros show unzip arrange read_full fmul sample g c sched steps d [Hd Hf].
  assert (G : forall p read, complete_run (get_dataset unzip arrange g None p read) d = (d, Some (Err GenericException))).
  { intros p read. unfold get_dataset. cbn [complete_run]. rewrite Hd. reflexivity. }
  assert (B : forall p read (k : mem -> prog mem), complete_run (pbind (get_dataset unzip arrange g None p read) k) d = (d, Some (Err GenericException))).
  { intros p read k. unfold get_dataset. cbn [complete_run pbind]. rewrite Hd. reflexivity. }
  destruct c; cbn [prog_of]; [unfold get_train|unfold get_test|apply G]; unfold get_part;
    match goal with |- context[match ?o with Some _ => _ | None => _ end] => destruct o; [apply G|] end.
  - cbn [complete_run]. unfold train_gen at 1, path_of, join. rewrite Hf. apply B.
  - cbn [complete_run]. unfold test_gen at 1, path_of, join. rewrite Hf. apply B.
Qed.
Print Assumptions C79_offline_partial.

(** An answer that is not an archive (an error page, a cut transfer): the call
    raises, and so does every later call, whatever the server then sends. *)
Theorem C79_never_repaired : forall show unzip arrange read_full fmul sample g c bad sched steps d,
  nothing_stored g d -> g_unzip g = true -> unzip bad = None -> g_full g <> "tmp.zip" ->
  g_train g <> Some "tmp.zip" -> g_test g <> Some "tmp.zip" ->
  g_name g ++ "_train.gen" <> "tmp.zip" -> g_name g ++ "_test.gen" <> "tmp.zip" ->
  exists d', complete_run (prog_of show unzip arrange read_full fmul sample g c (Some bad) sched steps) d = (d', Some (Err GenericException)) /\
  forall c' net sched' steps',
    complete_run (prog_of show unzip arrange read_full fmul sample g c' net sched' steps') d' = (d', Some (Err FileNotFoundError)).
Proof.
  intros show unzip arrange read_full fmul sample g c bad sched steps d [Hd Hf] U Z N1 N2 N3 N4 N5.
  set (d' := perform (Write (tmp_zip g) bad) (perform (MkDir (g_name g)) d)).
  assert (G : forall p read, complete_run (get_dataset unzip arrange g (Some bad) p read) d = (d', Some (Err GenericException))).
  { intros p read. unfold get_dataset. cbn [complete_run]. rewrite Hd. unfold download. cbn [pbind complete_run]. rewrite Hd, U, Z. reflexivity. }
  assert (B : forall p read (k : mem -> prog mem), complete_run (pbind (get_dataset unzip arrange g (Some bad) p read) k) d = (d', Some (Err GenericException))).
  { intros p read k. unfold get_dataset. cbn [complete_run pbind]. rewrite Hd. unfold download. cbn [pbind complete_run]. rewrite Hd, U, Z. reflexivity. }
  exists d'. split.
  - destruct c; cbn [prog_of]; [unfold get_train|unfold get_test|apply G]; unfold get_part;
      match goal with |- context[match ?o with Some _ => _ | None => _ end] => destruct o; [apply G|] end.
    + cbn [complete_run]. unfold train_gen at 1, path_of, join. rewrite Hf. apply B.
    + cbn [complete_run]. unfold test_gen at 1, path_of, join. rewrite Hf. apply B.
  - assert (A : forall a x y, a ++ x = a ++ y -> x = y) by (intros a x y; induction a; cbn; [auto|intro E; injection E; auto]).
    assert (C : forall x, x <> "tmp.zip" -> contents d' (path_of g x) = None).
    { intros x Nx. unfold d', perform, contents, put_file. cbn [files assoc].
      replace (String.eqb (path_of g x) (tmp_zip g)) with false.
      - assert (Q : forall l p q, assoc String.eqb p l = None -> assoc String.eqb p (unlink q l) = None).
        { intros l p q. unfold unlink. induction l as [|[r t] l IH]; [auto|]. cbn [assoc filter fst].
          destruct (String.eqb p r) eqn:E; [discriminate|]. intro H. destruct (String.eqb r q); cbn [negb]; [auto|]. cbn [assoc]. rewrite E. auto. }
        apply Q. exact (Hf x).
      - symmetry. apply String.eqb_neq. intro E. unfold path_of, tmp_zip, path_of, join in E. apply A in E. injection E as E. contradiction. }
    intros c' net sched' steps'. apply FileFacts4.never_rebuilt.
    + unfold d', is_dir, in_list. cbn [perform dirs existsb]. rewrite String.eqb_refl. reflexivity.
    + intros x Hx f ->. apply C. cbn in Hx. intuition congruence.
    + apply C. exact N4.
    + apply C. exact N5.
Qed.
Print Assumptions C79_never_repaired.

(** As stated: refuted.  One error page, then the right archive for ever; and for
    a data set without archive the error page is the data set from then on. *)
Definition ml_page : prog mem :=
  prog_of PropFile.no_show PropFile.ml_zip PropFile.as_listed PropFile.bx_read PropSplit.exact_mul PropSplit.first_n PropFile.ml CTrain
    (Some "503 Service Unavailable") PropSplit.turns 400.
Definition ml_broken : disk := Eval vm_compute in fst (complete_run ml_page no_disk).
Definition page : string := file ["Service,Unavailable,503"].
Definition bx_page : prog mem :=
  prog_of PropFile.no_show PropFile.no_zip PropFile.as_listed PropFile.bx_read PropSplit.exact_mul PropSplit.first_n PropFile.bx CFull
    (Some page) PropSplit.turns 400.
Definition page_data : mem := Eval vm_compute in match PropFile.bx_read page with Ok m => m | Err _ => PropFile.bx_full end.
Definition bx_broken : disk := Eval vm_compute in fst (complete_run bx_page no_disk).
Definition returned {A} (r : disk * option (res A)) : option (res A) := snd r.
Theorem C79_repeated_refuted :
  (nothing_stored PropFile.ml no_disk /\ returned (complete_run (PropFile.ml_prog CTrain) no_disk) = Some (Ok PropFile.ml_train) /\
   complete_run ml_page no_disk = (ml_broken, Some (Err GenericException)) /\
   complete_run (PropFile.ml_prog CTrain) ml_broken = (ml_broken, Some (Err FileNotFoundError))) /\
  (nothing_stored PropFile.bx no_disk /\ returned (complete_run (PropFile.bx_prog CFull) no_disk) = Some (Ok PropFile.bx_full) /\
   complete_run bx_page no_disk = (bx_broken, Some (Ok page_data)) /\
   complete_run (PropFile.bx_prog CFull) bx_broken = (bx_broken, Some (Ok page_data)) /\
   length (rows_of page_data) = 1%nat /\ length (rows_of PropFile.bx_full) = 13%nat).
Proof.
  split.
  - split; [split; [reflexivity|intros; reflexivity]|]. split; [vm_compute; reflexivity|]. split; vm_compute; reflexivity.
  - split; [split; [reflexivity|intros; reflexivity]|]. repeat split; vm_compute; reflexivity.
Qed.
Print Assumptions C79_repeated_refuted.
Example C79_offline_example :
  complete_run (prog_of PropFile.no_show PropFile.ml_zip PropFile.as_listed PropFile.bx_read PropSplit.exact_mul PropSplit.first_n PropFile.ml CTest
    None PropSplit.turns 400) no_disk = (no_disk, Some (Err GenericException)) /\
  returned (complete_run (PropFile.ml_prog CTrain) no_disk) = Some (Ok PropFile.ml_train).
Proof. split; vm_compute; reflexivity. Qed.
