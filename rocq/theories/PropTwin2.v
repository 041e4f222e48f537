(** C108: a csv file read into a database and into memory.

    [csv_file], [columns_ok], [delimiter_ok], [types_from] are those of C61
    (CsvSpec.v); [both], [twin] those of C107 (TwinSpec.v).
    [even cols rows] (TwinCsv.v): every column of the file is of one kind, no field
    looks like a missing value, interactions are numbers up to 2^53.
    [file_cells cols rows]: a row for each record, every text read as the number it
    stands for, if it does, numbered from zero. *)
From Coq Require Import String Ascii.
From Coq Require Import List ZArith QArith Qcanon Bool Permutation Sorted Lia.
From Verif Require Import Py PyFacts MemModel MemSpec DbModel DbSpec DbFacts8 DbFacts13 DbFacts15 DbCheck DbExamples
  CsvModel CsvSpec CsvFacts CsvFacts2 CsvFacts3 CsvFacts4 CsvFacts5 FileModel TwinSpec TwinFacts5 TwinFacts6 TwinCheck TwinCsv PropCsv.
Import ListNotations.
Open Scope string_scope.
Open Scope Z_scope.
Open Scope list_scope.

(** Both readings succeed and give the same data set: it can be used as a pair of
    C107 from then on. *)
Theorem C108_same_file_partial inode w b mb p d has_header cols r rows text size :
  both inode w b mb -> unused inode w p ->
  delimiter_ok d -> columns_ok cols -> ~ In "uid" (named_columns cols) -> ~ In "iid" (named_columns cols) ->
  csv_file d has_header (r :: rows) text -> even cols (r :: rows) ->
  Forall (Forall (str_no newline)) (r :: rows) ->
  exists types ds m w' j, import_csv inode p text (String d "") has_header cols size w = (w', Ok j) /\
    read_mem text d has_header cols = Ok m /\ b j = None /\
    both inode w' (note b j (Some ds)) (mnote mb j (Some m)) /\ types_from cols r types /\
    d_cols ds = named_columns cols ++ ["rid"] /\ d_types ds = Some types /\ d_rows ds = file_cells cols (r :: rows) /\
    m = memory_of (named_columns cols ++ ["rid"]) types (file_cells cols (r :: rows)).
Proof.
  intros B U D Co Nu Ni F E N. inversion N as [|? ? N1 N2]; subst.
  apply (read_both d has_header cols r rows text D Co Nu Ni F E inode w b mb p size B U N1). left. exact N2.
Qed.
Print Assumptions C108_same_file_partial.

Definition text8 : string := file ["name,thing,when,stars"; "u1,7,1,4"; "u2,8,2,3"; "u1,8,3,-5"].
Definition records8 : list (list string) := [["u1"; "7"; "1"; "4"]; ["u2"; "8"; "2"; "3"]; ["u1"; "8"; "3"; "-5"]].
Definition cols8 : list (option string) := [Some "user"; Some "item"; None; Some "interaction"].
Lemma csv8 : csv_file "," true records8 text8.
Proof.
  exists "name,thing,when,stars", ["u1,7,1,4"; "u2,8,2,3"; "u1,8,3,-5"].
  assert (R : forall v, str_no "," v -> str_no quote_char v -> str_no newline v -> str_no return_char v -> field_text "," v v) by (intros; apply raw_field; assumption).
  assert (T : forall t ts fs, t <> "" -> t = String.concat "," ts -> Forall2 (field_text ",") ts fs -> record_text "," t fs) by (intros t ts fs A B C; split; eauto).
  split; [|split].
  + constructor; [|constructor; [|constructor; [|constructor]]].
    * apply (T _ ["u1"; "7"; "1"; "4"]); [discriminate|reflexivity|]. repeat (constructor; [apply R; cbn; intuition discriminate|]). constructor.
    * apply (T _ ["u2"; "8"; "2"; "3"]); [discriminate|reflexivity|]. repeat (constructor; [apply R; cbn; intuition discriminate|]). constructor.
    * apply (T _ ["u1"; "8"; "3"; "-5"]); [discriminate|reflexivity|]. repeat (constructor; [apply R; cbn; intuition discriminate|]). constructor.
  + cbn; intuition discriminate.
  + left. vm_compute. reflexivity.
Qed.
Lemma even8 : even cols8 records8.
Proof.
  split.
  - repeat constructor.
  - intros r r' c f f' Hr Hr' Hc Hf Hf'. cbn in Hr, Hr', Hc.
    destruct Hr as [<-|[<-|[<-|[]]]], Hr' as [<-|[<-|[<-|[]]]], Hc as [<-|[<-|[<-|[]]]]; cbn in Hf, Hf'; injection Hf as <-; injection Hf' as <-; reflexivity.
  - intros r c f Hr Hc Hf. cbn in Hr, Hc.
    destruct Hr as [<-|[<-|[<-|[]]]], Hc as [<-|[<-|[<-|[]]]]; cbn in Hf; injection Hf as <-; split; [discriminate| |discriminate| |discriminate| |discriminate| |discriminate| |discriminate| |discriminate| |discriminate| |discriminate|]; cbn; intuition discriminate.
  - intros r f Hr Hf. cbn in Hr. destruct Hr as [<-|[<-|[<-|[]]]]; cbn in Hf; injection Hf as <-; (split; [vm_compute; discriminate|]); intros z Hz; vm_compute in Hz; injection Hz as <-; lia.
Qed.
Example C108_example :
  both DbExamples.disk (start no_files) no_book no_mbook /\ unused DbExamples.disk (start no_files) "db.tmp.sqlite" /\ delimiter_ok "," /\ columns_ok cols8 /\
  csv_file "," true records8 text8 /\ even cols8 records8 /\ Forall (Forall (str_no newline)) records8 /\
  (let s := import_csv DbExamples.disk "db.tmp.sqlite" text8 "," true cols8 2 (start no_files) in
   snd s = Ok 0%nat /\ snd (exec DbExamples.disk asis (OValues 0 (Some ["user"; "interaction"; "rid"])) (fst s)) =
     Ok (ARows [[Some (VStr "u1"); Some (VInt 4); Some (VInt 0)]; [Some (VStr "u2"); Some (VInt 3); Some (VInt 1)]; [Some (VStr "u1"); Some (VInt (-5)); Some (VInt 2)]])) /\
  (m <- read_mem text8 "," true cols8 ;; MemModel.values m (Some ["user"; "interaction"; "rid"])) =
     Ok [[VStr "u1"; VInt 4; VInt 0]; [VStr "u2"; VInt 3; VInt 1]; [VStr "u1"; VInt (-5); VInt 2]].
Proof.
  split; [apply BStart; apply no_files_ok|]. split; [intros j y E; discriminate E|]. split; [repeat split; discriminate|].
  split.
  { split; [intros c [<-|[<-|[<-|[]]]]; cbn; tauto|]. split; [repeat constructor; cbn; intuition discriminate|]. split; [cbn; intuition discriminate|cbn; lia]. }
  split; [apply csv8|]. split; [apply even8|]. split; [repeat constructor; cbn; intuition discriminate|].
  split; [|vm_compute; reflexivity]. split; vm_compute; reflexivity.
Qed.

(** Refuted as stated: a database takes the kind of a column from the first
    record, a data set in memory from all of them.  The user of the first record
    is the number 1 in a database and the text 1 in memory. *)
Definition kinds8 : string := file ["1,a,2"; "x,b,3"].
Definition in_database (text : string) (columns : list string) : res out :=
  let s := import_csv DbExamples.disk "db.tmp.sqlite" text "," false uii 10 (start no_files) in
  match snd s with Ok j => snd (exec DbExamples.disk asis (OValues j (Some columns)) (fst s)) | Err e => Err e end.
Definition in_memory (text : string) (columns : list string) : res (list (list value)) :=
  m <- read_mem text "," false uii ;; MemModel.values m (Some columns).
Theorem C108_kinds_refuted :
  csv_table kinds8 "," false uii 10 = Ok ([("rid", DInt); ("user", DInt); ("item", DObj); ("interaction", DInt)], file_rows uii [["1"; "a"; "2"]; ["x"; "b"; "3"]]) /\
  in_database kinds8 ["user"] = Ok (ARows [[Some (VInt 1)]; [Some (VStr "x")]]) /\
  in_memory kinds8 ["user"] = Ok [[VStr "1"]; [VStr "x"]].
Proof. split; [vm_compute; reflexivity|]. split; vm_compute; reflexivity. Qed.
Print Assumptions C108_kinds_refuted.

(** A text that pandas takes for a missing value is a user like any other in a
    database; in memory it is the empty text. *)
Definition missing8 : string := file ["NA,a,2"; "x,b,3"].
Theorem C108_missing_refuted :
  in_database missing8 ["user"] = Ok (ARows [[Some (VStr "NA")]; [Some (VStr "x")]]) /\
  in_memory missing8 ["user"] = Ok [[VStr ""]; [VStr "x"]].
Proof. split; vm_compute; reflexivity. Qed.
Print Assumptions C108_missing_refuted.

(** An interaction that is no number: the import into a database raises, in memory
    it is a text. *)
Theorem C108_number_refuted : exists e, in_database (file ["1,a,good"]) ["interaction"] = Err e /\
  in_memory (file ["1,a,good"]) ["interaction"] = Ok [[VStr "good"]].
Proof. eexists. split; vm_compute; reflexivity. Qed.
Print Assumptions C108_number_refuted.
