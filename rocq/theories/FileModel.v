(** Model of the files the library keeps: DRecPy/Dataset/file_utils.py,
    DRecPy/Dataset/integrated_datasets.py and the order of file operations in
    DRecPy/Dataset/db_dataset.py:405-430 (save).  Definitions only.

    A function of the library that works on files is a program of single file
    operations, so that the process can be killed between two of them or in the
    middle of a write.  The operating system itself does not crash: an operation
    that has returned is not lost. *)
From Coq Require Import String Ascii.
From Coq Require Import List ZArith QArith Qcanon Bool.
From Verif Require Import Py MemModel DbModel CsvModel Conc SplitModel.
Import ListNotations.
Open Scope string_scope.
Open Scope Z_scope.

(** ** Disks and programs *)
Record disk := mkDisk { dirs : list string; files : list (string * string) }.
Definition no_disk : disk := mkDisk [] [].
Definition in_list (p : string) (l : list string) : bool := existsb (String.eqb p) l.
Definition is_dir (d : disk) (p : string) : bool := in_list p (dirs d).
Definition contents (d : disk) (p : string) : option string := assoc String.eqb p (files d).
Definition unlink (p : string) (l : list (string * string)) : list (string * string) :=
  filter (fun q => negb (String.eqb (fst q) p)) l.
Definition put_file (p t : string) (l : list (string * string)) : list (string * string) := ((p, t) :: unlink p l)%list.

Inductive fop :=
| MkDir (p : string)
| RmDir (p : string)
| Write (p t : string)         (* open(p, 'w') and write t *)
| Append (p t : string)        (* open(p, 'a') and write t *)
| Remove (p : string)          (* nothing happens when there is no such file *)
| Rename (p q : string).
Definition old (d : disk) (p : string) : string := match contents d p with Some t => t | None => "" end.
Definition perform (o : fop) (d : disk) : disk :=
  match o with
  | MkDir p => mkDisk (p :: dirs d) (files d)
  | RmDir p => mkDisk (filter (fun q => negb (String.eqb q p)) (dirs d)) (files d)
  | Write p t => mkDisk (dirs d) (put_file p t (files d))
  | Append p t => mkDisk (dirs d) (put_file p (old d p ++ t) (files d))
  | Remove p => mkDisk (dirs d) (unlink p (files d))
  | Rename p q => match contents d p with
                  | Some t => mkDisk (dirs d) (put_file q t (unlink p (files d)))
                  | None => d
                  end
  end.
(** What a killed write leaves: the file with a first part of the text. *)
Definition torn (o : fop) (d : disk) (part : string) : option (string * disk) :=
  match o with
  | Write p t => if prefix_b part t then Some (p, mkDisk (dirs d) (put_file p part (files d))) else None
  | Append p t => if prefix_b part t then Some (p, mkDisk (dirs d) (put_file p (old d p ++ part) (files d))) else None
  | _ => None
  end.

Inductive prog (A : Type) :=
| Ret (r : res A)
| Hang                                   (* never returns *)
| Do (o : fop) (k : prog A)
| See (k : disk -> prog A).
Arguments Ret {A}. Arguments Hang {A}. Arguments Do {A}. Arguments See {A}.
Fixpoint pbind {A B} (p : prog A) (f : A -> prog B) : prog B :=
  match p with
  | Ret (Ok a) => f a
  | Ret (Err e) => Ret (Err e)
  | Hang => Hang
  | Do o k => Do o (pbind k f)
  | See k => See (fun d => pbind (k d) f)
  end.
Fixpoint performs {A} (os : list fop) (p : prog A) : prog A := match os with [] => p | o :: os' => Do o (performs os' p) end.

(** A call that is not killed; None when it never returns. *)
Fixpoint complete_run {A} (p : prog A) (d : disk) : disk * option (res A) :=
  match p with
  | Ret r => (d, Some r)
  | Hang => (d, None)
  | Do o k => complete_run k (perform o d)
  | See k => complete_run (k d) d
  end.
(** A call that is killed after [n] operations, or in the middle of operation
    [n] after writing [part]: the disk it leaves, and the file that is cut. *)
Fixpoint killed {A} (p : prog A) (n : nat) (cut : option string) (d : disk) : option (option string * disk) :=
  match p with
  | Ret _ | Hang => match n, cut with O, None => Some (None, d) | _, _ => None end
  | See k => killed (k d) n cut d
  | Do o k =>
      match n with
      | S n' => killed k n' cut (perform o d)
      | O => match cut with
             | None => Some (None, d)
             | Some part => option_map (fun x => (Some (fst x), snd x)) (torn o d part)
             end
      end
  end.

(** ** file_utils.py: the list of temporary files *)
Definition blank (c : ascii) : bool :=
  let n := Ascii.nat_of_ascii c in (Nat.eqb n 32 || (Nat.leb 9 n && Nat.leb n 13) || (Nat.leb 28 n && Nat.leb n 31))%bool.
Fixpoint lstrip (f : ascii -> bool) (s : string) : string :=
  match s with String a s' => if f a then lstrip f s' else s | EmptyString => EmptyString end.
Fixpoint rev_string (s acc : string) : string :=
  match s with EmptyString => acc | String a s' => rev_string s' (String a acc) end.
Definition strip (f : ascii -> bool) (s : string) : string :=
  rev_string (lstrip f (rev_string (lstrip f s) "")) "".

Definition tmp_list : string := "tmp_files.txt".     (* in data_path() *)
(** 24-29 *)
Definition register_temp (p : string) : prog unit := Do (Append tmp_list (p ++ String nl "")) (Ret (Ok tt)).
(** 32-47: readlines, write the others back, remove the list when none is left or
    when there was none. *)
Definition unregister_temp (p : string) : prog unit :=
  See (fun d =>
    match contents d tmp_list with
    | None => Ret (Err FileNotFoundError)
    | Some t =>
        let kept := filter (fun l => negb (String.eqb (strip (fun c => Ascii.eqb c nl) l) p)) (lines t) in
        Do (Write tmp_list (String.concat "" kept))
           (match kept with [] => Do (Remove tmp_list) (Ret (Ok tt)) | _ => Ret (Ok tt) end)
    end).
(** 50-58, also run by Dataset/__init__.py:23 when the package is imported *)
Definition delete_temps : prog unit :=
  See (fun d =>
    match contents d tmp_list with
    | None => Ret (Ok tt)
    | Some t => performs (map (fun l => Remove (strip blank l)) (lines t)) (Do (Remove tmp_list) (Ret (Ok tt)))
    end).

(** ** db_dataset.py:405-430: the files of save('….sqlite'); [text] is the new
    database, which SQLite writes into the file with the suffix .tmp *)
Definition save_sqlite (p text : string) : prog unit :=
  See (fun d =>
    performs (match contents d (p ++ ".tmp") with Some _ => [Remove (p ++ ".tmp")] | None => [] end)
      (Do (Write (p ++ ".tmp") text)
         (See (fun d' => performs (match contents d' p with Some _ => [Remove p] | None => [] end)
                           (Do (Rename (p ++ ".tmp") p) (Ret (Ok tt))))))).

(** ** integrated_datasets.py *)

(** 10-22, without url, delimiter and encoding, which only matter for reading the
    file (a parameter below) *)
Record config := mkConfig {
  g_name : string;
  g_full : string;
  g_train : option string;
  g_test : option string;
  g_columns : list string;
  g_unzip : bool;
  g_folder : option string }.
Definition join (a b : string) : string := a ++ "/" ++ b.
Definition path_of (g : config) (f : string) : string := join (g_name g) f.
Definition train_gen (g : config) : string := path_of g (g_name g ++ "_train.gen").
Definition test_gen (g : config) : string := path_of g (g_name g ++ "_test.gen").
Definition tmp_zip (g : config) : string := path_of g "tmp.zip".

(** the files in a folder (without subfolders) *)
Fixpoint drop_prefix (a b : string) : option string :=
  match a, b with
  | EmptyString, _ => Some b
  | String x a', String y b' => if Ascii.eqb x y then drop_prefix a' b' else None
  | String _ _, EmptyString => None
  end.
Fixpoint listing (dir : string) (l : list (string * string)) : list string :=
  match l with
  | [] => []
  | (p, _) :: l' => match drop_prefix (dir ++ "/") p with Some f => f :: listing dir l' | None => listing dir l' end
  end.

Section Integrated.
Variable show : Qc -> string.                       (* str() of a float *)
Variable unzip : string -> option (list (string * string)).   (* the files in an archive; None: not an archive *)
Variable arrange : list string -> list string.      (* the order of os.listdir *)
Variable read_full : string -> res mem.             (* reading a downloaded file with the options of the data set *)
Variable fmul : Z -> Qc -> Qc.
Variable sample : Z -> list Z -> nat -> list Z.
Variable g : config.

(** 62-94.  [net] is the answer of the server; None when there is none. *)
Definition download (net : option string) : prog unit :=
  match net with
  | None => Ret (Err GenericException)
  | Some data =>
      See (fun d =>
        performs (if is_dir d (g_name g) then [] else [MkDir (g_name g)])
          (if g_unzip g then
             Do (Write (tmp_zip g) data)
               (match unzip data with
                | None => Ret (Err GenericException)
                | Some ms =>
                    performs (match g_folder g with
                              | Some f => match listing f ms with [] => [] | _ => [MkDir (path_of g f)] end
                              | None => []
                              end)
                      (performs (map (fun m => Write (path_of g (fst m)) (snd m)) ms)
                         (See (fun d' =>
                            match g_folder g with
                            | Some f =>
                                if is_dir d' (path_of g f)
                                then performs (map (fun x => Rename (join (path_of g f) x) (path_of g x)) (arrange (listing (path_of g f) (files d'))))
                                       (Do (RmDir (path_of g f)) (Do (Remove (tmp_zip g)) (Ret (Ok tt))))
                                else Ret (Err FileNotFoundError)
                            | None => Do (Remove (tmp_zip g)) (Ret (Ok tt))
                            end)))
                end)
           else Do (Write (path_of g (g_full g)) data) (Ret (Ok tt))))
  end.

(** A generated file read into memory: mem_dataset.py:27-77.  Cells without a
    value are not modelled. *)
Fixpoint index_rows (n : Z) (rows : list (list (string * option value))) : res (list row) :=
  match rows with
  | [] => Ok []
  | r :: rows' =>
      cs <- mapM (fun p => match snd p with Some v => Ok (fst p, v) | None => Err GenericException end) r ;;
      rest <- index_rows (n + 1) rows' ;;
      Ok (mkRow n cs :: rest)
  end.
Definition frame_mem (t : list (string * dtype) * list (list (string * option value))) : res mem :=
  rows <- index_rows 0 (snd t) ;; Ok (mem_of_frame (mkFrame (fst t) rows)).
Definition read_gen (text : string) : res mem :=
  t <- read_csv_mem text "," false (map Some (g_columns g)) ;; frame_mem t.

(** 97-113, in memory *)
Definition get_dataset (net : option string) (p : string) (read : string -> res mem) : prog mem :=
  See (fun d =>
    pbind (if is_dir d (g_name g) then Ret (Ok tt) else download net) (fun _ =>
      See (fun d' => Ret (match contents d' p with Some t => read t | None => Err FileNotFoundError end)))).

(** leave_k_out(full_ds, k=10, min_user_interactions=10, seed=10) *)
Definition lko10 : lko_args := mkLko (KInt 10) 10 false "timestamp" 10 4 true.
(** 116-152 and 155-191; [sched] and [steps] are a run of the threads of
    leave_k_out.  [pick] is the part that is returned. *)
Definition get_part (net : option string) (sched : nat -> option nat) (steps : nat)
  (file : option string) (gen : string) (pick : mem * mem -> mem) : prog mem :=
  match file with
  | Some f => get_dataset net (path_of g f) read_full
  | None =>
      See (fun d =>
        match contents d gen with
        | Some _ => get_dataset net gen read_gen
        | None =>
            pbind (get_dataset net (path_of g (g_full g)) read_full) (fun full =>
              match leave_k_out fmul sample lko10 full sched steps with
              | Raised e => Ret (Err e)
              | Running => Hang
              | Done train test =>
                  match mem_save show train None false, mem_save show test None false with
                  | Ok t1, Ok t2 => Do (Write (train_gen g) t1) (Do (Write (test_gen g) t2) (Ret (Ok (pick (train, test)))))
                  | Err e, _ | _, Err e => Ret (Err e)
                  end
              end)
        end)
  end.
Definition get_train net sched steps : prog mem := get_part net sched steps (g_train g) (train_gen g) fst.
Definition get_test net sched steps : prog mem := get_part net sched steps (g_test g) (test_gen g) snd.
(** 194-211 *)
Definition get_full (net : option string) : prog mem := get_dataset net (path_of g (g_full g)) read_full.
End Integrated.
