(** Properties C54 to C58, C60 and C72 to C76: the database data sets. *)
From Coq Require Import String Ascii.
From Coq Require Import List ZArith QArith Qcanon Bool Permutation Lia.
From Verif Require Import Py PyFacts MemModel MemSpec DbModel DbFacts7 DbSpec DbFacts14 DbFacts15 DbFacts16 DbFacts17 DbFacts18.
From Verif Require Import DbCheck DbExamples.
Import ListNotations.
Open Scope string_scope.
Open Scope Z_scope.

(** ** C54 a database data set behaves like the list of its rows *)

(** Every call of a correctly used history answers as on lists of rows. *)
Theorem C54_histories_partial inode fs h : files_ok fs -> all_safe inode (start fs) no_book h ->
  all_answered inode (start fs) no_book h.
Proof. intros F S. apply (histories inode h (start fs) no_book (Inv_start inode fs F) S). Qed.
Print Assumptions C54_histories_partial.

(** Columns, length and has_internal_ids of every data set afterwards. *)
Theorem C54_attributes_partial inode fs h i d : files_ok fs -> all_safe inode (start fs) no_book h ->
  snd (after inode (start fs) no_book h) i = Some d ->
  exists x, w_inst (fst (after inode (start fs) no_book h)) i = Some x /\
    i_cols x = d_cols d /\ i_n x = length (d_rows d) /\ i_ids x = d_ids d.
Proof.
  intros F S Hd. destruct (inv_attributes inode _ _ i d (history_inv inode fs h F S) Hd) as (x & H1 & H2 & H3 & H4 & _).
  exists x. auto.
Qed.
Print Assumptions C54_attributes_partial.

(** A history with every kind of call. *)
Definition long_history : list op :=
  [new3; OSelect 0 [cond_eq "item" (LText "b"); mkCond "user" Ge (LInt 7)] true; OValues 1 (Some ["user"; "rid"]);
   OUnique 0 (Some ["user"]) true; OCopy 1; ODrop 3 [1] false false; OAssign 1; OGenerator 1 None;
   OCloseGenerator; OMax 1 "uid"; OApply 0 "interaction" times10; OCountUnique 0 (Some ["user"]);
   OSelectOne 0 [mkCond "interaction" Gt (LInt 35)] None; OMin 0 "interaction"; OSave 1 "x.sqlite"; OLoad "x.sqlite";
   OClose 1; ORemove 3; OLen 4].
Example C54_example : all_safe disk (start no_files) no_book (plainly long_history) /\
  ask (OValues 0 (Some ["interaction"])) long_history = Ok (ARows [[Some (VInt 30)]; [Some (VInt 40)]; [Some (VInt 50)]]) /\
  ask (OValues 4 (Some ["user"; "item"; "rid"])) long_history =
    Ok (ARows [[Some (VInt 8); Some (VStr "b"); Some (VInt 0)]; [Some (VInt 7); Some (VStr "b"); Some (VInt 1)]]) /\
  ask (OLen 3) long_history = Ok (ANum 1).
Proof. split; [used|]. repeat split; vm_compute; reflexivity. Qed.
(** The rows come back in another order without harm. *)
Example C54_example_order : all_safe disk (start no_files) no_book (map (fun o => (backwards, o)) long_history).
Proof.
  apply check; [apply no_files_ok| |vm_compute; reflexivity].
  apply Forall_forall. intros e He. apply in_map_iff in He. destruct He as (o & <- & _). exact backwards_ok.
Qed.

(** False in general.  A data set made by unique() on some of the columns can be
    read three times; the fourth read wants to materialise it, which needs the
    columns it no longer has. *)
Definition unique_history : list op := [new3; OUnique 0 (Some ["user"]) true; OValues 1 None; OValues 1 None; OValues 1 None].
Theorem C54_unique_refuted : exists fs h, files_ok fs /\ all_safe disk (start fs) no_book h /\
  (exists d, snd (after disk (start fs) no_book h) 1%nat = Some d /\
     map (cells ["user"; "rid"]) (d_rows d) = [[Some (VInt 7); Some (VInt 0)]; [Some (VInt 8); Some (VInt 1)]]) /\
  snd (exec disk asis (OValues 1 None) (fst (after disk (start fs) no_book h))) = Err AssertionError.
Proof.
  exists no_files, (plainly unique_history). split; [apply no_files_ok|]. split; [used|].
  split; [eexists; split; vm_compute; reflexivity|vm_compute; reflexivity].
Qed.
Print Assumptions C54_unique_refuted.

(** A text in a condition that is also the name of a column is taken for that
    column. *)
Definition text_rows : list trow :=
  [[("user", Some (VStr "a")); ("item", Some (VStr "a")); ("interaction", Some (VInt 1)); ("rid", Some (VInt 0))];
   [("user", Some (VStr "b")); ("item", Some (VStr "user")); ("interaction", Some (VInt 1)); ("rid", Some (VInt 1))]].
Definition text_history : list op :=
  [OCreate "db.tmp.sqlite" cols3 [("rid", DInt); ("user", DObj); ("item", DObj); ("interaction", DInt)] text_rows].
Theorem C54_name_refuted : exists fs h d, files_ok fs /\ all_safe disk (start fs) no_book h /\
  snd (after disk (start fs) no_book h) 0%nat = Some d /\ cond_fits d (cond_eq "item" (LText "user")) /\
  map rid_of (filter (fun row => holds row (cond_eq "item" (LText "user"))) (d_rows d)) = [1] /\
  snd (exec disk asis (OSelectOne 0 [cond_eq "item" (LText "user")] (Some ["rid"])) (fst (after disk (start fs) no_book h))) =
    Ok (ARow (Some [Some (VInt 0)])).
Proof.
  exists no_files, (plainly text_history). eexists. split; [apply no_files_ok|]. split; [used|].
  split; [vm_compute; reflexivity|]. split; [apply cond_fitsb_ok; vm_compute; reflexivity|]. split; vm_compute; reflexivity.
Qed.
Print Assumptions C54_name_refuted.

(** unique(columns=[]) in place raises and leaves a data set that takes users for
    record ids. *)
Definition empty_history : list op := [new3; OSelect 0 [cond_eq "user" (LInt 7)] false; OUnique 0 (Some []) false].
Theorem C54_no_columns_refuted :
  ask (OUnique 0 (Some []) false) (firstn 2 empty_history) = Err OperationalError /\
  ask (OValues 0 (Some ["rid"])) (firstn 2 empty_history) = Ok (ARows [[Some (VInt 0)]; [Some (VInt 2)]]) /\
  ask (OValues 0 (Some ["rid"])) empty_history = Ok (ARows [[Some (VInt 7)]; [Some (VInt 7)]]).
Proof. repeat split; vm_compute; reflexivity. Qed.
Print Assumptions C54_no_columns_refuted.

(** remove_internal_ids() on a data set whose ids are not its last columns shifts
    the other columns: uid and record id come out as user and item. *)
Definition shift_history : list op :=
  [new3; OAssign 0; OUnique 0 (Some ["uid"; "iid"; "user"; "item"; "interaction"; "rid"]) true; ORemove 1].
Theorem C54_remove_refuted :
  ask (OValues 1 (Some ["user"; "item"])) (firstn 3 shift_history) =
    Ok (ARows [[Some (VInt 7); Some (VStr "a")]; [Some (VInt 8); Some (VStr "b")]; [Some (VInt 7); Some (VStr "b")]]) /\
  ask (OValues 1 (Some ["user"; "item"])) shift_history =
    Ok (ARows [[Some (VInt 0); Some (VInt 0)]; [Some (VInt 1); Some (VInt 1)]; [Some (VInt 0); Some (VInt 1)]]).
Proof. repeat split; vm_compute; reflexivity. Qed.
Print Assumptions C54_remove_refuted.

(** ** C55 data sets sharing a table are isolated *)
Theorem C55_isolated_partial inode fs h ord o j d : files_ok fs ->
  all_safe inode (start fs) no_book (h ++ [(ord, o)])%list -> subject o <> Some j ->
  let w := fst (after inode (start fs) no_book h) in
  let w' := fst (after inode (start fs) no_book (h ++ [(ord, o)])%list) in
  snd (after inode (start fs) no_book h) j = Some d ->
  snd (after inode (start fs) no_book (h ++ [(ord, o)])%list) j = Some d /\
  (exists x x', w_inst w j = Some x /\ w_inst w' j = Some x' /\ i_cols x' = i_cols x /\ i_n x' = i_n x /\ i_ids x' = i_ids x) /\
  (forall columns ord1 ord2 rows rows', (forall l, Permutation (ord1 l) l) -> (forall l, Permutation (ord2 l) l) ->
     snd (exec inode ord1 (OValues j columns) w) = Ok (ARows rows) ->
     snd (exec inode ord2 (OValues j columns) w') = Ok (ARows rows') -> Permutation rows rows') /\
  (complete d -> forall columns ord', (forall l, Permutation (ord' l) l) -> incl (asked d columns) (d_cols d) ->
     exists rows, snd (exec inode ord' (OValues j columns) w') = Ok (ARows rows)).
Proof. exact (isolated_reads inode fs h ord o j d). Qed.
Print Assumptions C55_isolated_partial.

(** apply, internal ids, dropping and closing on copies and originals *)
Definition shared : list op := [new3; OSelect 0 [cond_eq "user" (LInt 7)] true; OCopy 0; OCopy 1].
Example C55_example :
  Forall (fun o => all_safe disk (start no_files) no_book (plainly (shared ++ [o]))%list /\
                   subject o <> Some 1%nat /\
                   ask (OValues 1 (Some ["interaction"; "rid"])) (shared ++ [o])%list =
                     Ok (ARows [[Some (VInt 3); Some (VInt 0)]; [Some (VInt 5); Some (VInt 2)]]))
    [OApply 0 "interaction" times10; OAssign 0; OAssign 2; ODrop 2 [0; 1] false false; OApply 3 "interaction" times10; OClose 0; OClose 3] /\
  complete (mkDs cols3 (Some types3) false rows3).
Proof.
  split.
  - repeat (constructor; [split; [used|]; split; [discriminate|vm_compute; reflexivity]|]). constructor.
  - split; [apply inclb_ok; vm_compute; reflexivity|]. exists types3. split; [reflexivity|].
    intros c [<-|[<-|[<-|[<-|[]]]]] _; eexists; vm_compute; reflexivity.
Qed.

(** False in general: assigning internal ids again changes the ids of a copy. *)
Definition again : list op :=
  [new3; OAssign 0; ODrop 0 [0; 2] false false; OLen 0; OValues 0 None; OValues 0 None; OValues 0 None; OValues 0 None; OCopy 0].
Theorem C55_assign_refuted :
  all_safe disk (start no_files) no_book (plainly again) /\
  ask (OValues 1 (Some ["user"; "uid"])) again = Ok (ARows [[Some (VInt 8); Some (VInt 1)]]) /\
  ask (OAssign 0) again = Ok AUnit /\
  ask (OValues 1 (Some ["user"; "uid"])) (again ++ [OAssign 0])%list = Ok (ARows [[Some (VInt 8); Some (VInt 0)]]).
Proof. split; [used|]. repeat split; vm_compute; reflexivity. Qed.
Print Assumptions C55_assign_refuted.

(** apply() while a generator of values() is open changes the copies too. *)
Definition reading : list op := [new3; OCopy 0; OGenerator 0 None].
Theorem C55_apply_refuted :
  all_safe disk (start no_files) no_book (plainly reading) /\
  ask (OValues 1 (Some ["interaction"])) reading = Ok (ARows [[Some (VInt 3)]; [Some (VInt 4)]; [Some (VInt 5)]]) /\
  ask (OApply 0 "interaction" times10) reading = Ok AUnit /\
  ask (OValues 1 (Some ["interaction"])) (reading ++ [OApply 0 "interaction" times10])%list =
    Ok (ARows [[Some (VInt 30)]; [Some (VInt 40)]; [Some (VInt 50)]]).
Proof. split; [used|]. repeat split; vm_compute; reflexivity. Qed.
Print Assumptions C55_apply_refuted.

(** ** C56 temporary tables and files live as long as they are used *)

(** The table of a live data set is there. *)
Theorem C56_tables_partial inode fs h j y : files_ok fs -> all_safe inode (start fs) no_book h ->
  w_inst (fst (after inode (start fs) no_book h)) j = Some y ->
  tables inode (fst (after inode (start fs) no_book h)) (i_path y) (i_table y) <> None.
Proof. intros F S. exact (live_tables inode _ _ j y (history_inv inode fs h F S)). Qed.
Print Assumptions C56_tables_partial.

(** Closing the last data set on a temporary file removes the file. *)
Theorem C56_last_partial inode fs h i x w' r : files_ok fs -> all_safe inode (start fs) no_book h ->
  let w := fst (after inode (start fs) no_book h) in
  w_inst w i = Some x -> is_temp (i_path x) = true ->
  (forall j y, j <> i -> w_inst w j = Some y -> i_path y <> i_path x) ->
  close inode i w = (w', r) -> r = Ok tt /\ w_file w' (inode (i_path x)) = None.
Proof.
  intros F S. cbv zeta. intros H T Al E. exact (close_last inode _ _ i x w' r (history_inv inode fs h F S) H E Al T).
Qed.
Print Assumptions C56_last_partial.

Example C56_example :
  all_safe disk (start no_files) no_book (plainly (shared ++ [OClose 0; OClose 1; OClose 2]))%list /\
  (exists f, w_file (world_of (shared ++ [OClose 0; OClose 1; OClose 2])%list) 0%nat = Some f) /\
  w_file (world_of (shared ++ [OClose 0; OClose 1; OClose 2; OClose 3])%list) 0%nat = None.
Proof. split; [used|]. split; [eexists; vm_compute; reflexivity|vm_compute; reflexivity]. Qed.

(** False in general: opened under two paths, the table of a live data set is
    dropped. *)
Definition aliased : list op := [new3; OSave 0 "x.sqlite"; OLoad "x.sqlite"; OLoad "./x.sqlite"].
Theorem C56_alias_refuted : disk "x.sqlite" = disk "./x.sqlite" /\
  ask (OValues 2 (Some ["user"])) aliased = Ok (ARows [[Some (VInt 7)]; [Some (VInt 8)]; [Some (VInt 7)]]) /\
  ask (OClose 1) aliased = Ok AUnit /\
  ask (OValues 2 (Some ["user"])) (aliased ++ [OClose 1])%list = Err OperationalError.
Proof. repeat split; vm_compute; reflexivity. Qed.
Print Assumptions C56_alias_refuted.

(** ** C57 closing does not destroy the user's file *)

(** False: closing the only data set loaded from a saved file drops its table. *)
Definition kept : list op := [new3; OSave 0 "x.sqlite"; OLoad "x.sqlite"].
Theorem C57_refuted :
  all_safe disk (start no_files) no_book (plainly (kept ++ [OClose 1; OLoad "x.sqlite"]))%list /\
  is_temp "x.sqlite" = false /\
  ask (OValues 1 (Some ["user"])) kept = Ok (ARows [[Some (VInt 7)]; [Some (VInt 8)]; [Some (VInt 7)]]) /\
  ask (OClose 1) kept = Ok AUnit /\
  ask (OLoad "x.sqlite") (kept ++ [OClose 1])%list = Err OperationalError.
Proof. split; [used|]. repeat split; vm_compute; reflexivity. Qed.
Print Assumptions C57_refuted.

(** Files of other data sets are untouched, and so is the data set's own file as
    long as another data set has its table open. *)
Theorem C57_others_partial inode fs h i x w' r : files_ok fs -> all_safe inode (start fs) no_book h ->
  let w := fst (after inode (start fs) no_book h) in
  w_inst w i = Some x -> close inode i w = (w', r) ->
  (forall n, n <> inode (i_path x) -> w_file w' n = w_file w n) /\
  (forall j y, j <> i -> w_inst w j = Some y -> w_inst w' j = Some y /\
     tables inode w' (i_path y) (i_table y) = tables inode w (i_path y) (i_table y)) /\
  (is_temp (i_path x) = false -> forall t, t <> i_table x -> tables inode w' (i_path x) t = tables inode w (i_path x) t).
Proof.
  intros F S. cbv zeta. intros H E. destruct (close_others inode _ _ i x w' r (history_inv inode fs h F S) H E) as (A & B & C).
  split; [auto|]. split; [|auto]. intros j y N Hy. destruct (A j y N Hy) as (A1 & A2 & _). auto.
Qed.
Print Assumptions C57_others_partial.
Example C57_example :
  all_safe disk (start no_files) no_book (plainly (kept ++ [OLoad "x.sqlite"; OClose 1; OLoad "x.sqlite"]))%list /\
  ask (OValues 3 (Some ["user"])) (kept ++ [OLoad "x.sqlite"; OClose 1; OLoad "x.sqlite"])%list =
    Ok (ARows [[Some (VInt 7)]; [Some (VInt 8)]; [Some (VInt 7)]]).
Proof. split; [used|]. vm_compute; reflexivity. Qed.

(** ** C58 saved and loaded again *)

(** The rows survive, renumbered from 0; the new data set can be read at once. *)
Theorem C58_rows_partial inode fs h i d p ord ord1 w1 w2 r : files_ok fs -> all_safe inode (start fs) no_book h ->
  let w := fst (after inode (start fs) no_book h) in
  let b := snd (after inode (start fs) no_book h) in
  b i = Some d -> p <> "" -> unused inode w p -> (forall l, Permutation (ord l) l) ->
  exec inode ord (OSave i p) w = (w1, Ok AUnit) -> exec inode ord1 (OLoad p) w1 = (w2, r) ->
  exists j d', r = Ok (ADs j) /\ d_cols d' = "rid" :: names (d_cols d) /\
    Permutation (map (cells (names (d_cols d))) (d_rows d')) (map (cells (names (d_cols d))) (d_rows d)) /\
    map rid_of (d_rows d') = map Z.of_nat (seq 0 (length (d_rows d))) /\
    forall ord2 columns, (forall l, Permutation (ord2 l) l) -> incl (asked d' columns) (d_cols d') ->
      exists rows, snd (exec inode ord2 (OValues j columns) w2) = Ok (ARows rows) /\
        Permutation rows (map (cells (asked d' columns)) (d_rows d')).
Proof.
  intros F S. cbv zeta. intros Hb Np Un Po E1 E2.
  destruct (round_trip inode _ _ i d p ord ord1 w1 w2 r (history_inv inode fs h F S) Hb Np Un Po E1 E2) as (j & d' & -> & Bj & C & P & Ri & I2 & Rs).
  exists j, d'. split; [auto|]. split; [auto|]. split; [auto|]. split; [auto|]. intros ord2 columns Po2 Ic.
  destruct (exec inode ord2 (OValues j columns) w2) as [w3 r3] eqn:E3. cbn [snd].
  assert (Sf : safe inode w2 (note (snd (after inode (start fs) no_book h)) j (Some d')) (OValues j columns))
    by (cbn [safe]; rewrite DbFacts13.note_same; discriminate).
  pose proof (answer_of inode _ _ ord2 _ _ _ I2 Po2 Sf E3) as A. destruct r3 as [a|e].
  - destruct A as [A _]. destruct (A j d' eq_refl (DbFacts13.note_same _ _ _)) as (rows & -> & Pr). eauto.
  - exfalso. apply A. cbn [must_succeed]. exists d'. split; [apply DbFacts13.note_same|]. auto.
Qed.
Print Assumptions C58_rows_partial.
Example C58_example :
  let h := [new3; OAssign 0; ODrop 0 [0] false false] in
  all_safe disk (start no_files) no_book (plainly (h ++ [OSave 0 "x.sqlite"; OLoad "x.sqlite"]))%list /\
  ask (OSave 0 "x.sqlite") h = Ok AUnit /\
  ask (OValues 1 None) (h ++ [OSave 0 "x.sqlite"; OLoad "x.sqlite"])%list =
    Ok (ARows [[Some (VInt 0); Some (VInt 8); Some (VStr "b"); Some (VInt 4)]; [Some (VInt 1); Some (VInt 7); Some (VStr "b"); Some (VInt 5)]]).
Proof. cbv zeta. split; [used|]. split; vm_compute; reflexivity. Qed.

(** Not the whole API: select, assign_internal_ids and save raise TypeError, and
    a data set derived by drop cannot be read a fourth time. *)
Definition derived : list op := (kept ++ [ODrop 1 [1] true false; OValues 2 None; OValues 2 None; OValues 2 None])%list.
Theorem C58_api_refuted :
  all_safe disk (start no_files) no_book (plainly derived) /\
  ask (OSelect 1 [cond_eq "user" (LInt 7)] true) kept = Err TypeError /\
  ask (OAssign 1) kept = Err TypeError /\
  ask (OSave 1 "y.sqlite") kept = Err TypeError /\
  ask (OLen 2) derived = Ok (ANum 2) /\
  ask (OValues 2 None) derived = Err TypeError.
Proof. split; [used|]. repeat split; vm_compute; reflexivity. Qed.
Print Assumptions C58_api_refuted.

(** ** C60 the caller's list of columns *)

(** False: unique() appends 'rid' to it. *)
Theorem C60_unique_refuted : exists w i cs j cs', snd (unique disk i (Some cs) true w) = Ok (j, Some cs') /\ cs' <> cs.
Proof.
  exists (world_of [new3]), 0%nat, ["user"], 1%nat, ["user"; "rid"]. split; [vm_compute; reflexivity|discriminate].
Qed.
Print Assumptions C60_unique_refuted.

(** It is left alone exactly when it has 'rid'. *)
Theorem C60_unique_partial inode i cs cp w w' j cs' : unique inode i (Some cs) cp w = (w', Ok (j, cs')) ->
  cs' = Some (plus_rid cs) /\ (cs' = Some cs <-> In "rid" cs).
Proof.
  intro E. unfold unique in E.
  apply andthen_val in E. destruct E as (w1 & x & E1 & E).
  apply andthen_val in E. destruct E as (w2 & l & E2 & E).
  assert (l = cs); [|subst l]. { unfold lift, handle_columns in E2. destruct (forallb _ _); congruence. }
  apply andthen_val in E. destruct E as (w3 & k & E3 & E).
  apply andthen_val in E. destruct E as (w4 & y0 & E4 & E).
  apply andthen_val in E. destruct E as (w5 & [] & E5 & E).
  apply andthen_val in E. destruct E as (w6 & [] & E6 & E).
  apply andthen_val in E. destruct E as (w7 & y & E7 & E).
  apply andthen_val in E. destruct E as (w8 & [] & E8 & E).
  apply andthen_val in E. destruct E as (w9 & [] & E9 & E).
  injection E as _ _ <-. cbn [option_map]. unfold plus_rid. rewrite <- DbFacts12.mem_existsb. fold (in_cols "rid" cs).
  split; [auto|]. destruct (in_cols "rid" cs) eqn:R.
  - apply DbFacts.in_cols_In in R. tauto.
  - apply DbFacts.in_cols_false in R. split; [|tauto]. intro X. injection X as X. exfalso.
    assert (L : length (cs ++ ["rid"]) = length cs) by congruence. rewrite app_length in L. cbn in L. lia.
Qed.
Print Assumptions C60_unique_partial.
Example C60_example : exists w', unique disk 0 (Some ["user"; "rid"]) true (world_of [new3]) = (w', Ok (1%nat, Some ["user"; "rid"])).
Proof. eexists. vm_compute. reflexivity. Qed.

(** ** C72 an apply() that raises leaves the data unchanged *)

(** False: the rows before the one that raises have been changed. *)
Definition no_four (v : value) : res value :=
  match v with VInt z => if z =? 4 then Err ValueError else Ok (VInt (10 * z)) | _ => Err TypeError end.
Theorem C72_refuted :
  all_safe disk (start no_files) no_book (plainly [new3; OApply 0 "interaction" no_four]) /\
  (exists e, ask (OApply 0 "interaction" no_four) [new3] = Err e) /\
  ask (OValues 0 (Some ["interaction"])) [new3] = Ok (ARows [[Some (VInt 3)]; [Some (VInt 4)]; [Some (VInt 5)]]) /\
  ask (OValues 0 (Some ["interaction"])) [new3; OApply 0 "interaction" no_four] =
    Ok (ARows [[Some (VInt 30)]; [Some (VInt 4)]; [Some (VInt 5)]]).
Proof. split; [used|]. split; [eexists; vm_compute; reflexivity|]. split; vm_compute; reflexivity. Qed.
Print Assumptions C72_refuted.

(** It holds when the column is unknown or read-only: the call raises and the
    data set is the same. *)
Theorem C72_rejected_partial inode fs h ord i c f d w' r : files_ok fs ->
  all_safe inode (start fs) no_book (h ++ [(ord, OApply i c f)])%list ->
  snd (after inode (start fs) no_book h) i = Some d ->
  ~ In c (d_cols d) \/ In c ["rid"; "uid"; "iid"; "user"; "item"] ->
  exec inode ord (OApply i c f) (fst (after inode (start fs) no_book h)) = (w', r) ->
  (exists e, r = Err e) /\ snd (after inode (start fs) no_book (h ++ [(ord, OApply i c f)])%list) i = Some d.
Proof.
  intros F S Hd Bad E.
  assert (Bb : (negb (existsb (String.eqb c) (d_cols d)) || existsb (String.eqb c) ["rid"; "uid"; "iid"; "user"; "item"])%bool = true).
  { apply orb_true_iff. destruct Bad as [N|Y]; [left|right; exact (proj2 (inb_iff c _) Y)]. apply negb_true_iff.
    destruct (existsb (String.eqb c) (d_cols d)) eqn:X; [|auto]. destruct N. apply (inb_ok c). auto. }
  rewrite after_app. apply all_safe_app in S. destruct S as [Sh So].
  pose proof (history_inv inode fs h F Sh) as I. destruct (after inode (start fs) no_book h) as [w b]. cbn [fst snd] in *.
  cbn [after]. rewrite E. cbn [snd effect]. rewrite Hd, Bb. split; [|auto].
  destruct (inv_attributes inode w b i d I Hd) as (x & H & C & _). rewrite <- C in Bb.
  destruct (apply_bad_column inode ord i c f w x H Bb) as [e Ea]. cbn [exec] in E. unfold amap in E.
  rewrite (DbFacts3.andthen_err _ _ _ _ _ Ea) in E. injection E as _ <-. eauto.
Qed.
Print Assumptions C72_rejected_partial.
Example C72_example : all_safe disk (start no_files) no_book (plainly ([new3] ++ [OApply 0 "item" no_four]))%list /\
  ask (OApply 0 "item" no_four) [new3] = Err GenericException.
Proof. split; [used|]. vm_compute. reflexivity. Qed.

(** ** C73 interaction vectors *)

(** False: a vector is kept for ever. *)
Definition vector (i : nat) (uid : Z) (w : world) : res (list Q) :=
  match snd (user_vec disk asis i uid w) with Ok v => Ok (map this v) | Err e => Err e end.
Definition vec_history : list op := [new3; OAssign 0].
Theorem C73_refuted :
  all_safe disk (start no_files) no_book (plainly vec_history) /\
  let w := fst (user_vec disk asis 0 0 (world_of vec_history)) in
  vector 0 0 (world_of vec_history) = Ok [3%Q; 5%Q] /\
  (exists w', exec disk asis (OApply 0 "interaction" times10) w = (w', Ok AUnit) /\
     snd (exec disk asis (OValues 0 (Some ["uid"; "iid"; "interaction"])) w') =
       Ok (ARows [[Some (VInt 0); Some (VInt 0); Some (VInt 30)]; [Some (VInt 1); Some (VInt 1); Some (VInt 40)];
                  [Some (VInt 0); Some (VInt 1); Some (VInt 50)]]) /\
     vector 0 0 w' = Ok [3%Q; 5%Q]).
Proof.
  split; [used|]. cbv zeta. split; [vm_compute; reflexivity|]. eexists. split; [vm_compute; reflexivity|]. split; vm_compute; reflexivity.
Qed.
Print Assumptions C73_refuted.

(** A vector that is not in the cache has one place for every item and, at every
    place, the sum of the user's interactions with the item. *)
Theorem C73_fresh_partial inode fs h ord i d x ts uid w' v : files_ok fs -> all_safe inode (start fs) no_book h ->
  let w := fst (after inode (start fs) no_book h) in
  snd (after inode (start fs) no_book h) i = Some d -> (forall l, Permutation (ord l) l) ->
  w_inst w i = Some x -> assoc Z.eqb uid (i_ucache x) = None ->
  d_types d = Some ts -> assoc String.eqb "uid" ts = Some DInt -> In "uid" (d_cols d) ->
  user_vec inode ord i uid w = (w', Ok v) ->
  exists k, extreme Datatypes.Gt "iid" (d_rows d) (Some (VInt k)) /\ length v = Z.to_nat (k + 1) /\
    forall n, (n < length v)%nat -> nth n v 0%Qc = interaction_of (d_rows d) uid (Z.of_nat n).
Proof.
  intros F S. cbv zeta. intros Hd Po Hx Nc Ts Tu Iu E.
  exact (fresh_vector inode ord _ _ i d x ts uid w' v Po (history_inv inode fs h F S) Hd Hx Ts Tu Iu Nc E).
Qed.
Print Assumptions C73_fresh_partial.
Example C73_example :
  exists d x ts, snd (run vec_history) 0%nat = Some d /\ w_inst (world_of vec_history) 0%nat = Some x /\
    assoc Z.eqb 0 (i_ucache x) = None /\ d_types d = Some ts /\ assoc String.eqb "uid" ts = Some DInt /\ In "uid" (d_cols d) /\
    map (fun n => this (interaction_of (d_rows d) 0 n)) [0; 1] = [3%Q; 5%Q].
Proof.
  do 3 eexists. split; [vm_compute; reflexivity|]. split; [vm_compute; reflexivity|]. split; [vm_compute; reflexivity|].
  split; [vm_compute; reflexivity|]. split; [vm_compute; reflexivity|]. split; [apply inb_ok; vm_compute; reflexivity|vm_compute; reflexivity].
Qed.

(** ** C74 closing twice *)

(** False while other data sets use the table: the second close raises. *)
Theorem C74_refuted : exists h x, all_safe disk (start no_files) no_book (plainly (h ++ [OClose 0]))%list /\
  w_inst (world_of h) 0%nat = Some x /\ ask (OClose 0) h = Ok AUnit /\
  snd (close_obj disk 0 x (world_of (h ++ [OClose 0])%list)) = Err KeyError.
Proof. exists [new3; OCopy 0]. eexists. split; [used|]. split; [vm_compute; reflexivity|]. split; vm_compute; reflexivity. Qed.
Print Assumptions C74_refuted.

(** The second close of the last data set on a file does nothing. *)
Theorem C74_last_partial inode fs h i x w' : files_ok fs -> all_safe inode (start fs) no_book h ->
  let w := fst (after inode (start fs) no_book h) in
  w_inst w i = Some x -> (forall j y, j <> i -> w_inst w j = Some y -> i_path y <> i_path x) ->
  close inode i w = (w', Ok tt) ->
  exists w'', close_obj inode i x w' = (w'', Ok tt) /\ w_file w'' = w_file w' /\ w_open w'' = w_open w' /\
    forall j, w_inst w'' j = w_inst w' j.
Proof. intros F S. cbv zeta. intros H Al E. exact (close_twice inode _ _ i x w' (history_inv inode fs h F S) H E Al). Qed.
Print Assumptions C74_last_partial.
Example C74_example : exists x w', w_inst (world_of [new3]) 0%nat = Some x /\ close disk 0 (world_of [new3]) = (w', Ok tt) /\
  snd (close_obj disk 0 x w') = Ok tt.
Proof. do 2 eexists. split; [vm_compute; reflexivity|]. split; vm_compute; reflexivity. Qed.

(** ** C75 internal ids *)

(** After assign_internal_ids(): the id of a raw id is the number of distinct raw
    ids that come before it in record id order, and the lookups agree. *)
Theorem C75_lookups inode fs h ord i d w' raw id : files_ok fs ->
  all_safe inode (start fs) no_book (h ++ [(ord, OAssign i)])%list ->
  snd (after inode (start fs) no_book h) i = Some d ->
  exec inode ord (OAssign i) (fst (after inode (start fs) no_book h)) = (w', Ok AUnit) -> raw_pair raw id ->
  (forall ts t v, d_types d = Some ts -> assoc String.eqb raw ts = Some t -> fits_column t v ->
     raw_to_id inode raw id i v w' =
       (w', Ok (if existsb (cell_is raw (Some v)) (d_rows d) then Some (VInt (rank raw (d_rows d) (Some v))) else None))) /\
  (forall row v, In row (d_rows d) -> tcell row raw = Some v ->
     id_to_raw inode raw id i (rank raw (d_rows d) (Some v)) w' = (w', Ok (Some v))) /\
  (forall z, (forall row, In row (d_rows d) -> rank raw (d_rows d) (tcell row raw) <> z) ->
     id_to_raw inode raw id i z w' = (w', Ok None)).
Proof.
  intros F S Hd E Rp. apply all_safe_app in S. destruct S as [Sh So]. cbn [all_safe] in So.
  destruct So as (Po & Sf & _).
  exact (lookups inode ord _ _ i d w' raw id Po (history_inv inode fs h F Sh) Sf Hd E Rp).
Qed.
Print Assumptions C75_lookups.
Definition id_rows : list trow := [row4 4 7 "a" 3; row4 1 8 "b" 4; row4 2 7 "b" 5; row4 3 9 "c" 1].
Definition id_history : list op := [OCreate "db.tmp.sqlite" cols3 types3 id_rows; ODrop 0 [3] false false].
Example C75_example :
  all_safe disk (start no_files) no_book (plainly (id_history ++ [OAssign 0]))%list /\
  map (fun v => snd (db_user_to_uid disk 0 (VInt v) (world_of (id_history ++ [OAssign 0])%list))) [7; 8; 9] =
    [Ok (Some (VInt 1)); Ok (Some (VInt 0)); Ok None] /\
  map (fun z => snd (db_uid_to_user disk 0 z (world_of (id_history ++ [OAssign 0])%list))) [0; 1; 2] =
    [Ok (Some (VInt 8)); Ok (Some (VInt 7)); Ok None].
Proof. split; [used|]. split; vm_compute; reflexivity. Qed.

(** ** C76 reads do not change what the lookups of internal ids answer *)

(** False: the fourth read of a derived data set materialises it without ids. *)
Definition derived_ids : list op := [new3; OAssign 0; OUnique 0 (Some ["user"; "item"; "interaction"]) true].
Definition four_reads : list op := [OValues 1 None; OValues 1 None; OValues 1 None; OValues 1 None].
Theorem C76_refuted :
  all_safe disk (start no_files) no_book (plainly (derived_ids ++ four_reads))%list /\
  snd (db_user_to_uid disk 1 (VInt 8) (world_of derived_ids)) = Ok (Some (VInt 1)) /\
  snd (db_user_to_uid disk 1 (VInt 8) (world_of (derived_ids ++ four_reads)%list)) = Ok None.
Proof. split; [used|]. split; vm_compute; reflexivity. Qed.
Print Assumptions C76_refuted.

(** It holds for a data set with nothing pending. *)
Theorem C76_at_rest_partial inode ord o i w w' r : is_read o = true -> subject o = Some i -> at_rest w i ->
  exec inode ord o w = (w', r) ->
  at_rest w' i /\
  (forall raw id v, snd (raw_to_id inode raw id i v w') = snd (raw_to_id inode raw id i v w)) /\
  (forall raw id z, snd (id_to_raw inode raw id i z w') = snd (id_to_raw inode raw id i z w)).
Proof. exact (lookups_rest inode ord o i w w' r). Qed.
Print Assumptions C76_at_rest_partial.
Example C76_example : at_rest (world_of vec_history) 0 /\
  ask (OCountUnique 0 (Some ["user"])) vec_history = Ok (ANum 2) /\
  snd (db_user_to_uid disk 0 (VInt 8) (world_of (vec_history ++ [OCountUnique 0 (Some ["user"])])%list)) = Ok (Some (VInt 1)).
Proof. split; [eexists; split; vm_compute; reflexivity|]. split; vm_compute; reflexivity. Qed.
