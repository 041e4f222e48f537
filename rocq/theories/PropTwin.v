(** C107: data sets in memory and data sets in a database are interchangeable.

    [both inode w b mb] (TwinSpec.v): the same program, any sequence of calls that
    create, copy, select, drop, number, change and read data sets, was run on data
    sets in memory, which are now [mb], and on data sets in databases, which are now
    in the state [w] and hold, by the specification of DbSpec.v, the data [b].
    Both give new data sets the same names.
    [twin d m]: the database data set [d] and the data set in memory [m] have the
    same columns in the same order, the same dtypes and the same rows.
    [alike a a']: the same answer; rows in any order, numbers compared by value.
    [fits mb o] states which calls mean the same for both; the refutations below
    show that its conditions are needed. *)
From Coq Require Import String Ascii.
From Coq Require Import List ZArith QArith Qcanon Bool Permutation Sorted Lia.
From Verif Require Import Py PyFacts MemModel MemSpec DbModel DbSpec DbFacts8 DbFacts13 DbFacts15 DbCheck DbExamples
  TwinSpec TwinFacts5 TwinFacts6 TwinCheck.
Import ListNotations.
Open Scope string_scope.
Open Scope Z_scope.
Open Scope list_scope.

(** ** Concrete programs *)
Definition nowhere : world * book * mbook := (start no_files, no_book, no_mbook).
Definition done (p : list op) : bool :=
  match side_by_side disk asis (start no_files) no_book no_mbook p with Some _ => true | None => false end.
Definition pair_of (p : list op) : world * book * mbook :=
  match side_by_side disk asis (start no_files) no_book no_mbook p with Some t => t | None => nowhere end.
Definition dbs (p : list op) : world := fst (fst (pair_of p)).
Definition datas (p : list op) : book := snd (fst (pair_of p)).
Definition mems (p : list op) : mbook := snd (pair_of p).
Lemma done_ok p : done p = true -> both disk (dbs p) (datas p) (mems p).
Proof.
  unfold done, dbs, datas, mems, pair_of. destruct (side_by_side disk asis (start no_files) no_book no_mbook p) as [[[w b] mb]|] eqn:E; [|discriminate].
  intros _. cbn [fst snd]. eapply side_by_side_ok; [exact asis_ok| |exact E]. apply BStart. apply no_files_ok.
Qed.
(** what both answer to one more call *)
Definition in_db (o : op) (p : list op) : res out := snd (exec disk asis o (dbs p)).
Definition in_mem (o : op) (p : list op) : res out :=
  snd (mem_exec (mems p) (match in_db o p with Ok a => name_of a | Err _ => 0%nat end) o).

Definition cols6 : list string := ["user"; "item"; "interaction"; "rid"].
Definition types6 : list (string * dtype) := [("rid", DInt); ("user", DObj); ("item", DInt); ("interaction", DInt)].
Definition row6 (rid : Z) (u : string) (i x : Z) : trow :=
  [("user", Some (VStr u)); ("item", Some (VInt i)); ("interaction", Some (VInt x)); ("rid", Some (VInt rid))].
Definition rows6 : list trow := [row6 0 "b" 7 3; row6 1 "a" 8 4; row6 2 "b" 8 5; row6 3 "c" 7 1; row6 5 "b" 8 5].
Definition new6 : op := OCreate "db.tmp.sqlite" cols6 types6 rows6.
Definition program6 : list op :=
  [new6; OAssign 0; OSelect 0 [mkCond "user" Eq (LText "b"); mkCond "interaction" Gt (LInt 2)] true;
   OCopy 1; OApply 2 "interaction" times10; ODrop 2 [2] false false; OUnique 0 (Some ["uid"; "iid"; "interaction"]) true].

(** ** The theorems *)

(** The data sets hold the same data, whatever the program did. *)
Theorem C107_same_data_partial inode w b mb i : both inode w b mb ->
  match b i, mb i with None, None => True | Some d, Some m => twin d m | _, _ => False end.
Proof.
  intro H. destruct (both_inv inode w b mb H) as [_ Tw]. specialize (Tw i). unfold pair_ok in Tw. destruct (b i), (mb i); try exact Tw. apply Tw.
Qed.
Print Assumptions C107_same_data_partial.

(** A call that returns on the database returns in memory, with the same answer. *)
Theorem C107_same_answers_partial inode w b mb ord o w' a : both inode w b mb -> (forall l, Permutation (ord l) l) ->
  safe inode w b o -> fits mb o -> exec inode ord o w = (w', Ok a) ->
  exists mb' a', mem_exec mb (name_of a) o = (mb', Ok a') /\ alike a a'.
Proof. exact (both_answers inode w b mb ord o w' a). Qed.
Print Assumptions C107_same_answers_partial.

(** The calls that have to succeed (see DbSpec.v) succeed on both. *)
Theorem C107_both_return_partial inode w b mb ord o : both inode w b mb -> (forall l, Permutation (ord l) l) ->
  safe inode w b o -> fits mb o -> must_succeed inode w b o ->
  exists w' a mb' a', exec inode ord o w = (w', Ok a) /\ mem_exec mb (name_of a) o = (mb', Ok a') /\ alike a a'.
Proof.
  intros B P S F Ms. destruct (exec inode ord o w) as [w' [a|e]] eqn:E.
  - destruct (both_answers inode w b mb ord o w' a B P S F E) as (mb' & a' & X). exists w', a, mb', a'. auto.
  - exfalso. destruct (both_inv inode w b mb B) as [I _]. exact (answer_of inode w b ord o w' (Err e) I P S E Ms).
Qed.
Print Assumptions C107_both_return_partial.

(** The numbers of users and items, and back, right after assign_internal_ids. *)
Theorem C107_same_lookups_partial inode w b mb ord i w' m : both inode w b mb -> (forall l, Permutation (ord l) l) ->
  safe inode w b (OAssign i) -> exec inode ord (OAssign i) w = (w', Ok AUnit) -> mb i = Some m ->
  exists m', assign_internal_ids m = Ok m' /\
    (forall v, raw_id m "user" v -> exists o, db_user_to_uid inode i v w' = (w', Ok (option_map VInt o)) /\ user_to_uid m' v = Ok o) /\
    (forall v, raw_id m "item" v -> exists o, db_item_to_iid inode i v w' = (w', Ok (option_map VInt o)) /\ item_to_iid m' v = Ok o) /\
    (forall z, exists o, db_uid_to_user inode i z w' = (w', Ok o) /\ uid_to_user m' z = Ok o) /\
    (forall z, exists o, db_iid_to_item inode i z w' = (w', Ok o) /\ iid_to_item m' z = Ok o).
Proof. exact (both_lookups inode w b mb ord i w' m). Qed.
Print Assumptions C107_same_lookups_partial.

Example C107_example :
  both disk (dbs program6) (datas program6) (mems program6) /\
  fits (mems program6) (OValues 2 (Some ["item"; "interaction"; "rid"])) /\
  in_db (OValues 2 (Some ["item"; "interaction"; "rid"])) program6 =
    Ok (ARows [[Some (VInt 7); Some (VInt 30); Some (VInt 0)]; [Some (VInt 8); Some (VInt 50); Some (VInt 5)]]) /\
  in_mem (OValues 2 (Some ["item"; "interaction"; "rid"])) program6 =
    Ok (ARows [[Some (VInt 7); Some (VInt 30); Some (VInt 0)]; [Some (VInt 8); Some (VInt 50); Some (VInt 5)]]) /\
  fits (mems program6) (OLen 3) /\
  in_db (OLen 3) program6 = Ok (ANum 4) /\ in_mem (OLen 3) program6 = Ok (ANum 4) /\
  fits (mems program6) (OMax 1 "interaction") /\
  in_db (OMax 1 "interaction") program6 = Ok (AVal (Some (VInt 5))) /\ in_mem (OMax 1 "interaction") program6 = Ok (AVal (Some (VInt 5))).
Proof.
  split; [apply done_ok; vm_compute; reflexivity|]. split; [apply fitsb_ok; vm_compute; reflexivity|].
  split; [vm_compute; reflexivity|]. split; [vm_compute; reflexivity|]. split; [exact Logic.I|].
  split; [vm_compute; reflexivity|]. split; [vm_compute; reflexivity|]. split; [apply fitsb_ok; vm_compute; reflexivity|].
  split; vm_compute; reflexivity.
Qed.
Example C107_lookups_example :
  both disk (dbs [new6]) (datas [new6]) (mems [new6]) /\ safe disk (dbs [new6]) (datas [new6]) (OAssign 0) /\
  (exists m, mems [new6] 0%nat = Some m /\ raw_id m "user" (VStr "c")) /\
  snd (db_user_to_uid disk 0 (VStr "c") (dbs [new6; OAssign 0])) = Ok (Some (VInt 2)) /\
  option_map (fun m => user_to_uid m (VStr "c")) (mems [new6; OAssign 0] 0%nat) = Some (Ok (Some 2)).
Proof.
  assert (B : both disk (dbs [new6]) (datas [new6]) (mems [new6])) by (apply done_ok; vm_compute; reflexivity).
  split; [exact B|]. split; [apply safeb_ok; [apply (both_inv _ _ _ _ B)|vm_compute; reflexivity]|].
  split; [eexists; split; [vm_compute; reflexivity|exists DObj; split; [vm_compute; reflexivity|split; [discriminate|reflexivity]]]|].
  split; vm_compute; reflexivity.
Qed.

(** ** Without [fits] it is false *)

(** After the program [p] the call [o] is correct use of the database and returns,
    but does not return the same in memory. *)
Definition differ (p : list op) (o : op) : Prop :=
  exists w' a, both disk (dbs p) (datas p) (mems p) /\ safe disk (dbs p) (datas p) o /\ exec disk asis o (dbs p) = (w', Ok a) /\
    forall mb' a', mem_exec (mems p) (name_of a) o = (mb', Ok a') -> ~ alike a a'.
Definition likeb (a a' : out) : bool :=
  match a, a' with
  | ANum n, ANum k => Nat.eqb n k
  | ARows x, ARows y => Nat.eqb (length x) (length y)
  | AVal (Some _), AVal (Some _) | AVal None, AVal None => true
  | AUnit, AUnit => true
  | ADs i, ADs j => Nat.eqb i j
  | ARow _, ARow _ => true
  | _, _ => false
  end.
Lemma likeb_ok a a' : alike a a' -> likeb a a' = true.
Proof.
  destruct a as [|i|x|x|n|x], a' as [|i'|y|y|n'|y]; cbn [alike likeb]; try (intros []; fail); try reflexivity; try (destruct x; contradiction).
  - intros ->. apply Nat.eqb_refl.
  - intros (y' & P & F). apply Nat.eqb_eq. rewrite (Permutation_length P). clear P. induction F; cbn [length]; auto.
  - intros ->. apply Nat.eqb_refl.
  - destruct x, y; cbn [same_cell]; tauto.
Qed.
Definition differb (p : list op) (o : op) : bool :=
  (done p && safeb disk (dbs p) (datas p) o &&
   match in_db o p with
   | Ok a => match in_mem o p with Ok a' => negb (likeb a a') | Err _ => true end
   | Err _ => false
   end)%bool.
Lemma differb_ok p o : differb p o = true -> differ p o.
Proof.
  unfold differb. rewrite !andb_true_iff. intros [[A B] C]. pose proof (done_ok p A) as H. unfold in_mem in C.
  destruct (in_db o p) as [a|] eqn:E; [|discriminate]. unfold in_db in E. destruct (exec disk asis o (dbs p)) as [w' r] eqn:X. cbn [snd] in E. subst r.
  exists w', a. split; [exact H|]. split; [apply safeb_ok; [apply (both_inv _ _ _ _ H)|exact B]|]. split; [exact X|].
  intros mb' a' M L. rewrite M in C. cbn [snd] in C. rewrite (likeb_ok _ _ L) in C. discriminate.
Qed.

(** The call returns on both, but the data sets it leaves do not have the same
    number of rows. *)
Definition drift (p : list op) (o : op) : Prop :=
  exists w' j d m mb', both disk (dbs p) (datas p) (mems p) /\ safe disk (dbs p) (datas p) o /\ exec disk asis o (dbs p) = (w', Ok (ADs j)) /\
    mem_exec (mems p) j o = (mb', Ok (ADs j)) /\ effect disk (dbs p) (datas p) o (Ok (ADs j)) j = Some d /\ mb' j = Some m /\
    length (d_rows d) <> length (rows_of m).
Definition driftb (p : list op) (o : op) : bool :=
  (done p && safeb disk (dbs p) (datas p) o &&
   match in_db o p with
   | Ok (ADs j) =>
       match mem_exec (mems p) j o, effect disk (dbs p) (datas p) o (Ok (ADs j)) j with
       | (mb', Ok (ADs k)), Some d => match mb' j with Some m => (Nat.eqb k j && negb (Nat.eqb (length (d_rows d)) (length (rows_of m))))%bool | None => false end
       | _, _ => false
       end
   | _ => false
   end)%bool.
Lemma driftb_ok p o : driftb p o = true -> drift p o.
Proof.
  unfold driftb. rewrite !andb_true_iff. intros [[A B] C]. pose proof (done_ok p A) as H.
  destruct (in_db o p) as [[|j| | | |]|] eqn:E; try discriminate. unfold in_db in E. destruct (exec disk asis o (dbs p)) as [w' r] eqn:X. cbn [snd] in E. subst r.
  destruct (mem_exec (mems p) j o) as [mb' [[|k| | | |]|]] eqn:M; try discriminate.
  destruct (effect disk (dbs p) (datas p) o (Ok (ADs j)) j) as [d|] eqn:D; [|discriminate]. destruct (mb' j) as [m|] eqn:Mj; [|discriminate].
  apply andb_true_iff in C. destruct C as [C1 C2]. apply Nat.eqb_eq in C1. subst k. apply negb_true_iff, Nat.eqb_neq in C2.
  exists w', j, d, m, mb'. split; [exact H|]. split; [apply safeb_ok; [apply (both_inv _ _ _ _ H)|exact B]|]. auto.
Qed.

(** unique() and count_unique() without columns, or with the record id: a database
    keeps every row, in memory the record id is not looked at. *)
Theorem C107_unique_refuted :
  differ [new6] (OCountUnique 0 None) /\ differ [new6] (OCountUnique 0 (Some cols6)) /\ drift [new6] (OUnique 0 None true).
Proof.
  split; [apply differb_ok; vm_compute; reflexivity|]. split; [apply differb_ok; vm_compute; reflexivity|].
  apply driftb_ok; vm_compute; reflexivity.
Qed.
Print Assumptions C107_unique_refuted.

(** With internal ids, text raw ids are compared by number in memory: the order
    of the numbers is the order of first appearance; == needs the column of numbers. *)
Theorem C107_text_ids_refuted :
  drift [new6; OAssign 0] (OSelect 0 [mkCond "user" Lt (LText "b")] true) /\
  differ [new6; OAssign 0; OUnique 0 (Some ["user"]) true] (OSelect 1 [mkCond "user" Eq (LText "b")] true).
Proof. split; [apply driftb_ok; vm_compute; reflexivity|apply differb_ok; vm_compute; reflexivity]. Qed.
Print Assumptions C107_text_ids_refuted.

(** A decimal literal on a column of internal ids is an error in memory only. *)
Theorem C107_decimal_refuted : differ [new6; OAssign 0] (OSelect 0 [mkCond "uid" Lt (LDec false "1" "5")] true).
Proof. apply differb_ok; vm_compute; reflexivity. Qed.
Print Assumptions C107_decimal_refuted.

(** Integers beyond 2^53 are rounded in memory. *)
Definition newbig : op := OCreate "db.tmp.sqlite" cols6 types6 [row6 0 "b" 7 9007199254740993; row6 1 "a" 7 4].
Theorem C107_big_refuted : drift [newbig] (OSelect 0 [mkCond "interaction" Gt (LDec false "9007199254740992" "0")] true).
Proof. apply driftb_ok; vm_compute; reflexivity. Qed.
Print Assumptions C107_big_refuted.

(** The number of a user with no row left: in memory it is kept, in a database it
    is lost as soon as the data set is stored again. *)
Theorem C107_lookup_refuted : exists p, both disk (dbs p) (datas p) (mems p) /\
  snd (db_user_to_uid disk 0 (VStr "c") (dbs p)) = Ok None /\
  option_map (fun m => user_to_uid m (VStr "c")) (mems p 0%nat) = Some (Ok (Some 2)).
Proof.
  exists [new6; OAssign 0; ODrop 0 [3] false false; OApply 0 "interaction" times10].
  split; [apply done_ok; vm_compute; reflexivity|]. split; vm_compute; reflexivity.
Qed.
Print Assumptions C107_lookup_refuted.
