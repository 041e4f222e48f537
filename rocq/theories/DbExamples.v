(** Concrete histories used by the examples and counterexamples of PropDb. *)
From Coq Require Import String Ascii.
From Coq Require Import List ZArith QArith Qcanon Bool Permutation Lia.
From Verif Require Import Py PyFacts MemModel MemSpec DbModel DbSpec DbFacts15 DbCheck.
Import ListNotations.
Open Scope string_scope.
Open Scope Z_scope.

(** 'x.sqlite' and './x.sqlite' are the same file. *)
Definition disk (p : string) : nat :=
  if String.eqb p "db.tmp.sqlite" then 0%nat
  else if (String.eqb p "x.sqlite" || String.eqb p "./x.sqlite")%bool then 1%nat else 2%nat.
Definition no_files : nat -> option (string -> option table) := fun _ => None.
Lemma no_files_ok : files_ok no_files.
Proof. intros n f H. discriminate H. Qed.

Definition asis : order := fun l => l.
Definition backwards : order := fun l => rev l.
Definition plainly (h : list op) : history := map (fun o => (asis, o)) h.
Definition run (h : list op) : world * book := after disk (start no_files) no_book (plainly h).
Definition world_of (h : list op) : world := fst (run h).
Definition ask (o : op) (h : list op) : res out := snd (exec disk asis o (world_of h)).

Definition cols3 : list string := ["user"; "item"; "interaction"; "rid"].
Definition types3 : list (string * dtype) := [("rid", DInt); ("user", DInt); ("item", DObj); ("interaction", DInt)].
Definition row4 (rid u : Z) (i : string) (x : Z) : trow :=
  [("user", Some (VInt u)); ("item", Some (VStr i)); ("interaction", Some (VInt x)); ("rid", Some (VInt rid))].
Definition rows3 : list trow := [row4 0 7 "a" 3; row4 1 8 "b" 4; row4 2 7 "b" 5].
Definition new3 : op := OCreate "db.tmp.sqlite" cols3 types3 rows3.
Definition cond_eq (c : string) (l : slit) : scond := mkCond c Eq l.
Definition times10 (v : value) : res value := match v with VInt z => Ok (VInt (10 * z)) | _ => Err TypeError end.

(** ** Proving that a concrete history is used correctly *)
Lemma asis_ok : forall l, Permutation (asis l) l.
Proof. intro. apply Permutation_refl. Qed.
Lemma backwards_ok : forall l, Permutation (backwards l) l.
Proof. intro. apply Permutation_sym, Permutation_rev. Qed.
Lemma plainly_ok h : Forall (fun e => forall l, Permutation (fst e l) l) (plainly h).
Proof. apply Forall_forall. intros e He. apply in_map_iff in He. destruct He as (o & <- & _). exact asis_ok. Qed.
Lemma plain_check h : all_safeb disk (start no_files) no_book (plainly h) = true -> all_safe disk (start no_files) no_book (plainly h).
Proof. apply check; [apply no_files_ok|apply plainly_ok]. Qed.
Ltac used := apply plain_check; vm_compute; reflexivity.
