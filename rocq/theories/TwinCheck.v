(** A decision procedure for the conditions of use of a program run on both kinds
    of data sets, for concrete programs only. *)
From Coq Require Import String Ascii.
From Coq Require Import List ZArith QArith Qcanon Bool Permutation Sorted Lia.
From Verif Require Import Py PyFacts MemModel MemSpec MemFacts MemFacts2 DbModel DbSpec DbFacts13 DbFacts14 DbFacts15 DbCheck TwinSpec TwinFacts5.
Import ListNotations.
Open Scope string_scope.
Open Scope Z_scope.
Open Scope list_scope.

Definition lit_okb (c : string) (t : dtype) (l : slit) : bool :=
  if inb c ["iid"; "uid"; "rid"] then match l with LInt _ => true | _ => false end
  else match l, t with
       | LText s, DObj => plain_textb s
       | LInt z, (DInt | DFloat) => Z.abs z <=? 2 ^ 53
       | LDec _ a b, (DInt | DFloat) => (all_digits a && all_digits b && negb (String.eqb (a ++ b) ""))%bool
       | _, _ => false
       end.
Lemma lit_okb_ok c t l : lit_okb c t l = true -> lit_ok c t l.
Proof.
  unfold lit_okb. destruct (inb c ["iid"; "uid"; "rid"]) eqn:E.
  - destruct l; try discriminate. intros _. apply lo_id, inb_ok, E.
  - pose proof (inb_false _ _ E) as N. destruct l as [z|n a b|s]; destruct t; try discriminate.
    + intro H. apply lo_int; [exact N|discriminate|apply Z.leb_le; exact H].
    + intro H. apply lo_int; [exact N|discriminate|apply Z.leb_le; exact H].
    + rewrite !andb_true_iff, negb_true_iff. intros [[A B] C]. apply String.eqb_neq in C. apply lo_dec; auto; discriminate.
    + rewrite !andb_true_iff, negb_true_iff. intros [[A B] C]. apply String.eqb_neq in C. apply lo_dec; auto; discriminate.
    + intro H. apply lo_text; [exact N|reflexivity|apply plain_textb_ok; exact H].
Qed.

Definition smallb (m : mem) : bool :=
  forallb (fun r => forallb (fun p => match snd p with VInt z => Z.abs z <=? 2 ^ 53 | _ => true end) (r_cells r)) (rows_of m).
Lemma smallb_ok m : smallb m = true -> small m.
Proof.
  unfold smallb. rewrite forallb_forall. intros H c r z Hr E. specialize (H r Hr). rewrite forallb_forall in H.
  unfold cell in E. apply (assoc_In _ reflects_string) in E. specialize (H _ E). cbn in H. apply Z.leb_le. exact H.
Qed.
Definition cond_okb (m : mem) (c : scond) : bool :=
  (inb (sc_col c) (m_columns m) && plainb (sc_col c) && smallb m &&
   match col_type m (sc_col c) with Ok t => lit_okb (sc_col c) t (sc_lit c) | Err _ => false end)%bool.
Lemma cond_okb_ok m c : cond_okb m c = true -> cond_ok m c.
Proof.
  unfold cond_okb, cond_ok. rewrite !andb_true_iff. intros [[[A B] C] D]. split; [apply inb_ok; auto|]. split; [apply plainb_ok; auto|].
  split; [apply smallb_ok; auto|]. destruct (col_type m (sc_col c)) as [t|]; [|discriminate]. exists t. split; [auto|apply lit_okb_ok; auto].
Qed.
Definition raw_fitsb (m : mem) (c : scond) : bool :=
  (negb (m_ids m) || negb (inb (sc_col c) ["user"; "item"]) ||
   match col_type m (sc_col c) with
   | Ok DInt => true
   | Ok DObj => (match sc_op c with Eq | Ne => true | _ => false end && inb (internal (sc_col c)) (m_columns m))%bool
   | _ => false
   end)%bool.
Lemma raw_fitsb_ok m c : raw_fitsb m c = true -> raw_fits m c.
Proof.
  unfold raw_fitsb, raw_fits. intros H Hi Hc. rewrite Hi in H. cbn [negb orb] in H.
  destruct (inb (sc_col c) ["user"; "item"]) eqn:E; [|apply inb_false in E; contradiction]. cbn [negb orb] in H.
  destruct (col_type m (sc_col c)) as [[| |]|]; try discriminate; [auto|]. right. split; [auto|]. apply andb_true_iff in H. destruct H as [A B].
  split; [|apply inb_ok; auto]. unfold eq_op. destruct (sc_op c); try discriminate; auto.
Qed.
Definition queriedb (m : mem) (cs : list scond) : bool := (forallb (cond_okb m) cs && forallb (raw_fitsb m) cs)%bool.
Lemma queriedb_ok m cs : queriedb m cs = true -> queried m cs.
Proof.
  unfold queriedb, queried. rewrite andb_true_iff, !forallb_forall, !Forall_forall. intros [A B]. split; intros c Hc.
  - apply cond_okb_ok. auto.
  - apply raw_fitsb_ok. auto.
Qed.

Fixpoint sortedb (l : list Z) : bool :=
  match l with [] => true | a :: l' => (forallb (fun b => a <? b) l' && sortedb l')%bool end.
Lemma sortedb_ok l : sortedb l = true -> StronglySorted Z.lt l.
Proof.
  induction l as [|a l IH]; cbn [sortedb]; [constructor|]. rewrite andb_true_iff, forallb_forall. intros [A B]. constructor; [auto|].
  apply Forall_forall. intros b Hb. apply Z.ltb_lt. auto.
Qed.
Definition askedb (m : mem) (columns : option (list string)) : bool := match columns with Some l => inclb l (m_columns m) | None => true end.
Lemma askedb_ok m columns : askedb m columns = true -> match columns with Some l => incl l (m_columns m) | None => True end.
Proof. destruct columns; cbn [askedb]; [apply inclb_ok|auto]. Qed.

Definition fitsb (mb : mbook) (o : op) : bool :=
  match o with
  | OCreate p cols types rows =>
      (inb "rid" cols && inclb (df_columns cols) (map fst types) &&
       match assoc String.eqb "rid" types with Some DInt => true | _ => false end && sortedb (map rid_of rows) &&
       forallb (fun row => forallb (fun c => match assoc String.eqb c types with
         | Some t => match tcell row c with Some v => dtype_eqb (type_of v) t | None => false end
         | None => true end) (df_columns cols)) rows)%bool
  | OLoad _ | OSave _ _ => false
  | OSelect i cs _ => match mb i with Some m => queriedb m cs | None => false end
  | OSelectOne i cs columns =>
      match mb i with
      | Some m => (queriedb m cs && smallb m && askedb m columns && (length (filter (sat cs) (rows_of m)) <=? 1)%nat)%bool
      | None => false
      end
  | OUnique i columns _ | OCountUnique i columns =>
      match mb i, columns with Some m, Some cs => (inclb cs (m_columns m) && negb (inb "rid" cs))%bool | _, _ => false end
  | OValues i columns | OGenerator i columns =>
      match mb i with Some m => (smallb m && askedb m columns)%bool | None => false end
  | OMax i c | OMin i c =>
      match mb i with
      | Some m => (inb c (m_columns m) && match col_type m c with Ok (DInt | DFloat) => true | _ => false end &&
                   match rows_of m with [] => false | _ => true end)%bool
      | None => false
      end
  | OApply i c f =>
      match mb i with
      | Some m => (inb c (m_columns m) && negb (inb c read_only) && match rows_of m with [] => false | _ => true end &&
                   forallb (fun r => match cell r c with Some v => match f v with Ok _ => true | Err _ => false end | None => true end) (rows_of m))%bool
      | None => false
      end
  | _ => true
  end.
Lemma nonempty {A} (l : list A) : match l with [] => false | _ => true end = true -> l <> [].
Proof. destruct l; discriminate. Qed.
Lemma numericb (r : res dtype) : match r with Ok (DInt | DFloat) => true | _ => false end = true -> exists t, r = Ok t /\ t <> DObj.
Proof. destruct r as [[| |]|]; try discriminate; intros _; eexists; split; [reflexivity|discriminate|reflexivity|discriminate]. Qed.
Lemma fitsb_ok mb o : fitsb mb o = true -> fits mb o.
Proof.
  destruct o; cbn [fitsb fits]; intro H; try discriminate; try exact Logic.I.
  - rewrite !andb_true_iff in H. destruct H as [[[[A B] C] D] E]. split; [apply inb_ok; auto|]. split; [apply inclb_ok; auto|].
    split; [destruct (assoc String.eqb "rid" types) as [[| |]|]; congruence|]. split; [apply sortedb_ok; auto|].
    intros row c t Hr Hc Ht. rewrite forallb_forall in E. specialize (E row Hr). rewrite forallb_forall in E. specialize (E c Hc).
    cbv beta in E. rewrite Ht in E. destruct (tcell row c) as [v|]; [|discriminate]. exists v. split; [auto|]. apply DbFacts10.dtype_eqb_eq. exact E.
  - destruct (mb i) as [m|]; [|discriminate]. exists m. split; [auto|apply queriedb_ok; auto].
  - destruct (mb i) as [m|]; [|discriminate]. destruct columns as [us|]; [|discriminate]. apply andb_true_iff in H. destruct H as [A B].
    exists m, us. split; [auto|]. split; [auto|]. split; [apply inclb_ok; auto|]. apply negb_true_iff in B. apply inb_false. auto.
  - destruct (mb i) as [m|]; [|discriminate]. rewrite !andb_true_iff in H. destruct H as [[[A B] C] D]. exists m. split; [auto|].
    split; [apply inb_ok; auto|]. split; [apply negb_true_iff in B; apply inb_false; auto|]. split; [apply nonempty; auto|].
    intros r v Hr Ev. rewrite forallb_forall in D. specialize (D r Hr). cbv beta in D. rewrite Ev in D. destruct (f v); [eauto|discriminate].
  - destruct (mb i) as [m|]; [|discriminate]. apply andb_true_iff in H. destruct H as [A B]. exists m. split; [auto|].
    split; [apply smallb_ok; auto|apply askedb_ok; auto].
  - destruct (mb i) as [m|]; [|discriminate]. apply andb_true_iff in H. destruct H as [A B]. exists m. split; [auto|].
    split; [apply smallb_ok; auto|apply askedb_ok; auto].
  - destruct (mb i) as [m|]; [|discriminate]. rewrite !andb_true_iff in H. destruct H as [[[A B] C] D]. exists m. split; [auto|].
    split; [apply queriedb_ok; auto|]. split; [apply smallb_ok; auto|]. split; [apply askedb_ok; auto|apply Nat.leb_le; auto].
  - destruct (mb i) as [m|]; [|discriminate]. destruct columns as [us|]; [|discriminate]. apply andb_true_iff in H. destruct H as [A B].
    exists m, us. split; [auto|]. split; [auto|]. split; [apply inclb_ok; auto|]. apply negb_true_iff in B. apply inb_false. auto.
  - destruct (mb i) as [m|]; [|discriminate]. rewrite !andb_true_iff in H. destruct H as [[A B] C]. destruct (numericb _ B) as (t & Et & Nt).
    exists m, t. split; [auto|]. split; [apply inb_ok; auto|]. split; [auto|]. split; [auto|apply nonempty; auto].
  - destruct (mb i) as [m|]; [|discriminate]. rewrite !andb_true_iff in H. destruct H as [[A B] C]. destruct (numericb _ B) as (t & Et & Nt).
    exists m, t. split; [auto|]. split; [apply inb_ok; auto|]. split; [auto|]. split; [auto|apply nonempty; auto].
Qed.

Section Program.
Variable inode : string -> nat.

(** The two states a program leads to, as long as every call may be made and returns. *)
Fixpoint side_by_side (ord : order) (w : world) (b : book) (mb : mbook) (p : list op) : option (world * book * mbook) :=
  match p with
  | [] => Some (w, b, mb)
  | o :: p' =>
      if (safeb inode w b o && fitsb mb o)%bool then
        match exec inode ord o w with
        | (w', Ok a) => side_by_side ord w' (effect inode w b o (Ok a)) (fst (mem_exec mb (name_of a) o)) p'
        | _ => None
        end
      else None
  end.
Lemma side_by_side_ok ord p : (forall l, Permutation (ord l) l) -> forall w b mb w' b' mb', both inode w b mb ->
  side_by_side ord w b mb p = Some (w', b', mb') -> both inode w' b' mb'.
Proof.
  intro P. induction p as [|o p IH]; intros w b mb w' b' mb' B H; cbn [side_by_side] in H; [injection H as <- <- <-; exact B|].
  destruct (safeb inode w b o && fitsb mb o)%bool eqn:S; [|discriminate]. apply andb_true_iff in S. destruct S as [S1 S2].
  destruct (exec inode ord o w) as [w1 [a|e]] eqn:E; [|discriminate].
  destruct (both_inv inode w b mb B) as [I _]. eapply IH; [|exact H].
  apply (BCall inode w b mb ord o w1 a B P (safeb_ok inode w b o I S1) (fitsb_ok mb o S2) E).
Qed.
End Program.
