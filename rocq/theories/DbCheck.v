(** A decision procedure for the conditions of use of a history, for concrete
    histories only. *)
From Coq Require Import String Ascii.
From Coq Require Import List ZArith QArith Qcanon Bool Permutation Lia.
From Verif Require Import Py PyFacts MemModel MemSpec DbModel DbFacts DbSpec DbFacts2 DbFacts12 DbFacts13 DbFacts14 DbFacts15.
Import ListNotations.
Open Scope string_scope.
Open Scope Z_scope.

Fixpoint str_allb (p : ascii -> bool) (s : string) : bool :=
  match s with EmptyString => true | String a s' => (p a && str_allb p s')%bool end.
Lemma str_allb_ok (p : ascii -> bool) (P : ascii -> Prop) s : (forall a, p a = true -> P a) -> str_allb p s = true -> str_all P s.
Proof. intro H. induction s as [|a s IH]; cbn [str_allb str_all]; [auto|]. rewrite andb_true_iff. intros [A B]. auto. Qed.
Definition plain_charb (a : ascii) : bool := (negb (is_space a) && negb (Ascii.eqb a ","))%bool.
Lemma plain_charb_ok a : plain_charb a = true -> plain_char a.
Proof. unfold plain_charb, plain_char. rewrite andb_true_iff, !negb_true_iff. intros [A B]. split; [auto|]. apply Ascii.eqb_neq. auto. Qed.
Definition plainb (s : string) : bool := (negb (String.eqb s "") && str_allb plain_charb s)%bool.
Lemma plainb_ok s : plainb s = true -> plain s.
Proof.
  unfold plainb, plain. rewrite andb_true_iff, negb_true_iff. intros [A B]. split; [apply String.eqb_neq; auto|].
  apply (str_allb_ok plain_charb); auto using plain_charb_ok.
Qed.
Definition plain_textb (s : string) : bool :=
  str_allb (fun a => (plain_charb a && negb (Ascii.eqb a "'") && negb (Ascii.eqb a """"))%bool) s.
Lemma plain_textb_ok s : plain_textb s = true -> plain_text s.
Proof.
  apply str_allb_ok. intros a. rewrite !andb_true_iff, !negb_true_iff. intros [[A B] C].
  split; [apply plain_charb_ok; auto|]. split; apply Ascii.eqb_neq; auto.
Qed.
Fixpoint nodupb (l : list string) : bool :=
  match l with [] => true | a :: l' => (negb (existsb (String.eqb a) l') && nodupb l')%bool end.
Lemma nodupb_ok l : nodupb l = true -> NoDup l.
Proof.
  induction l as [|a l IH]; cbn [nodupb]; intro H; constructor; apply andb_true_iff in H; destruct H as [H1 H2]; auto.
  intro K. apply negb_true_iff in H1. rewrite <- mem_existsb in H1. apply in_cols_In in K. congruence.
Qed.
Definition inb (c : string) (l : list string) : bool := existsb (String.eqb c) l.
Lemma inb_ok c l : inb c l = true -> In c l.
Proof. unfold inb. rewrite <- mem_existsb. apply in_cols_In. Qed.
Lemma inb_false c l : inb c l = false -> ~ In c l.
Proof. unfold inb. rewrite <- mem_existsb. apply in_cols_false. Qed.
Definition inclb (l m : list string) : bool := forallb (fun c => inb c m) l.
Lemma inclb_ok l m : inclb l m = true -> incl l m.
Proof. apply incl_forallb. Qed.

Definition lit_fitsb (t : dtype) (l : slit) : bool :=
  match t, l with
  | DInt, LInt _ => true
  | DFloat, LInt z => Z.abs z <=? 2 ^ 53
  | (DInt | DFloat), LDec _ a b => (all_digits a && all_digits b && negb (String.eqb (a ++ b) ""))%bool
  | DObj, LText s => plain_textb s
  | _, _ => false
  end.
Lemma lit_fitsb_ok t l : lit_fitsb t l = true -> lit_fits t l.
Proof.
  destruct t, l; cbn [lit_fitsb lit_fits]; try discriminate; auto using plain_textb_ok.
  - rewrite !andb_true_iff, negb_true_iff. intros [[A B] C]. apply String.eqb_neq in C. auto.
  - apply Z.leb_le.
  - rewrite !andb_true_iff, negb_true_iff. intros [[A B] C]. apply String.eqb_neq in C. auto.
Qed.
Definition cond_fitsb (d : ds) (c : scond) : bool :=
  (inb (sc_col c) (d_cols d) && plainb (sc_col c) &&
   match d_types d with
   | Some ts => match assoc String.eqb (sc_col c) ts with Some t => lit_fitsb t (sc_lit c) | None => false end
   | None => false
   end)%bool.
Lemma cond_fitsb_ok d c : cond_fitsb d c = true -> cond_fits d c.
Proof.
  unfold cond_fitsb, cond_fits. rewrite !andb_true_iff. intros [[A B] C]. split; [apply inb_ok; auto|]. split; [apply plainb_ok; auto|].
  destruct (d_types d) as [ts|]; [|discriminate]. destruct (assoc String.eqb (sc_col c) ts) as [t|] eqn:E; [|discriminate].
  exists ts, t. auto using lit_fitsb_ok.
Qed.

Section Check.
Variable inode : string -> nat.
Notation Inv := (Inv inode).

Definition no_nameb (w : world) (i : nat) (c : scond) : bool :=
  match sc_lit c, w_inst w i with
  | LText s, Some x =>
      match tables inode w (i_path x) (i_table x) with
      | Some tb => (forallb (fun n => negb (ci_eqb s n)) (tb_cols tb) && negb (existsb (ci_eqb s) ["rowid"; "oid"; "_rowid_"]))%bool
      | None => false
      end
  | _, _ => true
  end.
Lemma no_nameb_ok w i c : no_nameb w i c = true -> no_name inode w i c.
Proof.
  unfold no_nameb, no_name. destruct (sc_lit c) as [| |s]; auto. destruct (w_inst w i) as [x|]; [|auto].
  destruct (tables inode w (i_path x) (i_table x)) as [tb|]; [|discriminate]. rewrite andb_true_iff, negb_true_iff. intros [A B].
  split; [|auto]. intros tb' n E Hn. injection E as <-. rewrite forallb_forall in A. specialize (A n Hn). apply negb_true_iff. auto.
Qed.
Definition query_fitsb (w : world) (i : nat) (d : ds) (cs : list scond) : bool :=
  (match cs with [] => false | _ => true end && forallb (cond_fitsb d) cs && forallb (no_nameb w i) cs)%bool.
Lemma query_fitsb_ok w i d cs : query_fitsb w i d cs = true -> query_fits inode w i d cs.
Proof.
  unfold query_fitsb, query_fits. rewrite !andb_true_iff, !forallb_forall. intros [[A B] C].
  split; [destruct cs; [discriminate A|discriminate]|]. rewrite !Forall_forall.
  split; [auto using cond_fitsb_ok|auto using no_nameb_ok].
Qed.

Definition live (w : world) : list inst :=
  flat_map (fun j => match w_inst w j with Some y => [y] | None => [] end) (seq 0 (w_next w)).
Lemma live_ok w j y : Base inode w -> w_inst w j = Some y -> In y (live w).
Proof.
  intros B H. apply in_flat_map. exists j. rewrite H. split; [|left; auto]. apply in_seq. split; [lia|]. cbn.
  destruct (Nat.ltb_spec j (w_next w)); [auto|]. rewrite (b_next inode w B j) in H by auto. discriminate.
Qed.
Definition unusedb (w : world) (p : string) : bool := forallb (fun y => negb (Nat.eqb (inode (i_path y)) (inode p))) (live w).
Definition one_nameb (w : world) (p : string) : bool :=
  forallb (fun y => (negb (Nat.eqb (inode (i_path y)) (inode p)) || String.eqb (i_path y) p)%bool) (live w).
Definition no_nullb (c : string) (rows : list trow) : bool :=
  forallb (fun r => match tcell r c with Some _ => true | None => false end) rows.
Definition no_sharingb (w : world) (i : nat) : bool :=
  match w_inst w i with
  | Some x =>
      match i_state x with
      | Some _ => true
      | None => forallb (fun j => (Nat.eqb j i || match w_inst w j with
                  | Some y => (negb (String.eqb (i_path y) (i_path x)) || negb (String.eqb (i_table y) (i_table x)) ||
                               negb (mentions ["uid"; "iid"] (curr_source y)) && negb (inb "uid" (i_cols y)) && negb (inb "iid" (i_cols y)))%bool
                  | None => true end)%bool) (seq 0 (w_next w))
      end
  | None => true
  end.
Lemma no_sharingb_ok w i : Base inode w -> no_sharingb w i = true -> no_sharing w i.
Proof.
  intros B H x Hx Sx j y N Hy Ep Et. unfold no_sharingb in H. rewrite Hx, Sx in H. rewrite forallb_forall in H.
  assert (Hj : In j (seq 0 (w_next w))).
  { apply in_seq. split; [lia|]. cbn. destruct (Nat.ltb_spec j (w_next w)); [auto|]. rewrite (b_next inode w B j) in Hy by auto. discriminate. }
  specialize (H j Hj). rewrite Hy, (proj2 (Nat.eqb_neq j i) N), Ep, Et, !String.eqb_refl in H. cbn [negb orb] in H.
  apply andb_true_iff in H. destruct H as [H H3]. apply andb_true_iff in H. destruct H as [H1 H2].
  rewrite negb_true_iff in *. split; [auto|]. split; apply inb_false; auto.
Qed.

Definition safeb (w : world) (b : book) (o : op) : bool :=
  match o with
  | OCreate p cols types rows =>
      (unusedb w p && nodupb cols &&
       forallb (fun c => match assoc String.eqb c types with Some DInt | None => true | _ => false end) ["rid"; "uid"; "iid"] &&
       forallb (fun r => match tcell r "rid" with Some (VInt _) => true | _ => false end) rows)%bool
  | OLoad p => one_nameb w p
  | OCopy i | ODrop i _ _ _ | OValues i _ | OGenerator i _ | OLen i | OMax i _ | OMin i _ =>
      match b i with Some _ => true | None => false end
  | OSelect i cs _ | OSelectOne i cs _ => match b i with Some d => query_fitsb w i d cs | None => false end
  | OUnique i columns _ | OCountUnique i columns =>
      match b i with Some d => (nodupb (asked d columns) && negb (is_nil (asked d columns)))%bool | None => false end
  | OAssign i =>
      (Nat.eqb (w_open w) 0 && no_sharingb w i &&
       match b i with
       | Some d => (match d_types d with Some _ => true | None => false end && inclb ["user"; "item"] (d_cols d) &&
                    no_nullb "user" (d_rows d) && no_nullb "item" (d_rows d))%bool
       | None => false
       end)%bool
  | ORemove i =>
      match b i with
      | Some d => (Bool.eqb (inb "uid" (d_cols d)) (inb "iid" (d_cols d)) &&
                   if list_eq_dec string_dec (d_cols d)
                        (without_ids (d_cols d) ++ skipn (length (without_ids (d_cols d))) (d_cols d))%list then true else false)%bool
      | None => false
      end
  | OApply i c f =>
      (Nat.eqb (w_open w) 0 &&
       match b i with
       | Some d => forallb (fun r => match tcell r c with
                                     | Some v => match f v with Ok v' => dtype_eqb (type_of v') (result_type f c (d_rows d)) | Err _ => true end
                                     | None => true
                                     end) (d_rows d)
       | None => false
       end)%bool
  | OSave i p => (match b i with Some _ => true | None => false end && negb (String.eqb p "") && unusedb w p)%bool
  | OClose i => match w_inst w i with Some _ => true | None => false end
  | OCloseGenerator => true
  end.

Lemma no_nullb_ok c rows : no_nullb c rows = true -> no_null c rows.
Proof. unfold no_nullb. rewrite forallb_forall. intros H r Hr E. specialize (H r Hr). rewrite E in H. discriminate. Qed.
Lemma unusedb_ok w p : Base inode w -> unusedb w p = true -> unused inode w p.
Proof.
  unfold unusedb. rewrite forallb_forall. intros B H j y Hy. specialize (H y (live_ok w j y B Hy)). apply negb_true_iff in H.
  apply Nat.eqb_neq. auto.
Qed.
Lemma inb_iff c l : inb c l = true <-> In c l.
Proof. split; [apply inb_ok|]. intro H. unfold inb. rewrite <- mem_existsb. apply in_cols_In. auto. Qed.

Lemma safeb_ok w b o : Inv w b -> safeb w b o = true -> safe inode w b o.
Proof.
  intros I. pose proof (inv_base _ _ _ I) as B.
  assert (Kn : forall i, match b i with Some _ => true | None => false end = true -> b i <> None) by (intros i H; destruct (b i); congruence).
  destruct o; cbn [safeb safe]; intro H; auto.
  - rewrite !andb_true_iff in H. destruct H as [[[H1 H2] H3] H4]. split; [apply unusedb_ok; auto|].
    split; [apply nodupb_ok; auto|]. split.
    + intros c t Hc E. rewrite forallb_forall in H3. specialize (H3 c Hc). rewrite E in H3. destruct t; congruence.
    + rewrite forallb_forall in H4. intros r Hr. specialize (H4 r Hr). destruct (tcell r "rid") as [[z| |]|]; try discriminate. eauto.
  - intros j y Hy Ei. unfold one_nameb in H. rewrite forallb_forall in H. specialize (H y (live_ok w j y B Hy)).
    rewrite (proj2 (Nat.eqb_eq _ _) Ei) in H. cbn in H. apply String.eqb_eq. auto.
  - destruct (b i) as [d|]; [|discriminate]. exists d. auto using query_fitsb_ok.
  - destruct (b i) as [d|]; [|discriminate]. exists d. apply andb_true_iff in H. destruct H as [H1 H2]. split; [auto|].
    split; [apply nodupb_ok; auto|]. intro X. rewrite X in H2. discriminate.
  - rewrite !andb_true_iff in H. destruct H as [[H1 H2] H3]. split; [apply Nat.eqb_eq; auto|].
    split; [apply no_sharingb_ok; auto|]. destruct (b i) as [d|]; [|discriminate]. exists d. rewrite !andb_true_iff in H3.
    destruct H3 as [[[H3 H4] H5] H6]. split; [auto|]. split; [intro X; rewrite X in H3; discriminate|].
    split; [apply inclb_ok; auto|]. split; apply no_nullb_ok; auto.
  - destruct (b i) as [d|]; [|discriminate]. apply andb_true_iff in H. destruct H as [H1 H2]. apply Bool.eqb_prop in H1.
    exists d, (skipn (length (without_ids (d_cols d))) (d_cols d)). split; [auto|]. split; [rewrite <- !inb_iff, H1; tauto|].
    destruct (list_eq_dec string_dec _ _) as [E|]; [exact E|discriminate].
  - rewrite !andb_true_iff in H. destruct H as [H1 H2]. split; [apply Nat.eqb_eq; auto|]. destruct (b i) as [d|]; [|discriminate].
    exists d. split; [auto|]. intros r v v' Hr Hv Hf. rewrite forallb_forall in H2. specialize (H2 r Hr). rewrite Hv, Hf in H2.
    apply DbFacts10.dtype_eqb_eq. auto.
  - rewrite !andb_true_iff in H. destruct H as [[H1 H2] H3]. split; [auto|]. split; [|apply unusedb_ok; auto].
    apply negb_true_iff in H2. apply String.eqb_neq. auto.
  - destruct (w_inst w i); [discriminate|discriminate].
  - destruct (b i) as [d|]; [|discriminate]. exists d. auto using query_fitsb_ok.
  - destruct (b i) as [d|]; [|discriminate]. exists d. apply andb_true_iff in H. destruct H as [H1 H2]. split; [auto|].
    split; [apply nodupb_ok; auto|]. intro X. rewrite X in H2. discriminate.
Qed.

Fixpoint all_safeb (w : world) (b : book) (h : history) : bool :=
  match h with
  | [] => true
  | (ord, o) :: h' => (safeb w b o && let '(w', r) := exec inode ord o w in all_safeb w' (effect inode w b o r) h')%bool
  end.
Lemma all_safeb_ok h : forall w b, Inv w b -> Forall (fun e => forall l, Permutation (fst e l) l) h ->
  all_safeb w b h = true -> all_safe inode w b h.
Proof.
  induction h as [|[ord o] h IH]; intros w b I F H; cbn [all_safeb all_safe] in *; [auto|].
  inversion F as [|? ? F1 F2]; subst. apply andb_true_iff in H. destruct H as [H1 H2]. pose proof (safeb_ok w b o I H1) as S.
  split; [auto|]. split; [auto|]. destruct (exec inode ord o w) as [w' r] eqn:E. apply IH; auto.
  apply (step inode ord w b o w' r F1 I S E).
Qed.
Lemma check fs h : files_ok fs -> Forall (fun e => forall l, Permutation (fst e l) l) h ->
  all_safeb (start fs) no_book h = true -> all_safe inode (start fs) no_book h.
Proof. intros F P H. apply all_safeb_ok; auto. apply Inv_start. auto. Qed.
End Check.
