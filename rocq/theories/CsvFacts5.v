(** A csv file imported into a program that already holds data sets. *)
From Coq Require Import String Ascii.
From Coq Require Import List ZArith QArith Qcanon Bool Lia Permutation.
From Verif Require Import Py PyFacts MemModel MemSpec MemFacts DbModel DbFacts DbFacts3 DbFacts7 DbSpec DbFacts13 DbFacts14 DbFacts15 DbFacts17.
From Verif Require Import CsvModel CsvSpec CsvFacts CsvFacts2 CsvFacts3.
Import ListNotations.
Open Scope string_scope.
Open Scope Z_scope.

Lemma somes_named cols : somes cols = named_columns cols.
Proof. induction cols as [|[c|] l IH]; cbn; congruence. Qed.

(** The rows do not depend on the size of the chunks, the types never do. *)
Lemma csv_types text delim has_header cols s1 s2 t1 t2 :
  csv_table text delim has_header cols s1 = Ok t1 -> csv_table text delim has_header cols s2 = Ok t2 -> fst t1 = fst t2.
Proof.
  unfold csv_table. destruct (first_line has_header (lines text)); [|discriminate].
  destruct (delimiter_of delim) as [dr|]; [|discriminate]. cbn [bind].
  destruct (reader (fst dr) [snd dr s]) as [rs|]; [|discriminate]. cbn [bind].
  destruct (table_of cols (hd [] rs)) as [types|]; [|discriminate]. cbn [bind].
  destruct (segments _ _ _ (chunks s1 _ _)) as [r1|]; [|discriminate]. destruct (segments _ _ _ (chunks s2 _ _)) as [r2|]; [|discriminate].
  cbn [bind]. intros E1 E2. injection E1 as <-. injection E2 as <-. reflexivity.
Qed.

Section Import.
Variable inode : string -> nat.
Notation Inv := (Inv inode).

Lemma line_rid cols n fields : ~ In "rid" (named_columns cols) -> tcell (line_row cols n fields) "rid" = Some (VInt (Z.of_nat n)).
Proof. intro N. unfold tcell, line_row. rewrite assoc_skip by exact N. reflexivity. Qed.
Lemma file_rids cols recs : ~ In "rid" (named_columns cols) -> map rid_of (file_rows cols recs) = map Z.of_nat (seq 0 (length recs)).
Proof.
  intro N. unfold file_rows. rewrite map_map. generalize 0%nat. induction recs as [|a l IH]; intro n; [reflexivity|].
  cbn [length seq combine map fst snd]. rewrite IH. f_equal. unfold rid_of. rewrite line_rid by exact N. reflexivity.
Qed.

Lemma import_inv w b p text delim has_header cols size types first recs : Inv w b -> unused inode w p -> columns_ok cols ->
  ~ In "uid" (named_columns cols) -> ~ In "iid" (named_columns cols) ->
  csv_table text delim has_header cols size = Ok (types, file_rows cols recs) -> types_from cols first types -> (length cols <= length first)%nat ->
  let o := OCreate p (csv_columns cols) types (file_rows cols recs) in
  let d := imported (csv_columns cols) types (file_rows cols recs) in
  safe inode w b o /\ complete d /\
  exists w' j, import_csv inode p text delim has_header cols size w = (w', Ok j) /\
    b j = None /\ Inv w' (note b j (Some d)) /\ forall ord, exec inode ord o w = (w', Ok (ADs j)).
Proof.
  intros I U Co Nu Ni Ec Tf Lf o d. destruct Co as (Rq & ND & Nr & Lc). destruct Tf as (T1 & T2 & T3).
  assert (Es : somes cols = named_columns cols) by apply somes_named.
  assert (NDc : NoDup (csv_columns cols)).
  { unfold csv_columns. rewrite Es. apply NoDup_app_intro; [exact ND|repeat constructor; auto|]. intros c Hc [<-|[]]. contradiction. }
  assert (Ty : forall c, In c (named_columns cols) -> exists t, assoc String.eqb c types = Some t).
  { intros c Hc. destruct (field_covered cols first c Lf Hc) as (f & Hf). exists (text_type f). apply T2; auto. }
  assert (Sf : safe inode w b o).
  { unfold o. cbn [safe]. split; [exact U|]. split; [exact NDc|]. split.
    - intros c t [<-|[<-|[<-|[]]]] Ht; [congruence| |].
      + destruct (T3 _ _ Ht) as [X|X]; [discriminate|contradiction].
      + destruct (T3 _ _ Ht) as [X|X]; [discriminate|contradiction].
    - intros row Hr. apply in_map_iff in Hr. destruct Hr as ([n f] & <- & _). exists (Z.of_nat n). apply line_rid. exact Nr. }
  assert (Cd : complete d).
  { split.
    - cbn [imported d d_cols]. unfold csv_columns. rewrite Es. intros c [<-|Hc]; apply in_app_iff; [right; left; reflexivity|left; apply Rq; exact Hc].
    - exists types. split; [reflexivity|]. cbn [imported d d_cols]. unfold csv_columns. rewrite Es. intros c Hc Nid.
      apply in_app_iff in Hc. destruct Hc as [Hc|[<-|[]]]; [apply Ty; exact Hc|]. destruct Nid. left. reflexivity. }
  split; [exact Sf|]. split; [exact Cd|].
  destruct (create inode p (csv_columns cols) types (file_rows cols recs) w) as [w' r0] eqn:E.
  assert (Ex : forall ord, exec inode ord o w = (w', match r0 with Ok a => Ok (ADs a) | Err e => Err e end)).
  { intro ord. unfold o. cbn [exec]. unfold amap, andthen, ret. rewrite E. destruct r0; reflexivity. }
  destruct (step inode (fun l => l) w b o w' _ (fun l => Permutation_refl l) I Sf (Ex _)) as [I' A].
  destruct r0 as [j|e].
  - exists w', j. split; [|split; [|split; [exact I'|exact Ex]]].
    + unfold import_csv. rewrite !Es. replace (in_cols "uid" (named_columns cols)) with false by (symmetry; apply in_cols_false; exact Nu).
      replace (in_cols "iid" (named_columns cols)) with false by (symmetry; apply in_cols_false; exact Ni). cbn [orb].
      rewrite (andthen_ok _ _ w w (types, file_rows cols recs)); [exact E|]. unfold lift. rewrite Ec. reflexivity.
    + destruct A as [_ A]. cbn [o fresh_result] in A. destruct A as (j' & X & Hj). injection X as <-. exact Hj.
  - exfalso. apply A. split; [exact Cd|]. rewrite file_rids by exact Nr. apply FinFun.Injective_map_NoDup; [intros a c; lia|apply seq_NoDup].
Qed.

(** What a data set holding [d] answers. *)
Lemma read_inv w b i d columns ord : Inv w b -> b i = Some d -> complete d -> incl (asked d columns) (d_cols d) -> permuting ord ->
  exists w' rows, exec inode ord (OValues i columns) w = (w', Ok (ARows rows)) /\ Inv w' b /\
    Permutation rows (map (cells (asked d columns)) (d_rows d)).
Proof.
  intros I Hb Cd Ic Po. destruct (exec inode ord (OValues i columns) w) as [w' r] eqn:E.
  destruct (step inode ord w b (OValues i columns) w' r Po I ltac:(cbn [safe]; congruence) E) as [I' A].
  destruct r as [a|e].
  - destruct A as [A _]. destruct (A i d eq_refl Hb) as (rows & -> & P). exists w', rows. auto.
  - exfalso. apply A. exists d. auto.
Qed.
End Import.
