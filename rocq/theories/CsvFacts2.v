(** Importing a csv file into a database: the rows do not depend on the chunks. *)
From Coq Require Import String Ascii Decimal DecimalString.
From Coq Require Import List ZArith QArith Qcanon Bool Lia.
From Verif Require Import Py PyFacts MemModel MemFacts DbModel CsvModel CsvSpec CsvFacts.
Import ListNotations.
Open Scope string_scope.
Open Scope Z_scope.

(** ** Types *)
Lemma uint_dot s : contains "." s = true -> NilEmpty.uint_of_string s = None.
Proof.
  induction s as [|c s IH]; [discriminate|]. cbn [contains prefix_b]. intro H. cbn [NilEmpty.uint_of_string].
  apply orb_true_iff in H. destruct H as [H|H].
  - rewrite andb_true_r in H. apply Ascii.eqb_eq in H. subst c. destruct (NilEmpty.uint_of_string s); reflexivity.
  - rewrite (IH H). reflexivity.
Qed.
Lemma Z_of_str_dot s : contains "." s = true -> Z_of_str s = None.
Proof.
  intro H. unfold Z_of_str, NilZero.int_of_string. destruct s as [|c s]; [discriminate|].
  assert (Hu : forall t, contains "." t = true -> NilZero.uint_of_string t = None).
  { intros t Ht. unfold NilZero.uint_of_string. destruct t; [reflexivity|]. apply uint_dot. exact Ht. }
  destruct (Ascii.eqb_spec c "-") as [->|Nc].
  - cbn [contains prefix_b] in H. cbn [Ascii.eqb] in H. cbn in H. rewrite (Hu s H). reflexivity.
  - rewrite (Hu _ H). destruct c as [[] [] [] [] [] [] [] []]; reflexivity.
Qed.
Lemma infer_text s : infer_type s = text_type s.
Proof.
  unfold infer_type, text_type. destruct (contains "." s) eqn:E; [rewrite (Z_of_str_dot s E); reflexivity|].
  destruct (Z_of_str s); reflexivity.
Qed.

(** ** The new table *)
Lemma infer_assoc cols : forall fields c f, field_of cols fields c = Some f ->
  assoc String.eqb c (named (infer_types cols fields)) = Some (text_type f).
Proof.
  induction cols as [|[c0|] cols IH]; intros [|f0 fs] c f H; try discriminate; cbn [infer_types named]; cbn [field_of] in H.
  - cbn [assoc]. rewrite String.eqb_sym. destruct (String.eqb c0 c); [injection H as <-; rewrite infer_text; reflexivity|apply IH; exact H].
  - apply IH. exact H.
Qed.
Lemma infer_named cols : forall fields c t, assoc String.eqb c (named (infer_types cols fields)) = Some t -> In c (named_columns cols).
Proof.
  induction cols as [|o cols IH]; intros [|f fields] c t H; try discriminate H. cbn [infer_types] in H.
  destruct o as [c'|]; cbn [named named_columns] in *; [|eauto]. cbn [assoc] in H. destruct (String.eqb_spec c c') as [->|]; [left; reflexivity|right; eauto].
Qed.
Lemma field_covered cols : forall fields c, (length cols <= length fields)%nat -> In c (named_columns cols) -> exists f, field_of cols fields c = Some f.
Proof.
  induction cols as [|[c0|] cols IH]; intros [|f0 fs] c L H; try (destruct H; fail); try (cbn in L; lia); cbn [field_of named_columns] in *.
  - destruct (String.eqb_spec c0 c); [eauto|]. destruct H as [H|H]; [congruence|]. apply IH; [cbn in L; lia|exact H].
  - apply IH; [cbn in L; lia|exact H].
Qed.
Lemma skipped_count cols : forall fields, (length cols <= length fields)%nat -> (skipped (infer_types cols fields) + length (somes cols) = length cols)%nat.
Proof.
  induction cols as [|[c0|] cols IH]; intros [|f0 fs] L; try reflexivity; try (cbn in L; lia).
  - cbn [infer_types somes length]. unfold skipped. cbn [filter fst]. fold (skipped (infer_types cols fs)). rewrite <- (IH fs) by (cbn in L; lia).
    unfold skipped. lia.
  - cbn [infer_types somes length]. unfold skipped. cbn [filter fst length]. rewrite <- (IH fs) by (cbn in L; lia). unfold skipped. lia.
Qed.
Lemma dup_false l : NoDup l -> dup_b l = false.
Proof.
  intro H. induction H as [|c l Nc H IH]; [reflexivity|]. cbn [dup_b]. rewrite IH, orb_false_r.
  apply (mem_b_false String.eqb reflects_string). exact Nc.
Qed.
Lemma table_ok cols fields : columns_ok cols -> (length cols <= length fields)%nat ->
  exists types, table_of cols fields = Ok types /\ types_from cols fields types.
Proof.
  intros (Rq & ND & Nr & Sk) L. unfold table_of. rewrite <- named_somes. eexists.
  replace (forallb (fun c => in_cols c ("rid" :: named_columns cols)) required) with true.
  2: { symmetry. apply forallb_forall. intros c Hc. apply (mem_b_In String.eqb reflects_string).
       destruct Hc as [<-|Hc]; [left; reflexivity|]. right. apply Rq. exact Hc. }
  cbn [negb].
  replace (forallb (fun c => match assoc String.eqb c (("rid", DInt) :: named (infer_types cols fields)) with Some _ => true | None => false end) (named_columns cols)) with true.
  2: { symmetry. apply forallb_forall. intros c Hc. cbn [assoc]. destruct (String.eqb_spec c "rid") as [->|]; [reflexivity|].
       destruct (field_covered cols fields c L Hc) as (f & Hf). rewrite (infer_assoc _ _ _ _ Hf). reflexivity. }
  cbn [negb].
  assert (Sc := skipped_count cols fields L). rewrite <- named_somes in Sc.
  replace (Nat.eqb (skipped (infer_types cols fields)) 0 && negb (Nat.eqb (length (named_columns cols)) (length cols)))%bool with false.
  2: { symmetry. destruct (Nat.eqb_spec (skipped (infer_types cols fields)) 0) as [Z|]; [|reflexivity].
       destruct (Nat.eqb_spec (length (named_columns cols)) (length cols)); [reflexivity|lia]. }
  replace (Nat.ltb 1 (length cols - length (named_columns cols))) with false by (symmetry; apply Nat.ltb_ge; lia).
  rewrite (dup_false _ ND). cbn [orb]. split; [reflexivity|]. split; [reflexivity|]. split.
  - intros c f Hc Hf. cbn [assoc]. destruct (String.eqb_spec c "rid") as [->|]; [contradiction|]. apply infer_assoc. exact Hf.
  - intros c t. cbn [assoc]. destruct (String.eqb_spec c "rid") as [->|]; [auto|]. intro H. right. exact (infer_named _ _ _ _ H).
Qed.

(** ** The import *)
Lemma parses_one d l r : parses d l r -> reader d [l] = Ok [r].
Proof. intro P. apply reader_parses. constructor; [exact P|constructor]. Qed.
Lemma table_spec text delim d f has_header cols size l r rows rss :
  delimiter_of delim = Ok (d, f) -> columns_ok cols -> (length cols <= length r)%nat ->
  first_line has_header (lines text) = Some l -> parses d (f l) r ->
  Forall2 (fun c rs => reader d c = Ok rs) (chunks size [] (map f (body_lines has_header text))) rss -> List.concat rss = rows ->
  (Forall (usable cols) rows -> exists types, csv_table text delim has_header cols size = Ok (types, file_rows cols rows) /\ types_from cols r types) /\
  (forall t, csv_table text delim has_header cols size = Ok t -> Forall (usable cols) rows).
Proof.
  intros Ed Co Lr El P F <-. destruct (table_ok cols r Co Lr) as (types & Et & Tf). assert (ND : NoDup (named_columns cols)) by apply Co.
  assert (E : csv_table text delim has_header cols size =
    (rs <- segments d cols 0 (chunks size [] (map f (body_lines has_header text))) ;; Ok (types, rs))).
  { unfold csv_table. rewrite El, Ed. cbn [bind fst snd]. rewrite (parses_one _ _ _ P). cbn [bind hd]. rewrite Et. reflexivity. }
  rewrite E. split.
  - intro U. exists types. split; [|exact Tf]. change 0 with (Z.of_nat 0). rewrite (segments_ok d cols _ 0 rss ND F U). cbn [bind]. rewrite file_rows_from. reflexivity.
  - intros t H. destruct (segments d cols 0 _) as [rs|] eqn:Es; [|discriminate]. exact (segments_usable d cols _ 0 rss rs ND F Es).
Qed.
Theorem import_rows d has_header cols r rows text size : delimiter_ok d -> columns_ok cols -> (length cols <= length r)%nat ->
  csv_file d has_header (r :: rows) text -> Forall (str_no newline) r ->
  Forall (Forall (str_no newline)) rows \/ size = 0%nat \/ (length (lines text) <= size)%nat ->
  (Forall (usable cols) (r :: rows) -> exists types,
     csv_table text (String d "") has_header cols size = Ok (types, file_rows cols (r :: rows)) /\ types_from cols r types) /\
  (forall t, csv_table text (String d "") has_header cols size = Ok t -> Forall (usable cols) (r :: rows)).
Proof.
  intros D Co Lr F N Hs. destruct (first_parses d has_header r rows text D F N) as (l & El & P).
  destruct (chunk_rows d has_header (r :: rows) text size D F) as (rss & G & E).
  { destruct Hs as [Hs|Hs]; [left; constructor; auto|right; exact Hs]. }
  apply (table_spec text (String d "") d (fun l => l) has_header cols size l r (r :: rows) rss); auto. rewrite map_id. exact G.
Qed.

(** ** Longer delimiters *)
Lemma replace_skip old new s : forall rest k, str_len s = k -> replace_go old new k (s ++ rest) = replace_go old new 0 rest.
Proof.
  induction s as [|c s IH]; intros rest k E; cbn [str_len] in E; subst k; [reflexivity|]. cbn [append replace_go]. apply IH. reflexivity.
Qed.
Lemma prefix_app old : forall rest, prefix_b old (old ++ rest) = true.
Proof. induction old as [|c old IH]; intro rest; [reflexivity|]. cbn [append prefix_b]. rewrite Ascii.eqb_refl, IH. reflexivity. Qed.
Lemma replace_old a old new rest : replace_go (String a old) new 0 (String a old ++ rest) = new ++ replace_go (String a old) new 0 rest.
Proof.
  change (String a old ++ rest) with (String a (old ++ rest)). cbn [replace_go].
  change (String a (old ++ rest)) with (String a old ++ rest). rewrite prefix_app. cbn [str_len pred]. rewrite replace_skip by reflexivity. reflexivity.
Qed.
Lemma replace_free a old new f : forall rest, str_no a f -> replace_go (String a old) new 0 (f ++ rest) = f ++ replace_go (String a old) new 0 rest.
Proof.
  induction f as [|c f IH]; intros rest N; [reflexivity|]. destruct N as [N1 N2]. cbn [append replace_go].
  assert (E : prefix_b (String a old) (String c (f ++ rest)) = false) by (cbn [prefix_b]; rewrite eqb_ne by auto; reflexivity).
  rewrite E, (IH rest N2). reflexivity.
Qed.
Lemma replace_join a old tail fs : Forall (str_no a) fs -> str_no a tail ->
  replace (String a old) "," (String.concat (String a old) fs ++ tail) = String.concat "," fs ++ tail.
Proof.
  intros F T. unfold replace. induction F as [|f fs N F IH].
  - cbn [String.concat append]. rewrite <- (app_empty_r tail) at 1. rewrite replace_free by exact T. cbn [replace_go]. apply app_empty_r.
  - destruct fs as [|f2 fs].
    + cbn [String.concat]. rewrite replace_free by exact N. f_equal.
      rewrite <- (app_empty_r tail) at 1. rewrite replace_free by exact T. cbn [replace_go]. apply app_empty_r.
    + change (String.concat (String a old) (f :: f2 :: fs)) with (f ++ String a old ++ String.concat (String a old) (f2 :: fs)).
      change (String.concat "," (f :: f2 :: fs)) with (f ++ "," ++ String.concat "," (f2 :: fs)).
      rewrite !append_assoc. rewrite replace_free by exact N. rewrite replace_old, IH. reflexivity.
Qed.

Lemma split_body delim has_header rows text : split_file delim has_header rows text ->
  exists body, body_lines has_header text = lines body /\
    (body = String.concat "" (map (fun r => with_newline (String.concat delim r)) rows) \/
     with_newline body = String.concat "" (map (fun r => with_newline (String.concat delim r)) rows)).
Proof.
  intros (h & Hh & F & E). unfold body_lines. destruct has_header; cycle 1.
  { subst h. exists text. cbn [append] in E. auto. }
  cbn zeta in E. destruct E as [E|E].
  - exists (String.concat "" (map (fun r => with_newline (String.concat delim r)) rows)). subst text. rewrite lines_app_newline by auto. auto.
  - destruct rows as [|t ts].
    + cbn [map String.concat] in E. rewrite app_empty_r in E. apply with_newline_inj in E. subst text. exists "". split; [|auto].
      destruct h as [|c h]; [reflexivity|]. rewrite lines_open by (auto; discriminate). reflexivity.
    + destruct (last_newline _ _ _ E) as (b & -> & E'); [cbn [map]; rewrite concat_cons; destruct (String.concat delim t); discriminate|].
      exists b. rewrite lines_app_newline by auto. auto.
Qed.
Lemma split_parses delim has_header rows text : long_delimiter delim -> split_file delim has_header rows text ->
  Forall2 (fun l r => parses "," (replace delim "," l) r) (body_lines has_header text) rows.
Proof.
  intros (a & b & s & -> & Nd) H. assert (F : Forall (fun fields => String.concat (String a (String b s)) fields <> "" /\ Forall (split_field (String a (String b s))) fields) rows) by (destruct H as (h & _ & F & _); exact F).
  destruct (split_body _ _ _ _ H) as (body & -> & E). clear H text has_header.
  assert (Dok : delimiter_ok ",") by (repeat split; discriminate). assert (Na : a <> newline) by (destruct Nd; auto).
  assert (One : forall r, String.concat (String a (String b s)) r <> "" -> Forall (split_field (String a (String b s))) r ->
     str_no newline (String.concat (String a (String b s)) r) /\
     (forall tail, tail = "" \/ tail = String newline "" -> parses "," (replace (String a (String b s)) "," (String.concat (String a (String b s)) r ++ tail)) r)).
  { intros r Ne Fr. split.
    - apply concat_no; [exact Nd|]. eapply Forall_impl; [|exact Fr]. intros f (_ & _ & _ & N & _). exact N.
    - assert (R : record_text "," (String.concat "," r) r).
      { split.
        - destruct r as [|f [|f2 r]]; [exact Ne|exact Ne|]. destruct f; discriminate.
        - exists r. split; [reflexivity|]. clear Ne. induction Fr as [|f r (A & B & C & D & G) Fr IH]; constructor; [|exact IH]. constructor; auto. }
      destruct (record_parses "," _ r Dok R) as [P1 P2]. intros tail Ht.
      rewrite replace_join; [|eapply Forall_impl; [|exact Fr]; intros f (A & _); exact A|destruct Ht as [->| ->]; [exact I|split; [congruence|exact I]]].
      destruct Ht as [->| ->]; [rewrite app_empty_r; exact P1|exact P2]. }
  revert body E. induction F as [|r rows (Ne & Fr) F IH]; intros body E.
  - destruct E as [->|E]; [constructor|destruct (with_newline_nonempty _ E)].
  - destruct (One r Ne Fr) as [N1 P]. cbn [map] in E. rewrite concat_cons in E. destruct E as [->|E].
    + rewrite lines_app_newline by exact N1. constructor; [apply P; auto|]. apply IH. auto.
    + destruct rows as [|r2 rows].
      * cbn [map String.concat] in E. rewrite app_empty_r in E. apply with_newline_inj in E. subst body.
        rewrite lines_open by auto. constructor; [|constructor]. rewrite <- (app_empty_r (String.concat _ r)). apply P. auto.
      * destruct (last_newline _ _ _ E) as (t' & -> & E'); [cbn [map]; rewrite concat_cons; destruct (String.concat _ r2); discriminate|].
        rewrite lines_app_newline by exact N1. constructor; [apply P; auto|]. apply IH. auto.
Qed.
Theorem import_split_rows delim has_header cols r rows text size : long_delimiter delim -> columns_ok cols -> (length cols <= length r)%nat ->
  split_file delim has_header (r :: rows) text ->
  (Forall (usable cols) (r :: rows) -> exists types,
     csv_table text delim has_header cols size = Ok (types, file_rows cols (r :: rows)) /\ types_from cols r types) /\
  (forall t, csv_table text delim has_header cols size = Ok t -> Forall (usable cols) (r :: rows)).
Proof.
  intros L Co Lr H. assert (P := split_parses delim has_header (r :: rows) text L H).
  assert (P' : Forall2 (parses ",") (map (replace delim ",") (body_lines has_header text)) (r :: rows)).
  { clear - P. induction P; cbn [map]; constructor; auto. }
  inversion P as [|l ? ls ? P1 P2 El]; subst.
  rewrite <- (app_nil_l (map _ _)), <- (concat_chunks size) in P'. destruct (forall2_concat _ _ _ P') as (rss & F & E).
  destruct L as (a & b & s & -> & Nd).
  apply (table_spec text (String a (String b s)) "," (replace (String a (String b s)) ",") has_header cols size l r (r :: rows) rss); auto.
  - unfold body_lines in El. unfold first_line. destruct has_header; [|rewrite <- El; reflexivity].
    destruct (lines text) as [|x m]; [discriminate|]. cbn [tl] in El. subst m. reflexivity.
  - clear - F. induction F; constructor; auto. apply reader_parses. assumption.
Qed.
