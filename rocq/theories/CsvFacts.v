(** Facts about the csv reader. *)
From Coq Require Import String Ascii.
From Coq Require Import List ZArith QArith Qcanon Bool Lia.
From Verif Require Import Py PyFacts MemModel MemFacts DbModel CsvModel CsvSpec.
Import ListNotations.
Open Scope string_scope.
Open Scope Z_scope.

Lemma eqb_ne (a b : ascii) : a <> b -> Ascii.eqb a b = false.
Proof. apply Ascii.eqb_neq. Qed.
Lemma quote_same : CsvModel.quote = quote_char. Proof. reflexivity. Qed.
Lemma nl_same : CsvModel.nl = newline. Proof. reflexivity. Qed.
Lemma cr_same : CsvModel.cr = return_char. Proof. reflexivity. Qed.

Lemma app_empty_r s : s ++ "" = s.
Proof. induction s as [|a s IH]; [reflexivity|]. cbn [append]. rewrite IH. reflexivity. Qed.
Lemma feed_app d a : forall p b, feed_line d p (a ++ b) = (p' <- feed_line d p a ;; feed_line d p' b).
Proof.
  induction a as [|c a IH]; intros p b; [reflexivity|]. cbn [append feed_line]. destruct (feed d p c) as [p1|]; [|reflexivity].
  cbn [bind]. apply IH.
Qed.
Lemma feed_state d p c p' : feed d p c = Ok p' -> c_state p' <> StartRecord.
Proof.
  unfold feed, start_field, save_field, add_char. destruct (c_state p) eqn:St; repeat match goal with |- context [if ?b then _ else _] => destruct b end;
    intro E; inversion E; subst; cbn; congruence.
Qed.

(** ** Scanning a text character by character *)
Definition finish (p : csv) : res (list (list string)) :=
  match c_state p with
  | StartRecord => Ok []
  | InQuoted => Ok [(c_fields p ++ [c_field p])%list]
  | _ => Ok [c_fields (end_line p)]
  end.
Fixpoint scan (d : ascii) (p : csv) (s : string) : res (list (list string)) :=
  match s with
  | EmptyString => finish p
  | String c s' =>
      p1 <- feed d p c ;;
      if Ascii.eqb c CsvModel.nl then
        match c_state (end_line p1) with
        | StartRecord => rest <- scan d csv_init s' ;; Ok (c_fields (end_line p1) :: rest)
        | _ => scan d (end_line p1) s'
        end
      else scan d p1 s'
  end.
Lemma end_line_state p : c_state (end_line p) = StartRecord \/ c_state (end_line p) = InQuoted.
Proof. unfold end_line, save_field. destruct (c_state p) eqn:E; cbn; auto. Qed.
Lemma lines_nil s : lines s = [] -> s = "".
Proof. destruct s as [|c s]; [reflexivity|]. cbn [lines]. destruct (Ascii.eqb c CsvModel.nl); [discriminate|]. destruct (lines s); discriminate. Qed.
Lemma records_scan d s : forall p, s <> "" \/ c_state p = StartRecord \/ c_state p = InQuoted ->
  records d p (lines s) = scan d p s.
Proof.
  induction s as [|c s IH]; intros p Hp.
  { cbn [lines records scan]. unfold finish. destruct Hp as [H|[H|H]]; [congruence|rewrite H; reflexivity|rewrite H; reflexivity]. }
  cbn [lines]. destruct (Ascii.eqb c CsvModel.nl) eqn:En.
  - cbn [records feed_line scan]. rewrite En. destruct (feed d p c) as [p1|] eqn:Ef; [|reflexivity]. cbn [bind].
    destruct (c_state (end_line p1)) eqn:St; try (apply IH; auto); [|destruct (end_line_state p1); congruence..].
    rewrite IH by auto. reflexivity.
  - cbn [scan]. rewrite En. destruct (lines s) as [|l ls] eqn:El.
    + apply lines_nil in El. subst s. cbn [records feed_line scan]. destruct (feed d p c) as [p1|] eqn:Ef; [|reflexivity]. cbn [bind].
      assert (N := feed_state _ _ _ _ Ef). unfold finish, end_line, save_field. destruct (c_state p1) eqn:St; cbn; try reflexivity; try congruence.
      rewrite St. reflexivity.
    + cbn [records feed_line]. destruct (feed d p c) as [p1|] eqn:Ef; [|reflexivity]. cbn [bind].
      rewrite <- (IH p1); [reflexivity|]. left. intro H. subst s. discriminate El.
Qed.

(** ** Fields *)

(** Where the reader is between two fields: the fields so far, the current one
    included. *)
Definition at_field (p : csv) (pre : list string) : Prop :=
  (c_state p = StartRecord \/ c_state p = StartField) /\ c_field p = "" /\ c_fields p = pre.
Definition after_field (p : csv) (fs : list string) : Prop :=
  (c_state p = StartRecord \/ c_state p = StartField \/ c_state p = InField \/ c_state p = QuoteInQuoted) /\
  (c_fields p ++ [c_field p])%list = fs.

Lemma newline_false c : c <> newline -> c <> return_char -> is_newline c = false.
Proof. intros A B. unfold is_newline. rewrite nl_same, cr_same, !eqb_ne by auto. reflexivity. Qed.

(** feeding a text that never ends a line *)
Inductive inner (d : ascii) : csv -> string -> csv -> Prop :=
| inner_end p : inner d p "" p
| inner_step p c p1 s p' : feed d p c = Ok p1 -> (c = newline -> c_state p1 = InQuoted) -> inner d p1 s p' ->
    inner d p (String c s) p'.
Lemma inner_app d p a p1 b p2 : inner d p a p1 -> inner d p1 b p2 -> inner d p (a ++ b) p2.
Proof. intros H. induction H; intro G; [exact G|]. cbn [append]. apply inner_step with p1; auto. Qed.
Lemma inner_feed d p s p' : inner d p s p' -> feed_line d p s = Ok p'.
Proof. intro H. induction H; [reflexivity|]. cbn [feed_line]. rewrite H. exact IHinner. Qed.
Lemma inner_scan d p s p' rest : inner d p s p' -> scan d p (s ++ rest) = scan d p' rest.
Proof.
  intro H. induction H; [reflexivity|]. cbn [append scan]. rewrite H. cbn [bind]. destruct (Ascii.eqb c CsvModel.nl) eqn:E; [|exact IHinner].
  apply Ascii.eqb_eq in E. specialize (H0 E). unfold end_line. rewrite H0. rewrite H0. exact IHinner.
Qed.

Lemma raw_chars d v : forall p pre, c_state p = InField -> str_no d v -> str_no quote_char v -> str_no newline v -> str_no return_char v ->
  c_fields p = pre -> exists p', inner d p v p' /\ c_state p' = InField /\ c_fields p' = pre /\ c_field p' = c_field p ++ v.
Proof.
  induction v as [|c v IH]; intros p pre St D Q N R F.
  - exists p. split; [constructor|]. rewrite app_empty_r. auto.
  - destruct D as [D1 D2], Q as [Q1 Q2], N as [N1 N2], R as [R1 R2].
    assert (Ef : feed d p c = Ok (add_char p c InField)).
    { unfold feed. rewrite St, newline_false, (eqb_ne c d) by auto. reflexivity. }
    destruct (IH (add_char p c InField) pre eq_refl D2 Q2 N2 R2 F) as (p' & H1 & H2 & H3 & H4).
    exists p'. split; [apply inner_step with (add_char p c InField); auto; congruence|]. split; [exact H2|]. split; [exact H3|].
    rewrite H4. cbn [add_char c_field]. rewrite append_assoc. reflexivity.
Qed.
Lemma quoted_chars d v t : escaped v t -> forall p pre, c_state p = InQuoted -> c_fields p = pre ->
  exists p', inner d p t p' /\ c_state p' = InQuoted /\ c_fields p' = pre /\ c_field p' = c_field p ++ v.
Proof.
  intro E. induction E as [|c v t Nc E IH|v t E IH]; intros p pre St F.
  - exists p. split; [constructor|]. rewrite app_empty_r. auto.
  - assert (Ef : feed d p c = Ok (add_char p c InQuoted)).
    { unfold feed. rewrite St, quote_same, (eqb_ne c) by auto. reflexivity. }
    destruct (IH (add_char p c InQuoted) pre eq_refl F) as (p' & H1 & H2 & H3 & H4).
    exists p'. split; [apply inner_step with (add_char p c InQuoted); auto|]. split; [exact H2|]. split; [exact H3|].
    rewrite H4. cbn [add_char c_field]. rewrite append_assoc. reflexivity.
  - set (p1 := mkCsv QuoteInQuoted (c_field p) (c_fields p)).
    assert (E1 : feed d p quote_char = Ok p1) by (unfold feed; rewrite St, quote_same, Ascii.eqb_refl; reflexivity).
    assert (E2 : feed d p1 quote_char = Ok (add_char p1 quote_char InQuoted)) by (unfold feed; cbn [p1 c_state]; rewrite quote_same, Ascii.eqb_refl; reflexivity).
    destruct (IH (add_char p1 quote_char InQuoted) pre eq_refl F) as (p' & H1 & H2 & H3 & H4).
    exists p'. split; [apply inner_step with p1; auto; [discriminate|apply inner_step with (add_char p1 quote_char InQuoted); auto]|].
    split; [exact H2|]. split; [exact H3|]. rewrite H4. cbn [add_char c_field]. rewrite append_assoc. reflexivity.
Qed.

Lemma one_field d t v p pre : delimiter_ok d -> field_text d t v -> at_field p pre ->
  exists p', inner d p t p' /\ after_field p' (pre ++ [v])%list.
Proof.
  intros (Dq & Dn & Dr) H (St & Fe & Fs). destruct H as [v D Q N R|v t E].
  - destruct v as [|c v].
    + exists p. split; [constructor|]. split; [destruct St; auto|]. rewrite Fe, Fs. reflexivity.
    + destruct D as [D1 D2], Q as [Q1 Q2], N as [N1 N2], R as [R1 R2].
      assert (Ef : feed d p c = Ok (add_char p c InField)).
      { assert (Es : start_field d p c = add_char p c InField).
        { unfold start_field. rewrite newline_false, quote_same, (eqb_ne c quote_char), (eqb_ne c d) by auto. reflexivity. }
        unfold feed. destruct St as [St|St]; rewrite St; [rewrite newline_false by auto|]; rewrite Es; reflexivity. }
      destruct (raw_chars d v (add_char p c InField) pre eq_refl D2 Q2 N2 R2 Fs) as (p' & H1 & H2 & H3 & H4).
      exists p'. split; [apply inner_step with (add_char p c InField); auto; congruence|]. split; [auto|].
      rewrite H3, H4. cbn [add_char c_field]. rewrite Fe. reflexivity.
  - set (p1 := mkCsv InQuoted (c_field p) (c_fields p)).
    assert (Ef : feed d p quote_char = Ok p1).
    { assert (Es : start_field d p quote_char = p1).
      { unfold start_field. rewrite newline_false by (discriminate). rewrite quote_same, Ascii.eqb_refl. reflexivity. }
      unfold feed. destruct St as [St|St]; rewrite St; [rewrite newline_false by discriminate|]; rewrite Es; reflexivity. }
    destruct (quoted_chars d v t E p1 pre eq_refl Fs) as (p2 & H1 & H2 & H3 & H4).
    set (p3 := mkCsv QuoteInQuoted (c_field p2) (c_fields p2)).
    assert (E3 : feed d p2 quote_char = Ok p3) by (unfold feed; rewrite H2, quote_same, Ascii.eqb_refl; reflexivity).
    exists p3. split; [apply inner_step with p1; [exact Ef|discriminate|]|].
    + apply (inner_app d p1 t p2); [exact H1|]. apply inner_step with p3; [exact E3|discriminate|constructor].
    + split; [auto|]. cbn [p3 c_fields c_field]. rewrite H3, H4. cbn [p1 c_field]. rewrite Fe. reflexivity.
Qed.
Lemma delimiter_step d p fs : delimiter_ok d -> after_field p fs -> exists p', feed d p d = Ok p' /\ at_field p' fs.
Proof.
  intros (Dq & Dn & Dr) (St & Fs). exists (save_field p StartField). split.
  - assert (Es : start_field d p d = save_field p StartField).
    { unfold start_field. rewrite newline_false, quote_same, (eqb_ne d quote_char), Ascii.eqb_refl by auto. reflexivity. }
    unfold feed. destruct St as [St|[St|[St|St]]]; rewrite St; rewrite ?newline_false, ?quote_same, ?(eqb_ne d quote_char), ?Ascii.eqb_refl by auto; rewrite ?Es; reflexivity.
  - unfold at_field. cbn. auto.
Qed.
Lemma some_fields d ts : forall vs p pre, delimiter_ok d -> Forall2 (field_text d) ts vs -> ts <> [] -> at_field p pre ->
  exists p', inner d p (String.concat (String d "") ts) p' /\ after_field p' (pre ++ vs)%list.
Proof.
  induction ts as [|t ts IH]; intros vs p pre D F Ne A; [congruence|].
  inversion F as [|? v ? vs' Ht F']; subst. destruct (one_field d t v p pre D Ht A) as (p1 & H1 & H2).
  destruct ts as [|t2 ts].
  - inversion F'; subst. cbn [String.concat]. exists p1. auto.
  - destruct (delimiter_step d p1 _ D H2) as (p2 & H3 & H4).
    destruct (IH vs' p2 (pre ++ [v])%list D F' ltac:(discriminate) H4) as (p3 & H5 & H6).
    exists p3. split; [|rewrite <- app_assoc in H6; exact H6].
    change (String.concat (String d "") (t :: t2 :: ts)) with (t ++ String d "" ++ String.concat (String d "") (t2 :: ts)).
    apply (inner_app d p t p1); [exact H1|]. apply (inner_app d p1 (String d "") p2); [|exact H5].
    apply inner_step with p2; [exact H3| |constructor]. destruct D as (_ & Dn & _). congruence.
Qed.
Lemma inner_state d p s p' : inner d p s p' -> s <> "" -> c_state p' <> StartRecord.
Proof.
  intros H. assert (G : s = "" \/ c_state p' <> StartRecord).
  { induction H as [|p c p1 s p' Ef Hn H IH]; [auto|]. right. destruct IH as [->|IH]; [|exact IH]. inversion H; subst. exact (feed_state _ _ _ _ Ef). }
  destruct G; congruence.
Qed.
(** The whole text of a record, without the end of the line. *)
Lemma record_inner d t fields : delimiter_ok d -> record_text d t fields ->
  exists p, inner d csv_init t p /\ after_field p fields /\ c_state p <> StartRecord.
Proof.
  intros D (Ne & ts & -> & F). assert (Nt : ts <> []) by (intros ->; apply Ne; reflexivity).
  destruct (some_fields d ts fields csv_init [] D F Nt) as (p & H1 & H2); [unfold at_field; cbn; auto|].
  exists p. split; [exact H1|]. split; [exact H2|]. exact (inner_state _ _ _ _ H1 Ne).
Qed.
Lemma after_newline d p fs : delimiter_ok d -> after_field p fs -> c_state p <> StartRecord ->
  exists p', feed d p newline = Ok p' /\ c_state (end_line p') = StartRecord /\ c_fields (end_line p') = fs.
Proof.
  intros (Dq & Dn & Dr) (St & Fs) Ne. exists (save_field p EatCrnl). split; [|split; [reflexivity|exact Fs]].
  unfold feed, start_field. destruct St as [St|[St|[St|St]]]; [congruence| | |]; rewrite St; rewrite ?(eqb_ne newline d) by auto; reflexivity.
Qed.
Lemma after_end p fs : after_field p fs -> c_state p <> StartRecord ->
  c_state (end_line p) = StartRecord /\ c_fields (end_line p) = fs.
Proof. intros (St & Fs) Ne. unfold end_line. destruct St as [St|[St|[St|St]]]; [congruence| | |]; rewrite St; auto. Qed.

(** ** Files read in one go *)
Lemma scan_record d t fields rest : delimiter_ok d -> record_text d t fields ->
  scan d csv_init (with_newline t ++ rest) = (r <- scan d csv_init rest ;; Ok (fields :: r)).
Proof.
  intros D R. destruct (record_inner d t fields D R) as (p & H1 & H2 & H3). destruct (after_newline d p fields D H2 H3) as (p' & H4 & H5 & H6).
  unfold with_newline. rewrite append_assoc. rewrite (inner_scan _ _ _ _ _ H1). cbn [append scan]. rewrite H4. cbn [bind].
  rewrite nl_same, Ascii.eqb_refl. rewrite H5, H6. reflexivity.
Qed.
Lemma scan_rows d : forall ts rows, delimiter_ok d -> Forall2 (record_text d) ts rows ->
  scan d csv_init (String.concat "" (map with_newline ts)) = Ok rows.
Proof.
  intros ts rows D F. induction F as [|t fs ts rows R F IH]; [reflexivity|].
  assert (E : String.concat "" (map with_newline (t :: ts)) = with_newline t ++ String.concat "" (map with_newline ts)).
  { cbn [map]. destruct (map with_newline ts) as [|x l]; [cbn [String.concat]; rewrite app_empty_r; reflexivity|reflexivity]. }
  rewrite E, (scan_record d t fs _ D R), IH. reflexivity.
Qed.
Lemma concat_cons t ts : String.concat "" (t :: ts) = t ++ String.concat "" ts.
Proof. destruct ts as [|x l]; [cbn [String.concat]; rewrite app_empty_r; reflexivity|reflexivity]. Qed.
Lemma with_newline_nonempty t : with_newline t <> "".
Proof. destruct t; discriminate. Qed.
Lemma last_newline a : forall t b, with_newline t = a ++ b -> b <> "" -> exists t', t = a ++ t' /\ with_newline t' = b.
Proof.
  induction a as [|c a IH]; intros t b E Nb; [exists t; auto|]. cbn [append] in E. destruct t as [|x t].
  - cbn in E. injection E as <- E. destruct a; [|discriminate]. cbn in E. congruence.
  - unfold with_newline in E. cbn [append] in E. injection E as <- E. destruct (IH t b E Nb) as (t' & -> & E'). exists t'. auto.
Qed.
Lemma with_newline_inj a b : with_newline a = with_newline b -> a = b.
Proof.
  revert b. induction a as [|c a IH]; intros [|x b] E; try reflexivity.
  - cbn in E. injection E as _ E. destruct b; discriminate.
  - cbn in E. injection E as _ E. destruct a; discriminate.
  - unfold with_newline in E. cbn [append] in E. injection E as <- E. f_equal. apply IH. exact E.
Qed.
Lemma scan_rows_open d : forall ts rows text, delimiter_ok d -> Forall2 (record_text d) ts rows ->
  with_newline text = String.concat "" (map with_newline ts) -> scan d csv_init text = Ok rows.
Proof.
  intros ts rows text D F. revert text. induction F as [|t fs ts rows R F IH]; intros text E; [destruct (with_newline_nonempty _ E)|].
  cbn [map] in E. rewrite concat_cons in E. destruct ts as [|t2 ts].
  - inversion F; subst. cbn [map String.concat] in E. rewrite app_empty_r in E. apply with_newline_inj in E. subst text.
    destruct (record_inner d t fs D R) as (p & H1 & H2 & H3). destruct (after_end p fs H2 H3) as (H5 & H6).
    rewrite <- (app_empty_r t), (inner_scan _ _ _ _ _ H1). cbn [scan]. unfold finish.
    destruct H2 as ([St|[St|[St|St]]] & Fs); [congruence| | |]; rewrite St, H6; reflexivity.
  - destruct (last_newline _ _ _ E) as (t' & -> & E').
    { cbn [map]. rewrite concat_cons. destruct t2; discriminate. }
    rewrite (scan_record d t fs _ D R), (IH t' E'). reflexivity.
Qed.
Lemma lines_app_newline h rest : str_no newline h -> lines (with_newline h ++ rest) = with_newline h :: lines rest.
Proof.
  induction h as [|c h IH]; intro N; [reflexivity|]. destruct N as [N1 N2]. unfold with_newline. cbn [append lines].
  rewrite nl_same, (eqb_ne c newline) by auto. fold (with_newline h). rewrite (IH N2). reflexivity.
Qed.
Lemma lines_open h : str_no newline h -> h <> "" -> lines h = [h].
Proof.
  induction h as [|c h IH]; intros N E; [congruence|]. destruct N as [N1 N2]. cbn [lines]. rewrite nl_same, (eqb_ne c newline) by auto.
  destruct h as [|c' h]; [reflexivity|]. rewrite IH by (auto; discriminate). reflexivity.
Qed.

(** The lines after the header. *)
Definition body_lines (has_header : bool) (text : string) : list string := if has_header then tl (lines text) else lines text.
Lemma body_of d has_header rows text : csv_file d has_header rows text ->
  exists body ts, body_lines has_header text = lines body /\ Forall2 (record_text d) ts rows /\
    (body = String.concat "" (map with_newline ts) \/ with_newline body = String.concat "" (map with_newline ts)).
Proof.
  intros (h & ts & F & Hh & E). unfold body_lines. destruct has_header; cycle 1.
  { subst h. exists text, ts. cbn [append] in E. auto. }
  cbn zeta in E. destruct E as [E|E].
  - exists (String.concat "" (map with_newline ts)), ts. subst text. rewrite lines_app_newline by auto. auto.
  - destruct ts as [|t ts].
    + cbn [map String.concat] in E. rewrite app_empty_r in E. apply with_newline_inj in E. subst text. exists "", []. split; [|auto].
      destruct h as [|c h]; [reflexivity|]. rewrite lines_open by (auto; discriminate). reflexivity.
    + destruct (last_newline _ _ _ E) as (b & -> & E'); [cbn [map]; rewrite concat_cons; destruct t; discriminate|].
      exists b, (t :: ts). rewrite lines_app_newline by auto. auto.
Qed.
Theorem reader_file d has_header rows text : delimiter_ok d -> csv_file d has_header rows text ->
  reader d (body_lines has_header text) = Ok rows.
Proof.
  intros D H. destruct (body_of d _ _ _ H) as (b & ts & -> & F & E). unfold reader. rewrite records_scan by (cbn; auto).
  destruct E as [->|E]; [apply scan_rows; auto|]. apply (scan_rows_open d ts); auto.
Qed.

(** ** Records on one line each *)
Definition parses (d : ascii) (l : string) (fields : list string) : Prop :=
  exists p, feed_line d csv_init l = Ok p /\ c_state (end_line p) = StartRecord /\ c_fields (end_line p) = fields.
Lemma escaped_no v t : escaped v t -> str_no newline v -> str_no newline t.
Proof.
  intro E. induction E as [|c v t Nc E IH|v t E IH]; intro N; [exact I| |].
  - destruct N as [N1 N2]. split; auto.
  - destruct N as [N1 N2]. split; [exact N1|]. split; [exact N1|]. auto.
Qed.
Lemma field_text_no d t v : field_text d t v -> str_no newline v -> str_no newline t.
Proof.
  intros H N. destruct H as [v|v t E]; [exact N|]. split; [discriminate|]. apply str_no_app; [apply (escaped_no v); auto|].
  split; [discriminate|exact I].
Qed.
Lemma concat_no q sep ts : str_no q sep -> Forall (str_no q) ts -> str_no q (String.concat sep ts).
Proof.
  intros S F. induction F as [|t ts N F IH]; [exact I|]. destruct ts as [|t2 ts]; [exact N|].
  change (str_no q (t ++ sep ++ String.concat sep (t2 :: ts))). apply str_no_app; [exact N|]. apply str_no_app; auto.
Qed.
Lemma record_text_no d t fields : delimiter_ok d -> record_text d t fields -> Forall (str_no newline) fields -> str_no newline t.
Proof.
  intros (Dq & Dn & Dr) (_ & ts & -> & F) N. apply concat_no; [split; [exact Dn|exact I]|].
  induction F as [|x v ts vs Hx F IH]; [constructor|]. inversion N; subst. constructor; [apply (field_text_no d x v); auto|auto].
Qed.
Lemma record_parses d t fields : delimiter_ok d -> record_text d t fields -> parses d t fields /\ parses d (with_newline t) fields.
Proof.
  intros D R. destruct (record_inner d t fields D R) as (p & H1 & H2 & H3). destruct (after_end p fields H2 H3) as (A1 & A2).
  destruct (after_newline d p fields D H2 H3) as (p' & H4 & H5 & H6). split.
  - exists p. split; [exact (inner_feed _ _ _ _ H1)|]. auto.
  - exists p'. split; [|auto]. unfold with_newline. rewrite feed_app, (inner_feed _ _ _ _ H1). cbn [bind feed_line]. rewrite H4. reflexivity.
Qed.
Lemma reader_parses d ls rows : Forall2 (parses d) ls rows -> reader d ls = Ok rows.
Proof.
  intro F. unfold reader. induction F as [|l fs ls rows (p & H1 & H2 & H3) F IH]; [reflexivity|].
  cbn [records]. rewrite H1. cbn [bind]. rewrite H2, IH, H3. reflexivity.
Qed.
Lemma lines_rows d ts : forall rows, delimiter_ok d -> Forall2 (record_text d) ts rows -> Forall (Forall (str_no newline)) rows ->
  Forall2 (parses d) (lines (String.concat "" (map with_newline ts))) rows.
Proof.
  intros rows D F. induction F as [|t fs ts rows R F IH]; intro N; [constructor|]. inversion N; subst.
  cbn [map]. rewrite concat_cons, lines_app_newline by (apply (record_text_no d t fs); auto).
  constructor; [apply record_parses; auto|auto].
Qed.
Lemma lines_rows_open d ts : forall rows text, delimiter_ok d -> Forall2 (record_text d) ts rows -> Forall (Forall (str_no newline)) rows ->
  with_newline text = String.concat "" (map with_newline ts) -> Forall2 (parses d) (lines text) rows.
Proof.
  intros rows text D F. revert text. induction F as [|t fs ts rows R F IH]; intros text N E; [destruct (with_newline_nonempty _ E)|].
  inversion N; subst. assert (Nt := record_text_no d t fs D R ltac:(assumption)).
  cbn [map] in E. rewrite concat_cons in E. destruct ts as [|t2 ts].
  - inversion F; subst. cbn [map String.concat] in E. rewrite app_empty_r in E. apply with_newline_inj in E. subst text.
    rewrite lines_open; [|exact Nt|exact (proj1 R)]. constructor; [apply record_parses; auto|constructor].
  - destruct (last_newline _ _ _ E) as (t' & -> & E').
    { cbn [map]. rewrite concat_cons. destruct t2; discriminate. }
    rewrite lines_app_newline by exact Nt. constructor; [apply record_parses; auto|auto].
Qed.
Theorem body_parses d has_header rows text : delimiter_ok d -> csv_file d has_header rows text -> Forall (Forall (str_no newline)) rows ->
  Forall2 (parses d) (body_lines has_header text) rows.
Proof.
  intros D H N. destruct (body_of d _ _ _ H) as (b & ts & -> & F & E).
  destruct E as [->|E]; [apply lines_rows; auto|]. apply (lines_rows_open d ts); auto.
Qed.
(** The line the types are taken from, when the first record is on one line. *)
Theorem first_parses d has_header r rows text : delimiter_ok d -> csv_file d has_header (r :: rows) text -> Forall (str_no newline) r ->
  exists l, first_line has_header (lines text) = Some l /\ parses d l r.
Proof.
  intros D H N. destruct (body_of d _ _ _ H) as (b & ts & El & F & E). inversion F as [|t ? ts' ? R F']; subst.
  assert (Nt := record_text_no d t r D R N). destruct (record_parses d t r D R) as [P1 P2].
  assert (G : exists l ls, lines b = l :: ls /\ parses d l r).
  { cbn [map] in E. rewrite concat_cons in E. destruct E as [->|E].
    - rewrite lines_app_newline by exact Nt. eauto.
    - destruct ts' as [|t2 ts'].
      + cbn [map String.concat] in E. rewrite app_empty_r in E. apply with_newline_inj in E. subst b.
        rewrite lines_open; [|exact Nt|exact (proj1 R)]. eauto.
      + destruct (last_newline _ _ _ E) as (t' & -> & E'); [cbn [map]; rewrite concat_cons; destruct t2; discriminate|].
        rewrite lines_app_newline by exact Nt. eauto. }
  destruct G as (l & ls & G & P). exists l. split; [|exact P]. unfold body_lines in El. rewrite G in El. unfold first_line.
  destruct has_header; [|rewrite El; reflexivity]. destruct (lines text) as [|x m]; [discriminate|]. cbn [tl] in El. subst m. reflexivity.
Qed.

(** ** Chunks *)
Lemma concat_chunks size : forall ls acc, List.concat (chunks size acc ls) = (acc ++ ls)%list.
Proof.
  induction ls as [|l ls IH]; intro acc; cbn [chunks].
  - destruct acc; [reflexivity|]. cbn. rewrite app_nil_r. reflexivity.
  - cbn zeta. destruct (Nat.eqb _ size); [cbn [List.concat]|]; rewrite IH; rewrite <- app_assoc; reflexivity.
Qed.
Lemma one_chunk size : forall ls acc, size = 0%nat \/ (length (acc ++ ls) <= size)%nat -> acc <> [] \/ ls <> [] ->
  chunks size acc ls = [(acc ++ ls)%list].
Proof.
  induction ls as [|l ls IH]; intros acc Hs Ne; cbn [chunks].
  - destruct acc; [destruct Ne; congruence|]. rewrite app_nil_r. reflexivity.
  - cbn zeta. destruct (Nat.eqb (length (acc ++ [l])) size) eqn:E.
    + apply Nat.eqb_eq in E. assert (ls = []).
      { destruct Hs as [->|Hs]; [rewrite app_length in E; cbn in E; lia|].
        rewrite app_length in E, Hs. cbn [length] in E, Hs. destruct ls; [reflexivity|cbn [length] in Hs; lia]. }
      subst ls. reflexivity.
    + rewrite IH; [rewrite <- app_assoc; reflexivity| |left; destruct acc; discriminate].
      destruct Hs as [->|Hs]; [auto|]. right. rewrite <- app_assoc. exact Hs.
Qed.
Lemma forall2_concat {A B} (P : A -> B -> Prop) css : forall bs, Forall2 P (List.concat css) bs ->
  exists bss, Forall2 (Forall2 P) css bss /\ List.concat bss = bs.
Proof.
  induction css as [|c css IH]; intros bs F; cbn [List.concat] in F.
  - inversion F; subst. exists []. split; [constructor|reflexivity].
  - apply Forall2_app_inv_l in F. destruct F as (b1 & b2 & F1 & F2 & ->). destruct (IH b2 F2) as (bss & G & <-).
    exists (b1 :: bss). split; [constructor; auto|reflexivity].
Qed.

(** ** Records to rows *)
Lemma named_somes cols : named_columns cols = somes cols.
Proof. induction cols as [|[c|] cols IH]; cbn; congruence. Qed.
Definition cell_given (cols : list (option string)) (fields : list string) (c : string) : option value :=
  match field_of cols fields c with Some f => given c f | None => None end.
Lemma usable_skip cols f fs : usable (None :: cols) (f :: fs) <-> usable cols fs.
Proof. split; intros H c; apply (H c). Qed.
Lemma field_other c cols f fs c' : c <> c' -> field_of (Some c :: cols) (f :: fs) c' = field_of cols fs c'.
Proof. intro H. cbn [field_of]. destruct (String.eqb_spec c c'); [congruence|reflexivity]. Qed.
Lemma field_same c cols f fs : field_of (Some c :: cols) (f :: fs) c = Some f.
Proof. cbn [field_of]. rewrite String.eqb_refl. reflexivity. Qed.
Lemma usable_named c cols f fs : ~ In c (named_columns cols) ->
  usable (Some c :: cols) (f :: fs) <-> (exists v, given c f = Some v) /\ usable cols fs.
Proof.
  intro Nc. split.
  - intro H. split.
    + destruct (H c ltac:(left; reflexivity)) as (f' & v & H1 & H2). rewrite field_same in H1. injection H1 as <-. eauto.
    + intros c' Hc. destruct (H c' ltac:(right; exact Hc)) as (f' & v & H1 & H2). rewrite field_other in H1 by congruence. eauto.
  - intros [(v & Hv) H] c' [<-|Hc]; [exists f, v; rewrite field_same; auto|].
    destruct (H c' Hc) as (f' & v' & H1 & H2). exists f', v'. rewrite field_other by congruence. auto.
Qed.
Lemma field_empty cols c : field_of cols [] c = None.
Proof. destruct cols as [|[]]; reflexivity. Qed.
Lemma record_ok cols : forall fields, NoDup (named_columns cols) -> usable cols fields ->
  exists r, record cols fields = Ok r /\ length r = length (somes cols) /\
    combine (somes cols) (map Some r) = map (fun c => (c, cell_given cols fields c)) (named_columns cols).
Proof.
  induction cols as [|[c|] cols IH]; intros fields ND U.
  - exists []. destruct fields; auto.
  - destruct fields as [|f fs].
    { destruct (U c ltac:(left; reflexivity)) as (f & v & H & _). rewrite field_empty in H. discriminate. }
    inversion ND; subst. apply usable_named in U; [|assumption]. destruct U as [(v & Hv) U].
    destruct (IH fs ltac:(assumption) U) as (r & K1 & K2 & K3). exists (v :: r). cbn [record].
    assert (E : (if String.eqb c "interaction" then match float_of_str f with Some q => Ok (VFlt q) | None => Err ValueError end else Ok (VStr f)) = Ok v).
    { unfold given in Hv. destruct (String.eqb c "interaction"); [|congruence]. destruct (float_of_str f); [|discriminate]. cbn in Hv. congruence. }
    rewrite E, K1. cbn [bind]. split; [reflexivity|]. split; [cbn; congruence|]. cbn [somes map combine named_columns]. rewrite K3. f_equal.
    + unfold cell_given. rewrite field_same, Hv. reflexivity.
    + apply map_ext_in. intros c' Hc. unfold cell_given. rewrite field_other by congruence. reflexivity.
  - destruct fields as [|f fs].
    { exists []. cbn [record]. assert (E : named_columns cols = []).
      { destruct (named_columns cols) as [|c l] eqn:E; [reflexivity|]. destruct (U c) as (f & v & H & _); [cbn [named_columns]; rewrite E; left; reflexivity|].
        rewrite field_empty in H. discriminate. }
      cbn [somes named_columns]. rewrite <- named_somes, E. auto. }
    apply usable_skip in U. destruct (IH fs ND U) as (r & H1 & H2 & H3). exists r. cbn [record somes named_columns]. auto.
Qed.
Lemma record_bad cols : forall fields r, NoDup (named_columns cols) -> record cols fields = Ok r -> length r = length (somes cols) -> usable cols fields.
Proof.
  induction cols as [|[c|] cols IH]; intros fields r ND E L.
  - intros c [].
  - inversion ND; subst. destruct fields as [|f fs]; cbn [record] in E; [injection E as <-; discriminate|].
    destruct (if String.eqb c "interaction" then _ else _) as [v|] eqn:Ev; [|discriminate]. cbn [bind] in E.
    destruct (record cols fs) as [r'|] eqn:Er; [|discriminate]. cbn [bind] in E. injection E as <-.
    apply usable_named; [assumption|]. split; [|apply (IH fs r'); auto; cbn in L; congruence].
    unfold given. destruct (String.eqb c "interaction"); [|eauto]. destruct (float_of_str f); [|discriminate]. cbn. eauto.
  - destruct fields as [|f fs]; cbn [record] in E.
    + injection E as <-. cbn [somes length] in L. intros c Hc. cbn [named_columns] in Hc. rewrite named_somes in Hc.
      destruct (somes cols); [destruct Hc|discriminate].
    + apply usable_skip. apply (IH fs r); auto.
Qed.

(** ** Segments *)
Fixpoint rows_from (cols : list (option string)) (n : nat) (rows : list (list string)) : list trow :=
  match rows with [] => [] | r :: rows' => line_row cols n r :: rows_from cols (S n) rows' end.
Lemma rows_from_app cols a : forall n b, rows_from cols n (a ++ b) = (rows_from cols n a ++ rows_from cols (n + length a) b)%list.
Proof.
  induction a as [|r a IH]; intros n b; [cbn; rewrite Nat.add_0_r; reflexivity|]. cbn [app rows_from length]. rewrite IH. f_equal. f_equal. f_equal. lia.
Qed.
Lemma rows_from_length cols rows : forall n, length (rows_from cols n rows) = length rows.
Proof. induction rows as [|r rows IH]; intro n; cbn; [reflexivity|]. rewrite IH. reflexivity. Qed.
Lemma file_rows_from cols rows : file_rows cols rows = rows_from cols 0 rows.
Proof.
  unfold file_rows. generalize 0%nat. induction rows as [|r rows IH]; intro n; [reflexivity|]. cbn [length seq combine map rows_from fst snd]. rewrite IH. reflexivity.
Qed.
Lemma segment_ok d cols n ls rows : NoDup (named_columns cols) -> reader d ls = Ok rows -> Forall (usable cols) rows ->
  segment d cols (Z.of_nat n) ls = Ok (rows_from cols n rows).
Proof.
  intros ND E U. unfold segment. rewrite E. cbn [bind]. clear E.
  assert (G : exists rs, mapM (record cols) rows = Ok rs /\ forallb (fun r => Nat.eqb (length r) (length (somes cols))) rs = true /\
     forall n, numbered (somes cols) (Z.of_nat n) rs = rows_from cols n rows).
  { clear n. induction U as [|r rows Ur U IH]; [exists []; auto|]. destruct IH as (rs & H1 & H2 & H3).
    destruct (record_ok cols r ND Ur) as (x & R1 & R2 & R3). exists (x :: rs). cbn [mapM]. rewrite R1, H1. cbn [bind]. split; [reflexivity|].
    cbn [forallb]. rewrite R2, Nat.eqb_refl, H2. split; [reflexivity|]. intro n. cbn [numbered rows_from].
    replace (Z.of_nat n + 1) with (Z.of_nat (S n)) by lia. rewrite H3. f_equal. unfold row_of, line_row. rewrite R3. reflexivity. }
  destruct G as (rs & H1 & H2 & H3). rewrite H1, H2, H3. reflexivity.
Qed.
Lemma segment_usable d cols n ls rows x : NoDup (named_columns cols) -> reader d ls = Ok rows -> segment d cols n ls = Ok x ->
  Forall (usable cols) rows.
Proof.
  intros ND E H. unfold segment in H. rewrite E in H. cbn [bind] in H. destruct (mapM (record cols) rows) as [rs|] eqn:Em; [|discriminate].
  destruct (forallb _ rs) eqn:Ef; [|discriminate]. clear E H. revert rs Em Ef. induction rows as [|r rows IH]; intros rs Em Ef; [constructor|].
  cbn [mapM] in Em. destruct (record cols r) as [y|] eqn:Er; [|discriminate]. cbn [bind] in Em. destruct (mapM _ rows) as [ys|]; [|discriminate].
  cbn [bind] in Em. injection Em as <-. cbn [forallb] in Ef. apply andb_true_iff in Ef. destruct Ef as [E1 E2]. apply Nat.eqb_eq in E1.
  constructor; [apply (record_bad cols r y); auto|eauto].
Qed.
Lemma segments_ok d cols css : forall n rss, NoDup (named_columns cols) -> Forall2 (fun c rs => reader d c = Ok rs) css rss ->
  Forall (usable cols) (List.concat rss) -> segments d cols (Z.of_nat n) css = Ok (rows_from cols n (List.concat rss)).
Proof.
  induction css as [|c css IH]; intros n rss ND F U; inversion F as [|? rs ? rss' E F']; subst; [reflexivity|].
  cbn [List.concat] in *. apply Forall_app in U. destruct U as [U1 U2]. cbn [segments]. rewrite (segment_ok d cols n c rs ND E U1). cbn [bind].
  rewrite rows_from_length, <- Nat2Z.inj_add, (IH _ rss' ND F' U2). cbn [bind]. rewrite rows_from_app. reflexivity.
Qed.
Lemma segments_usable d cols css : forall n rss x, NoDup (named_columns cols) -> Forall2 (fun c rs => reader d c = Ok rs) css rss ->
  segments d cols n css = Ok x -> Forall (usable cols) (List.concat rss).
Proof.
  induction css as [|c css IH]; intros n rss x ND F H; inversion F as [|? rs ? rss' E F']; subst; [constructor|].
  cbn [segments] in H. destruct (segment d cols n c) as [y|] eqn:Es; [|discriminate]. cbn [bind] in H.
  destruct (segments d cols _ css) as [z|] eqn:Ez; [|discriminate]. cbn [List.concat]. apply Forall_app. split.
  - exact (segment_usable d cols n c rs y ND E Es).
  - exact (IH _ rss' z ND F' Ez).
Qed.

(** Every chunking of the lines gives the rows of the file: each record is on a
    line of its own, or all lines are in one chunk. *)
Lemma chunk_rows d has_header rows text size : delimiter_ok d -> csv_file d has_header rows text ->
  Forall (Forall (str_no newline)) rows \/ size = 0%nat \/ (length (lines text) <= size)%nat ->
  exists rss, Forall2 (fun c rs => reader d c = Ok rs) (chunks size [] (body_lines has_header text)) rss /\ List.concat rss = rows.
Proof.
  intros D H [N|Hs].
  - assert (P := body_parses d has_header rows text D H N). rewrite <- (app_nil_l (body_lines has_header text)), <- (concat_chunks size) in P.
    destruct (forall2_concat _ _ _ P) as (rss & F & E). exists rss. split; [|exact E].
    clear - F. induction F; constructor; auto. apply reader_parses. assumption.
  - assert (E := reader_file d has_header rows text D H). destruct (body_lines has_header text) as [|l ls] eqn:El.
    + exists []. cbn in E. injection E as <-. split; [constructor|reflexivity].
    + exists [rows]. rewrite one_chunk; [| |right; discriminate].
      * split; [constructor; [exact E|constructor]|cbn; apply app_nil_r].
      * destruct Hs as [Hs|Hs]; [auto|right]. cbn [app]. rewrite <- El. unfold body_lines. destruct has_header; [|exact Hs].
        destruct (lines text); cbn in *; lia.
Qed.
