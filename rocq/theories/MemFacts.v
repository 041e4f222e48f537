(** Proofs about query parsing and evaluation of the in-memory data set. *)
From Coq Require Import String Ascii Decimal DecimalString.
From Coq Require Import List ZArith NArith Nnat QArith Qcanon Bool Lia Permutation.
From Verif Require Import Py PyFacts MemModel MemSpec.
Import ListNotations.
Open Scope string_scope.
Open Scope Z_scope.


Lemma str_all_app P s t : str_all P (s ++ t) <-> str_all P s /\ str_all P t.
Proof. induction s; simpl; tauto. Qed.

Lemma str_all_impl (P Q : ascii -> Prop) s : (forall a, P a -> Q a) -> str_all P s -> str_all Q s.
Proof. intros H; induction s; simpl; auto. intros [H1 H2]; auto. Qed.

Lemma plain_no_space s : str_all plain_char s -> str_no " " s.
Proof. intros H. eapply str_all_no; eauto. intros [E _]. discriminate. Qed.

Lemma plain_no_comma s : str_all plain_char s -> str_no "," s.
Proof. intros H. eapply str_all_no; eauto. intros [_ E]. congruence. Qed.

Lemma last_char_app s t a : t <> "" -> exists b, last_char (s ++ t) a = last_char t b.
Proof.
  revert a; induction s as [|c s IH]; simpl; intros a H; [eauto|].
  apply IH; auto.
Qed.

Lemma last_char_all P t a : t <> "" -> str_all P t -> P (last_char t a).
Proof.
  revert a; induction t as [|c t IH]; simpl; intros a H1 H2; [contradiction|].
  destruct H2 as [H2 H3]. destruct t; simpl; auto. apply (IH c); auto. discriminate.
Qed.

Lemma strip_space s : strip (String " " s) = strip s.
Proof. reflexivity. Qed.

Lemma append_assoc s t u : ((s ++ t) ++ u = s ++ (t ++ u))%string.
Proof. induction s; simpl; congruence. Qed.

Lemma append_nonempty_r s t : t <> "" -> (s ++ t) <> "".
Proof. destruct s; simpl; auto. discriminate. Qed.

Lemma strip_cond c o l : plain c -> plain l ->
  strip (c ++ " " ++ o ++ " " ++ l) = c ++ " " ++ o ++ " " ++ l.
Proof.
  intros [Nc Hc] [Nl Hl]. destruct c as [|a c]; [contradiction|].
  simpl in Hc. destruct Hc as [[Ha _] Hc]. simpl append.
  apply strip_id; auto.
  destruct (last_char_app (c ++ String " " o ++ String " " EmptyString) l a Nl) as [b E].
  replace (c ++ String " " (o ++ String " " l)) with ((c ++ String " " o ++ String " " EmptyString) ++ l).
  - rewrite E. destruct (last_char_all plain_char l b Nl Hl) as [H _]. exact H.
  - rewrite append_assoc. f_equal. simpl. f_equal. rewrite append_assoc. reflexivity.
Qed.

Lemma op_text_no_space o : str_no " " (op_text o).
Proof. destruct o; simpl; repeat split; discriminate. Qed.

Lemma parse_segment_cond c o l : plain c -> plain l ->
  parse_segment (c ++ " " ++ op_text o ++ " " ++ l) = Ok (c, op_text o, l).
Proof.
  intros Hc Hl. unfold parse_segment. rewrite strip_cond by auto.
  change (c ++ " " ++ op_text o ++ " " ++ l)
    with (c ++ String " " (op_text o ++ String " " l)).
  rewrite split_on_app by (apply plain_no_space, Hc).
  rewrite split_on_app by (apply op_text_no_space).
  rewrite split_on_no by (apply plain_no_space, Hl).
  reflexivity.
Qed.

Lemma cmp_of_str_text o : cmp_of_str (op_text o) = Some o.
Proof. destruct o; reflexivity. Qed.

Lemma op_text_plain o : plain (op_text o).
Proof. destruct o; simpl; split; try discriminate; simpl; unfold plain_char; repeat split; discriminate. Qed.

Lemma digit_plain a : digit_char a -> plain_char a.
Proof.
  unfold digit_char, plain_char; simpl; intros H.
  repeat (destruct H as [<-|H]; [split; [reflexivity|discriminate]|]). contradiction.
Qed.

Lemma str_of_Z_plain z : plain (str_of_Z z).
Proof.
  split; [apply str_of_Z_nonempty|]. eapply str_all_impl; [apply digit_plain|apply str_of_Z_digits].
Qed.

(** ** Number literals *)
Lemma digit_cases a d : digit a = Some d ->
  In (a, d) [("0",0);("1",1);("2",2);("3",3);("4",4);("5",5);("6",6);("7",7);("8",8);("9",9)]%char.
Proof.
  unfold digit. destruct a as [[|] [|] [|] [|] [|] [|] [|] [|]]; simpl;
    intros H; try discriminate; injection H as <-; simpl; tauto.
Qed.

Lemma all_digits_digit_char s : all_digits s = true -> str_all digit_char s.
Proof.
  induction s as [|a s IH]; simpl; auto. destruct (digit a) eqn:E; [|discriminate].
  intros H. split; auto. apply digit_cases in E. unfold digit_char. simpl in *.
  repeat (destruct E as [E|E]; [injection E as <- <-; tauto|]). contradiction.
Qed.

(** the uint of a digit string *)
Lemma uint_of_all_digits s : all_digits s = true ->
  exists u, NilEmpty.uint_of_string s = Some u.
Proof.
  induction s as [|a s IH]; simpl; [eauto|]. destruct (digit a) eqn:E; [|discriminate].
  intros H. destruct (IH H) as [u Hu]. rewrite Hu.
  apply digit_cases in E. simpl in E.
  repeat (destruct E as [E|E]; [injection E as <- <-; simpl; eauto|]). contradiction.
Qed.

Lemma Npos_acc u p : Zpos (Pos.of_uint_acc u p) = digits_from (Zpos p) (NilEmpty.string_of_uint u).
Proof.
  revert p; induction u; intros p;
    cbn [NilEmpty.string_of_uint digits_from Pos.of_uint_acc]; [reflexivity|..];
    rewrite IHu; f_equal;
    match goal with |- context [digit ?a] =>
      let v := eval vm_compute in (digit a) in change (digit a) with v end;
    cbv iota; unfold Pos.of_uint_acc; lia.
Qed.

Lemma Z_of_uint_digits u : Z.of_uint u = digits_from 0 (NilEmpty.string_of_uint u).
Proof.
  unfold Z.of_uint. induction u; cbn [Pos.of_uint NilEmpty.string_of_uint digits_from]; try reflexivity.
  1: { rewrite IHu. f_equal. }
  all: cbn [Z.of_N]; rewrite Npos_acc; f_equal.
Qed.

Lemma nat_lit_digits s : s <> "" -> all_digits s = true -> nat_lit s = Some (digits_from 0 s).
Proof.
  intros N H. destruct (uint_of_all_digits s H) as [u Hu]. unfold nat_lit.
  assert (E : NilZero.uint_of_string s = Some u).
  { destruct s; [contradiction|]. simpl in *. exact Hu. }
  rewrite E. f_equal. rewrite Z_of_uint_digits. f_equal.
  apply NilEmpty.sus. exact Hu.
Qed.

Lemma string_of_uint_zero u : u <> Decimal.Nil -> NilZero.string_of_uint u = NilEmpty.string_of_uint u.
Proof. destruct u; simpl; congruence. Qed.

Lemma all_digits_uint u : all_digits (NilEmpty.string_of_uint u) = true.
Proof. induction u; simpl; auto. Qed.

Lemma digits_no_char c s : ~ digit_char c -> all_digits s = true -> str_no c s.
Proof. intros N H. eapply str_all_no; [apply all_digits_digit_char, H|exact N]. Qed.

Lemma not_digit_dot : ~ digit_char ".".
Proof. unfold digit_char; simpl. intros H; repeat (destruct H as [H|H]; [discriminate|]); auto. Qed.
Lemma not_digit_e : ~ digit_char "e".
Proof. unfold digit_char; simpl. intros H; repeat (destruct H as [H|H]; [discriminate|]); auto. Qed.

Lemma unsigned_float_int s : s <> "" -> all_digits s = true ->
  unsigned_float s = Some (inject_Z (f64_of_Z (digits_from 0 s))).
Proof.
  intros N H. unfold unsigned_float.
  rewrite split_on_no by (apply digits_no_char; auto using not_digit_e).
  unfold mantissa. rewrite split_on_no by (apply digits_no_char; auto using not_digit_dot).
  rewrite nat_lit_digits by auto. reflexivity.
Qed.

Lemma all_digits_app s t : all_digits (s ++ t) = (all_digits s && all_digits t)%bool.
Proof. induction s as [|a s IH]; simpl; auto. destruct (digit a); auto. Qed.

Lemma unsigned_float_dec a b : all_digits a = true -> all_digits b = true -> (a ++ b) <> "" ->
  unsigned_float (a ++ "." ++ b) =
  Some (inject_Z (digits_from 0 (a ++ b)) * pow10 (- Z.of_nat (str_len b)))%Q.
Proof.
  intros Ha Hb N. unfold unsigned_float.
  rewrite split_on_no.
  2: { apply str_no_app; [apply digits_no_char; auto using not_digit_e|].
       simpl. split; [discriminate|]. apply digits_no_char; auto using not_digit_e. }
  unfold mantissa. change (a ++ "." ++ b) with (a ++ String "." b).
  rewrite split_on_app by (apply digits_no_char; auto using not_digit_dot).
  rewrite split_on_no by (apply digits_no_char; auto using not_digit_dot).
  rewrite nat_lit_digits; auto. rewrite all_digits_app, Ha, Hb. reflexivity.
Qed.

Lemma digits_first_not_minus a s : all_digits (String a s) = true -> Ascii.eqb a "-" = false.
Proof.
  simpl. destruct (digit a) eqn:E; [|discriminate]. intros _.
  apply digit_cases in E. simpl in E.
  repeat (destruct E as [E|E]; [injection E as <- <-; reflexivity|]). contradiction.
Qed.

Lemma pos_str p : all_digits (NilEmpty.string_of_uint (Pos.to_uint p)) = true /\
  NilEmpty.string_of_uint (Pos.to_uint p) <> "" /\
  digits_from 0 (NilEmpty.string_of_uint (Pos.to_uint p)) = Zpos p.
Proof.
  split; [apply all_digits_uint|]. split.
  - assert (H := pos_uint_nonnil p). destruct (Pos.to_uint p); simpl; congruence.
  - rewrite <- Z_of_uint_digits. assert (H := DecimalZ.of_to (Zpos p)). simpl in H. exact H.
Qed.

Lemma float_of_str_Z z : Z.abs z <= 2 ^ 53 -> float_of_str (str_of_Z z) = Some (Qc_of_Z z).
Proof.
  intros H. unfold str_of_Z, NilZero.string_of_int.
  destruct z as [|p|p].
  - reflexivity.
  - cbn [Z.to_int]. rewrite string_of_uint_zero by apply pos_uint_nonnil.
    destruct (pos_str p) as [D [N E]].
    destruct (NilEmpty.string_of_uint (Pos.to_uint p)) as [|a s] eqn:F; [contradiction|].
    unfold float_of_str. rewrite (digits_first_not_minus a s D).
    rewrite unsigned_float_int by auto. rewrite E, f64_exact by auto. reflexivity.
  - cbn [Z.to_int]. rewrite string_of_uint_zero by apply pos_uint_nonnil.
    destruct (pos_str p) as [D [N E]]. cbn [float_of_str]. simpl Ascii.eqb. cbn iota.
    rewrite unsigned_float_int by auto. rewrite E, f64_exact by lia.
    reflexivity.
Qed.

Lemma pow10_neg n : (pow10 (- Z.of_nat n) == / inject_Z (10 ^ Z.of_nat n))%Q.
Proof.
  unfold pow10. destruct (0 <=? - Z.of_nat n) eqn:E.
  - apply Z.leb_le in E. assert (n = 0)%nat by lia. subst. reflexivity.
  - rewrite Z.opp_involutive. reflexivity.
Qed.

Lemma append_eq_nil s t : s ++ t = "" -> s = "" /\ t = "".
Proof. destruct s; simpl; [auto|discriminate]. Qed.

Lemma float_of_str_dec neg a b : all_digits a = true -> all_digits b = true -> (a ++ b) <> "" ->
  float_of_str (lit_text (LDec neg a b)) = lit_num (LDec neg a b).
Proof.
  intros Ha Hb N.
  assert (U : unsigned_float (a ++ "." ++ b) <> None /\ forall q, unsigned_float (a ++ "." ++ b) = Some q ->
     (q == inject_Z (digits_from 0 (a ++ b)) / inject_Z (10 ^ Z.of_nat (str_len b)))%Q).
  { rewrite unsigned_float_dec by auto. split; [discriminate|]. intros q H. injection H as <-.
    rewrite pow10_neg. reflexivity. }
  destruct U as [U1 U2]. unfold lit_text, lit_num.
  destruct (unsigned_float (a ++ "." ++ b)) as [q|] eqn:E; [|contradiction].
  specialize (U2 q eq_refl).
  destruct neg.
  - simpl append. cbn [float_of_str]. simpl Ascii.eqb. cbn iota.
    change (a ++ String "." b) with (a ++ "." ++ b). rewrite E. f_equal.
    apply Q2Qc_eq_iff. rewrite U2. reflexivity.
  - simpl append. change (a ++ String "." b) with (a ++ "." ++ b).
    destruct (a ++ "." ++ b) as [|c s] eqn:F.
    { apply append_eq_nil in F. destruct F; discriminate. }
    cbn [float_of_str].
    assert (M : Ascii.eqb c "-" = false).
    { destruct a as [|c' a']; simpl in F; injection F as <- _; [reflexivity|].
      apply (digits_first_not_minus _ _ Ha). }
    rewrite M, E. f_equal. apply Q2Qc_eq_iff. exact U2.
Qed.

(** ** Comparisons *)
Lemma Qcltb_compare x y : Qcltb x y = match (x ?= y)%Qc with Datatypes.Lt => true | _ => false end.
Proof.
  unfold Qcltb, Qltb, Qccompare. destruct (Qcompare_spec (this x) (this y)) as [H|H|H].
  - destruct (Qle_bool y x) eqn:E; auto. exfalso.
    assert (Qle_bool y x = true) by (apply Qle_bool_iff; rewrite H; apply Qle_refl). congruence.
  - destruct (Qle_bool y x) eqn:E; auto. apply Qle_bool_iff in E.
    exfalso. apply (Qlt_not_le _ _ H E).
  - assert (Qle_bool y x = true) by (apply Qle_bool_iff, Qlt_le_weak, H). rewrite H0. reflexivity.
Qed.

Lemma Qccompare_refl x : (x ?= x)%Qc = Datatypes.Eq.
Proof. apply Qceq_alt. reflexivity. Qed.

Lemma Qccompare_antisym x y : (y ?= x)%Qc = CompOpp (x ?= y)%Qc.
Proof. unfold Qccompare. symmetry. apply Qcompare_antisym. Qed.

Lemma Qc_eq_bool_compare x y : Qc_eq_bool x y = match (x ?= y)%Qc with Datatypes.Eq => true | _ => false end.
Proof.
  apply eq_true_iff_eq. rewrite Qc_eq_bool_iff.
  rewrite Qceq_alt. destruct (x ?= y)%Qc; split; intros; congruence || discriminate.
Qed.

Lemma cmp_flt op x q : cmp_vals op (VFlt x) (Some (VFlt q)) = Ok (op_holds op (x ?= q)%Qc).
Proof.
  unfold cmp_vals. cbn [coerce val_eqb val_ltb num_of].
  destruct op; rewrite ?Qcltb_compare, ?Qc_eq_bool_compare, ?(Qccompare_antisym x q);
    destruct (x ?= q)%Qc; reflexivity.
Qed.

Lemma Qc_of_Z_compare a b : (Qc_of_Z a ?= Qc_of_Z b)%Qc = (a ?= b).
Proof.
  change ((Qred (inject_Z a) ?= Qred (inject_Z b))%Q = (a ?= b)).
  assert (E : forall p q, (Qred p ?= Qred q)%Q = (p ?= q)%Q).
  { intros p q. apply Qcompare_comp; apply Qred_correct. }
  rewrite E. unfold Qcompare. simpl. rewrite !Z.mul_1_r. reflexivity.
Qed.

Lemma cmp_int op a b : cmp_vals op (VInt a) (Some (VInt b)) = Ok (op_holds op (Qc_of_Z a ?= Qc_of_Z b)%Qc).
Proof.
  unfold cmp_vals. cbn [coerce val_eqb val_ltb num_of]. rewrite !Qcltb_compare.
  rewrite !Qc_of_Z_compare. rewrite (Z.compare_antisym a b).
  destruct op; try rewrite Z.eqb_compare; destruct (a ?= b); reflexivity.
Qed.

Lemma string_ltb_compare s t : string_ltb s t = match String.compare s t with Datatypes.Lt => true | _ => false end.
Proof.
  revert t; induction s as [|a s IH]; intros [|b t]; simpl; auto.
  unfold Ascii.compare.
  assert (N : forall c, N_of_ascii c = N.of_nat (nat_of_ascii c)).
  { intros c. unfold nat_of_ascii. rewrite N2Nat.id. reflexivity. }
  rewrite !N, <- Nat2N.inj_compare.
  destruct (Nat.compare_spec (nat_of_ascii a) (nat_of_ascii b)) as [H|H|H].
  - rewrite H, Nat.ltb_irrefl. apply IH.
  - apply Nat.ltb_lt in H. rewrite H. reflexivity.
  - assert (H2 := H). apply Nat.ltb_lt in H. rewrite H.
    destruct (Nat.ltb (nat_of_ascii a) (nat_of_ascii b)) eqn:E; auto.
    apply Nat.ltb_lt in E. lia.
Qed.

Lemma string_compare_refl s : String.compare s s = Datatypes.Eq.
Proof.
  induction s as [|a s IH]; simpl; auto. unfold Ascii.compare. rewrite N.compare_refl. exact IH.
Qed.

Lemma string_eqb_compare s t : String.eqb s t = match String.compare s t with Datatypes.Eq => true | _ => false end.
Proof.
  destruct (String.eqb s t) eqn:E.
  - apply String.eqb_eq in E; subst. rewrite string_compare_refl. reflexivity.
  - apply String.eqb_neq in E. destruct (String.compare s t) eqn:F; auto.
    apply String.compare_eq_iff in F. contradiction.
Qed.

Lemma cmp_str op s t : cmp_vals op (VStr s) (Some (VStr t)) = Ok (op_holds op (String.compare s t)).
Proof.
  unfold cmp_vals. cbn [coerce val_eqb val_ltb num_of].
  destruct op; rewrite ?string_ltb_compare, ?string_eqb_compare;
    rewrite ?(String.compare_antisym t s); destruct (String.compare s t); reflexivity.
Qed.

(** ** Results *)
Lemma mapM_Ok {A B} (f : A -> res B) (g : A -> B) l :
  (forall a, In a l -> f a = Ok (g a)) -> mapM f l = Ok (map g l).
Proof.
  induction l as [|a l IH]; simpl; auto. intros H.
  rewrite H by auto. simpl. rewrite IH by auto. reflexivity.
Qed.

Lemma mapM_map {A B C} (f : B -> res C) (g : A -> B) l : mapM f (map g l) = mapM (fun a => f (g a)) l.
Proof. induction l; simpl; auto. rewrite IHl. reflexivity. Qed.

Lemma mapM_inv {A B} (f : A -> res B) l bs : mapM f l = Ok bs ->
  Forall2 (fun a b => f a = Ok b) l bs.
Proof.
  revert bs; induction l as [|a l IH]; simpl; intros bs H.
  - injection H as <-. constructor.
  - destruct (f a) eqn:E; simpl in H; [|discriminate].
    destruct (mapM f l) eqn:F; simpl in H; [|discriminate].
    injection H as <-. constructor; auto.
Qed.

Lemma mapM_Forall2 {A B} (f : A -> res B) l bs :
  Forall2 (fun a b => f a = Ok b) l bs -> mapM f l = Ok bs.
Proof.
  induction 1 as [|a b l bs H F IH]; simpl; auto. rewrite H. simpl. rewrite IH. reflexivity.
Qed.

Lemma mapM_length {A B} (f : A -> res B) l bs : mapM f l = Ok bs -> length bs = length l.
Proof. intros H. apply mapM_inv in H. induction H; simpl; auto. Qed.

Lemma mapM_err_in {A B} (f : A -> res B) l e : mapM f l = Err e -> exists a, In a l /\ f a = Err e.
Proof.
  induction l as [|a l IH]; simpl; [discriminate|].
  destruct (f a) eqn:E; simpl.
  - destruct (mapM f l) eqn:F; simpl; [discriminate|]. intros H; injection H as ->.
    destruct (IH eq_refl) as [x [H1 H2]]. eauto.
  - intros H; injection H as ->. eauto.
Qed.

(** ** Well-formed frames and data sets *)



Lemma col_in_iff m c : col_in m c = true <-> In c (m_columns m).
Proof. unfold col_in. apply mem_b_In. apply reflects_string. Qed.

Lemma wf_cell m r c t : wf_mem m -> In r (rows_of m) ->
  assoc String.eqb c (f_types (m_df m)) = Some t -> exists v, cell r c = Some v /\ type_of v = t.
Proof.
  intros W Hr Ht. apply (wf_typed _ (wf_df _ W)); auto.
  apply (assoc_In _ reflects_string). exact Ht.
Qed.

(** ** One condition *)



Lemma plain_text_plain s : plain_text s -> str_all plain_char s.
Proof. apply str_all_impl. tauto. Qed.
Lemma plain_text_noquote s : plain_text s -> str_no "'" s.
Proof. intros H. eapply str_all_no; eauto. simpl. tauto. Qed.

Lemma lit_plain c t l : lit_ok c t l -> plain (lit_text l).
Proof.
  destruct 1; simpl; try apply str_of_Z_plain.
  - split; [apply append_nonempty_r, append_nonempty_r; discriminate|].
    rewrite !str_all_app. split; [destruct n; simpl; auto; repeat split; discriminate|].
    split; [eapply str_all_impl; [apply digit_plain|apply all_digits_digit_char; auto]|].
    simpl. split; [split; [reflexivity|discriminate]|].
    eapply str_all_impl; [apply digit_plain|apply all_digits_digit_char; auto].
  - split; [discriminate|]. simpl. split; [split; [reflexivity|discriminate]|].
    rewrite str_all_app. split; [apply plain_text_plain; auto|]. simpl.
    split; auto. split; [reflexivity|discriminate].
Qed.

Definition lit_value (c : string) (l : slit) : value :=
  match l with
  | LText s => VStr s
  | LInt z => if mem_b String.eqb c ["iid"; "uid"; "rid"] then VInt z else VFlt (Qc_of_Z z)
  | LDec n a b => match lit_num (LDec n a b) with Some q => VFlt q | None => VInt 0 end
  end.

Lemma eval_lit_text s : plain_text s -> eval_lit ("'" ++ s ++ "'") = Ok (VStr s).
Proof.
  intros H. unfold eval_lit. simpl append.
  change (String "'" (s ++ "'")) with ("" ++ String "'" (s ++ "'")).
  rewrite split_on_app by (simpl; auto).
  rewrite split_on_app by (apply plain_text_noquote; auto). reflexivity.
Qed.

Lemma parse_value_ok c t l : lit_ok c t l -> parse_value c t (lit_text l) = Ok (lit_value c l).
Proof.
  intros H. unfold parse_value.
  assert (K : forall b, mem_b String.eqb c ["iid"; "uid"; "rid"] = b ->
              (b = true <-> In c ["iid"; "uid"; "rid"])).
  { intros b <-. apply mem_b_In, reflects_string. }
  destruct (mem_b String.eqb c ["iid"; "uid"; "rid"]) eqn:E.
  - assert (I : In c ["iid"; "uid"; "rid"]) by (apply (K true); auto).
    destruct H; try contradiction. cbn [lit_text lit_value]. rewrite E, Z_of_str_of_Z. reflexivity.
  - assert (I : ~ In c ["iid"; "uid"; "rid"]).
    { intros I. apply (K false) in I; auto. discriminate. }
    destruct H; try contradiction; cbn [lit_value]; rewrite ?E.
    + cbn [lit_text]. rewrite float_of_str_Z by auto. destruct t; try congruence; reflexivity.
    + rewrite float_of_str_dec by auto. destruct t; try congruence; reflexivity.
    + subst t. cbn [lit_text]. apply eval_lit_text; auto.
Qed.




Lemma col_type_ok m c : wf_mem m -> In c (m_columns m) -> exists t, col_type m c = Ok t.
Proof.
  intros W H. unfold col_type. destruct (String.eqb c "rid") eqn:E; [eauto|].
  apply String.eqb_neq in E. apply (wf_cols _ W) in H. destruct H as [H|H]; [contradiction|].
  destruct (assoc String.eqb c (f_types (m_df m))) eqn:F; [eauto|].
  apply (assoc_None _ reflects_string) in F. contradiction.
Qed.

Lemma row_value_val c r v : row_val r c = Some v -> row_value c r = Ok v.
Proof.
  unfold row_val, row_value. destruct (String.eqb c "rid").
  - intros H; injection H as <-. reflexivity.
  - intros ->. reflexivity.
Qed.

Lemma wf_row_val m c t r : wf_mem m -> col_type m c = Ok t -> In r (rows_of m) ->
  exists v, row_val r c = Some v /\ type_of v = t.
Proof.
  intros W H Hr. unfold col_type in H. unfold row_val. destruct (String.eqb c "rid").
  - injection H as <-. eexists; split; reflexivity.
  - destruct (assoc String.eqb c (f_types (m_df m))) eqn:F; [|discriminate].
    injection H as <-. eapply wf_cell; eauto.
Qed.

Definition row_val_or (c : string) (r : row) : value :=
  match row_val r c with Some v => v | None => VInt 0 end.

Lemma column_values m c t : wf_mem m -> col_type m c = Ok t ->
  mapM (row_value c) (rows_of m) = Ok (map (row_val_or c) (rows_of m)).
Proof.
  intros W H. apply mapM_Ok. intros r Hr.
  destruct (wf_row_val m c t r W H Hr) as [v [E _]]. unfold row_val_or. rewrite E.
  apply row_value_val; auto.
Qed.

Lemma cmp_sat m c t r : wf_mem m -> small_col m (sc_col c) -> col_type m (sc_col c) = Ok t ->
  lit_ok (sc_col c) t (sc_lit c) -> In r (rows_of m) ->
  (In (sc_col c) ["iid"; "uid"; "rid"] -> t = DInt) ->
  cmp_vals (sc_op c) (row_val_or (sc_col c) r) (Some (lit_value (sc_col c) (sc_lit c))) = Ok (sat1 c r).
Proof.
  intros W S T L Hr Hid. destruct (wf_row_val _ _ _ _ W T Hr) as [v [Ev Tv]].
  unfold sat1, row_val_or. rewrite Ev.
  assert (K : mem_b String.eqb (sc_col c) ["iid"; "uid"; "rid"] = true <-> In (sc_col c) ["iid"; "uid"; "rid"]).
  { apply mem_b_In, reflects_string. }
  destruct L as [z I|z I Nt Hz|n a b I Nt Ha Hb Nab|s I Ot Ps]; cbn [lit_value].
  - apply K in I as I'. rewrite I'. specialize (Hid I). subst t.
    destruct v; try discriminate. apply cmp_int.
  - assert (I' : mem_b String.eqb (sc_col c) ["iid"; "uid"; "rid"] = false).
    { destruct (mem_b String.eqb (sc_col c) ["iid"; "uid"; "rid"]); auto. exfalso; apply I, K; auto. }
    rewrite I'. cbn [lit_num]. destruct v as [x|x|x]; simpl in Tv; try congruence.
    + unfold cmp_vals. cbn [coerce]. rewrite f64_exact.
      * apply cmp_flt.
      * unfold row_val in Ev. destruct (String.eqb (sc_col c) "rid") eqn:R.
        { apply String.eqb_eq in R. exfalso. apply I. rewrite R. simpl; auto. }
        eapply S; eauto.
    + apply cmp_flt.
  - cbn [lit_num]. destruct v as [x|x|x]; simpl in Tv; try congruence.
    + unfold cmp_vals. cbn [coerce]. rewrite f64_exact.
      * apply cmp_flt.
      * unfold row_val in Ev. destruct (String.eqb (sc_col c) "rid") eqn:R.
        { apply String.eqb_eq in R. exfalso. apply I. rewrite R. simpl; auto. }
        eapply S; eauto.
    + apply cmp_flt.
  - subst t. destruct v; try discriminate. apply cmp_str.
Qed.


Lemma id_types_col m c t : id_types m -> col_type m c = Ok t ->
  In c ["iid"; "uid"; "rid"] -> t = DInt.
Proof.
  intros I H Hc. unfold col_type in H. destruct (String.eqb c "rid") eqn:R; [congruence|].
  destruct (assoc String.eqb c (f_types (m_df m))) eqn:F; [|discriminate]. injection H as <-.
  apply (I c); auto. apply String.eqb_neq in R. simpl in *. intuition.
Qed.

Lemma redirect_direct m c t v : direct m c -> col_type m (sc_col c) = Ok t ->
  redirect m (sc_col c) t v = Ok (sc_col c, Some v).
Proof.
  intros D T. unfold redirect, direct in *.
  assert (X : forall k, In k ["user"; "item"] -> sc_col c = k -> m_ids m = true -> t = DInt).
  { intros k Hk E M. rewrite <- E in Hk. specialize (D M Hk). unfold col_type in T.
    destruct (String.eqb (sc_col c) "rid") eqn:R.
    - apply String.eqb_eq in R. rewrite R in Hk. simpl in Hk. intuition discriminate.
    - rewrite D in T. congruence. }
  destruct (String.eqb (sc_col c) "user") eqn:U; simpl.
  - apply String.eqb_eq in U. destruct (m_ids m) eqn:M; simpl.
    + rewrite (X "user"); simpl; auto. rewrite U. reflexivity.
    + rewrite U. reflexivity.
  - destruct (String.eqb (sc_col c) "item") eqn:V; simpl; auto.
    apply String.eqb_eq in V. destruct (m_ids m) eqn:M; simpl; auto.
    rewrite (X "item"); simpl; auto.
Qed.

Lemma segment_mask_cond m c : wf_mem m -> id_types m ->
  cond_ok m c -> direct m c ->
  segment_mask m (cond_text c) = Ok (map (sat1 c) (rows_of m)).
Proof.
  intros W I [Hin [Pc [S [t [T L]]]]] D. unfold segment_mask, cond_text.
  rewrite parse_segment_cond by (auto; eapply lit_plain; eauto). cbn [bind].
  apply col_in_iff in Hin. rewrite Hin. cbn [negb].
  rewrite T. cbn [bind]. rewrite (parse_value_ok _ _ _ L). cbn [bind].
  rewrite (redirect_direct m c t _ D T). cbn [bind]. rewrite T. cbn [bind].
  rewrite (column_values m _ t W T). cbn [bind]. rewrite cmp_of_str_text.
  rewrite mapM_map. apply mapM_Ok. intros r Hr. eapply cmp_sat; eauto.
  intros Hc. eapply id_types_col; eauto.
Qed.

Lemma segment_mask_space m s : segment_mask m (String " " s) = segment_mask m s.
Proof. unfold segment_mask, parse_segment. rewrite strip_space. reflexivity. Qed.

(** ** Conjunctions *)
Lemma mask_and_map {A} (f g : A -> bool) l :
  mask_and (map f l) (map g l) = map (fun a => f a && g a)%bool l.
Proof. unfold mask_and. induction l; simpl; congruence. Qed.

Lemma mask_filter_map {A} (f : A -> bool) l : mask_filter (map f l) l = filter f l.
Proof.
  unfold mask_filter. induction l as [|a l IH]; simpl; auto.
  destruct (f a); simpl; congruence.
Qed.

Lemma cond_text_no_comma m c : cond_ok m c -> str_no "," (cond_text c).
Proof.
  intros [_ [Pc [_ [t [_ L]]]]]. unfold cond_text. apply lit_plain in L.
  apply str_no_app; [apply plain_no_comma, Pc|]. simpl. split; [discriminate|].
  apply str_no_app; [apply plain_no_comma, op_text_plain|]. simpl. split; [discriminate|].
  apply plain_no_comma, L.
Qed.

Lemma split_query m c cs : Forall (cond_ok m) (c :: cs) ->
  split_on "," (query_text (c :: cs)) = cond_text c :: map (fun d => String " " (cond_text d)) cs.
Proof.
  revert c; induction cs as [|d cs IH]; intros c F; inversion F; subst.
  - simpl. apply split_on_no. eapply cond_text_no_comma; eauto.
  - change (query_text (c :: d :: cs)) with (cond_text c ++ String "," (String " " (query_text (d :: cs)))).
    rewrite split_on_app by (eapply cond_text_no_comma; eauto).
    cbn [map]. f_equal. specialize (IH d H2).
    cbn [split_on]. rewrite IH. reflexivity.
Qed.

Lemma segments_mask_conds m cs acc : wf_mem m -> id_types m ->
  Forall (cond_ok m) cs -> Forall (direct m) cs ->
  segments_mask m (map acc (rows_of m)) (map (fun d => String " " (cond_text d)) cs)
  = Ok (map (fun r => acc r && sat cs r)%bool (rows_of m)).
Proof.
  intros W I. revert acc. induction cs as [|c cs IH]; intros acc F D; cbn [map segments_mask].
  - f_equal. apply map_ext. intros r. simpl. rewrite andb_true_r. reflexivity.
  - inversion F; inversion D; subst. rewrite segment_mask_space, segment_mask_cond by auto.
    cbn [bind]. rewrite mask_and_map, IH by auto. f_equal. apply map_ext. intros r.
    unfold sat. simpl. rewrite andb_assoc. reflexivity.
Qed.

Lemma query_mask_conds m cs : wf_mem m -> id_types m -> cs <> [] ->
  Forall (cond_ok m) cs -> Forall (direct m) cs ->
  query_mask m (query_text cs) = Ok (map (sat cs) (rows_of m)).
Proof.
  intros W I N F D. destruct cs as [|c cs]; [contradiction|].
  unfold query_mask. rewrite (split_query m) by auto.
  inversion F; inversion D; subst. rewrite segment_mask_cond by auto. cbn [bind].
  rewrite segments_mask_conds by auto. reflexivity.
Qed.

Lemma apply_query_conds m cs : wf_mem m -> id_types m -> cs <> [] ->
  Forall (cond_ok m) cs -> Forall (direct m) cs ->
  apply_query m (query_text cs) = Ok (mkFrame (f_types (m_df m)) (filter (sat cs) (rows_of m))).
Proof.
  intros. unfold apply_query. rewrite query_mask_conds by auto. cbn [bind].
  rewrite mask_filter_map. reflexivity.
Qed.
