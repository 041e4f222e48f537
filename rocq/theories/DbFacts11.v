(** Queries of database data sets: the parser accepts the conditions of the
    specification, and SQLite's comparisons are the ones it states. *)
From Coq Require Import String Ascii DecimalString.
From Coq Require Import List ZArith QArith Qcanon Bool Permutation Lia.
From Verif Require Import Py PyFacts MemModel MemSpec MemFacts DbModel DbFacts DbSpec DbFacts2 DbFacts3 DbFacts4 DbFacts5.
Import ListNotations.
Open Scope string_scope.
Open Scope Z_scope.

(** ** Comparisons *)
Lemma sql_op_key o a b : sql_op o a b = op_holds o (key_compare (key_of a) (key_of b)).
Proof.
  assert (X : forall p q, sql_op o (VFlt p) (VFlt q) = op_holds o (p ?= q)%Qc).
  { intros p q. unfold sql_op, sql_ltb. cbn [val_eqb val_ltb num_of].
    destruct o; rewrite ?Qcltb_compare, ?Qc_eq_bool_compare, ?(Qccompare_antisym p q);
      destruct (p ?= q)%Qc; reflexivity. }
  destruct a as [x|x|s]; destruct b as [y|y|t]; cbn [key_of key_compare].
  - unfold sql_op, sql_ltb. cbn [val_eqb val_ltb num_of]. rewrite !Qcltb_compare, !Qc_of_Z_compare.
    rewrite (Z.compare_antisym x y). destruct o; try rewrite Z.eqb_compare; destruct (x ?= y); reflexivity.
  - apply (X (Qc_of_Z x) y).
  - destruct o; reflexivity.
  - apply (X x (Qc_of_Z y)).
  - apply X.
  - destruct o; reflexivity.
  - destruct o; reflexivity.
  - destruct o; reflexivity.
  - unfold sql_op, sql_ltb. cbn [val_eqb val_ltb num_of].
    destruct o; rewrite ?string_ltb_compare, ?string_eqb_compare;
      rewrite ?(String.compare_antisym t s); destruct (String.compare s t); reflexivity.
Qed.

(** ** Literals *)
Lemma uint_dot a b : NilEmpty.uint_of_string (a ++ String "." b) = None.
Proof.
  induction a as [|c a IH]; simpl; [destruct (NilEmpty.uint_of_string b); reflexivity|]. rewrite IH. reflexivity.
Qed.
Lemma uint_dot0 a b : NilZero.uint_of_string (a ++ String "." b) = None.
Proof.
  pose proof (uint_dot a b) as U. unfold NilZero.uint_of_string. destruct (a ++ String "." b); [reflexivity|exact U].
Qed.
Lemma Z_of_dec n a b : Z_of_str ((if n : bool then "-" else "") ++ a ++ "." ++ b) = None.
Proof.
  assert (U : NilZero.int_of_string ((if n then "-" else "") ++ a ++ "." ++ b) = None).
  { destruct n; cbn [append].
    - unfold NilZero.int_of_string. change (Ascii.eqb "-" "-") with true. cbn iota. rewrite uint_dot0. reflexivity.
    - destruct a as [|c a]; cbn [append]; unfold NilZero.int_of_string.
      + change (Ascii.eqb "." "-") with false. cbn iota. pose proof (uint_dot0 "" b) as V. cbn [append] in V.
        rewrite V. reflexivity.
      + rewrite uint_dot0. pose proof (uint_dot0 (String c a) b) as V.
        cbn [append] in V. rewrite V. destruct (Ascii.eqb c "-"); reflexivity. }
  unfold Z_of_str. rewrite U. reflexivity.
Qed.
Lemma digits_no q s : digit q = None -> all_digits s = true -> str_no q s.
Proof.
  intros Q. induction s as [|c s IH]; cbn [all_digits str_no]; [auto|].
  destruct (digit c) eqn:E; [|discriminate]. intro H. split; [intros ->; congruence|auto].
Qed.
Lemma str_of_Z_no q z : digit q = None -> q <> "-"%char -> str_no q (str_of_Z z).
Proof.
  intros Q M. unfold str_of_Z, NilZero.string_of_int. destruct z as [|p|p]; cbn [Z.to_int].
  - cbn. split; [|auto]. intros <-. discriminate Q.
  - rewrite string_of_uint_zero by apply pos_uint_nonnil. apply digits_no; [auto|apply pos_str].
  - rewrite string_of_uint_zero by apply pos_uint_nonnil. cbn [str_no]. split; [auto|apply digits_no; [auto|apply pos_str]].
Qed.

(** The value the parser makes of a literal for a column of type [t]. *)
Definition lit_value_of (t : dtype) (l : slit) : value :=
  match l with
  | LText s => VStr s
  | LInt z => match t with DInt => VInt z | _ => VFlt (Qc_of_Z z) end
  | LDec n a b => match lit_num l with Some q => VFlt q | None => VInt 0 end
  end.
Lemma eval_lit_no s : str_no "'" s -> str_no """" s -> eval_lit s =
  match Z_of_str s with
  | Some z => Ok (VInt z)
  | None => match float_of_str s with Some q => Ok (VFlt q) | None => Err NameError end
  end.
Proof. intros A B. unfold eval_lit. rewrite (split_on_no _ _ A), (split_on_no _ _ B). reflexivity. Qed.
Lemma dec_no q n a b : digit q = None -> q <> "-"%char -> q <> "."%char -> all_digits a = true -> all_digits b = true ->
  str_no q (lit_text (LDec n a b)).
Proof.
  intros Q M D A B. cbn [lit_text]. apply str_no_app; [destruct n; cbn; auto|].
  apply str_no_app; [apply digits_no; auto|]. cbn [append str_no]. split; [auto|apply digits_no; auto].
Qed.
Lemma text_no_dquote s : plain_text s -> has_dquote s = false.
Proof.
  unfold plain_text. induction s as [|a s IH]; cbn; [auto|]. intros [(P & _ & Q) H]. rewrite IH by auto.
  destruct (Ascii.eqb a """") eqn:E; [apply Ascii.eqb_eq in E; contradiction|auto].
Qed.
Lemma check_lit ts c t l : assoc String.eqb c ts = Some t -> lit_fits t l ->
  (v <- eval_lit (lit_text l) ;; check_value (Some ts) c v) = Ok (lit_value_of t l).
Proof.
  intros A F. destruct l as [z|n a b|s].
  - cbn [lit_text]. rewrite eval_lit_no by (apply str_of_Z_no; [reflexivity|discriminate]).
    rewrite Z_of_str_of_Z. cbn [bind check_value]. rewrite A. destruct t; cbn in F |- *; [reflexivity| |contradiction].
    rewrite f64_exact by auto. reflexivity.
  - assert (F' : all_digits a = true /\ all_digits b = true /\ (a ++ b) <> "") by (destruct t; [exact F|exact F|contradiction]).
    destruct F' as (Da & Db & N).
    rewrite eval_lit_no by (apply dec_no; auto; discriminate).
    rewrite float_of_str_dec by auto. unfold lit_text. rewrite Z_of_dec.
    cbn [lit_num lit_value_of bind check_value]. rewrite A. destruct t; [reflexivity|reflexivity|contradiction].
  - destruct t; try contradiction. cbn [lit_text]. cbn in F. rewrite eval_lit_text by auto. cbn [bind check_value].
    rewrite A, text_no_dquote by auto. reflexivity.
Qed.
Lemma lit_text_plain t l : lit_fits t l -> plain (lit_text l).
Proof.
  intro F. destruct l as [z|n a b|s].
  - apply str_of_Z_plain.
  - apply (lit_plain "x" DInt). apply lo_dec.
    + cbn. intros [H|[H|[H|[]]]]; discriminate.
    + discriminate.
    + destruct t; try contradiction; apply F.
    + destruct t; try contradiction; apply F.
    + destruct t; try contradiction; apply F.
  - apply (lit_plain "x" DObj). apply lo_text; [cbn; intros [H|[H|[H|[]]]]; discriminate|reflexivity|].
    destruct t; try contradiction; apply F.
Qed.

(** ** Whole queries *)
Definition wcond_of (ts : list (string * dtype)) (c : scond) : wcond :=
  WCmp (sc_col c) (sc_op c)
       (lit_value_of (match assoc String.eqb (sc_col c) ts with Some t => t | None => DObj end) (sc_lit c)).

Lemma cond_split c t : plain (sc_col c) -> lit_fits t (sc_lit c) ->
  split_on " " (strip (cond_text c)) = [sc_col c; op_text (sc_op c); lit_text (sc_lit c)].
Proof.
  intros Hc Hl. apply lit_text_plain in Hl. unfold cond_text. rewrite strip_cond by auto.
  change (sc_col c ++ " " ++ op_text (sc_op c) ++ " " ++ lit_text (sc_lit c))
    with (sc_col c ++ String " " (op_text (sc_op c) ++ String " " (lit_text (sc_lit c)))).
  rewrite split_on_app by (apply plain_no_space, Hc).
  rewrite split_on_app by (apply op_text_no_space).
  rewrite split_on_no by (apply plain_no_space, Hl). reflexivity.
Qed.
Lemma parse_cond_ok x d c ts : i_cols x = d_cols d -> i_types x = d_types d -> d_types d = Some ts -> cond_fits d c ->
  parse_cond x (cond_text c) = Ok (wcond_of ts c) /\ parse_cond x (String " " (cond_text c)) = Ok (wcond_of ts c).
Proof.
  intros C T Ts (I & P & ts' & t & T' & A & F). rewrite Ts in T'. injection T' as <-.
  assert (X : parse_cond x (cond_text c) = Ok (wcond_of ts c)).
  { unfold parse_cond. rewrite (cond_split c t) by auto. rewrite C.
    replace (in_cols (sc_col c) (d_cols d)) with true by (symmetry; apply in_cols_In; auto).
    cbn [negb]. rewrite cmp_of_str_text. rewrite T, Ts. unfold wcond_of. rewrite A.
    pose proof (check_lit ts (sc_col c) t (sc_lit c) A F) as K.
    destruct (eval_lit (lit_text (sc_lit c))) as [v|e]; cbn [bind] in K |- *; [|discriminate].
    rewrite K. reflexivity. }
  split; [exact X|]. rewrite <- X. unfold parse_cond. rewrite strip_space. reflexivity.
Qed.
Lemma cond_comma d c : cond_fits d c -> str_no "," (cond_text c).
Proof.
  intros (_ & P & ts & t & _ & _ & L). unfold cond_text. apply lit_text_plain in L.
  apply str_no_app; [apply plain_no_comma, P|]. simpl. split; [discriminate|].
  apply str_no_app; [apply plain_no_comma, op_text_plain|]. simpl. split; [discriminate|].
  apply plain_no_comma, L.
Qed.
Lemma split_conds d c cs : Forall (cond_fits d) (c :: cs) ->
  split_on "," (query_text (c :: cs)) = cond_text c :: map (fun d => String " " (cond_text d)) cs.
Proof.
  revert c; induction cs as [|e cs IH]; intros c F; inversion F; subst.
  - cbn [query_text map]. apply split_on_no. eapply cond_comma; eauto.
  - change (query_text (c :: e :: cs)) with (cond_text c ++ String "," (String " " (query_text (e :: cs)))).
    rewrite split_on_app by (eapply cond_comma; eauto).
    cbn [map]. f_equal. specialize (IH e H2).
    cbn [split_on]. rewrite IH. reflexivity.
Qed.
Lemma parse_query_ok x d cs ts : i_cols x = d_cols d -> i_types x = d_types d -> d_types d = Some ts ->
  cs <> [] -> Forall (cond_fits d) cs -> parse_query x (query_text cs) = Ok (map (wcond_of ts) cs).
Proof.
  intros C T Ts N F. destruct cs as [|c cs]; [contradiction|]. unfold parse_query. rewrite (split_conds d) by auto.
  inversion F as [|? ? Fc Fs]; subst. cbn [mapM map]. rewrite (proj1 (parse_cond_ok x d c ts C T Ts Fc)). cbn [bind].
  rewrite mapM_map. erewrite mapM_Ok; [cbn [bind]; reflexivity|].
  intros e He. rewrite Forall_forall in Fs. apply (parse_cond_ok x d e ts C T Ts (Fs e He)).
Qed.
Lemma lit_key_of t l : lit_fits t l -> key_of (lit_value_of t l) = lit_key l.
Proof. intro F. destruct l as [z|n a b|s]; [destruct t; reflexivity|reflexivity|reflexivity]. Qed.
Lemma cond_true_holds d ts c row : d_types d = Some ts -> cond_fits d c -> cond_true row (wcond_of ts c) = holds row c.
Proof.
  intros Ts (I & P & ts' & t & T' & A & F). rewrite Ts in T'. injection T' as <-.
  unfold wcond_of, holds. rewrite A. cbn [cond_true]. destruct (tcell row (sc_col c)) as [v|]; [|reflexivity].
  cbn [sql_cmp]. rewrite sql_op_key, (lit_key_of t) by auto. reflexivity.
Qed.
