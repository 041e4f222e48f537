(** Properties C91 to C93: data sets made from DataFrames, and the choice of the
    implementation. *)
From Coq Require Import String Ascii.
From Coq Require Import List ZArith QArith Qcanon Bool Lia.
From Verif Require Import Py PyFacts MemModel MemSpec FrameModel FrameFacts.
From Verif Require KnnFacts.
Import ListNotations.
Open Scope string_scope.
Open Scope Z_scope.

(** two records, the second without a review *)
Definition g_row (k : Z) (u i : string) (x : Z) (o : option value) : drow :=
  mkDrow k [("who", Some (VStr u)); ("item", Some (VStr i)); ("stars", Some (VInt x)); ("review", o)].
Definition g_df : dframe := mkDframe [("who", DObj); ("item", DObj); ("stars", DInt); ("review", DObj)]
  [g_row 10 "ann" "tea" 5 (Some (VStr "good")); g_row 20 "bob" "ink" 2 None].
Definition lab (s : string) : label := mkLabel s true.
Lemma g_wf : wf_dframe g_df.
Proof.
  constructor; cbn; [repeat constructor; cbn; intuition discriminate|].
  intros r H. intuition; subst; reflexivity.
Qed.
(** a frame with the default names *)
Definition h_row (k u i x : Z) : drow := mkDrow k [("user", Some (VInt u)); ("item", Some (VInt i)); ("interaction", Some (VInt x))].
Definition h_df : dframe := mkDframe [("user", DInt); ("item", DInt); ("interaction", DInt)] [h_row 0 1 2 3; h_row 1 4 5 6].
Lemma h_wf : wf_dframe h_df.
Proof.
  constructor; cbn; [repeat constructor; cbn; intuition discriminate|].
  intros r H. intuition; subst; reflexivity.
Qed.

(** *** C91: read_df keeps the data.  For three different labels, each left at its
    default or naming a column other than "user", "item" and "interaction", and a
    frame without a column "rid": one record per row, in order, with the index as
    record id; "user", "item" and "interaction" are the labelled columns, the other
    columns stay, the labelled ones are renamed.  Missing texts become empty. *)
Theorem C91_read_df_partial : forall d lu li lx,
  wf_dframe d -> ~ In "rid" (names d) ->
  label_ok d lu "user" -> label_ok d li "item" -> label_ok d lx "interaction" ->
  NoDup [l_text lu; l_text li; l_text lx] ->
  exists cols d', read_df d lu li lx = Ok (cols, d') /\ NoDup cols /\
    (forall c, In c cols <-> c = "rid" \/ In c main \/ In c (names d) /\ ~ In c [l_text lu; l_text li; l_text lx]) /\
    (forall c, In c (names d') <-> In c cols /\ c <> "rid") /\
    (forall c, In c (names d') -> assoc String.eqb c (df_types d') = assoc String.eqb (source lu li lx c) (df_types d)) /\
    Forall2 (fun r r' => dr_index r' = dr_index r /\
      forall c t, In c (names d') -> assoc String.eqb c (df_types d') = Some t ->
        dcell r' c = filled t (dcell r (source lu li lx c))) (df_rows d) (df_rows d').
Proof.
  intros d lu li lx W NR Lu Li Lx N.
  assert (N1 : l_text lu <> l_text li) by (inversion N as [|? ? A _]; cbn in A; intuition).
  assert (N2 : l_text lu <> l_text lx) by (inversion N as [|? ? A _]; cbn in A; intuition).
  assert (N3 : l_text li <> l_text lx) by (inversion N as [|? ? _ B]; inversion B as [|? ? A _]; cbn in A; intuition).
  destruct (read_df_ok d lu li lx W NR Lu Li Lx N1 N2 N3) as (cols & d' & E & M & W' & C & K & T & R).
  exists cols, d'. repeat (split; [assumption|]). split.
  - intros c I. apply K in I. destruct I as [I J]. apply (T c I J).
  - eapply MemFacts4.Forall2_impl; [|exact R]. intros r r' [A B]. split; auto. intros c t I Ht. apply K in I. destruct I as [I J].
    apply B; auto. rewrite <- Ht. symmetry. apply (T c I J).
Qed.
Print Assumptions C91_read_df_partial.
Example C91_example : wf_dframe g_df /\ label_ok g_df (lab "who") "user" /\ label_ok g_df (lab "item") "item" /\
  label_ok g_df (lab "stars") "interaction" /\
  read_df g_df (lab "who") (lab "item") (lab "stars") =
  Ok (["item"; "review"; "user"; "interaction"; "rid"],
    mkDframe [("item", DObj); ("review", DObj); ("user", DObj); ("interaction", DInt)]
      [mkDrow 10 [("item", Some (VStr "tea")); ("review", Some (VStr "good")); ("user", Some (VStr "ann")); ("interaction", Some (VInt 5))];
       mkDrow 20 [("item", Some (VStr "ink")); ("review", Some (VStr "")); ("user", Some (VStr "bob")); ("interaction", Some (VInt 2))]]).
Proof.
  split; [exact g_wf|]. split; [split; [cbn; tauto|right; cbn; intuition discriminate]|].
  split; [split; [cbn; tauto|left; auto]|]. split; [split; [cbn; tauto|right; cbn; intuition discriminate]|].
  vm_compute. reflexivity.
Qed.

(** A label that names no column of the frame and is not "user", "item" or
    "interaction" raises. *)
Theorem C91_missing_label_partial : forall d lu li lx l,
  wf_dframe d -> In l [lu; li; lx] -> ~ In (l_text l) (names d) -> ~ In (l_text l) main ->
  read_df d lu li lx = Err GenericException.
Proof.
  intros d lu li lx l W I N M. unfold read_df, construct.
  destruct (in_dec string_dec (l_text lu) (names d)) as [Iu|Iu]; [|rewrite set_column_missing by auto; reflexivity].
  destruct (set_column_ok "user" (l_text lu) d W Iu) as (d1 & -> & W1 & K1 & _). cbn [bind].
  destruct (in_dec string_dec (l_text li) (names d1)) as [Ii|Ii]; [|rewrite set_column_missing by auto; reflexivity].
  destruct (set_column_ok "item" (l_text li) d1 W1 Ii) as (d2 & -> & W2 & K2 & _). cbn [bind].
  rewrite set_column_missing; [reflexivity|]. intros Ix. apply K1 in Ii. apply K2 in Ix. rewrite K1 in Ix.
  cbn in M. destruct I as [<-|[<-|[<-|[]]]]; intuition congruence.
Qed.
Print Assumptions C91_missing_label_partial.

(** Swapped columns: with user_label='item' and item_label='user' the data set has
    neither a user nor an item column. *)
Theorem C91_swapped_refuted : forall d lx, wf_dframe d -> ~ In "rid" (names d) ->
  In "user" (names d) -> In "item" (names d) -> lx = lab "interaction" -> In "interaction" (names d) ->
  exists cols d', read_df d (lab "item") (lab "user") lx = Ok (cols, d') /\
    (forall c, In c cols <-> c = "rid" \/ In c (names d) /\ c <> "user" /\ c <> "item").
Proof.
  intros d lx W NR Iu Ii -> Ix. unfold read_df, construct.
  destruct (set_column_ok "user" "item" d W Ii) as (d1 & E1 & W1 & K1 & _ & _). cbn [l_text lab]. rewrite E1. cbn [bind].
  destruct (set_column_ok "item" "user" d1 W1 ltac:(apply K1; auto)) as (d2 & E2 & W2 & K2 & _ & _). rewrite E2. cbn [bind].
  destruct (set_column_ok "interaction" "interaction" d2 W2 ltac:(apply K2; rewrite K1; auto)) as (d3 & E3 & W3 & K3 & _ & _). rewrite E3. cbn [bind].
  assert (K : forall c, In c (names d3) <-> In c (names d)).
  { intros c. rewrite K3, K2, K1. intuition; subst; auto. }
  assert (N0 : NoDup (names d3 ++ ["rid"])).
  { apply (NoDup_Add (a := "rid") (l := names d3)); [rewrite <- (app_nil_r (names d3)) at 1; apply Add_app|split; [exact (wd_names d3 W3)|rewrite K; auto]]. }
  unfold columns_of. fold (names d3).
  destruct (remove_ok (lab "item") "user" (names d3 ++ ["rid"]) N0 ltac:(intros _; apply in_or_app; left; apply K; auto)) as (c1 & F1 & M1 & G1).
  destruct (remove_ok (lab "user") "item" c1 M1 ltac:(intros _; apply G1; split; [apply in_or_app; left; apply K; auto|right; cbn; discriminate])) as (c2 & F2 & M2 & G2).
  rewrite F1. cbn [bind]. rewrite F2. cbn [bind]. unfold without_label. cbn [is_not l_text l_same lab String.eqb].
  change (is_not (mkLabel "interaction" true) "interaction") with false. cbn iota. cbn [bind].
  do 2 eexists. split; [reflexivity|]. intros c. rewrite G2, G1, in_app_iff, K. cbn [l_text lab is_not l_same].
  change (is_not (mkLabel "item" true) "user") with true. change (is_not (mkLabel "user" true) "item") with true. cbn. split.
  - intros [[[A|[A|[]]] [B|B]] [D|D]]; try discriminate; subst; auto.
  - intros [->|[A [B D]]]; repeat split; auto; right; discriminate.
Qed.
Print Assumptions C91_swapped_refuted.
Example C91_swapped_example : wf_dframe h_df /\ match read_df h_df (lab "item") (lab "user") (lab "interaction") with
  Ok (cols, d) => cols = ["interaction"; "rid"] /\ names d = ["interaction"] | Err _ => False end.
Proof. split; [exact h_wf|vm_compute; auto]. Qed.

(** One column for two roles: list.remove raises ValueError. *)
Theorem C91_one_column_refuted : exists d lu li lx, wf_dframe d /\ ~ In "rid" (names d) /\
  In (l_text lu) (names d) /\ In (l_text li) (names d) /\ In (l_text lx) (names d) /\
  read_df d lu li lx = Err ValueError.
Proof.
  exists g_df, (lab "who"), (lab "who"), (lab "stars"). split; [exact g_wf|]. split; [cbn; intuition discriminate|].
  repeat split; try (cbn; tauto).
Qed.
Print Assumptions C91_one_column_refuted.
(** A label "user" that is not the same object as the literal in mem_dataset.py:
    the data set has no user column. *)
Theorem C91_equal_text_refuted : exists d cols d', wf_dframe d /\ ~ In "rid" (names d) /\ incl main (names d) /\
  read_df d (mkLabel "user" false) (lab "item") (lab "interaction") = Ok (cols, d') /\ ~ In "user" cols /\ ~ In "user" (names d').
Proof.
  exists h_df. do 2 eexists. split; [exact h_wf|]. split; [cbn; intuition discriminate|]. split; [intros c H; exact H|].
  split; [vm_compute; reflexivity|]. cbn. intuition discriminate.
Qed.
Print Assumptions C91_equal_text_refuted.
(** item_label='user' for a frame without a column "user" does not raise: the item
    is the user, and the data set has no user column. *)
Theorem C91_no_such_column_refuted : exists d cols d', wf_dframe d /\ ~ In "rid" (names d) /\ ~ In "user" (names d) /\
  read_df d (lab "who") (lab "user") (lab "stars") = Ok (cols, d') /\ ~ In "user" cols /\
  map (fun r => dcell r "item") (df_rows d') = map (fun r => dcell r "who") (df_rows d).
Proof.
  exists g_df. do 2 eexists. split; [exact g_wf|]. split; [cbn; intuition discriminate|]. split; [cbn; intuition discriminate|].
  split; [vm_compute; reflexivity|]. split; [cbn; intuition discriminate|reflexivity].
Qed.
Print Assumptions C91_no_such_column_refuted.

(** *** C92: the data set is ready for use: with values of the types of their
    columns and no missing number it is well-formed, as C01 to C79 assume, and has the
    cells of the frame, the index as record ids. *)
Theorem C92_ready_partial : forall d lu li lx,
  wf_dframe d -> ~ In "rid" (names d) ->
  label_ok d lu "user" -> label_ok d li "item" -> label_ok d lx "interaction" ->
  NoDup [l_text lu; l_text li; l_text lx] -> typed d -> numbers_present d ->
  exists x m, read_df d lu li lx = Ok x /\ data_set x = Some m /\ wf_mem m /\
    (forall c, In c main -> exists t, col_type m c = Ok t) /\
    Forall2 (fun r w => r_rid w = dr_index r /\
      forall c, In c main \/ In c (names d) /\ ~ In c [l_text lu; l_text li; l_text lx] ->
        cell w c = Some (match dcell r (source lu li lx c) with Some v => v | None => VStr "" end))
      (df_rows d) (rows_of m).
Proof.
  intros d lu li lx W NR Lu Li Lx N Ty P.
  assert (N1 : l_text lu <> l_text li) by (inversion N as [|? ? A _]; cbn in A; intuition).
  assert (N2 : l_text lu <> l_text lx) by (inversion N as [|? ? A _]; cbn in A; intuition).
  assert (N3 : l_text li <> l_text lx) by (inversion N as [|? ? _ B]; inversion B as [|? ? A _]; cbn in A; intuition).
  destruct (read_df_ok d lu li lx W NR Lu Li Lx N1 N2 N3) as (cols & d' & E & M & W' & C & K & T & R).
  destruct (data_set_some d lu li lx cols d' W NR Lu Li Lx N1 N2 N3 P E) as [m Q].
  destruct (data_set_wf d lu li lx cols d' m W NR Lu Li Lx N1 N2 N3 Ty E Q) as (Wm & Ec & _ & _ & R2).
  exists (cols, d'), m. repeat (split; [assumption|]). split.
  - intros c I. assert (J : In c (map fst (f_types (m_df m)))).
    { assert (J : In c (m_columns m)) by (rewrite Ec; apply C; auto). apply (wf_cols m Wm) in J. destruct J as [->|J]; auto.
      cbn in I. intuition discriminate. }
    destruct (assoc_some _ _ J) as [t Ht]. unfold col_type. rewrite Ht. destruct (String.eqb c "rid"); eauto.
  - assert (NC : forall c, In c main \/ In c (names d) /\ ~ In c [l_text lu; l_text li; l_text lx] -> In c cols /\ c <> "rid").
    { intros c I. split; [apply C; auto|]. intros ->. destruct I as [I|[I _]]; [cbn in I; intuition discriminate|contradiction]. }
    assert (R3 : Forall2 (fun r r' => In r (df_rows d) /\ loaded_row d lu li lx cols r r') (df_rows d) (df_rows d')).
    { eapply KnnFacts.Forall2_impl_in; [|exact R]. intros r r' I H. auto. }
    eapply Forall2_trans; [|exact R3|exact R2]. intros r r' w [Hr [A B]] [D F]. split; [congruence|].
    intros c I. destruct (NC c I) as [I1 I2]. rewrite F by auto. destruct (T c I1 I2) as [T1 _].
    destruct (assoc_some _ _ T1) as [t Ht]. rewrite (B c t I1 I2 Ht). unfold filled.
    assert (X := P r (source lu li lx c) t Hr Ht). destruct (dcell r (source lu li lx c)) as [v|]; [destruct t; reflexivity|].
    destruct t; [exfalso; apply X; [discriminate|reflexivity]..|reflexivity].
Qed.
Print Assumptions C92_ready_partial.
Example C92_example : wf_dframe g_df /\ typed g_df /\ numbers_present g_df /\
  exists x m, read_df g_df (lab "who") (lab "item") (lab "stars") = Ok x /\ data_set x = Some m /\
  map (fun w => (r_rid w, cell w "user", cell w "review")) (rows_of m) =
    [(10, Some (VStr "ann"), Some (VStr "good")); (20, Some (VStr "bob"), Some (VStr ""))].
Proof.
  split; [exact g_wf|]. split; [|split].
  - intros r c t v Hr. cbn in Hr. destruct Hr as [<-|[<-|[]]]; unfold dcell; cbn [g_row dr_cells assoc fst snd df_types g_df];
    repeat (destruct (String.eqb c _); [intros X Y; injection X as <-; first [injection Y as <-; reflexivity|discriminate]|]); discriminate.
  - intros r c t Hr. cbn in Hr. destruct Hr as [<-|[<-|[]]]; unfold dcell; cbn [g_row dr_cells assoc fst snd df_types g_df];
    repeat (destruct (String.eqb c _); [intros X Y; injection X as <-; first [discriminate|contradiction]|]); discriminate.
  - do 2 eexists. split; [vm_compute; reflexivity|]. split; vm_compute; reflexivity.
Qed.
(** Rows with the same index become records with the same record id. *)
Theorem C92_repeated_index_refuted : exists d m, wf_dframe d /\ typed d /\ numbers_present d /\ (exists x, read_df d (lab "user") (lab "item") (lab "interaction") = Ok x /\ data_set x = Some m) /\
  ~ NoDup (map r_rid (rows_of m)).
Proof.
  exists (mkDframe [("user", DInt); ("item", DInt); ("interaction", DInt)] [h_row 0 1 2 3; h_row 0 4 5 6]).
  eexists. split; [constructor; cbn; [repeat constructor; cbn; intuition discriminate|intros r H; intuition; subst; reflexivity]|]. split; [|split; [|split]].
  - intros r c t v Hr. cbn in Hr. destruct Hr as [<-|[<-|[]]]; unfold dcell; cbn [h_row dr_cells assoc fst snd df_types];
    repeat (destruct (String.eqb c _); [intros X Y; injection X as <-; injection Y as <-; reflexivity|]); discriminate.
  - intros r c t Hr. cbn in Hr. destruct Hr as [<-|[<-|[]]]; unfold dcell; cbn [h_row dr_cells assoc fst snd df_types];
    repeat (destruct (String.eqb c _); [intros X Y; discriminate|]); discriminate.
  - eexists. split; vm_compute; reflexivity.
  - vm_compute. intros N. inversion N as [|? ? A _]. apply A. left. reflexivity.
Qed.
Print Assumptions C92_repeated_index_refuted.
(** A column "rid" is listed twice, and is not the record id. *)
Theorem C92_rid_column_refuted : exists d cols d', wf_dframe d /\ incl main (names d) /\
  read_df d (lab "user") (lab "item") (lab "interaction") = Ok (cols, d') /\ ~ NoDup cols /\
  exists r v, In r (df_rows d') /\ dcell r "rid" = Some (VInt v) /\ v <> dr_index r.
Proof.
  exists (mkDframe [("rid", DInt); ("user", DInt); ("item", DInt); ("interaction", DInt)]
    [mkDrow 0 [("rid", Some (VInt 7)); ("user", Some (VInt 1)); ("item", Some (VInt 2)); ("interaction", Some (VInt 3))]]).
  do 2 eexists. split; [constructor; cbn; [repeat constructor; cbn; intuition discriminate|intros r H; intuition; subst; reflexivity]|].
  split; [intros c H; cbn in *; tauto|]. split; [vm_compute; reflexivity|]. split.
  - intros N. inversion N as [|? ? A _]. apply A. cbn. tauto.
  - do 2 eexists. split; [left; reflexivity|]. split; [reflexivity|discriminate].
Qed.
Print Assumptions C92_rid_column_refuted.

(** *** C93: the implementation chosen.  A path ending in ".sqlite" always opens a
    database; another path needs column names; columns called "uid" or "iid" are
    refused; the rest loads in memory if asked to and if there is enough, otherwise
    in a database, with the columns as named and "rid". *)
Theorem C93_factory : forall path columns in_memory memory_error,
  match factory path columns in_memory memory_error with
  | Err e => e = GenericException /\
      (columns = None /\ ~ (exists q, path = q ++ ".sqlite") \/ exists cs, columns = Some cs /\ (In "uid" cs \/ In "iid" cs))
  | Ok (k, cols) =>
      (k = InMemory <-> in_memory = true /\ memory_error = false /\ ~ exists q, path = q ++ ".sqlite") /\
      (columns = None -> cols = None /\ exists q, path = q ++ ".sqlite") /\
      (forall cs, columns = Some cs -> cols = Some (cs ++ ["rid"])%list /\ ~ In "uid" cs /\ ~ In "iid" cs)
  end.
Proof.
  intros path columns im me. unfold factory. assert (S := suffix_of_ok ".sqlite" path).
  destruct columns as [cs|].
  - destruct (mem_b String.eqb "uid" cs) eqn:U.
    { split; auto. right. exists cs. split; auto. left. apply (mem_b_In String.eqb reflects_string). exact U. }
    destruct (mem_b String.eqb "iid" cs) eqn:V.
    { split; auto. right. exists cs. split; auto. right. apply (mem_b_In String.eqb reflects_string). exact V. }
    assert (A : ~ In "uid" cs) by (intros I; apply (mem_b_In String.eqb reflects_string) in I; congruence).
    assert (B : ~ In "iid" cs) by (intros I; apply (mem_b_In String.eqb reflects_string) in I; congruence).
    destruct (suffix_of ".sqlite" path), im, me; cbn [andb negb];
    (split; [|split; [discriminate|intros c X; injection X as <-; auto]]); split; try discriminate;
    try (intros [X [Y Z]]; first [discriminate | exfalso; apply Z; apply S; reflexivity]);
    intros _; repeat split; auto; rewrite <- S; discriminate.
  - destruct (suffix_of ".sqlite" path) eqn:E.
    + split; [split; [discriminate|intros (_ & _ & Z); exfalso; apply Z; apply S; auto]|]. split; [intros _; split; auto; apply S; auto|discriminate].
    + split; auto. left. split; auto. rewrite <- S. discriminate.
Qed.
Print Assumptions C93_factory.
Example C93_example : factory "a.sqlite" None true false = Ok (InDatabase, None) /\
  factory "a.csv" (Some ["user"; "item"; "interaction"]) true false = Ok (InMemory, Some ["user"; "item"; "interaction"; "rid"]) /\
  factory "a.csv" (Some ["user"; "item"; "interaction"]) true true = Ok (InDatabase, Some ["user"; "item"; "interaction"; "rid"]) /\
  factory "a.csv" (Some ["user"; "uid"]) false false = Err GenericException.
Proof. repeat split. Qed.
