(** Lemmas about data sets made from DataFrames. *)
From Coq Require Import String Ascii.
From Coq Require Import List ZArith QArith Qcanon Bool Lia.
From Verif Require Import Py PyFacts MemModel MemSpec MemFacts4 FrameModel.
From Verif Require CsvFacts3.
Import ListNotations.
Open Scope string_scope.
Open Scope Z_scope.

(** ** Specification *)
Definition names (d : dframe) : list string := map fst (df_types d).
(** Different column names; every row has a cell for every column. *)
Record wf_dframe (d : dframe) : Prop := {
  wd_names : NoDup (names d);
  wd_keys : forall r, In r (df_rows d) -> map fst (dr_cells r) = names d }.
Definition main : list string := ["user"; "item"; "interaction"].
(** The label of a main column names another column of the frame, or is left at
    its default. *)
Definition label_ok (d : dframe) (l : label) (target : string) : Prop :=
  In (l_text l) (names d) /\ (l_text l = target /\ l_same l = true \/ ~ In (l_text l) main).
(** The column of the frame that becomes column [c]. *)
Definition source (lu li lx : label) (c : string) : string :=
  if String.eqb c "user" then l_text lu else if String.eqb c "item" then l_text li
  else if String.eqb c "interaction" then l_text lx else c.
(** Missing texts become empty. *)
Definition filled (t : dtype) (o : option value) : option value :=
  match t, o with DObj, None => Some (VStr "") | _, _ => o end.

(** ** put *)
Lemma put_keys {A} k (x : A) l : map fst (put k x l) = map fst l /\ In k (map fst l) \/
  map fst (put k x l) = (map fst l ++ [k])%list /\ ~ In k (map fst l).
Proof.
  induction l as [|[c y] l IH]; [right; split; auto|]. cbn [put fst map]. destruct (String.eqb_spec c k) as [->|E].
  - left. cbn. auto.
  - cbn [map fst app]. destruct IH as [[-> I]|[-> I]]; [left|right]; split; auto; cbn; tauto.
Qed.
Lemma put_assoc {A} k (x : A) l c : assoc String.eqb c (put k x l) = if String.eqb c k then Some x else assoc String.eqb c l.
Proof.
  induction l as [|[d y] l IH].
  - cbn. destruct (String.eqb c k); auto.
  - cbn [put fst]. destruct (String.eqb_spec d k) as [->|E]; cbn [assoc].
    + destruct (String.eqb c k); auto.
    + rewrite IH. destruct (String.eqb_spec c d) as [->|F]; auto. destruct (String.eqb_spec d k); [contradiction|auto].
Qed.
Lemma put_keys_ext {A B} k (x : A) (y : B) l l' : map fst l = map fst l' -> map fst (put k x l) = map fst (put k y l').
Proof.
  intros E. destruct (put_keys k x l) as [[-> I]|[-> I]], (put_keys k y l') as [[-> I']|[-> I']]; rewrite E in *; auto; contradiction.
Qed.
Lemma assoc_some {A} c (l : list (string * A)) : In c (map fst l) -> exists x, assoc String.eqb c l = Some x.
Proof.
  induction l as [|[d y] l IH]; [contradiction|]. cbn. intros [->|I]; [rewrite String.eqb_refl; eauto|].
  destruct (String.eqb c d); eauto.
Qed.
Lemma assoc_key {A} c (l : list (string * A)) x : assoc String.eqb c l = Some x -> In c (map fst l).
Proof.
  induction l as [|[d y] l IH]; [discriminate|]. cbn. destruct (String.eqb_spec c d) as [->|]; auto.
Qed.

(** ** set_column *)
Definition copied (c src : string) (r r' : drow) : Prop :=
  dr_index r' = dr_index r /\ forall k, dcell r' k = if String.eqb k c then dcell r src else dcell r k.
Lemma set_column_ok c src d : wf_dframe d -> In src (names d) -> exists d', set_column c src d = Ok d' /\ wf_dframe d' /\
  (forall k, In k (names d') <-> k = c \/ In k (names d)) /\
  (forall k, assoc String.eqb k (df_types d') = if String.eqb k c then assoc String.eqb src (df_types d) else assoc String.eqb k (df_types d)) /\
  Forall2 (copied c src) (df_rows d) (df_rows d').
Proof.
  intros [W1 W2] I. destruct (assoc_some src (df_types d) I) as [t T]. unfold set_column. rewrite T.
  eexists. split; [reflexivity|]. unfold names. cbn [df_types df_rows]. split; [constructor|split; [|split]].
  - unfold names. cbn [df_types]. destruct (put_keys c t (df_types d)) as [[-> _]|[-> N]]; [exact W1|].
    apply (NoDup_Add (a := c) (l := map fst (df_types d))); [|split; auto].
    rewrite <- (app_nil_r (map fst (df_types d))) at 1. apply Add_app.
  - unfold names. cbn [df_types df_rows]. intros r Hr. apply in_map_iff in Hr. destruct Hr as [r0 [<- H0]]. cbn [dr_cells].
    apply put_keys_ext. apply W2. auto.
  - intros k. destruct (put_keys c t (df_types d)) as [[-> J]|[-> J]].
    + split; auto. intros [->|]; auto.
    + rewrite in_app_iff. cbn. intuition.
  - intros k. rewrite put_assoc. destruct (String.eqb k c); auto.
  - induction (df_rows d) as [|r rs IH]; constructor.
    + split; auto. intros k. unfold dcell at 1. cbn [dr_cells]. rewrite put_assoc. destruct (String.eqb k c); reflexivity.
    + apply IH. intros r' Hr'. apply W2. right. auto.
Qed.
Lemma set_column_missing c src d : ~ In src (names d) -> set_column c src d = Err GenericException.
Proof.
  intros N. unfold set_column. destruct (assoc String.eqb src (df_types d)) eqn:E; auto. apply assoc_key in E. contradiction.
Qed.

(** ** columns *)
Lemma remove_ok l literal cols : NoDup cols -> (is_not l literal = true -> In (l_text l) cols) ->
  exists cs, without_label l literal cols = Ok cs /\ NoDup cs /\
    forall c, In c cs <-> In c cols /\ (is_not l literal = false \/ c <> l_text l).
Proof.
  intros N I. unfold without_label. destruct (is_not l literal) eqn:E.
  - unfold list_remove. assert (M : mem_b String.eqb (l_text l) cols = true) by (apply (mem_b_In String.eqb reflects_string); auto).
    rewrite M. eexists. split; [reflexivity|]. rewrite CsvFacts3.remove_first_filter by auto. split; [apply NoDup_filter; auto|].
    intros c. rewrite filter_In. destruct (String.eqb_spec (l_text l) c) as [Q|Q]; cbn; intuition; subst; try discriminate; auto; congruence.
  - eexists. split; [reflexivity|]. split; auto. intros c. tauto.
Qed.

Lemma keep_assoc {A} cols (l : list (string * A)) c :
  assoc String.eqb c (filter (fun p => mem_b String.eqb (fst p) cols) l) = if mem_b String.eqb c cols then assoc String.eqb c l else None.
Proof.
  induction l as [|[d y] l IH]; [cbn; destruct (mem_b String.eqb c cols); auto|]. cbn [filter fst].
  destruct (mem_b String.eqb d cols) eqn:E; cbn [assoc]; rewrite IH; destruct (String.eqb_spec c d) as [->|F]; auto; rewrite E; auto.
Qed.
Lemma map_filter_keys {A} cols (l : list (string * A)) :
  map fst (filter (fun p => mem_b String.eqb (fst p) cols) l) = filter (fun c => mem_b String.eqb c cols) (map fst l).
Proof. induction l as [|[d y] l IH]; auto. cbn [filter fst map]. destruct (mem_b String.eqb d cols); cbn [map fst]; rewrite IH; auto. Qed.
Lemma fill_keys types l : map fst (map (fill types) l) = map fst l.
Proof.
  rewrite map_map. apply map_ext. intros [c o]. unfold fill. cbn [fst snd]. destruct (assoc String.eqb c types) as [[]|]; auto. destruct o; auto.
Qed.
Lemma fill_assoc types l c o t : assoc String.eqb c types = Some t -> assoc String.eqb c l = Some o ->
  assoc String.eqb c (map (fill types) l) = Some (filled t o).
Proof.
  intros T. induction l as [|[d y] l IH]; [discriminate|]. cbn [assoc map]. unfold fill at 1. cbn [fst snd].
  destruct (String.eqb_spec c d) as [<-|E].
  - intros X. injection X as ->. rewrite T. destruct t, o; cbn [assoc]; rewrite String.eqb_refl; reflexivity.
  - intros X. specialize (IH X). destruct (assoc String.eqb d types) as [[]|]; try destruct y; cbn [assoc];
      destruct (String.eqb_spec c d); try contradiction; auto.
Qed.

Lemma finish_ok cols d : wf_dframe d -> let d' := fill_missing (keep_columns cols d) in
  wf_dframe d' /\ (forall c, In c (names d') <-> In c (names d) /\ In c cols) /\
  (forall c, In c cols -> assoc String.eqb c (df_types d') = assoc String.eqb c (df_types d)) /\
  Forall2 (fun r r' => dr_index r' = dr_index r /\ forall c t, In c cols -> assoc String.eqb c (df_types d) = Some t ->
    dcell r' c = filled t (dcell r c)) (df_rows d) (df_rows d').
Proof.
  intros [W1 W2] d'.
  assert (ND : names d' = filter (fun c => mem_b String.eqb c cols) (names d)).
  { unfold d', names, fill_missing, keep_columns. cbn [df_types]. apply map_filter_keys. }
  split; [constructor|split; [|split]].
  - rewrite ND. apply NoDup_filter. exact W1.
  - rewrite ND. unfold d', fill_missing, keep_columns. cbn [df_rows]. intros r Hr.
    apply in_map_iff in Hr. destruct Hr as [r1 [<- H1]]. apply in_map_iff in H1. destruct H1 as [r0 [<- H0]]. cbn [dr_cells].
    rewrite fill_keys, map_filter_keys. rewrite W2 by auto. reflexivity.
  - intros c. rewrite ND, filter_In, (mem_b_In String.eqb reflects_string). tauto.
  - intros c I. unfold d', fill_missing, keep_columns. cbn [df_types]. rewrite keep_assoc.
    apply (mem_b_In String.eqb reflects_string) in I. rewrite I. reflexivity.
  - unfold d', fill_missing, keep_columns. cbn [df_rows df_types]. rewrite map_map. cbn [dr_index dr_cells].
    assert (W3 : forall r, In r (df_rows d) -> map fst (dr_cells r) = names d) by exact W2. clear W2 ND d'.
    induction (df_rows d) as [|r rs IH]; constructor; [|apply IH; intros; apply W3; right; auto].
    split; auto. intros c t I T. assert (K : In c (map fst (dr_cells r))) by (rewrite W3 by (left; auto); eapply assoc_key; eauto).
    destruct (assoc_some c _ K) as [o O]. unfold dcell. cbn [dr_cells]. rewrite O.
    assert (M := I). apply (mem_b_In String.eqb reflects_string) in M.
    rewrite (fill_assoc _ _ c o t); auto; rewrite keep_assoc, M; auto.
Qed.

Lemma Forall2_trans {A B C} (P : A -> B -> Prop) (Q : B -> C -> Prop) (R : A -> C -> Prop) l1 l2 l3 :
  (forall a b c, P a b -> Q b c -> R a c) -> Forall2 P l1 l2 -> Forall2 Q l2 l3 -> Forall2 R l1 l3.
Proof.
  intros H F. revert l3. induction F as [|a b l1 l2 p F IH]; intros l3 G; inversion G; subst; constructor; eauto.
Qed.

Definition loaded_row (d : dframe) (lu li lx : label) (cols : list string) (r r' : drow) : Prop :=
  dr_index r' = dr_index r /\
  forall c t, In c cols -> c <> "rid" -> assoc String.eqb (source lu li lx c) (df_types d) = Some t ->
    dcell r' c = filled t (dcell r (source lu li lx c)).

Lemma is_not_main d l target : label_ok d l target -> (is_not l target = false /\ l_text l = target) \/ (is_not l target = true /\ ~ In (l_text l) main).
Proof.
  intros [_ [[E S]|N]]; unfold is_not.
  - left. rewrite E, S, String.eqb_refl. auto.
  - destruct (String.eqb (l_text l) target && l_same l) eqn:X; [left|right]; auto.
    apply andb_true_iff in X. destruct X as [X _]. apply String.eqb_eq in X. auto.
Qed.

Lemma read_df_ok d lu li lx : wf_dframe d -> ~ In "rid" (names d) ->
  label_ok d lu "user" -> label_ok d li "item" -> label_ok d lx "interaction" ->
  l_text lu <> l_text li -> l_text lu <> l_text lx -> l_text li <> l_text lx ->
  exists cols d', read_df d lu li lx = Ok (cols, d') /\ NoDup cols /\ wf_dframe d' /\
    (forall c, In c cols <-> c = "rid" \/ In c main \/ In c (names d) /\ ~ In c [l_text lu; l_text li; l_text lx]) /\
    (forall c, In c (names d') <-> In c cols /\ c <> "rid") /\
    (forall c, In c cols -> c <> "rid" ->
       In (source lu li lx c) (names d) /\
       assoc String.eqb c (df_types d') = assoc String.eqb (source lu li lx c) (df_types d)) /\
    Forall2 (loaded_row d lu li lx cols) (df_rows d) (df_rows d').
Proof.
  intros W NR Lu Li Lx N1 N2 N3.
  assert (Iu := proj1 Lu). assert (Ii := proj1 Li). assert (Ix := proj1 Lx).
  destruct (set_column_ok "user" (l_text lu) d W Iu) as (d1 & E1 & W1 & K1 & T1 & R1).
  destruct (set_column_ok "item" (l_text li) d1 W1 ltac:(apply K1; auto)) as (d2 & E2 & W2 & K2 & T2 & R2).
  destruct (set_column_ok "interaction" (l_text lx) d2 W2 ltac:(apply K2; right; apply K1; auto)) as (d3 & E3 & W3 & K3 & T3 & R3).
  assert (K : forall k, In k (names d3) <-> In k main \/ In k (names d)).
  { intros k. rewrite K3, K2, K1. cbn. intuition. }
  assert (NR3 : ~ In "rid" (names d3)) by (rewrite K; cbn; intuition discriminate).
  assert (KP : forall l target c, In target main -> label_ok d l target -> (is_not l target = false \/ c <> l_text l <-> In c main \/ c <> l_text l)).
  { intros l target c Im L. destruct (is_not_main d l target L) as [[A B]|[A B]]; rewrite A.
    - split; [|tauto]. intros _. destruct (string_dec c (l_text l)) as [->|]; [left; rewrite B; auto|auto].
    - split; [intros [|]; [discriminate|auto]|]. intros [I|I]; auto. right. intros ->. contradiction. }
  assert (SU : l_text li <> "user").
  { intros Q. destruct (is_not_main d li "item" Li) as [[_ B]|[_ B]]; [rewrite Q in B; discriminate|apply B; rewrite Q; cbn; auto]. }
  assert (SX : l_text lx <> "user" /\ l_text lx <> "item").
  { split; intros Q; (destruct (is_not_main d lx "interaction" Lx) as [[_ B]|[_ B]]; [rewrite Q in B; discriminate|apply B; rewrite Q; cbn; auto]). }
  destruct SX as [SX1 SX2].
  assert (N0 : NoDup (names d3 ++ ["rid"])).
  { apply (NoDup_Add (a := "rid") (l := names d3)); [rewrite <- (app_nil_r (names d3)) at 1; apply Add_app|split; [exact (wd_names d3 W3)|exact NR3]]. }
  destruct (remove_ok lu "user" (names d3 ++ ["rid"]) N0 ltac:(intros _; apply in_or_app; left; apply K; auto)) as (c1 & F1 & M1 & G1).
  destruct (remove_ok li "item" c1 M1 ltac:(intros _; apply G1; split; [apply in_or_app; left; apply K; auto|right; auto])) as (c2 & F2 & M2 & G2).
  destruct (remove_ok lx "interaction" c2 M2 ltac:(intros _; apply G2; split; [apply G1; split; [apply in_or_app; left; apply K; auto|right; auto]|right; auto])) as (c3 & F3 & M3 & G3).
  exists c3, (fill_missing (keep_columns c3 d3)). split.
  { unfold read_df, construct, columns_of. rewrite E1. cbn [bind]. rewrite E2. cbn [bind]. rewrite E3. cbn [bind].
    fold (names d3). rewrite F1. cbn [bind]. rewrite F2. cbn [bind]. rewrite F3. reflexivity. }
  split; [exact M3|]. destruct (finish_ok c3 d3 W3) as (P1 & P2 & P3 & P4). split; [exact P1|].
  assert (RL : forall l, In (l_text l) (names d) -> "rid" <> l_text l) by (intros l I Q; rewrite <- Q in I; contradiction).
  assert (C : forall c, In c c3 <-> c = "rid" \/ In c main \/ In c (names d) /\ ~ In c [l_text lu; l_text li; l_text lx]).
  { intros c. rewrite G3, G2, G1, in_app_iff, K. rewrite (KP lu "user"), (KP li "item"), (KP lx "interaction") by (auto; cbn; auto).
    split.
    - intros [[[[[A|A]|[A|[]]] B1] B2] B3]; auto.
      destruct B1 as [B1|B1]; auto. destruct B2 as [B2|B2]; auto. destruct B3 as [B3|B3]; auto.
      right. right. split; auto. intros [X|[X|[X|[]]]]; congruence.
    - intros [->|[A|[A B]]].
      + split; [split; [split; [right; left; reflexivity|]|]|]; right; apply RL; auto.
      + tauto.
      + split; [split; [split; [auto|]|]|]; right; intros ->; apply B; cbn; auto. }
  split; [exact C|]. split.
  { intros c. rewrite P2, K. split.
    - intros [A B]. split; auto. intros ->. destruct A as [A|A]; [cbn in A; intuition discriminate|contradiction].
    - intros [A B]. split; auto. apply C in A. destruct A as [A|[A|[A _]]]; tauto. }
  assert (T : forall c, assoc String.eqb c (df_types d3) = assoc String.eqb (source lu li lx c) (df_types d)).
  { intros c. rewrite T3, !T2, !T1. unfold source.
    assert (Y : forall a b, a <> b -> String.eqb a b = false) by (intros a b; apply String.eqb_neq).
    rewrite (Y _ _ SX1), (Y _ _ SX2), (Y _ _ SU).
    destruct (String.eqb_spec c "user") as [->|Q1]; [reflexivity|].
    destruct (String.eqb_spec c "item") as [->|Q2]; [reflexivity|].
    destruct (String.eqb_spec c "interaction") as [->|Q3]; reflexivity. }
  split.
  { intros c I N. split; [|rewrite P3, T by auto; reflexivity]. apply C in I. unfold source.
    destruct (String.eqb_spec c "user"); auto. destruct (String.eqb_spec c "item"); auto. destruct (String.eqb_spec c "interaction"); auto.
    destruct I as [I|[I|[I _]]]; auto; [contradiction|]. cbn in I. intuition congruence. }
  assert (R13 : Forall2 (fun r r' => dr_index r' = dr_index r /\ forall k, dcell r' k = dcell r (source lu li lx k)) (df_rows d) (df_rows d3)).
  { assert (R12 : Forall2 (fun a c => exists b, copied "user" (l_text lu) a b /\ copied "item" (l_text li) b c) (df_rows d) (df_rows d2)) by (eapply Forall2_trans; [|exact R1|exact R2]; eauto).
    eapply Forall2_trans; [|exact R12|exact R3].
    intros a e c [b [[A1 A2] [B1 B2]]] [D1 D2]. split; [congruence|]. intros k. unfold source.
    assert (Y : forall a b, a <> b -> String.eqb a b = false) by (intros x y; apply String.eqb_neq).
    rewrite D2, !B2, !A2. rewrite (Y _ _ SX1), (Y _ _ SX2), (Y _ _ SU).
    destruct (String.eqb_spec k "user") as [->|Q1]; [reflexivity|].
    destruct (String.eqb_spec k "item") as [->|Q2]; [reflexivity|].
    destruct (String.eqb_spec k "interaction") as [->|Q3]; reflexivity. }
  eapply Forall2_trans; [|exact R13|exact P4]. intros a b c [A1 A2] [B1 B2]. split; [congruence|].
  intros k t I N Ht. rewrite <- A2. apply B2; auto. rewrite T. exact Ht.
Qed.

(** ** The data set in memory *)
Lemma whole_row_ok r w : whole_row r = Some w -> r_rid w = dr_index r /\ map fst (r_cells w) = map fst (dr_cells r) /\
  forall c o, assoc String.eqb c (dr_cells r) = Some o -> o = cell w c /\ o <> None.
Proof.
  unfold whole_row, cell. set (f := fold_right _ _ _). destruct f as [l|] eqn:E; [|discriminate]. intros X. injection X as <-.
  cbn [r_rid r_cells]. split; auto. subst f. revert l E. induction (dr_cells r) as [|[c o] cs IH]; intros l E; cbn [fold_right fst snd] in E.
  - injection E as <-. split; auto. discriminate.
  - destruct o as [v|]; [|discriminate]. destruct (fold_right _ (Some []) cs) as [l'|]; [|discriminate]. injection E as <-.
    destruct (IH l' eq_refl) as [K A]. split; [cbn; rewrite K; auto|]. intros c' o'. cbn [assoc fst snd].
    destruct (String.eqb c' c); [intros X; injection X as <-; split; auto; discriminate|apply A].
Qed.
Lemma whole_rows_ok rs ws : fold_right (fun r acc => match whole_row r, acc with Some w, Some l => Some (w :: l) | _, _ => None end) (Some []) rs = Some ws ->
  Forall2 (fun r w => whole_row r = Some w) rs ws.
Proof.
  revert ws. induction rs as [|r rs IH]; intros ws; cbn [fold_right]; [intros E; injection E as <-; constructor|].
  destruct (whole_row r) as [w|] eqn:E; [|discriminate]. destruct (fold_right _ _ _) as [l|] eqn:F; [|discriminate].
  intros X. injection X as <-. constructor; auto.
Qed.
(** every present cell has the type of its column *)
Definition typed (d : dframe) : Prop := forall r c t v, In r (df_rows d) -> assoc String.eqb c (df_types d) = Some t -> dcell r c = Some v -> type_of v = t.
Lemma Forall2_in_r {A B} (P : A -> B -> Prop) l l' y : Forall2 P l l' -> In y l' -> exists x, In x l /\ P x y.
Proof. intros F. induction F as [|a b l l' p F IH]; [contradiction|]. intros [<-|I]; [exists a; split; [left|]; auto|]. destruct (IH I) as [x [J K]]. exists x. split; [right|]; auto. Qed.

Lemma data_set_wf d lu li lx cols d' m : wf_dframe d -> ~ In "rid" (names d) ->
  label_ok d lu "user" -> label_ok d li "item" -> label_ok d lx "interaction" ->
  l_text lu <> l_text li -> l_text lu <> l_text lx -> l_text li <> l_text lx -> typed d ->
  read_df d lu li lx = Ok (cols, d') -> data_set (cols, d') = Some m ->
  wf_mem m /\ m_columns m = cols /\ m_cache m = None /\ m_ids m = false /\
  Forall2 (fun r w => r_rid w = dr_index r /\ forall c, In c cols -> c <> "rid" -> cell w c = dcell r c) (df_rows d') (rows_of m).
Proof.
  intros W NR Lu Li Lx N1 N2 N3 Ty E D. destruct (read_df_ok d lu li lx W NR Lu Li Lx N1 N2 N3) as (cols2 & d2 & E2 & M & W' & C & K & T & R).
  rewrite E in E2. injection E2 as <- <-. unfold data_set in D. cbn [fst snd] in D.
  destruct (fold_right _ (Some []) (df_rows d')) as [ws|] eqn:F; [|discriminate]. injection D as <-. apply whole_rows_ok in F.
  assert (CELL : Forall2 (fun r w => r_rid w = dr_index r /\ forall c, In c cols -> c <> "rid" -> cell w c = dcell r c /\ cell w c <> None) (df_rows d') ws).
  { assert (WK := wd_keys d' W'). clear R. induction F as [|r w rs ws H F IH]; constructor; [|apply IH; intros; apply WK; right; auto].
    destruct (whole_row_ok r w H) as (A & B & G). split; auto. intros c I N.
    assert (Q : In c (map fst (dr_cells r))) by (rewrite WK by (left; auto); apply K; auto).
    destruct (assoc_some c _ Q) as [o O]. destruct (G c o O) as [G1 G2]. unfold dcell. rewrite O. subst o. auto. }
  split; [|repeat split; auto].
  2:{ unfold rows_of. cbn [m_df f_rows]. eapply Forall2_impl; [|exact CELL]. intros r w [A B]. split; auto. intros c I N. apply (B c I N). }
  constructor; [constructor|exact M|]; unfold rows_of; cbn [m_df m_columns f_rows f_types].
  - exact (wd_names d' W').
  - intros I. apply K in I. tauto.
  - intros w Hw. destruct (Forall2_in_r _ _ _ w F Hw) as [r [Hr Q]]. destruct (whole_row_ok r w Q) as (_ & B & _). rewrite B. apply (wd_keys d' W'). auto.
  - intros w c t Hw Hc. destruct (Forall2_in_r _ _ _ w CELL Hw) as [r [Hr [_ Q]]].
    assert (Ic : In c (names d')) by (apply in_map_iff; exists (c, t); auto).
    apply K in Ic. destruct Ic as [Ic Nc]. destruct (Q c Ic Nc) as [Q1 Q2].
    destruct (cell w c) as [v|] eqn:V; [|congruence]. exists v. split; auto.
    assert (At : assoc String.eqb c (df_types d') = Some t).
    { apply assoc_NoDup; auto using reflects_string. exact (wd_names d' W'). }
    destruct (T c Ic Nc) as [T1 T2]. rewrite T2 in At.
    destruct (Forall2_in_r _ _ _ r R Hr) as [r0 [H0 [_ L]]]. rewrite (L c t Ic Nc At) in Q1.
    unfold filled in Q1. destruct (dcell r0 (source lu li lx c)) as [v0|] eqn:V0.
    + assert (v = v0) by (destruct t; congruence). subst. eapply Ty; eauto.
    + destruct t; try congruence. injection Q1 as ->. reflexivity.
  - intros c. split.
    + intros I. destruct (string_dec c "rid"); auto. right. apply K. auto.
    + intros [->|I]; [apply C; auto|apply K in I; tauto].
Qed.

(** ** When the data set exists: no missing value in the columns of numbers *)
Definition numbers_present (d : dframe) : Prop :=
  forall r c t, In r (df_rows d) -> assoc String.eqb c (df_types d) = Some t -> t <> DObj -> dcell r c <> None.
Lemma whole_row_some r : NoDup (map fst (dr_cells r)) -> (forall c, In c (map fst (dr_cells r)) -> dcell r c <> None) -> exists w, whole_row r = Some w.
Proof.
  unfold whole_row, dcell. destruct r as [k cs]. cbn [dr_cells dr_index]. intros N H.
  assert (X : forall p, In p cs -> snd p <> None).
  { intros [c o] I. assert (A := assoc_NoDup String.eqb reflects_string cs c o N I). specialize (H c (in_map fst _ _ I)). rewrite A in H. exact H. }
  clear N H. match goal with |- context[option_map _ ?f] => assert (Y : exists l, f = Some l) end.
  { induction cs as [|[c o] cs IH]; [eexists; reflexivity|]. cbn [fold_right fst snd].
    destruct IH as [l ->]; [intros; apply X; right; auto|]. specialize (X (c, o) (or_introl eq_refl)). cbn in X. destruct o; [eauto|contradiction]. }
  destruct Y as [l ->]. cbn. eauto.
Qed.
Lemma data_set_some d lu li lx cols d' : wf_dframe d -> ~ In "rid" (names d) ->
  label_ok d lu "user" -> label_ok d li "item" -> label_ok d lx "interaction" ->
  l_text lu <> l_text li -> l_text lu <> l_text lx -> l_text li <> l_text lx -> numbers_present d ->
  read_df d lu li lx = Ok (cols, d') -> exists m, data_set (cols, d') = Some m.
Proof.
  intros W NR Lu Li Lx N1 N2 N3 P E. destruct (read_df_ok d lu li lx W NR Lu Li Lx N1 N2 N3) as (cols2 & d2 & E2 & M & W' & C & K & T & R).
  rewrite E in E2. injection E2 as <- <-.
  assert (A : forall r, In r (df_rows d') -> exists w, whole_row r = Some w).
  { intros r Hr. apply whole_row_some; [rewrite (wd_keys d' W') by auto; exact (wd_names d' W')|].
    intros c I. rewrite (wd_keys d' W') in I by auto. apply K in I. destruct I as [I N].
    destruct (T c I N) as [T1 T2]. destruct (assoc_some _ _ T1) as [t Ht].
    destruct (Forall2_in_r _ _ _ r R Hr) as [r0 [H0 [_ L]]]. rewrite (L c t I N Ht).
    assert (D := P r0 (source lu li lx c) t H0 Ht). unfold filled. destruct t; try (apply D; discriminate).
    destruct (dcell r0 (source lu li lx c)); discriminate. }
  unfold data_set. cbn [fst snd]. clear - A. match goal with |- context[option_map _ ?f] => assert (Y : exists l, f = Some l) end.
  { induction (df_rows d') as [|r rs IH]; [eexists; reflexivity|]. cbn [fold_right].
    destruct (A r (or_introl eq_refl)) as [w ->]. destruct IH as [l ->]; [intros; apply A; right; auto|]. eauto. }
  destruct Y as [l ->]. cbn. eauto.
Qed.

(** ** Suffixes *)
Lemma substring_all s : String.substring 0 (String.length s) s = s.
Proof. induction s as [|a s IH]; cbn; congruence. Qed.
Lemma substring_skip q s n : String.substring (String.length q) n (q ++ s) = String.substring 0 n s.
Proof. induction q as [|a q IH]; cbn; auto. Qed.
Lemma length_app_s q s : String.length (q ++ s) = (String.length q + String.length s)%nat.
Proof. induction q as [|a q IH]; cbn; auto. Qed.
Lemma substring_split n : forall s, (n <= String.length s)%nat ->
  s = (String.substring 0 n s ++ String.substring n (String.length s - n) s)%string.
Proof.
  induction n as [|n IH]; intros s H.
  - rewrite Nat.sub_0_r, substring_all. destruct s; reflexivity.
  - destruct s as [|a s]; [cbn in H; lia|]. cbn. f_equal. apply IH. cbn in H. lia.
Qed.
Lemma suffix_of_ok x s : suffix_of x s = true <-> exists q, s = (q ++ x)%string.
Proof.
  unfold suffix_of. rewrite andb_true_iff, Nat.leb_le, String.eqb_eq. split.
  - intros [L E]. exists (String.substring 0 (String.length s - String.length x) s).
    rewrite <- E at 2. replace (String.length x) with (String.length s - (String.length s - String.length x))%nat at 3 by lia.
    apply substring_split. lia.
  - intros [q ->]. rewrite length_app_s. split; [lia|].
    replace (String.length q + String.length x - String.length x)%nat with (String.length q) by lia.
    rewrite substring_skip. apply substring_all.
Qed.
