(** Consequences of the history theorem, in the words of the specification. *)
From Coq Require Import String Ascii.
From Coq Require Import List ZArith QArith Qcanon Bool Permutation Lia.
From Verif Require Import Py PyFacts MemModel MemSpec DbModel DbFacts DbSpec DbFacts2 DbFacts3 DbFacts4
  DbFacts5 DbFacts6 DbFacts7 DbFacts8 DbFacts9 DbFacts10 DbFacts11 DbFacts12 DbFacts13 DbFacts14.
Import ListNotations.
Open Scope string_scope.
Open Scope Z_scope.

Section Conseq.
Variable inode : string -> nat.
Notation tables := (tables inode).
Notation Inv := (Inv inode).

Lemma table_ok_wf tb : table_ok tb -> wf_table tb.
Proof. intros [A B C D E F]. constructor; auto. Qed.
Lemma Inv_start fs : files_ok fs -> Inv (start fs) no_book.
Proof.
  intro F. constructor; [|discriminate]. constructor; cbn [start w_file w_inst w_dbs w_tabs w_next w_fresh]; try discriminate; auto.
  - intros n f t tb Hf Ht. apply table_ok_wf. exact (proj1 (F n f Hf) t tb Ht).
  - intros n f k Hf _. apply (F n f Hf).
Qed.

Lemma after_app w b h h' : after inode w b (h ++ h')%list = after inode (fst (after inode w b h)) (snd (after inode w b h)) h'.
Proof.
  revert w b. induction h as [|[ord o] h IH]; intros w b; cbn [after app]; [auto|].
  destruct (exec inode ord o w) as [w' r]. apply IH.
Qed.
Lemma all_safe_app w b h h' : all_safe inode w b (h ++ h')%list <->
  all_safe inode w b h /\ all_safe inode (fst (after inode w b h)) (snd (after inode w b h)) h'.
Proof.
  revert w b. induction h as [|[ord o] h IH]; intros w b; cbn [after app all_safe fst snd]; [tauto|].
  destruct (exec inode ord o w) as [w' r]. rewrite IH. tauto.
Qed.
Lemma all_safe_cons w b ord o h : (forall l, Permutation (ord l) l) -> safe inode w b o ->
  all_safe inode (fst (exec inode ord o w)) (effect inode w b o (snd (exec inode ord o w))) h ->
  all_safe inode w b ((ord, o) :: h).
Proof. intros P S R. cbn [all_safe]. destruct (exec inode ord o w) as [w' r]. auto. Qed.

Lemma history_inv fs h : files_ok fs -> all_safe inode (start fs) no_book h ->
  Inv (fst (after inode (start fs) no_book h)) (snd (after inode (start fs) no_book h)).
Proof. intros F S. apply histories; [apply Inv_start; auto|auto]. Qed.

(** The attributes of the data sets. *)
Lemma inv_attributes w b i d : Inv w b -> b i = Some d ->
  exists x, w_inst w i = Some x /\ i_cols x = d_cols d /\ i_ids x = d_ids d /\ i_n x = length (d_rows d) /\
    tables w (i_path x) (i_table x) <> None.
Proof.
  intros I E. destruct (inv_ds _ _ _ I i d E) as (S & rows & (x & H & C & T & Id & D & N) & P).
  exists x. repeat (split; auto). - rewrite N. apply Permutation_length. auto.
  - destruct (table_i inode w i x (inv_base _ _ _ I) H) as (tb & Tb & _). congruence.
Qed.

(** The specification leaves the other data sets alone. *)
Lemma effect_other w b o r j d : answered inode w b o r -> subject o <> Some j -> b j = Some d ->
  effect inode w b o r j = Some d.
Proof.
  intros A N E.
  assert (Nw : forall k x, (exists k', ADs k = ADs k' /\ b k' = None) -> note b k x j = Some d).
  { intros k x (k' & X & Hk). injection X as <-. rewrite note_other; [auto|congruence]. }
  assert (Ns : forall i x, subject o = Some i -> note b i x j = Some d).
  { intros i x Hs. rewrite note_other; [auto|congruence]. }
  assert (R : forall i cp x, subject o = Some i -> fresh_result o = cp -> result b i cp r x j = Some d).
  { intros i cp x Hs Hf. unfold result. destruct cp; [|auto]. destruct r as [a|e]; [|auto]. cbn [answered DbSpec.answered] in A.
    rewrite Hf in A. destruct A as [_ (k & -> & Hk)]. apply Nw. eauto. }
  destruct o; cbn [effect DbSpec.effect subject fresh_result] in *; auto.
  - destruct r as [[]|]; auto. apply Nw. apply A.
  - destruct r as [[]|]; auto. apply Nw. apply A.
  - destruct (b i); auto.
  - destruct (b i); auto.
  - destruct (b i); auto.
  - destruct (b i); auto. destruct (forallb _ _); auto.
  - destruct r; [|auto]. destruct (b i); auto.
  - destruct (b i); auto.
  - destruct (b i); auto. destruct (_ || _)%bool; auto. destruct r; auto.
Qed.

Lemma isolated fs h ord o j d : files_ok fs -> all_safe inode (start fs) no_book (h ++ [(ord, o)])%list ->
  subject o <> Some j ->
  let '(w, b) := after inode (start fs) no_book h in
  let '(w', b') := after inode (start fs) no_book (h ++ [(ord, o)])%list in
  b j = Some d -> Inv w b /\ Inv w' b' /\ b' j = Some d.
Proof.
  intros F S N. destruct (after inode (start fs) no_book h) as [w b] eqn:E.
  destruct (after inode (start fs) no_book (h ++ [(ord, o)])%list) as [w' b'] eqn:E'. intro Hd.
  pose proof (history_inv fs _ F S) as I'. rewrite E' in I'. cbn [fst snd] in I'.
  rewrite after_app, E in E'. cbn [fst snd after] in E'. apply all_safe_app in S. rewrite E in S. cbn [fst snd all_safe] in S.
  destruct S as [S1 (P & S2 & _)]. pose proof (history_inv fs h F S1) as I. rewrite E in I. cbn [fst snd] in I.
  split; [auto|]. split; [auto|]. destruct (exec inode ord o w) as [w1 r] eqn:Ex. injection E' as -> <-.
  destruct (step inode ord w b o w' r P I S2 Ex) as [_ A]. apply effect_other; auto.
Qed.

Lemma answer_of w b ord o w' r : Inv w b -> permuting ord -> safe inode w b o -> exec inode ord o w = (w', r) ->
  answered inode w b o r.
Proof. intros I P S E. apply (step inode ord w b o w' r P I S E). Qed.

(** ** Closing *)
Lemma close_last w b i x w' r : Inv w b -> w_inst w i = Some x -> close inode i w = (w', r) ->
  (forall j y, j <> i -> w_inst w j = Some y -> i_path y <> i_path x) -> is_temp (i_path x) = true ->
  r = Ok tt /\ w_file w' (inode (i_path x)) = None.
Proof.
  intros I H E A T. destruct (close_spec inode w i x w' r (inv_base _ _ _ I) H E) as (-> & _ & _ & _ & C & _).
  split; [auto|]. apply C; auto. intros j y Hy Ep. destruct (Nat.eq_dec j i); [auto|]. exfalso. apply (A j y); auto.
Qed.
Lemma close_others w b i x w' r : Inv w b -> w_inst w i = Some x -> close inode i w = (w', r) ->
  (forall j y, j <> i -> w_inst w j = Some y -> w_inst w' j = Some y /\
     tables w' (i_path y) (i_table y) = tables w (i_path y) (i_table y) /\ tables w' (i_path y) (i_table y) <> None) /\
  (forall n, n <> inode (i_path x) -> w_file w' n = w_file w n) /\
  (is_temp (i_path x) = false -> forall t, t <> i_table x -> tables w' (i_path x) t = tables w (i_path x) t).
Proof.
  intros I H E. destruct (close_spec inode w i x w' r (inv_base _ _ _ I) H E) as (_ & W & _ & Hi & C & Fo & K).
  assert (B : Base inode w) by apply I.
  split; [|split; [auto|]].
  - intros j y N Hy. split; [rewrite Hi; auto|]. destruct (table_i inode w j y B Hy) as (tb & T & _).
    assert (X : tables w' (i_path y) (i_table y) = tables w (i_path y) (i_table y)); [|split; congruence].
    destruct (Nat.eq_dec (inode (i_path y)) (inode (i_path x))) as [Ei|Ni].
    + pose proof (b_alias inode w B j y i x Hy H Ei) as Ep. rewrite Ep in *.
      destruct K as (f & Hf & K1 & K2 & _).
      { intros [Al _]. apply N. exact (Al j y Hy Ep). }
      unfold DbModel.tables at 1. rewrite Hf. destruct (string_dec (i_table y) (i_table x)) as [Et|Nt]; [|auto].
      rewrite Et. apply K2. left. intro Al. apply N. exact (Al j y Hy Ep Et).
    + unfold DbModel.tables. rewrite Fo; auto.
  - intros T t Nt. destruct K as (f & Hf & K1 & _); [intros [_ X]; congruence|]. unfold DbModel.tables at 1. rewrite Hf. auto.
Qed.

(** ** Saving and loading *)

Lemma mapM_fst (g : string -> res (string * dtype)) l out : (forall c p, g c = Ok p -> fst p = c) -> mapM g l = Ok out -> map fst out = l.
Proof.
  intro G. revert out. induction l as [|c l IH]; intros out E; cbn [mapM] in E.
  - injection E as <-. auto.
  - destruct (g c) as [p|] eqn:Gc; [|discriminate]. cbn [bind] in E. destruct (mapM g l) as [q|]; [|discriminate].
    cbn [bind] in E. injection E as <-. cbn [map]. rewrite (G c p Gc), (IH q); auto.
Qed.
Lemma build_names x types : build_types x = Ok types -> map fst types = (["rid"; "uid"; "iid"] ++ names (i_cols x))%list.
Proof.
  intro E. unfold build_types in E. destruct (forallb _ required); [|discriminate]. cbn [negb] in E.
  destruct (mapM _ _) as [others|] eqn:M; [|discriminate]. cbn [bind] in E.
  assert (types = (map (fun c => (c, DInt)) id_cols ++ others)%list) by congruence. subst types. rewrite map_app, map_map. cbn [fst].
  rewrite map_id. unfold id_cols. f_equal. apply mapM_fst in M.
  - rewrite M. unfold names. apply filter_ext. intro c. rewrite mem_existsb. auto.
  - intros c p Hp. destruct (i_types x) as [ts|]; [|discriminate]. destruct (assoc String.eqb c ts); [|discriminate].
    injection Hp as <-. auto.
Qed.
Lemma names_without cs : without_ids (["rid"; "uid"; "iid"] ++ names cs)%list = "rid" :: names cs.
Proof.
  unfold without_ids. rewrite filter_app.
  change (filter _ ["rid"; "uid"; "iid"]) with ["rid"]. cbn [app]. f_equal. unfold names.
  induction cs as [|c cs IH]; [auto|]. cbn [filter]. destruct (existsb (String.eqb c) ["rid"; "uid"; "iid"]) eqn:X; cbn [negb]; [auto|].
  cbn [filter]. cbn [existsb] in X. rewrite IH. destruct (String.eqb c "uid"), (String.eqb c "iid"), (String.eqb c "rid"); cbn in X; try discriminate X. auto.
Qed.

Lemma saved w b i d p ord w' : Inv w b -> b i = Some d -> p <> "" -> unused inode w p -> permuting ord ->
  exec inode ord (OSave i p) w = (w', Ok AUnit) ->
  tables w' p main_table <> None /\ d_cols (stored inode w' p) = "rid" :: names (d_cols d) /\
  exists rows, Permutation rows (d_rows d) /\
    map (cells (names (d_cols d))) (d_rows (stored inode w' p)) = map (cells (names (d_cols d))) rows /\
    map rid_of (d_rows (stored inode w' p)) = map Z.of_nat (seq 0 (length rows)).
Proof.
  intros I Hb Np Un Po E. apply amap_inv in E. destruct E as (r0 & E & Er). destruct r0 as [[]|]; [|discriminate].
  pose proof (inv_ds _ _ _ I i d Hb) as Sh. destruct (shows_inst inode w i d Sh) as (x & H & C & T & Di & P).
  destruct (save_spec inode ord w i x p w' (Ok tt) Po (inv_base _ _ _ I) (proj1 Sh) H Np Un E) as (W & K & _ & So & _).
  destruct (So eq_refl) as (types & tb & rows & Eb & Tb & Ty & Wf & Pr & Ep & Rd).
  assert (Ec : tb_cols tb = (["rid"; "uid"; "iid"] ++ names (d_cols d))%list).
  { unfold tb_cols. rewrite Ty, <- C. apply build_names. auto. }
  split; [congruence|]. unfold stored. rewrite Tb, Ec, names_without. cbn [d_cols d_rows]. split; [auto|]. exists rows.
  split; [apply (Permutation_trans Pr P)|].
  assert (Nr : ~ In "rid" (names (d_cols d))) by (intro X; apply filter_In in X; destruct X as [_ X]; discriminate X).
  assert (Idat : incl (names (d_cols d)) (data_cols x)).
  { intros c Hc. apply filter_In in Hc. destruct Hc as [Hc X]. destruct (proj1 Sh x H) as (Nd & _). rewrite (in_data_cols inode x c Nd).
    rewrite C. split; [auto|]. intros ->. discriminate X. }
  split.
  - rewrite map_map. assert (Q : forall l l', map (proj (data_cols x)) l = map (proj (data_cols x)) l' ->
      map (fun r => cells (names (d_cols d)) (proj ("rid" :: names (d_cols d)) r)) l = map (cells (names (d_cols d))) l').
    { induction l as [|a l IH]; intros [|a' l'] El; try discriminate; [auto|]. cbn [map] in *. injection El as E1 E2.
      rewrite (IH l' E2). f_equal. unfold cells. apply map_ext_in. intros c Hc. rewrite tcell_proj by (right; auto).
      rewrite <- (tcell_proj (data_cols x) a c) by auto. rewrite E1. rewrite tcell_proj by auto. auto. }
    apply Q. auto.
  - rewrite map_rid_proj by (left; auto). auto.
Qed.
End Conseq.
