(** Removing internal ids, and [apply]. *)
From Coq Require Import String Ascii.
From Coq Require Import List ZArith QArith Qcanon Bool Lia Permutation.
From Verif Require Import Py PyFacts MemModel DbModel DbFacts DbFacts2 DbFacts3 DbFacts4 DbFacts5 DbFacts6 DbFacts7 DbFacts8.
Import ListNotations.
Open Scope string_scope.
Open Scope Z_scope.

Section Ops.
Variable inode : string -> nat.
Notation tables := (tables inode).
Notation set_tables := (set_tables inode).
Notation Base := (Base inode).
Notation settledw := (settledw inode).
Notation unchanged := (unchanged inode).
Notation quiet := (quiet inode).
Notation same := (same inode).
Notation works := (works inode).
Notation has := (has inode).
Notation keeps := (keeps inode).

(** ** remove_internal_ids *)
Definition no_ids (cs : list string) : list string := filter (fun c => negb (in_cols c idn)) cs.
Lemma remove_first_filter c cs : NoDup cs -> remove_first String.eqb c cs = filter (fun d => negb (String.eqb d c)) cs.
Proof.
  intro N. induction N as [|d cs Hd N IH]; [auto|]. cbn [remove_first filter].
  destruct (String.eqb_spec c d) as [->|E].
  - rewrite String.eqb_refl. cbn [negb]. clear IH. induction cs as [|e cs IH]; [auto|]. cbn [filter].
    destruct (String.eqb_spec e d) as [->|E]; [exfalso; apply Hd; left; auto|]. cbn [negb]. f_equal. apply IH.
    + intro X. apply Hd. right. auto.
    + inversion N; auto.
  - destruct (String.eqb_spec d c); [congruence|]. cbn [negb]. rewrite IH. auto.
Qed.
Lemma no_ids_eq cs : NoDup cs ->
  remove_first String.eqb "iid" (remove_first String.eqb "uid" cs) = no_ids cs.
Proof.
  intro N. rewrite (remove_first_filter "uid") by auto. rewrite remove_first_filter by (apply NoDup_filter; auto).
  rewrite filter_filter. apply filter_ext. intro c. unfold in_cols, idn. cbn [mem_b existsb].
  destruct (String.eqb c "uid"), (String.eqb c "iid"); auto.
Qed.
Lemma no_ids_none cs : ~ In "uid" cs -> ~ In "iid" cs -> no_ids cs = cs.
Proof.
  intros U I. unfold no_ids. induction cs as [|c cs IH]; [auto|]. cbn [filter]. unfold in_cols, idn at 1. cbn [mem_b existsb].
  destruct (String.eqb_spec c "uid") as [->|]; [exfalso; apply U; left; auto|].
  destruct (String.eqb_spec c "iid") as [->|]; [exfalso; apply I; left; auto|]. cbn [orb negb]. f_equal. apply IH.
  - intro X. apply U. right. auto.
  - intro X. apply I. right. auto.
Qed.
Lemma no_ids_incl cs : incl (no_ids cs) cs.
Proof. intros c H. apply filter_In in H. tauto. Qed.

Theorem remove_spec w i x w' r : Base w -> settledw w i -> w_inst w i = Some x ->
  (In "uid" (i_cols x) <-> In "iid" (i_cols x)) ->
  (i_state x = None \/ exists l, i_cols x = (no_ids (i_cols x) ++ l)%list) ->
  remove_ids i w = (w', r) ->
  r = Ok tt /\ works w w' i /\ settledw w' i /\
  has w' i (no_ids (i_cols x)) (i_types x) false (map (proj (no_ids (i_cols x))) (den (tables w (i_path x)) x)).
Proof.
  intros B S H Both Tail E. destruct (S x H) as (ND & Rid & tb & T & L & C).
  set (x' := set_cols (set_ids x false) (no_ids (i_cols x))).
  set (w0 := set_insts w (upd_nat (w_inst w) i (Some x'))).
  assert (So : src_ok (tables w (i_path x)) x') by (destruct (b_inst inode w B i x H) as (t & c & rr & Z); exists t, c, rr; exact Z).
  assert (G : r = Ok tt /\ works w w' i /\ w_inst w' i = Some x' /\ forall p, tables w' p = tables w p).
  { unfold remove_ids in E. rewrite (andthen_ok _ _ _ _ _ (self_ok i w x H)) in E.
    change (i_cols (set_ids x false)) with (i_cols x) in E.
    destruct (in_cols "uid" (i_cols x)) eqn:U.
    - apply in_cols_In in U. pose proof (proj1 Both U) as I.
      set (x1 := set_cols (set_ids x false) (remove_first String.eqb "uid" (i_cols x))) in *.
      set (w1 := set_insts w (upd_nat (w_inst w) i (Some x1))) in *.
      rewrite (andthen_ok _ _ w w1 tt) in E by reflexivity.
      assert (I' : in_cols "iid" (remove_first String.eqb "uid" (i_cols x)) = true).
      { apply in_cols_In. rewrite remove_first_filter by auto. apply filter_In. auto. }
      rewrite I' in E. rewrite no_ids_eq in E by auto. fold x' in E. unfold put, modify in E.
      set (w2 := set_insts w1 (upd_nat (w_inst w1) i (Some x'))) in *. injection E as <- <-.
      assert (So1 : src_ok (tables w (i_path x)) x1) by (destruct (b_inst inode w B i x H) as (t & c & rr & Z); exists t, c, rr; exact Z).
      pose proof (put_works inode w i x x1 B H eq_refl eq_refl So1) as W1. fold w1 in W1.
      assert (H1 : w_inst w1 i = Some x1) by (cbn; apply upd_nat_same).
      pose proof (put_works inode w1 i x1 x' (wk_base _ _ _ _ W1) H1 eq_refl eq_refl So) as W2.
      split; [auto|]. split; [eapply works_trans; eauto|]. split; [cbn; apply upd_nat_same|auto].
    - apply in_cols_false in U. assert (I : ~ In "iid" (i_cols x)) by tauto.
      assert (Ex : set_ids x false = x').
      { unfold x'. rewrite no_ids_none by auto. reflexivity. }
      rewrite Ex in E. unfold put, modify in E. fold w0 in E. injection E as <- <-.
      split; [auto|]. split; [exact (put_works inode w i x x' B H eq_refl eq_refl So)|].
      split; [cbn; apply upd_nat_same|auto]. }
  destruct G as (-> & W & H' & Tb). split; [auto|]. split; [auto|].
  assert (St : settledw w' i).
  { intros y Hy. rewrite H' in Hy. injection Hy as <-. split; [apply NoDup_filter; exact ND|].
    split; [apply filter_In; auto|]. exists tb. rewrite Tb. split; [exact T|]. split.
    - intros types c t Ht Hc. apply (L types); auto. apply no_ids_incl. exact Hc.
    - change (i_state x') with (i_state x). destruct (i_state x) as [q|].
      + destruct C as [ext C]. destruct Tail as [?|[l Hl]]; [discriminate|]. exists (l ++ ext)%list. rewrite C, Hl at 1. rewrite app_assoc. reflexivity.
      + intros c Hc. apply C, no_ids_incl, Hc. }
  split; [exact St|]. exists x'. split; [auto|]. split; [auto|]. split; [auto|]. split; [auto|]. rewrite Tb.
  change (i_path x') with (i_path x). rewrite map_length, (den_length inode w i x) by auto. split; [|auto].
  unfold den. change (curr_source x') with (curr_source x). destruct (eval _ _) as [[ds rows]|]; [|auto].
  rewrite map_map. apply map_ext. intro row. symmetry. apply proj_proj. apply no_ids_incl.
Qed.

(** ** apply *)

(** The row after the function was applied to column [c] of type [t]. *)
Definition changed (f : value -> res value) (c : string) (t : dtype) (row : trow) : trow :=
  match call f (tcell row c) with Ok v => set_tcell c (Some (affine t v)) row | Err _ => row end.

Lemma rid_set c v r : c <> "rid" -> rid_of (set_tcell c v r) = rid_of r.
Proof. intro N. unfold rid_of. rewrite tcell_set. destruct (String.eqb_spec "rid" c); [congruence|auto]. Qed.
Lemma rid_changed f c t r : c <> "rid" -> rid_of (changed f c t r) = rid_of r.
Proof. intro N. unfold changed. destruct (call f (tcell r c)); [apply rid_set; auto|auto]. Qed.
Lemma keys_changed f c t r : map fst (changed f c t r) = map fst r.
Proof. unfold changed. destruct (call f (tcell r c)); [apply set_tcell_keys|auto]. Qed.
Lemma changed_other f c t r d : d <> c -> tcell (changed f c t r) d = tcell r d.
Proof.
  intro N. unfold changed. destruct (call f (tcell r c)); [|auto]. rewrite tcell_set.
  destruct (String.eqb_spec d c); [congruence|auto].
Qed.

Definition upto (f : value -> res value) (c : string) (t : dtype) (done : list Z) (r : trow) : trow :=
  if mem_b Z.eqb (rid_of r) done then changed f c t r else r.

Lemma update_rows_spec f c t : c <> "rid" -> forall todo tb rows done,
  tb_rows tb = map (upto f c t done) rows -> NoDup (done ++ map fst todo) ->
  (forall z v row, In (z, v) todo -> In row rows -> rid_of row = z -> tcell row c = v) ->
  exists k, update_rows f c t todo tb =
    (mkTable (tb_types tb) (map (upto f c t (done ++ map fst (firstn k todo))) rows),
     match nth_error todo k with
     | None => Ok tt
     | Some p => match call f (snd p) with Err e => Err e | Ok _ => Ok tt end
     end) /\
  (forall p, nth_error todo k = Some p -> exists e, call f (snd p) = Err e) /\
  (nth_error todo k = None -> firstn k todo = todo /\ forall p, In p todo -> exists v, call f (snd p) = Ok v).
Proof.
  intro Nc. induction todo as [|[z v] todo IH]; intros tb rows done Ht ND Hv.
  - exists 0%nat. cbn [update_rows firstn map nth_error]. rewrite app_nil_r, <- Ht. split; [destruct tb; auto|].
    split; [discriminate|]. intros _. split; [auto|intros p []].
  - cbn [update_rows]. destruct (call f v) as [v'|e] eqn:Ec.
    + set (tb1 := mkTable (tb_types tb) _).
      assert (H1 : tb_rows tb1 = map (upto f c t (done ++ [z])) rows).
      { unfold tb1. cbn [tb_rows]. rewrite Ht, map_map. apply map_ext_in. intros row Hr.
        assert (Er : rid_of (upto f c t done row) = rid_of row)
          by (unfold upto; destruct (mem_b _ _ _); [apply rid_changed; auto|auto]).
        rewrite Er. unfold upto. destruct (Z.eqb_spec (rid_of row) z) as [E|N].
        - assert (M : mem_b Z.eqb (rid_of row) done = false).
          { apply (mem_b_false Z.eqb reflects_Z). rewrite E. cbn [map fst] in ND. intro X.
            apply NoDup_remove_2 in ND. apply ND, in_app_iff. auto. }
          rewrite M. rewrite (proj2 (mem_b_In Z.eqb reflects_Z (rid_of row) (done ++ [z]))) by (apply in_app_iff; right; left; auto).
          unfold changed. rewrite (Hv z v row) by (auto; left; auto). rewrite Ec. auto.
        - destruct (mem_b Z.eqb (rid_of row) done) eqn:M.
          + apply (mem_b_In Z.eqb reflects_Z) in M.
            rewrite (proj2 (mem_b_In Z.eqb reflects_Z (rid_of row) (done ++ [z]))) by (apply in_app_iff; auto). auto.
          + apply (mem_b_false Z.eqb reflects_Z) in M.
            rewrite (proj2 (mem_b_false Z.eqb reflects_Z (rid_of row) (done ++ [z]))); [auto|].
            rewrite in_app_iff. intros [X|[X|[]]]; auto. }
      destruct (IH tb1 rows (done ++ [z])%list H1) as (k & E & P1 & P2).
      * rewrite <- app_assoc. exact ND.
      * intros z0 v0 row Hi. apply Hv. right. auto.
      * exists (S k). cbn [firstn map fst nth_error]. rewrite E. rewrite <- app_assoc. cbn [app]. split; [auto|]. split; [auto|].
        intro Hn. destruct (P2 Hn) as [Q1 Q2]. split; [f_equal; auto|]. intros p [<-|Hp]; [exists v'; auto|auto].
    + exists 0%nat. cbn [firstn map nth_error snd]. rewrite app_nil_r, <- Ht, Ec. split; [destruct tb; auto|].
      split; [intros p Hp; injection Hp as <-; exists e; auto|discriminate].
Qed.

Lemma nodup_row_eq cs (r r' : trow) : NoDup cs -> map fst r = cs -> map fst r' = cs ->
  (forall c, In c cs -> tcell r c = tcell r' c) -> r = r'.
Proof.
  intros N E E' A. rewrite <- (proj_self r) by congruence. rewrite <- (proj_self r') by congruence. rewrite E, E'.
  apply proj_ext. auto.
Qed.
Lemma changed_proj f c t cs r : NoDup cs -> In c cs -> NoDup (map fst r) -> In c (map fst r) ->
  proj cs (changed f c t r) = changed f c t (proj cs r).
Proof.
  intros N I N' I'. apply nodup_row_eq with (cs := cs); auto; [apply proj_keys|rewrite keys_changed; apply proj_keys|].
  intros d Hd. rewrite tcell_proj by auto. unfold changed. rewrite (tcell_proj cs r c) by auto.
  destruct (call f (tcell r c)) as [v|]; [|rewrite tcell_proj; auto]. rewrite !tcell_set, proj_keys.
  rewrite (proj2 (mem_b_In String.eqb reflects_string c _) I), (proj2 (mem_b_In String.eqb reflects_string c _) I').
  rewrite (tcell_proj cs r d) by auto. auto.
Qed.
Lemma upto_proj f c t cs done r : NoDup cs -> In "rid" cs -> In c cs -> NoDup (map fst r) -> In c (map fst r) ->
  proj cs (upto f c t done r) = upto f c t done (proj cs r).
Proof.
  intros N R I N' I'. unfold upto. rewrite rid_proj by auto. destruct (mem_b _ _ _); [|auto]. apply changed_proj; auto.
Qed.

Lemma changed_wf f c t done tb : wf_table tb -> c <> "rid" -> assoc String.eqb c (tb_types tb) = Some t ->
  wf_table (mkTable (tb_types tb) (map (upto f c t done) (tb_rows tb))).
Proof.
  intros W N A. assert (Ic : In c (tb_cols tb)) by (eapply assoc_In_key; eauto).
  assert (Er : forall r, rid_of (upto f c t done r) = rid_of r)
    by (intro r; unfold upto; destruct (mem_b _ _ _); [apply rid_changed; auto|auto]).
  constructor; unfold tb_cols; cbn [tb_types tb_rows].
  - apply (wt_nodup _ W).
  - apply (wt_ids _ W).
  - intros r Hr. apply in_map_iff in Hr. destruct Hr as [r0 [<- Hr]]. unfold upto.
    destruct (mem_b _ _ _); [rewrite keys_changed|]; apply (wt_keys _ W); auto.
  - intros r Hr. apply in_map_iff in Hr. destruct Hr as [r0 [<- Hr]]. destruct (wt_rid _ W r0 Hr) as [z Hz]. exists z.
    unfold upto. destruct (mem_b _ _ _); [rewrite changed_other by congruence|]; auto.
  - rewrite map_map. rewrite (map_ext _ rid_of) by apply Er. apply (wt_uniq _ W).
  - intros r d u v Hr Hu Hv. apply in_map_iff in Hr. destruct Hr as [r0 [<- Hr]]. unfold upto in Hv.
    destruct (mem_b Z.eqb (rid_of r0) done); [|eapply (wt_typed _ W); eauto].
    unfold changed in Hv. destruct (call f (tcell r0 c)) as [v'|]; [|eapply (wt_typed _ W); eauto].
    rewrite tcell_set in Hv. destruct (String.eqb_spec d c) as [->|Nd]; [|eapply (wt_typed _ W); eauto].
    rewrite (wt_keys _ W r0 Hr) in Hv. rewrite (proj2 (mem_b_In String.eqb reflects_string c _) Ic) in Hv. cbn [andb] in Hv.
    injection Hv as <-. rewrite A in Hu. injection Hu as <-. apply affine_idem.
Qed.

(** Every row is as before or changed; on success every row is changed. *)
Definition mixed (f : value -> res value) (c : string) (t : dtype) (rows rows' : list trow) : Prop :=
  exists done : list Z, Permutation rows' (map (upto f c t done) rows).
Definition all_ok (f : value -> res value) (c : string) (rows : list trow) : Prop :=
  forall row, In row rows -> exists v, call f (tcell row c) = Ok v.

Lemma upto_all f c t done rows : (forall row, In row rows -> In (rid_of row) done) ->
  map (upto f c t done) rows = map (changed f c t) rows.
Proof.
  intro A. apply map_ext_in. intros row Hr. unfold upto. rewrite (proj2 (mem_b_In Z.eqb reflects_Z _ _) (A row Hr)). auto.
Qed.

Lemma apply_same_spec ord f c t w i x ts w' r : permuting ord -> Base w -> settledw w i -> w_inst w i = Some x ->
  w_open w = 0%nat -> i_types x = Some ts -> assoc String.eqb c ts = Some t -> In c (i_cols x) -> c <> "rid" ->
  apply_same inode ord i c f w = (w', r) ->
  works w w' i /\ settledw w' i /\
  exists rows', has w' i (i_cols x) (i_types x) (i_ids x) rows' /\
    mixed f c t (den (tables w (i_path x)) x) rows' /\
    (r = Ok tt -> rows' = map (changed f c t) (den (tables w (i_path x)) x) /\ all_ok f c (den (tables w (i_path x)) x)) /\
    (can_build x -> all_ok f c (den (tables w (i_path x)) x) -> r = Ok tt).
Proof.
  intros P B S H Op Ht Ha Hc Nc E. unfold apply_same in E.
  destruct (optimize inode i false w) as [w1 r1] eqn:Eo.
  destruct (optimize_spec inode w i x false w1 r1 B S H Eo) as (Q & C & Ok1 & _ & _).
  pose proof (quiet_works_any inode w w1 i x i H B Q) as W1. pose proof (qu_base _ _ _ _ Q) as B1.
  pose proof (quiet_keeps inode w w1 i x H B Q) as K1.
  destruct r1 as [[]|e].
  2:{ rewrite (andthen_err _ _ _ _ _ Eo) in E. injection E as <- <-. split; [auto|]. split; [apply K1|].
      exists (den (tables w (i_path x)) x). split; [apply (has_same inode w); [apply K1|apply has_self; auto]|].
      split; [exists []; unfold upto; cbn [mem_b existsb]; rewrite map_id; apply Permutation_refl|]. split; [discriminate|].
      intros Cb. specialize (C Cb). discriminate. }
  rewrite (andthen_ok _ _ _ _ _ Eo) in E.
  destruct (Ok1 eq_refl Op) as (y & Hy & Sy & Soy). specialize (Soy ltac:(intros [? ?]; discriminate)).
  destruct (qu_self _ _ _ _ Q x H) as (y' & Hy' & F & Nm & St & D). rewrite Hy in Hy'. injection Hy' as <-.
  destruct F as (F1 & F2 & F3 & F4 & F5 & F6).
  rewrite (andthen_ok _ _ _ _ _ (self_ok i w1 y Hy)) in E.
  destruct (read_spec inode w1 i y B1 (proj2 K1) Hy) as (rows & Ft & Z & Sr).
  rewrite (andthen_ok _ _ _ _ _ Sr) in E.
  destruct (table_i inode w1 i y B1 Hy) as (tb & T & Wf).
  destruct St as (ND & Rid & tb0 & T0 & L & Inc). rewrite T in T0. injection T0 as <-. rewrite Sy in Inc.
  assert (Dt : den (tables w1 (i_path y)) y = map (proj (i_cols y)) (tb_rows tb)).
  { unfold den, curr_source. rewrite Sy. cbn [eval]. rewrite T. auto. }
  assert (Hcy : In c (i_cols y)) by (rewrite F2; auto).
  set (g := fun row : trow => (rid_of row, tcell row c)).
  assert (Td : mapM (fun r => v <- pick_cell (zip_row y r) c ;; z <- pick_cell (zip_row y r) "rid" ;;
                     match z with Some (VInt n) => Ok (n, v) | _ => Err KeyError end) (ord rows) =
               Ok (map (fun r => g (zip_row y r)) (ord rows))).
  { apply mapM_all. intros row Hr.
    assert (Hz : In (zip_row y row) (den (tables w1 (i_path y)) y)).
    { rewrite <- Z. apply in_map. apply (Permutation_in _ (P rows)). auto. }
    rewrite Dt in Hz. apply in_map_iff in Hz. destruct Hz as [r0 [<- Hr0]]. unfold pick_cell.
    rewrite !assoc_proj by auto. cbn [bind]. destruct (wt_rid _ Wf r0 Hr0) as [z Hz]. unfold g.
    rewrite rid_proj by auto. rewrite tcell_proj by auto. unfold rid_of. rewrite Hz. auto. }
  rewrite (andthen_ok _ _ w1 w1 (map (fun r => g (zip_row y r)) (ord rows))) in E by (unfold lift; rewrite Td; auto).
  rewrite T in E.
  assert (At : assoc String.eqb c (tb_types tb) = Some t) by (apply (L ts c t); auto; rewrite ?F3; auto).
  assert (Ic : In c (tb_cols tb)) by (apply Inc; auto).
  rewrite (proj2 (in_cols_In c (tb_cols tb)) Ic) in E. cbn [negb] in E.
  assert (Ca : col_affinity tb c = t) by (unfold col_affinity; rewrite At; auto). rewrite Ca in E.
  set (todo := map (fun r => g (zip_row y r)) (ord rows)) in *.
  assert (Pt : Permutation todo (map g (map (proj (i_cols y)) (tb_rows tb)))).
  { rewrite <- Dt, <- Z, map_map. unfold todo. apply Permutation_map. apply P. }
  assert (Pf : Permutation (map fst todo) (map rid_of (tb_rows tb))).
  { rewrite (Permutation_map fst Pt), !map_map. apply Permutation_refl'. apply map_ext. intro r0. apply rid_proj. auto. }
  destruct (update_rows_spec f c t Nc todo tb (tb_rows tb) []) as (k & Eu & P1 & P2).
  { symmetry. unfold upto. cbn [mem_b existsb]. apply map_id. }
  { cbn [app]. apply (Permutation_NoDup (Permutation_sym Pf)). apply (wt_uniq _ Wf). }
  { intros z v row Hi Hr Er. apply (Permutation_in _ Pt) in Hi. rewrite map_map in Hi. apply in_map_iff in Hi.
    destruct Hi as [r0 [Eg Hr0]]. unfold g in Eg. assert (E1 : rid_of (proj (i_cols y) r0) = z) by congruence.
    assert (E2 : tcell (proj (i_cols y) r0) c = v) by congruence. rewrite rid_proj in E1 by auto. rewrite tcell_proj in E2 by auto.
    rewrite <- E2. f_equal.
    assert (U : NoDup (map rid_of (tb_rows tb))) by apply (wt_uniq _ Wf). clear - U Hr Hr0 E1 Er. subst z.
    induction (tb_rows tb) as [|a l IH]; [destruct Hr|]. inversion U as [|? ? Na Nl]; subst. destruct Hr as [->|Hr], Hr0 as [->|Hr0]; auto.
    - exfalso. apply Na. rewrite <- E1. apply in_map. auto.
    - exfalso. apply Na. rewrite E1. apply in_map. auto. }
  cbn [app] in Eu. set (done := map fst (firstn k todo)) in *. rewrite Eu in E.
  set (tb' := mkTable (tb_types tb) (map (upto f c t done) (tb_rows tb))) in *.
  assert (Wf' : wf_table tb') by (apply changed_wf; auto).
  injection E as <- Er.
  change (set_tables w1 (i_path y) (upd_str (tables w1 (i_path y)) (i_table y) (Some tb'))) with (repl inode w1 (i_path y) (i_table y) tb').
  set (w2 := repl inode w1 (i_path y) (i_table y) tb').
  assert (T2 : tables w2 (i_path y) (i_table y) = Some tb') by apply repl_same.
  assert (Ny : i_n y = length (tb_rows tb)).
  { rewrite <- (den_length inode w1 i y B1 Hy), Dt, map_length. auto. }
  assert (B2 : Base w2).
  { apply Base_repl with (tb0 := tb); auto. intros j z Hz Ei Et. fold w2.
    pose proof (b_alias inode w1 B1 j z i y Hz Hy Ei) as Ep. pose proof (Soy j z Hz Ep Et) as Ej. subst j.
    rewrite Hy in Hz. injection Hz as <-. exists tb', (tb_cols tb'), (tb_rows tb'). split; [exact T2|].
    unfold curr_source. rewrite Sy. split; [auto|]. split; [cbn [eval]; rewrite T2; auto|]. split; [apply wt_rid_in; auto|].
    cbn [tb' tb_rows]. rewrite map_length. auto. }
  assert (U2 : forall j, j <> i -> unchanged w1 w2 j).
  { intros j N. split; [auto|]. intros z Hz. apply repl_other. intros [Ei Et].
    apply N. apply (Soy j z Hz); auto. exact (b_alias inode w1 B1 j z i y Hz Hy Ei). }
  assert (D2 : den (tables w2 (i_path y)) y = map (upto f c t done) (den (tables w (i_path x)) x)).
  { rewrite <- D, Dt. unfold den, curr_source. rewrite Sy. cbn [eval]. rewrite T2. cbn [tb' tb_rows]. rewrite !map_map.
    apply map_ext_in. intros r0 Hr0. apply upto_proj; auto; rewrite (wt_keys _ Wf r0 Hr0); auto. apply (wt_nodup _ Wf). }
  split; [eapply works_trans; [exact W1|]; apply unchanged_works; auto|].
  split.
  { intros z Hz. change (w_inst w2) with (w_inst w1) in Hz. rewrite Hy in Hz. injection Hz as <-. split; [auto|]. split; [auto|].
    exists tb'. split; [exact T2|]. rewrite Sy. split; [exact L|exact Inc]. }
  exists (map (upto f c t done) (den (tables w (i_path x)) x)). split.
  { exists y. split; [auto|]. split; [auto|]. split; [auto|]. split; [auto|]. split; [exact D2|].
    rewrite map_length, (den_length inode w i x) by auto. congruence. }
  split; [exists done; apply Permutation_refl|].
  assert (Dn : den (tables w (i_path x)) x = map (proj (i_cols y)) (tb_rows tb)) by (rewrite <- D; auto).
  assert (Ino : forall row, In row (den (tables w (i_path x)) x) <-> exists r0, In r0 (tb_rows tb) /\ row = proj (i_cols y) r0).
  { intro row. rewrite Dn, in_map_iff. split; intros [r0 [? ?]]; exists r0; auto. }
  split.
  - intros ->. destruct (nth_error todo k) as [p|] eqn:En.
    { destruct (P1 p eq_refl) as [e He]. rewrite He in Er. discriminate. }
    destruct (P2 eq_refl) as [Q1 Q2]. split.
    + apply upto_all. intros row Hr. unfold done. rewrite Q1.
      apply (Permutation_in _ (Permutation_map fst (Permutation_sym Pt))). rewrite !map_map.
      apply Ino in Hr. destruct Hr as [r0 [Hr0 ->]]. apply (in_map (fun r => fst (g (proj (i_cols y) r))) _ _ Hr0).
    + intros row Hr. rewrite Dn in Hr. destruct (Q2 (g row)) as [v Hv]; [|exists v; exact Hv].
      apply (Permutation_in _ (Permutation_sym Pt)). apply in_map. auto.
  - intros _ Al. destruct (nth_error todo k) as [p|] eqn:En; [|auto].
    destruct (P1 p eq_refl) as [e He]. apply nth_error_In in En. apply (Permutation_in _ Pt) in En.
    apply in_map_iff in En. destruct En as [row [<- Hr]]. rewrite <- Dn in Hr. destruct (Al row Hr) as [v Hv].
    cbn [g snd] in He. congruence.
Qed.

(** ** Changing the type of a column *)

(** Worlds with the same tables *)
Definition files_eq (w w' : world) : Prop := forall n,
  match w_file w n, w_file w' n with
  | Some f, Some g => forall t, f t = g t
  | None, None => True
  | _, _ => False
  end.
Lemma files_eq_tables w w' : files_eq w w' -> forall p t, tables w' p t = tables w p t.
Proof.
  intros Fe p t. specialize (Fe (inode p)). unfold DbModel.tables.
  destruct (w_file w (inode p)), (w_file w' (inode p)); auto; try contradiction.
Qed.
Lemma Base_files_eq w w' : Base w -> files_eq w w' -> w_inst w' = w_inst w -> w_dbs w' = w_dbs w -> w_tabs w' = w_tabs w ->
  w_next w' = w_next w -> w_fresh w' = w_fresh w -> Base w'.
Proof.
  intros [B1 B2 B3 B4 B5 B6 B7 B8 B9] Fe E1 E2 E3 E4 E5. constructor.
  - intros n f t tb Hn Ht. specialize (Fe n). rewrite Hn in Fe. destruct (w_file w n) as [g|] eqn:G; [|contradiction].
    rewrite <- Fe in Ht. eauto.
  - intros i x H. rewrite E1 in H. apply src_ok_ext with (ts := tables w (i_path x)); [apply files_eq_tables; auto|eauto].
  - intros p t l. rewrite E3, E1. exact (B3 p t l).
  - intros i x. rewrite E3, E1. exact (B4 i x).
  - intros p l. rewrite E2, E1. exact (B5 p l).
  - intros i x. rewrite E2, E1. exact (B6 i x).
  - intro i. rewrite E1, E4. exact (B7 i).
  - intros n f k Hn Hk. rewrite E5 in Hk. specialize (Fe n). rewrite Hn in Fe. destruct (w_file w n) as [g|] eqn:G; [|contradiction].
    rewrite <- Fe. eauto.
  - intros i x j y. rewrite E1. apply B9.
Qed.

(** Adding a new table nobody uses. *)
Lemma add_table w p tb : Base w -> w_file w (inode p) <> None -> wf_table tb ->
  let w' := set_tables (set_fresh w (S (w_fresh w))) p (upd_str (tables w p) (tname (w_fresh w)) (Some tb)) in
  Base w' /\ forall j, unchanged w w' j.
Proof.
  intros B Hf Wt w'. destruct (w_file w (inode p)) as [f|] eqn:Ef; [clear Hf|congruence].
  assert (Tf : tables w p = f) by (unfold DbModel.tables; rewrite Ef; auto).
  assert (U : forall j x, w_inst w j = Some x -> tables w' (i_path x) (i_table x) = tables w (i_path x) (i_table x)).
  { intros j x H. unfold w'. rewrite tables_set. destruct (Nat.eqb_spec (inode (i_path x)) (inode p)) as [E|E]; [|auto].
    destruct (b_inst inode w B j x H) as (tb0 & _ & _ & T & _).
    rewrite upd_str_other; [unfold DbModel.tables; rewrite E; auto|]. intro X. rewrite X in T.
    rewrite (Base_tables_fresh inode w (i_path x) (w_fresh w)) in T; auto. discriminate. }
  split; [|intro j; split; [auto|exact (U j)]].
  destruct B as [B1 B2 B3 B4 B5 B6 B7 B8 B9]. constructor; auto.
  - intros n g t tb0 Hn Ht. change (w_file w') with (upd_nat (w_file w) (inode p) (Some (upd_str (tables w p) (tname (w_fresh w)) (Some tb)))) in Hn. unfold upd_nat in Hn. destruct (Nat.eqb_spec n (inode p)) as [->|N]; [|eauto].
    injection Hn as <-. unfold upd_str in Ht. destruct (String.eqb t (tname (w_fresh w))); [injection Ht as <-; auto|]. rewrite Tf in Ht. eauto.
  - intros j x H. apply src_ok_ext with (ts := tables w (i_path x)); [exact (U j x H)|exact (B2 j x H)].
  - intros n g k Hn Hk. change (w_file w') with (upd_nat (w_file w) (inode p) (Some (upd_str (tables w p) (tname (w_fresh w)) (Some tb)))) in Hn. unfold upd_nat in Hn. change (w_fresh w') with (S (w_fresh w)) in Hk. destruct (Nat.eqb_spec n (inode p)) as [->|N].
    + injection Hn as <-. rewrite upd_str_other; [rewrite Tf; apply (B8 _ _ _ Ef); lia|]. intro X. apply tname_inj in X. lia.
    + eapply B8; eauto. lia.
Qed.

Lemma apply_cell_none f c (r : trow) : ~ In c (map fst r) -> apply_cell f c r = Ok r.
Proof.
  induction r as [|[d u] r IH]; intro N; [auto|]. unfold apply_cell in *. cbn [mapM fst snd].
  destruct (String.eqb_spec d c) as [->|E]; [exfalso; apply N; left; auto|]. cbn [bind].
  rewrite IH by (intro X; apply N; right; auto). auto.
Qed.
Lemma set_tcell_none c v (r : trow) : ~ In c (map fst r) -> set_tcell c v r = r.
Proof.
  induction r as [|[d u] r IH]; intro N; [auto|]. unfold set_tcell in *. cbn [map fst].
  destruct (String.eqb_spec d c) as [->|E]; [exfalso; apply N; left; auto|]. f_equal. apply IH. intro X. apply N. right. auto.
Qed.
Lemma apply_cell_eq f c (r : trow) : NoDup (map fst r) -> In c (map fst r) ->
  apply_cell f c r = match call f (tcell r c) with Ok v => Ok (set_tcell c (Some v) r) | Err e => Err e end.
Proof.
  induction r as [|[d u] r IH]; [intros _ []|]. cbn [map fst]. intros N I. inversion N as [|? ? Nd Nr]; subst.
  rewrite tcell_cons. unfold apply_cell. cbn [mapM fst snd].
  destruct (String.eqb_spec d c) as [Ed|E].
  - subst d. rewrite String.eqb_refl. destruct (call f u) as [v|e]; [|auto]. cbn [bind].
    pose proof (apply_cell_none f c r Nd) as A. unfold apply_cell in A. rewrite A. cbn [bind].
    unfold set_tcell. cbn [map fst]. rewrite String.eqb_refl. f_equal. f_equal. symmetry. exact (set_tcell_none c (Some v) r Nd).
  - destruct (String.eqb_spec c d) as [X|_]; [congruence|]. cbn [bind]. destruct I as [X|I]; [congruence|].
    specialize (IH Nr I). unfold apply_cell in IH. rewrite IH. destruct (call f (tcell r c)) as [v|e]; [|auto]. cbn [bind].
    unfold set_tcell. cbn [map fst]. destruct (String.eqb_spec d c); [congruence|auto].
Qed.

Lemma mapM_cases {A B} (f : A -> res B) l :
  (exists bs, mapM f l = Ok bs /\ Forall2 (fun a b => f a = Ok b) l bs) \/
  (exists e a, mapM f l = Err e /\ In a l /\ f a = Err e).
Proof.
  induction l as [|a l IH]; [left; exists []; auto|]. cbn [mapM]. destruct (f a) as [b|e] eqn:E.
  - cbn [bind]. destruct IH as [(bs & Hm & F)|(e & a' & Hm & I & He)]; rewrite Hm; cbn [bind].
    + left. exists (b :: bs). auto.
    + right. exists e, a'. split; [auto|]. split; [right; auto|auto].
  - right. exists e, a. split; [auto|]. split; [left; auto|auto].
Qed.

Lemma apply_retyped_spec ord f c t w i x ts w' r : permuting ord -> Base w -> settledw w i -> w_inst w i = Some x ->
  i_types x = Some ts -> In c (i_cols x) -> ~ In c id_cols ->
  apply_retyped inode ord i c f t w = (w', r) ->
  works w w' i /\
  exists rows' ts', has w' i (i_cols x) ts' (i_ids x) rows' /\
    (forall e, r = Err e -> rows' = den (tables w (i_path x)) x) /\
    (r = Ok tt -> settledw w' i /\ ts' = Some (assoc_set String.eqb c t ts) /\
        Permutation rows' (map (changed f c t) (den (tables w (i_path x)) x)) /\ all_ok f c (den (tables w (i_path x)) x)) /\
    (can_build x -> all_ok f c (den (tables w (i_path x)) x) -> r = Ok tt).
Proof.
  intros P B S H Ht Hc Nc E. unfold apply_retyped in E.
  destruct (read_spec inode w i x B S H) as (rows & Ft & Z & Sr). rewrite (andthen_ok _ _ _ _ _ Sr) in E.
  rewrite (andthen_ok _ _ _ _ _ (self_ok i w x H)) in E. rewrite Ht in E.
  set (y := set_types x (Some (assoc_set String.eqb c t ts))) in *.
  set (w1 := set_insts w (upd_nat (w_inst w) i (Some y))) in *.
  rewrite (andthen_ok _ _ w w1 tt) in E by reflexivity.
  assert (So : src_ok (tables w (i_path x)) y) by (destruct (b_inst inode w B i x H) as (tb & cs & rr & X); exists tb, cs, rr; exact X).
  pose proof (put_works inode w i x y B H eq_refl eq_refl So) as W1. fold w1 in W1. pose proof (wk_base _ _ _ _ W1) as B1.
  assert (H1 : w_inst w1 i = Some y) by (cbn; apply upd_nat_same).
  assert (Ch : forall d, In d (i_cols x) -> assoc String.eqb d (assoc_set String.eqb c t ts) = if String.eqb d c then Some t else assoc String.eqb d ts)
    by (intros; apply assoc_set_get).
  destruct (S x H) as (ND & Rid & tb & T & L & C). pose proof (Base_tables_wf inode w _ _ _ B T) as Wf.
  destruct (den_shape _ _ _ Wf T (b_inst inode w B i x H) (S x H)) as (Pf & ds & Ev & I1 & I2 & Len & D).
  (* failing leaves the rows alone *)
  assert (Fail : forall w3, (forall j, unchanged w1 w3 j) -> Base w3 ->
     works w w3 i /\ has w3 i (i_cols x) (Some (assoc_set String.eqb c t ts)) (i_ids x) (den (tables w (i_path x)) x)).
  { intros w3 U B3. split; [eapply works_trans; [exact W1|]; apply unchanged_works; auto|].
    exists y. destruct (U i) as [U1 U2]. split; [congruence|]. split; [auto|]. split; [auto|]. split; [auto|].
    rewrite (unchanged_den inode w1 w3 i y B1 (U i) H1). split; [auto|]. symmetry. apply (den_length inode w i x); auto. }
  set (w2 := set_fresh w1 (Datatypes.S (w_fresh w1))) in *.
  rewrite (andthen_ok _ _ w1 w2 (tname (w_fresh w))) in E by reflexivity.
  assert (CB : can_build x -> can_build y).
  { intros [Rq (ts0 & Ht0 & A)]. rewrite Ht in Ht0. injection Ht0 as <-. split; [auto|]. exists (assoc_set String.eqb c t ts).
    split; [auto|]. intros d Hd Nd. rewrite Ch by auto. destruct (String.eqb d c); [eauto|auto]. }
  destruct (build_types y) as [types|e] eqn:Eb.
  2:{ unfold lift, andthen in E. injection E as <- <-.
      destruct (Fail w2) as [G1 G2]; [intro j; split; auto|apply Base_fresh; auto|].
      split; [auto|]. exists (den (tables w (i_path x)) x), (Some (assoc_set String.eqb c t ts)). split; [auto|]. split; [auto|].
      split; [discriminate|]. intros Cb. destruct (CB Cb) as [Rq (ts0 & Ht0 & A)].
      destruct (build_types_some y ts0 Ht0 Rq A) as [? ?]. congruence. }
  rewrite (andthen_ok _ _ w2 w2 types) in E by reflexivity.
  destruct (build_types_ok y types ND Eb) as (N1 & N2 & N3 & N4 & N5 & ts0 & Hts & N6). injection Hts as <-.
  set (tb0 := mkTable types []) in *.
  set (w3 := set_tables w2 (i_path y) (upd_str (tables w2 (i_path y)) (tname (w_fresh w)) (Some tb0))) in *.
  rewrite (andthen_ok _ _ w2 w3 tt) in E by reflexivity.
  assert (Wf0 : wf_table tb0).
  { constructor; [exact N1|exact N2|intros ? []|intros ? []|apply NoDup_nil|intros ? ? ? ? []]. }
  destruct (add_table w1 (i_path y) tb0 B1) as [B3 U3]; [|exact Wf0|].
  { destruct (Base_file inode w1 i y B1 H1) as [f0 ->]. discriminate. }
  change (set_tables (set_fresh w1 (Datatypes.S (w_fresh w1))) (i_path y) (upd_str (tables w1 (i_path y)) (tname (w_fresh w1)) (Some tb0))) with w3 in B3, U3.
  assert (Keys : forall row, In row (den (tables w (i_path x)) x) -> map fst row = i_cols x).
  { intros row Hr. rewrite D in Hr. apply in_map_iff in Hr. destruct Hr as [r0 [<- _]]. apply proj_keys. }
  set (app := fun row : trow => apply_cell f c row).
  assert (Emap : mapM (fun r => apply_cell f c (zip_row y r)) (ord rows) = mapM app (map (zip_row x) (ord rows))).
  { unfold app. generalize (ord rows). intro l. induction l as [|a l IH]; [auto|]. cbn [mapM map]. rewrite IH. auto. }
  set (l := map (zip_row x) (ord rows)) in *.
  assert (Pl : Permutation l (den (tables w (i_path x)) x)) by (rewrite <- Z; apply Permutation_map, P).
  assert (Kl : forall row, In row l -> NoDup (map fst row) /\ In c (map fst row)).
  { intros row Hr. apply (Permutation_in _ Pl) in Hr. rewrite (Keys row Hr). auto. }
  destruct (mapM_cases app l) as [(rs & Em & F2)|(e & row & Em & Hr & He)]; rewrite <- Emap in Em.
  2:{ unfold lift, andthen in E. rewrite Em in E. injection E as <- <-.
      destruct (Fail w3 U3 B3) as [G1 G2]. split; [auto|].
      exists (den (tables w (i_path x)) x), (Some (assoc_set String.eqb c t ts)). split; [auto|]. split; [auto|]. split; [discriminate|].
      intros _ Al. exfalso. destruct (Kl row Hr) as [K1 K2]. destruct (Al row (Permutation_in _ Pl Hr)) as [v Hv].
      unfold app in He. rewrite apply_cell_eq, Hv in He by auto. discriminate. }
  rewrite (andthen_ok _ _ w3 w3 rs) in E by (unfold lift; rewrite Em; auto).
  assert (Ers : forall row row', In row l -> app row = Ok row' -> exists v, call f (tcell row c) = Ok v /\ row' = set_tcell c (Some v) row).
  { intros row row' Hr He. destruct (Kl row Hr) as [K1 K2]. unfold app in He. rewrite apply_cell_eq in He by auto.
    destruct (call f (tcell row c)) as [v|]; [|discriminate]. exists v. split; [auto|congruence]. }
  assert (Nr : c <> "rid") by (intros ->; apply Nc; cbn; auto).
  assert (RidL : forall row, In row l -> exists z, tcell row "rid" = Some (VInt z)).
  { intros row Hr. apply (Permutation_in _ Pl) in Hr. rewrite D in Hr. apply in_map_iff in Hr. destruct Hr as [r0 [<- Hr]].
    apply filter_In in Hr. exact (proj_rid_int tb (i_cols x) r0 Wf (proj1 Hr) Rid). }
  assert (All : all_ok f c (den (tables w (i_path x)) x)).
  { intros row Hr. apply (Permutation_in _ (Permutation_sym Pl)) in Hr.
    assert (X : exists row', app row = Ok row').
    { clear - F2 Hr. induction F2 as [|a b l bs Hab F IH]; [destruct Hr|]. destruct Hr as [<-|Hr]; eauto. }
    destruct X as [row' X]. destruct (Ers row row' Hr X) as (v & Hv & _). eauto. }
  assert (RidR : forall row', In row' rs -> exists z, tcell row' "rid" = Some (VInt z)).
  { intros row' Hr. assert (X : exists row, In row l /\ app row = Ok row').
    { clear - F2 Hr. induction F2 as [|a b l bs Hab F IH]; [destruct Hr|]. destruct Hr as [<-|Hr]; [exists a; split; [left; auto|auto]|].
      destruct (IH Hr) as [row [? ?]]. exists row. split; [right; auto|auto]. }
    destruct X as (row & Hl & X). destruct (Ers row row' Hl X) as (v & _ & ->). destruct (RidL row Hl) as [z Hz]. exists z.
    rewrite tcell_set. destruct (String.eqb_spec "rid" c); [congruence|auto]. }
  assert (Rids : map rid_of rs = map rid_of l).
  { clear - F2 Ers Nr. induction F2 as [|a b l bs Hab F IH]; [auto|]. cbn [map]. rewrite IH by (intros; apply Ers; [right; auto|auto]).
    destruct (Ers a b (or_introl eq_refl) Hab) as (v & _ & ->). rewrite rid_set by auto. auto. }
  assert (NDr : NoDup (map rid_of rs)).
  { rewrite Rids. apply (Permutation_NoDup (Permutation_map rid_of (Permutation_sym Pl))). rewrite D, map_rid_proj by auto.
    apply NoDup_map_filter, (wt_uniq _ Wf). }
  destruct (fill_ok types rs N1 (N2 "rid" (or_introl eq_refl)) RidR NDr) as [tb1 Ef].
  rewrite (andthen_ok _ _ w3 w3 tb1) in E by (unfold lift; rewrite Ef; auto).
  destruct (fill_wf types rs tb1 N1 N2 RidR Ef) as (Wf1 & Ety & Erow).
  pose proof (b_tabs2 inode w B i x H) as Nt. destruct (w_tabs w (i_path x) (i_table x)) as [ul|] eqn:Etl; [clear Nt|congruence].
  destruct (b_tabs inode w B _ _ _ Etl) as [Nul Iul].
  assert (Mi : mem_b Nat.eqb i ul = true) by (apply (mem_b_In Nat.eqb reflects_nat); apply Iul; eauto).
  unfold move_to in E.
  set (w4 := set_tables w3 (i_path y) (upd_str (tables w3 (i_path y)) (tname (w_fresh w)) (Some tb1))) in *.
  rewrite (andthen_ok _ _ w3 w4 tt) in E by reflexivity.
  rewrite (andthen_ok _ _ w4 w4 ul) in E
    by (change (w_tabs w4 (i_path y) (i_table y)) with (w_tabs w (i_path x) (i_table x)); rewrite Etl, Mi; auto).
  set (z := set_state (set_table y (tname (w_fresh w))) None) in *.
  unfold modify, put, andthen in E. cbn beta iota zeta in E.
  assert (Ec : tb_cols tb1 = map fst types) by (unfold tb_cols; rewrite Ety; auto).
  assert (Lz : length (tb_rows tb1) = i_n x).
  { rewrite Erow, map_length, <- (map_length rid_of rs), Rids, map_length, (Permutation_length Pl). apply (den_length inode w i x); auto. }
  assert (Sz : src_ok (upd_str (tables w1 (i_path y)) (tname (w_fresh w1)) (Some tb1)) z).
  { exists tb1, (tb_cols tb1), (tb_rows tb1). cbn [z set_state set_table i_table curr_source i_state base eval i_n].
    change (w_fresh w1) with (w_fresh w). rewrite upd_str_same. split; [auto|]. split; [auto|]. split; [auto|].
    split; [apply wt_rid_in; auto|exact Lz]. }
  destruct (Base_move inode w1 i y tb1 ul z B1 H1 Wf1 Etl eq_refl eq_refl Sz) as (Bm & Um & Sm & Tm).
  assert (Fe : files_eq (move_world inode w1 i y tb1 ul z) w').
  { injection E as <- _. intro n.
    change (w_file (move_world inode w1 i y tb1 ul z) n) with
      (upd_nat (w_file w) (inode (i_path x)) (Some (upd_str (tables w (i_path x)) (tname (w_fresh w)) (Some tb1))) n).
    match goal with |- match _ with Some _ => match w_file ?v n with _ => _ end | None => _ end =>
      change (w_file v n) with (upd_nat (w_file w3) (inode (i_path x)) (Some (upd_str (tables w3 (i_path x)) (tname (w_fresh w)) (Some tb1))) n) end.
    change (w_file w3) with (upd_nat (w_file w) (inode (i_path x)) (Some (upd_str (tables w (i_path x)) (tname (w_fresh w)) (Some tb0)))).
    unfold upd_nat. destruct (Nat.eqb_spec n (inode (i_path x))) as [->|N].
    - intro u. unfold upd_str. destruct (String.eqb u (tname (w_fresh w))) eqn:Eu; [auto|]. unfold w3. change (i_path y) with (i_path x).
      rewrite tables_set_same. unfold upd_str. rewrite Eu. auto.
    - destruct (w_file w n); auto. }
  injection E as Ew Er. symmetry in Er. subst r.
  assert (Bf : Base w').
  { apply (Base_files_eq (move_world inode w1 i y tb1 ul z) w' Bm Fe); rewrite <- Ew; reflexivity. }
  assert (Ii : w_inst w' = w_inst (move_world inode w1 i y tb1 ul z)) by (rewrite <- Ew; reflexivity).
  assert (Ta : forall p u, tables w' p u = tables (move_world inode w1 i y tb1 ul z) p u) by (apply files_eq_tables; auto).
  assert (Uf : forall j, j <> i -> unchanged w1 w' j).
  { intros j N. destruct (Um j N) as [Q1 Q2]. split; [rewrite Ii; auto|]. intros q Hq. rewrite Ta. auto. }
  assert (Hz : w_inst w' i = Some z) by (rewrite Ii; cbn; apply upd_nat_same).
  assert (Tz : tables w' (i_path x) (tname (w_fresh w)) = Some tb1).
  { rewrite Ta. change (i_path x) with (i_path y). rewrite Tm. apply upd_str_same. }
  assert (Ac : assoc String.eqb c types = Some t).
  { destruct (key_assoc c types (N4 c Hc)) as [t' Ht']. pose proof (N6 c t' Nc Ht') as X. rewrite Ch, String.eqb_refl in X by auto. congruence. }
  assert (Ad : forall d u, In d (i_cols x) -> d <> c -> assoc String.eqb d types = Some u -> assoc String.eqb d (tb_types tb) = Some u).
  { intros d u Hd Nd Hu. destruct (in_dec string_dec d id_cols) as [Hi|Hn].
    - rewrite (N2 d Hi) in Hu. injection Hu as <-. apply (wt_ids _ Wf); auto.
    - pose proof (N6 d u Hn Hu) as X. rewrite Ch in X by auto. destruct (String.eqb_spec d c); [congruence|]. eapply L; eauto. }
  assert (Dz : den (tables w' (i_path z)) z = map (changed f c t) l).
  { unfold den. cbn [z set_state set_table i_table curr_source i_state i_cols eval]. change (i_path z) with (i_path x).
    rewrite Tz, Erow, map_map. assert (G : forall row row', In row l -> app row = Ok row' -> proj (i_cols x) (store types row') = changed f c t row).
    { intros row row' Hr He. destruct (Ers row row' Hr He) as (v & Hv & ->).
      pose proof (Permutation_in _ Pl Hr) as Hd. pose proof (Keys row Hd) as Kr.
      apply nodup_row_eq with (cs := i_cols x); auto; [apply proj_keys|rewrite keys_changed; auto|].
      intros d Hdc. rewrite tcell_proj by auto. unfold changed. rewrite Hv, tcell_set, Kr.
      rewrite (proj2 (mem_b_In String.eqb reflects_string c _) Hc), andb_true_r.
      destruct (key_assoc d types (N4 d Hdc)) as [u Hu]. rewrite (tcell_store _ _ _ u N1 Hu), tcell_set, Kr.
      rewrite (proj2 (mem_b_In String.eqb reflects_string c _) Hc), andb_true_r.
      destruct (String.eqb_spec d c) as [->|Nd].
      - rewrite Ac in Hu. injection Hu as <-. auto.
      - rewrite D in Hd. apply in_map_iff in Hd. destruct Hd as [r0 [<- Hr0]]. apply filter_In in Hr0. rewrite tcell_proj by auto.
        destruct (tcell r0 d) as [v0|] eqn:E0; [|auto]. cbn [option_map]. f_equal.
        apply (wt_typed _ Wf r0 d u v0); [tauto| |auto]. apply Ad; auto. }
    change (i_cols y) with (i_cols x).
    clear - F2 G. induction F2 as [|a b l bs Hab F IH]; [auto|]. cbn [map]. rewrite (G a b (or_introl eq_refl) Hab).
    f_equal. apply IH. intros; apply G; [right; auto|auto]. }
  split; [eapply works_trans; [exact W1|]; apply unchanged_works; auto|].
  exists (map (changed f c t) l), (Some (assoc_set String.eqb c t ts)). split.
  { exists z. split; [auto|]. split; [auto|]. split; [auto|]. split; [auto|]. split; [exact Dz|].
    rewrite map_length, (Permutation_length Pl). symmetry. apply (den_length inode w i x); auto. }
  split; [discriminate|]. split; [|auto]. intros _. split; [|split; [auto|split; [apply Permutation_map; auto|auto]]].
  intros q Hq. rewrite Hz in Hq. injection Hq as <-. split; [exact ND|]. split; [exact Rid|]. exists tb1. split; [exact Tz|].
  cbn [z set_state set_table set_types i_types i_cols i_state]. split.
  - intros types0 d u Hty Hd Hu. injection Hty as <-. rewrite Ety.
    destruct (key_assoc d types (N4 d Hd)) as [u' Hu']. rewrite Hu'. destruct (in_dec string_dec d id_cols) as [Hi|Hn].
    + rewrite (N2 d Hi) in Hu'. rewrite Ch in Hu by auto. destruct (String.eqb_spec d c) as [->|Nd]; [contradiction|].
      pose proof (L ts d u Ht Hd Hu) as X. rewrite (wt_ids _ Wf d Hi) in X. congruence.
    + rewrite <- (N6 d u' Hn Hu'). exact Hu.
  - rewrite Ec. exact N4.
Qed.
End Ops.
