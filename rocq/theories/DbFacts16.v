(** Looking up internal ids of a data set right after they were assigned. *)
From Coq Require Import String Ascii.
From Coq Require Import List ZArith QArith Qcanon Bool Permutation Lia.
From Verif Require Import Py PyFacts MemModel MemSpec DbModel DbFacts DbSpec DbFacts2 DbFacts3 DbFacts4
  DbFacts5 DbFacts6 DbFacts7 DbFacts8 DbFacts9 DbFacts10 DbFacts11 DbFacts12 DbFacts13 DbFacts14 DbFacts15.
Import ListNotations.
Open Scope string_scope.
Open Scope Z_scope.

Lemma index_of_nth {A} (eqb : A -> A -> bool) x l n : index_of eqb x l = Some n ->
  exists y, nth_error l n = Some y /\ eqb x y = true.
Proof.
  revert n. induction l as [|a l IH]; intros n E; cbn [index_of] in E; [discriminate|].
  destruct (eqb x a) eqn:X.
  - injection E as <-. exists a. auto.
  - destruct (index_of eqb x l) as [m|]; [|discriminate]. cbn [option_map] in E. injection E as <-.
    destruct (IH m eq_refl) as (y & Y1 & Y2). exists y. auto.
Qed.
Lemma dedup_sub {A} (eqb : A -> A -> bool) l x : In x (dedup eqb l) -> In x l.
Proof.
  unfold dedup. generalize (@nil A). induction l as [|a l IH]; intros seen H; cbn [dedup_acc] in H; [contradiction|].
  destruct (mem_b eqb a seen); [right; eapply IH; eauto|]. destruct H as [<-|H]; [left; auto|right; eapply IH; eauto].
Qed.
Lemma rank_inj raw rows a b u v : typed [raw] rows -> NoDup (map rid_of rows) -> In a rows -> In b rows ->
  tcell a raw = Some u -> tcell b raw = Some v -> rank raw rows (Some u) = rank raw rows (Some v) -> u = v.
Proof.
  intros T N Ha Hb Ea Eb R.
  destruct (index_rank raw rows a u T N Ha Ea) as (n & In1 & R1). destruct (index_rank raw rows b v T N Hb Eb) as (m & In2 & R2).
  assert (n = m) by lia. subst m. apply index_of_nth in In1. apply index_of_nth in In2.
  destruct In1 as (y & Y1 & Y2). destruct In2 as (z & Z1 & Z2). rewrite Y1 in Z1. injection Z1 as <-.
  assert (Iy : exists c, In c rows /\ tcell c raw = y).
  { apply nth_error_In in Y1. unfold distinct_raw in Y1.
    assert (X : In y (map (fun r => tcell r raw) (by_rid rows))).
    { revert Y1. apply dedup_sub. }
    apply in_map_iff in X. destruct X as (c & Ec & Hc). exists c. split; [|auto].
    exact (Permutation_in c (Permutation_sym (sort_by_perm (fun a b => rid_of a <=? rid_of b) rows)) Hc). }
  destruct Iy as (c & Hc & Ec). rewrite <- Ea, <- Ec in Y2. rewrite <- Eb, <- Ec in Z2.
  rewrite (typed_cell [raw] rows raw a c) in Y2 by (auto; left; auto).
  rewrite (typed_cell [raw] rows raw b c) in Z2 by (auto; left; auto). congruence.
Qed.

Section Lookup.
Variable inode : string -> nat.
Notation tables := (tables inode).
Notation Inv := (Inv inode).


Lemma find_some_or {A} (p : A -> bool) l : (exists a, find p l = Some a /\ In a l /\ p a = true) \/ (find p l = None /\ forall a, In a l -> p a = false).
Proof.
  destruct (find p l) as [a|] eqn:F.
  - left. exists a. apply find_some in F. tauto.
  - right. split; [auto|]. apply find_none. auto.
Qed.

(** What a data set with an empty state shows is its table. *)
Lemma shows_table w i d y : Base inode w -> shows inode w i d -> w_inst w i = Some y -> i_state y = None ->
  exists tb, tables w (i_path y) (i_table y) = Some tb /\ wf_table tb /\ incl (d_cols d) (tb_cols tb) /\ d_cols d = i_cols y /\
    d_types d = i_types y /\ d_ids d = i_ids y /\ Permutation (map (proj (d_cols d)) (tb_rows tb)) (d_rows d).
Proof.
  intros B (S & rows & (y' & H & C & T & Id & D & N) & P) Hy Sn. rewrite Hy in H. injection H as <-.
  destruct (table_i inode w i y B Hy) as (tb & Tb & Wf). exists tb. split; [auto|]. split; [auto|].
  destruct (S y Hy) as (_ & _ & tb' & Tb' & _ & L). rewrite Tb in Tb'. injection Tb' as <-. rewrite Sn in L.
  split; [rewrite <- C; auto|]. repeat (split; [auto|]). rewrite <- C. revert D. unfold den, curr_source. rewrite Sn. cbn [eval]. rewrite Tb.
  intro D. rewrite D. exact P.
Qed.

Lemma tcell_with_ids rows cs row c : In c cs -> c <> "uid" -> c <> "iid" -> tcell (with_ids rows cs row) c = tcell row c.
Proof.
  intros I N1 N2. unfold with_ids, tcell at 1. rewrite (assoc_map_key (fun c => if String.eqb c "uid" then Some (VInt (rank "user" rows (tcell row "user")))
                    else if String.eqb c "iid" then Some (VInt (rank "item" rows (tcell row "item")))
                    else tcell row c)) by auto.
  destruct (String.eqb_spec c "uid"); [contradiction|]. destruct (String.eqb_spec c "iid"); [contradiction|]. auto.
Qed.
Lemma tcell_with_id raw id rows cs row : raw_pair raw id -> In id cs ->
  tcell (with_ids rows cs row) id = Some (VInt (rank raw rows (tcell row raw))).
Proof.
  intros Rp I. unfold with_ids, tcell at 1. rewrite (assoc_map_key (fun c => if String.eqb c "uid" then Some (VInt (rank "user" rows (tcell row "user")))
                    else if String.eqb c "iid" then Some (VInt (rank "item" rows (tcell row "item")))
                    else tcell row c)) by auto.
  destruct Rp as [[-> ->]|[-> ->]]; reflexivity.
Qed.
Lemma plus_In c d cs : In d (plus c cs) <-> d = c \/ In d cs.
Proof. rewrite <- plus_eq. apply (add_col_in inode). Qed.

(** a data set with the ids [assigned d], whenever it is at rest *)
Theorem lookups_at w b i d w' b' raw id : Inv w b -> safe inode w b (OAssign i) -> b i = Some d ->
  Inv w' b' -> b' i = Some (assigned d) -> at_rest w' i -> raw_pair raw id ->
  (forall ts t v, d_types d = Some ts -> assoc String.eqb raw ts = Some t -> fits_column t v ->
     raw_to_id inode raw id i v w' =
       (w', Ok (if existsb (cell_is raw (Some v)) (d_rows d) then Some (VInt (rank raw (d_rows d) (Some v))) else None))) /\
  (forall row v, In row (d_rows d) -> tcell row raw = Some v ->
     id_to_raw inode raw id i (rank raw (d_rows d) (Some v)) w' = (w', Ok (Some v))) /\
  (forall z, (forall row, In row (d_rows d) -> rank raw (d_rows d) (tcell row raw) <> z) ->
     id_to_raw inode raw id i z w' = (w', Ok None)).
Proof.
  intros I Sf Hb I' Hb' Yn Rp.
  pose proof (inv_ds _ _ _ I' i _ Hb') as Sh'. pose proof (inv_ds _ _ _ I i d Hb) as Sh.
  destruct Yn as (y & Hy & Sn).
  destruct (shows_table w' i _ y (inv_base _ _ _ I') Sh' Hy Sn) as (tb & Tb & Wf & Ic & Ec & Et & Ei & P).
  cbn [assigned d_cols d_types d_ids d_rows] in *. set (cs := plus "iid" (plus "uid" (d_cols d))) in *.
  destruct (shows_inst inode w i d Sh) as (x & H & C & T & Di & Px).
  destruct (den_good inode w i x (inv_base _ _ _ I) (proj1 Sh) H) as (Ty & Nr & Ks & Nc & Ir & _).
  pose proof (typed_perm _ _ _ Px Ty) as Ty'. rewrite C in Ty'.
  assert (Nr' : NoDup (map rid_of (d_rows d))) by (exact (Permutation_NoDup (Permutation_map rid_of Px) Nr)).
  assert (Iraw : In raw (d_cols d)).
  { cbn [safe DbSpec.safe] in Sf. destruct Sf as (_ & _ & d0 & Hb0 & _ & Iu & _). rewrite Hb in Hb0. injection Hb0 as <-.
    apply Iu. destruct Rp as [[-> _]|[-> _]]; cbn; auto. }
  assert (Nraw : raw <> "uid" /\ raw <> "iid") by (destruct Rp as [[-> _]|[-> _]]; split; discriminate).
  assert (Iraw' : In raw cs) by (unfold cs; rewrite !plus_In; auto).
  assert (Iid : In id cs) by (unfold cs; rewrite !plus_In; destruct Rp as [[_ ->]|[_ ->]]; auto).
  (* the rows of the table *)
  assert (Fw : forall r, In r (tb_rows tb) -> exists r0, In r0 (d_rows d) /\ tcell r raw = tcell r0 raw /\
                         tcell r id = Some (VInt (rank raw (d_rows d) (tcell r0 raw)))).
  { intros r Hr. pose proof (in_map (proj cs) _ _ Hr) as X. apply (Permutation_in _ P) in X. apply in_map_iff in X.
    destruct X as (r0 & Er & Hr0). exists r0. split; [auto|].
    rewrite <- (tcell_proj cs r raw) by auto. rewrite <- (tcell_proj cs r id) by auto. rewrite <- Er. split.
    - apply tcell_with_ids; tauto.
    - apply tcell_with_id; auto. }
  assert (Bw : forall r0, In r0 (d_rows d) -> exists r, In r (tb_rows tb) /\ tcell r raw = tcell r0 raw /\
                         tcell r id = Some (VInt (rank raw (d_rows d) (tcell r0 raw)))).
  { intros r0 Hr0. pose proof (in_map (with_ids (d_rows d) cs) _ _ Hr0) as X. apply (Permutation_in _ (Permutation_sym P)) in X.
    apply in_map_iff in X. destruct X as (r & Er & Hr). exists r. split; [auto|].
    rewrite <- (tcell_proj cs r raw) by auto. rewrite <- (tcell_proj cs r id) by auto. rewrite Er. split.
    - apply tcell_with_ids; tauto.
    - apply tcell_with_id; auto. }
  assert (Tr : typed [raw] (d_rows d)) by (apply (typed_incl _ (d_cols d)); [auto|intros c [<-|[]]; auto]).
  assert (Look : forall k o v, In k cs -> In o cs -> lookup inode y k o v w' =
     (w', Ok (match find (fun row => cell_eqb (tcell row k) (Some v)) (tb_rows tb) with Some row => tcell row o | None => None end))).
  { intros k o v Hk Ho. unfold lookup, query, andthen. cbn [eval]. rewrite Tb. cbn [fst snd].
    rewrite (proj2 (in_cols_In k _) (Ic k Hk)), (proj2 (in_cols_In o _) (Ic o Ho)). reflexivity. }
  split; [|split].
  - intros ts t v Hts Ht Fv. unfold raw_to_id. rewrite (andthen_ok _ _ _ _ _ (self_ok i w' y Hy)). rewrite <- Ei. cbn [negb].
    rewrite <- Et, Hts. cbn [option_map].
    assert (At : assoc String.eqb raw (type_as "iid" DInt (type_as "uid" DInt ts)) = Some t).
    { unfold type_as. rewrite !(assoc_set_other _ reflects_string); auto; tauto. }
    rewrite At. rewrite (andthen_ok _ _ w' w' v).
    2:{ unfold lift. destruct t; cbn in Fv; destruct Fv as [z ->]; reflexivity. }
    rewrite (Look raw id v Iraw' Iid). f_equal. f_equal.
    assert (At' : assoc String.eqb raw (tb_types tb) = Some t).
    { destruct (proj1 Sh' y Hy) as (_ & _ & tb' & Tb' & L & _). rewrite Tb in Tb'. injection Tb' as <-.
      apply (L (type_as "iid" DInt (type_as "uid" DInt ts))); auto; [rewrite <- Et, Hts; auto|rewrite <- Ec; auto]. }
    assert (Ce : forall r0 r, In r (tb_rows tb) -> tcell r raw = tcell r0 raw -> (cell_eqb (tcell r raw) (Some v) = true <-> tcell r0 raw = Some v)).
    { intros r0 r Hr Er. rewrite (cell_eqb_typed t).
      - rewrite Er. tauto.
      - intros u Hu. exact (wt_typed _ Wf r raw t u Hr At' Hu).
      - intros u Hu. injection Hu as <-. destruct t; cbn in Fv; destruct Fv as [z ->]; reflexivity. }
    destruct (find_some_or (fun row => cell_eqb (tcell row raw) (Some v)) (tb_rows tb)) as [(r & -> & Hr & Er)|[-> Nf]].
    + destruct (Fw r Hr) as (r0 & Hr0 & E1 & E2). rewrite E2. apply (Ce r0 r Hr E1) in Er. rewrite Er.
      replace (existsb (cell_is raw (Some v)) (d_rows d)) with true; [auto|]. symmetry. apply existsb_exists. exists r0.
      split; [auto|]. unfold cell_is. destruct (opt_value_dec (tcell r0 raw) (Some v)); [auto|contradiction].
    + replace (existsb (cell_is raw (Some v)) (d_rows d)) with false; [auto|]. symmetry.
      destruct (existsb (cell_is raw (Some v)) (d_rows d)) eqn:X; [|auto]. exfalso. apply existsb_exists in X.
      destruct X as (r0 & Hr0 & X). unfold cell_is in X. destruct (opt_value_dec (tcell r0 raw) (Some v)) as [Y|]; [|discriminate].
      destruct (Bw r0 Hr0) as (r & Hr & E1 & _). specialize (Nf r Hr). rewrite (proj2 (Ce r0 r Hr E1) Y) in Nf. discriminate.
  - intros row v Hr Hv. unfold id_to_raw. rewrite (andthen_ok _ _ _ _ _ (self_ok i w' y Hy)). rewrite <- Ei. cbn [negb].
    rewrite (Look id raw _ Iid Iraw'). f_equal. f_equal.
    destruct (find_some_or (fun r => cell_eqb (tcell r id) (Some (VInt (rank raw (d_rows d) (Some v))))) (tb_rows tb)) as [(r & -> & Hr' & Er)|[_ Nf]].
    + destruct (Fw r Hr') as (r0 & Hr0 & E1 & E2). rewrite E2 in Er. apply Z.eqb_eq in Er. rewrite E1.
      destruct (tcell r0 raw) as [u|] eqn:Eu.
      * f_equal. apply (rank_inj raw (d_rows d) r0 row u v); auto.
      * exfalso. cbn [safe DbSpec.safe] in Sf. destruct Sf as (_ & _ & d0 & Hb0 & _ & _ & Nu & Ni). rewrite Hb in Hb0. injection Hb0 as <-.
        destruct Rp as [[-> _]|[-> _]]; [apply (Nu r0 Hr0 Eu)|apply (Ni r0 Hr0 Eu)].
    + destruct (Bw row Hr) as (r & Hr' & _ & E2). specialize (Nf r Hr'). rewrite E2, Hv in Nf. apply Z.eqb_neq in Nf. contradiction.
  - intros z Nz. unfold id_to_raw. rewrite (andthen_ok _ _ _ _ _ (self_ok i w' y Hy)). rewrite <- Ei. cbn [negb].
    rewrite (Look id raw _ Iid Iraw'). f_equal. f_equal.
    destruct (find_some_or (fun r => cell_eqb (tcell r id) (Some (VInt z))) (tb_rows tb)) as [(r & -> & Hr' & Er)|[-> Nf]]; [|auto].
    destruct (Fw r Hr') as (r0 & Hr0 & E1 & E2). rewrite E2 in Er. exfalso. apply (Nz r0 Hr0). apply Z.eqb_eq in Er. auto.
Qed.
(** after the call the data set is at rest *)
Lemma assign_rests w b i d w' : Inv w b -> safe inode w b (OAssign i) -> b i = Some d -> assign_ids inode i w = (w', Ok tt) ->
  exists y, w_inst w' i = Some y /\ i_state y = None.
Proof.
  intros I Sf Hb E. pose proof (inv_ds _ _ _ I i d Hb) as Sh.
  cbn [safe DbSpec.safe] in Sf. destruct Sf as (Op & Ns & d0 & Hb0 & Nt & Iu & Nu & Ni). rewrite Hb in Hb0. injection Hb0 as <-.
  destruct (shows_inst inode w i d Sh) as (x & H & C & T & Di & P).
  destruct (d_types d) as [ts|] eqn:Ts; [clear Nt|contradiction].
  assert (Of : i_state x = None -> others_free w i x).
  { intros Sn j y N Hy Ep Et. destruct (Ns x H Sn j y N Hy Ep Et) as (M & U1 & U2). split; [apply mentions_free; auto|].
    intros c Hc [<-|[<-|[]]]; auto. }
  assert (Hu : In "user" (i_cols x)) by (rewrite C; apply Iu; cbn; auto).
  assert (Hi : In "item" (i_cols x)) by (rewrite C; apply Iu; cbn; auto).
  destruct (assign_spec inode w i x ts w' _ (inv_base _ _ _ I) (proj1 Sh) H Op T Hu Hi Of E) as (_ & _ & _ & _ & _ & Y). auto.
Qed.
Theorem lookups ord w b i d w' raw id : permuting ord -> Inv w b -> safe inode w b (OAssign i) -> b i = Some d ->
  exec inode ord (OAssign i) w = (w', Ok AUnit) -> raw_pair raw id ->
  (forall ts t v, d_types d = Some ts -> assoc String.eqb raw ts = Some t -> fits_column t v ->
     raw_to_id inode raw id i v w' =
       (w', Ok (if existsb (cell_is raw (Some v)) (d_rows d) then Some (VInt (rank raw (d_rows d) (Some v))) else None))) /\
  (forall row v, In row (d_rows d) -> tcell row raw = Some v ->
     id_to_raw inode raw id i (rank raw (d_rows d) (Some v)) w' = (w', Ok (Some v))) /\
  (forall z, (forall row, In row (d_rows d) -> rank raw (d_rows d) (tcell row raw) <> z) ->
     id_to_raw inode raw id i z w' = (w', Ok None)).
Proof.
  intros Po I Sf Hb E. pose proof (step inode ord w b (OAssign i) w' _ Po I Sf E) as [I' _].
  cbn [effect DbSpec.effect] in I'. rewrite Hb in I'. set (b' := note b i (Some (assigned d))) in *.
  assert (Hb' : b' i = Some (assigned d)) by apply note_same.
  assert (Yn : exists y, w_inst w' i = Some y /\ i_state y = None).
  { apply amap_inv in E. destruct E as (r0 & E & Er). destruct r0 as [[]|]; [|discriminate]. apply (assign_rests w b i d w' I Sf Hb E). }
  exact (lookups_at w b i d w' b' raw id I Sf Hb I' Hb' Yn).
Qed.
End Lookup.
