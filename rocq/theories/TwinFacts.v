(** Facts about data sets that hold the same data in memory and in a database:
    each operation of DbSpec keeps them the same. *)
From Coq Require Import String Ascii.
From Coq Require Import List ZArith QArith Qcanon Bool Permutation Sorted Lia.
From Verif Require Import Py PyFacts MemModel MemSpec MemFacts MemFacts2 MemFacts3 MemFacts4 MemFacts5 DbModel DbSpec DbFacts12 TwinSpec.
Import ListNotations.
Open Scope string_scope.
Open Scope Z_scope.
Open Scope list_scope.

Lemma tcell_as cs r c : In c cs -> tcell (as_trow cs r) c = row_val r c.
Proof.
  intro H. unfold tcell, as_trow. induction cs as [|d cs IH]; [contradiction|]. cbn [map assoc].
  destruct (String.eqb_spec c d) as [->|N]; [auto|]. apply IH. destruct H; [congruence|auto].
Qed.
Lemma rid_as cs r : In "rid" cs -> rid_of (as_trow cs r) = r_rid r.
Proof. intro H. unfold rid_of. rewrite tcell_as by auto. reflexivity. Qed.
Lemma cells_as cs cols r : incl cs cols -> cells cs (as_trow cols r) = map (row_val r) cs.
Proof. intro H. unfold cells. apply map_ext_in. intros c Hc. apply tcell_as. auto. Qed.
Lemma proj_as cs cols r : incl cs cols -> proj cs (as_trow cols r) = as_trow cs r.
Proof. intro H. unfold proj, as_trow at 2. apply map_ext_in. intros c Hc. rewrite (tcell_as cols r c); auto. Qed.

Lemma filter_map_comm {A B} (f : A -> B) (p : B -> bool) l : filter p (map f l) = map f (filter (fun a => p (f a)) l).
Proof. induction l as [|a l IH]; cbn [map filter]; [auto|]. destruct (p (f a)); cbn [map]; rewrite IH; auto. Qed.
Lemma SS_filter {A} (R : A -> A -> Prop) (f : A -> bool) l : StronglySorted R l -> StronglySorted R (filter f l).
Proof.
  induction 1 as [|a l S IH F]; cbn [filter]; [constructor|]. destruct (f a); [|auto]. constructor; [auto|].
  rewrite Forall_forall in *. intros x Hx. apply filter_In in Hx. apply F. apply Hx.
Qed.
Lemma SS_map {A B} (R : B -> B -> Prop) (f : A -> B) l : StronglySorted R (map f l) <-> StronglySorted (fun a b => R (f a) (f b)) l.
Proof.
  induction l as [|a l IH]; cbn [map]; [split; constructor|].
  split; intro H; inversion H as [|? ? S F]; subst; constructor; try apply IH; auto; rewrite Forall_forall in *.
  - intros x Hx. apply F. apply in_map. auto.
  - intros x Hx. apply in_map_iff in Hx. destruct Hx as (y & <- & Hy). auto.
Qed.
Lemma sorted_filter (f : row -> bool) l : StronglySorted Z.lt (map r_rid l) -> StronglySorted Z.lt (map r_rid (filter f l)).
Proof. rewrite !SS_map. apply SS_filter. Qed.
Lemma sorted_nodup l : StronglySorted Z.lt l -> NoDup l.
Proof.
  induction 1 as [|a l S IH F]; constructor; [|auto]. intro H. rewrite Forall_forall in F. apply F in H. lia.
Qed.

Lemma wf_rid m : wf_mem m -> In "rid" (m_columns m).
Proof. intro W. apply (wf_cols _ W). auto. Qed.
Lemma wf_sub m rs : wf_mem m -> incl rs (rows_of m) -> wf_mem (set_rows m rs).
Proof.
  intros [[Wn Wr Wk Wt] Wc Wi] S. constructor; [constructor|exact Wc|exact Wi]; [exact Wn|exact Wr| |].
  - intros r Hr. apply Wk. apply S. exact Hr.
  - intros r c t Hr. apply Wt. apply S. exact Hr.
Qed.

Section Twin.
Variables (d : ds) (m : mem).
Hypothesis T : twin d m.
Local Notation cs := (m_columns m).

Lemma twin_rid : In "rid" cs.
Proof. apply wf_rid. apply T. Qed.
Lemma twin_row row : In row (d_rows d) <-> exists r, In r (rows_of m) /\ row = as_trow cs r.
Proof.
  pose proof (tw_rows _ _ T) as P. split.
  - intro H. apply (Permutation_in row P) in H. apply in_map_iff in H. destruct H as (r & <- & Hr). eauto.
  - intros (r & Hr & ->). apply (Permutation_in _ (Permutation_sym P)). apply in_map. auto.
Qed.
Lemma twin_length : length (d_rows d) = length (rows_of m).
Proof. rewrite (Permutation_length (tw_rows _ _ T)). apply map_length. Qed.
Lemma twin_nodup : NoDup (map rid_of (d_rows d)).
Proof.
  eapply Permutation_NoDup; [apply Permutation_map, Permutation_sym, (tw_rows _ _ T)|]. rewrite map_map.
  rewrite (map_ext_in _ r_rid); [apply sorted_nodup, (tw_order _ _ T)|]. intros r _. apply rid_as. apply twin_rid.
Qed.
Lemma twin_same_copy : twin d (mem_copy m).
Proof. destruct T as [W Ca Co Id Ty It Ro Or]. constructor; [apply wf_copy; exact W|reflexivity|exact Co|exact Id|exact Ty|exact It|exact Ro|exact Or]. Qed.

(** select, drop *)
Lemma twin_filter f g : (forall r, In r (rows_of m) -> f (as_trow cs r) = g r) ->
  twin (mkDs (d_cols d) (d_types d) (d_ids d) (filter f (d_rows d))) (set_rows m (filter g (rows_of m))).
Proof.
  intro E. pose proof T as T0. destruct T0 as [W Ca Co Id (ts & Ts & Ty) It Ro Or].
  constructor; cbn [d_cols d_ids d_types d_rows]; auto.
  - apply wf_sub; [exact W|]. intros r Hr. apply filter_In in Hr. apply Hr.
  - exists ts. auto.
  - change (m_columns (set_rows m (filter g (rows_of m)))) with cs.
    change (rows_of (set_rows m (filter g (rows_of m)))) with (filter g (rows_of m)).
    eapply Permutation_trans; [apply filter_perm, Ro|]. rewrite filter_map_comm.
    rewrite (filter_ext_in _ g (rows_of m) E). apply Permutation_refl.
  - apply sorted_filter. exact Or.
Qed.

(** ** Conditions *)
Lemma holds_sat c r : cond_ok m c -> In r (rows_of m) -> holds (as_trow cs r) c = sat1 c r.
Proof.
  intros (Ic & Pc & Sc & t & Ct & L) Hr. pose proof T as T0. destruct T0 as [W Ca Co Id Ty It Ro Or].
  destruct (wf_row_val m (sc_col c) t r W Ct Hr) as (v & Ev & Tv).
  unfold holds, sat1. rewrite tcell_as by exact Ic. rewrite Ev.
  assert (Ti : In (sc_col c) ["iid"; "uid"; "rid"] -> t = DInt).
  { intro H. apply (id_types_col m (sc_col c) t It Ct H). }
  destruct L as [z I|z I Nt Hz|n a b I Nt Ha Hb Nab|s I Ot Ps]; unfold lit_key.
  - specialize (Ti I). subst t. destruct v; try discriminate. reflexivity.
  - destruct v; try (destruct t; discriminate || congruence); reflexivity.
  - destruct v; try (destruct t; discriminate || congruence); reflexivity.
  - subst t. destruct v; try discriminate. reflexivity.
Qed.
Lemma holds_sats cds r : Forall (cond_ok m) cds -> In r (rows_of m) -> forallb (holds (as_trow cs r)) cds = sat cds r.
Proof.
  intros F Hr. unfold sat. induction F as [|c cds Hc F IH]; cbn [forallb]; [auto|]. rewrite IH, (holds_sat c r Hc Hr). auto.
Qed.
Lemma listed_mem rids r : listed rids (as_trow cs r) = mem_b Z.eqb (r_rid r) rids.
Proof.
  unfold listed. rewrite (rid_as cs r twin_rid). induction rids as [|z l IH]; cbn [existsb mem_b]; [auto|].
  destruct (r_rid r =? z); auto.
Qed.

(** ** unique *)
Lemma same_cells_key us r r' : incl us cs -> ~ In "rid" us ->
  same_cells us (as_trow cs r) (as_trow cs r') = key_eqb (row_key us r) (row_key us r').
Proof.
  intros I N. unfold same_cells. rewrite !cells_as by exact I.
  assert (K : forall x, map (row_val x) us = row_key us x).
  { intro x. unfold row_key. apply map_ext_in. intros c Hc. unfold row_val. destruct (String.eqb_spec c "rid"); [congruence|auto]. }
  rewrite !K. destruct (cells_dec (row_key us r) (row_key us r')) as [E|E].
  - symmetry. apply reflects_key. exact E.
  - symmetry. apply not_true_is_false. intro H. apply E. apply reflects_key. exact H.
Qed.
Lemma firsts_filter us : incl us cs -> ~ In "rid" us ->
  drop_duplicates us (rows_of m) =
  filter (fun r => first_of_group us (map (as_trow cs) (rows_of m)) (as_trow cs r)) (rows_of m).
Proof.
  intros I N. pose proof (tw_order _ _ T) as S. rewrite SS_map in S.
  assert (K : forall post pre, rows_of m = pre ++ post ->
     forall seen, (forall k, In k seen <-> In k (map (row_key us) pre)) ->
     drop_duplicates_acc us seen post =
     filter (fun r => first_of_group us (map (as_trow cs) (rows_of m)) (as_trow cs r)) post).
  { induction post as [|r post IH]; intros pre E seen Hs; cbn [drop_duplicates_acc filter]; [auto|].
    assert (Fg : first_of_group us (map (as_trow cs) (rows_of m)) (as_trow cs r) = negb (mem_b key_eqb (row_key us r) seen)).
    { unfold first_of_group. f_equal. apply eq_true_iff_eq. rewrite existsb_exists, (mem_b_In _ reflects_key), Hs, in_map_iff.
      rewrite E in S. destruct (SS_app _ _ _ _ S) as [S1 S2]. rewrite E. split.
      - intros (x & Hx & Hb). apply in_map_iff in Hx. destruct Hx as (y & <- & Hy). apply andb_true_iff in Hb. destruct Hb as [H1 H2].
        rewrite same_cells_key in H1 by auto. apply reflects_key in H1. rewrite !rid_as in H2 by apply twin_rid. apply Z.ltb_lt in H2.
        exists y. split; [exact H1|]. apply in_app_or in Hy. destruct Hy as [Hy|[<-|Hy]]; [exact Hy|lia|]. apply S2 in Hy. lia.
      - intros (y & Hk & Hy). exists (as_trow cs y). split; [apply in_map, in_or_app; left; exact Hy|].
        rewrite same_cells_key by auto. rewrite !rid_as by apply twin_rid. apply andb_true_iff. split; [apply reflects_key; exact Hk|].
        apply Z.ltb_lt. apply S1. exact Hy. }
    rewrite Fg. assert (E' : rows_of m = (pre ++ [r]) ++ post) by (rewrite <- app_assoc; exact E).
    destruct (mem_b key_eqb (row_key us r) seen) eqn:M; cbn [negb].
    - apply (IH (pre ++ [r]) E'). intro k. rewrite map_app, in_app_iff. cbn [map In]. rewrite Hs. split; [auto|].
      intros [H|[<-|[]]]; [exact H|]. apply Hs. apply (mem_b_In _ reflects_key). exact M.
    - f_equal. apply (IH (pre ++ [r]) E'). intro k. rewrite map_app, in_app_iff. cbn [map In]. rewrite Hs. tauto. }
  unfold drop_duplicates. apply (K _ [] eq_refl). cbn. tauto.
Qed.
End Twin.
