(** Proofs about a data set and its parts: unique applied twice. *)
From Coq Require Import String Ascii.
From Coq Require Import List ZArith QArith Qcanon Bool Lia Permutation.
From Verif Require Import Py PyFacts MemModel MemSpec MemFacts MemFacts2 MemFacts3 MemFacts4 MemFacts5 MemFacts6 MemFacts7.
From Verif Require TwinFacts2.
From Verif Require Import PartSpec PartFacts.
Import ListNotations.
Open Scope string_scope.
Open Scope Z_scope.
Open Scope list_scope.

Lemma no_duplicates_acc cs rs : forall seen, NoDup (map (row_key cs) rs) -> (forall r, In r rs -> ~ In (row_key cs r) seen) ->
  drop_duplicates_acc cs seen rs = rs.
Proof.
  induction rs as [|r rs IH]; intros seen N D; simpl; auto. inversion N; subst.
  replace (mem_b key_eqb (row_key cs r) seen) with false
    by (symmetry; apply (mem_b_false _ reflects_key); apply D; simpl; auto).
  f_equal. apply IH; auto. intros r' Hr' [E|C].
  - apply H1. rewrite E. apply in_map; auto.
  - revert C. apply D. simpl. auto.
Qed.
Lemma project_again cs r : NoDup cs -> project_row cs (project_row cs r) = project_row cs r.
Proof.
  intros N. unfold project_row at 1 3. f_equal. rewrite !flat_map_concat_map. f_equal. apply map_ext_in. intros c Hc.
  rewrite project_cell by auto. reflexivity.
Qed.

Section Unique.
Variables (m : mem) (cs : list string).
Hypothesis W : wf_mem m.
Hypothesis N : NoDup cs.
Hypothesis R : ~ In "rid" cs.
Hypothesis H : forall c, In c cs -> In c (m_columns m).
Lemma cs_types : incl cs (map fst (f_types (m_df m))).
Proof. intros c Hc. destruct (proj1 (wf_cols _ W c) (H c Hc)) as [->|E]; [contradiction|exact E]. Qed.
Lemma cs_cell r c : In r (rows_of m) -> In c cs -> exists t v, In (c, t) (f_types (m_df m)) /\ cell r c = Some v.
Proof.
  intros Hr Hc. apply cs_types in Hc. apply in_map_iff in Hc. destruct Hc as ([c' t] & E & Hc). cbn in E. subst c'.
  destruct (wf_typed _ (wf_df _ W) r c t Hr Hc) as (v & E & _). eauto.
Qed.
Lemma wf_unique : cs <> [] -> forall u, unique m (Some cs) = Ok u -> wf_mem u.
Proof.
  intros Ne u. rewrite unique_ok by auto. intros E. injection E as <-. pose proof cs_types as I.
  constructor; [constructor| |]; cbn [m_df set_df set_columns f_types f_rows m_columns].
  - rewrite TwinFacts2.project_types_keys by exact I. exact N.
  - rewrite TwinFacts2.project_types_keys by exact I. exact R.
  - intros r Hr. apply in_map_iff in Hr. destruct Hr as (r0 & <- & Hr0). rewrite TwinFacts2.project_types_keys by exact I.
    apply TwinFacts2.project_row_keys. intros c Hc. apply drop_duplicates_incl in Hr0.
    destruct (cs_cell r0 c Hr0 Hc) as (_ & v & _ & E). congruence.
  - intros r c t Hr Hc. apply in_map_iff in Hr. destruct Hr as (r0 & <- & Hr0). apply drop_duplicates_incl in Hr0.
    assert (Hu : In c cs). { apply (in_map fst) in Hc. rewrite TwinFacts2.project_types_keys in Hc by exact I. exact Hc. }
    assert (A : assoc String.eqb c (f_types (m_df m)) = Some t).
    { rewrite <- (TwinFacts2.project_types_assoc cs _ c Hu). apply (assoc_NoDup _ reflects_string); [|exact Hc].
      rewrite TwinFacts2.project_types_keys by exact I. exact N. }
    destruct (wf_cell m r0 c t W Hr0 A) as (v & E & Tv). exists v. split; [rewrite project_cell; auto|exact Tv].
  - apply (Permutation_NoDup (Permutation_cons_append cs "rid")). constructor; auto.
  - intro c. rewrite TwinFacts2.project_types_keys by exact I. rewrite in_app_iff. cbn [In]. intuition.
Qed.
Lemma unique_again u : cs <> [] -> unique m (Some cs) = Ok u ->
  exists u', unique u (Some cs) = Ok u' /\ rows_of u' = rows_of u /\ m_columns u' = m_columns u /\
    count_unique m (Some cs) = Ok (mem_len u).
Proof.
  intros Ne E. pose proof (wf_unique Ne u E) as Wu. pose proof E as E0. rewrite unique_ok in E by auto. injection E as <-.
  rewrite unique_ok; auto.
  2: { intros c Hc. cbn. apply in_app_iff; auto. }
  eexists. split; [reflexivity|]. unfold rows_of. cbn [m_df set_df set_columns f_rows m_columns mem_copy set_caches].
  split; [|split; [reflexivity|unfold count_unique; rewrite E0; reflexivity]].
  unfold drop_duplicates at 1. rewrite no_duplicates_acc.
  - rewrite map_map. apply map_ext. intros r. apply project_again; auto.
  - rewrite map_map, (map_ext _ (row_key cs)) by (intros r; apply project_key; auto).
    rewrite drop_duplicates_keys. apply (dedup_NoDup _ reflects_key).
  - intros r _ [].
Qed.
End Unique.
