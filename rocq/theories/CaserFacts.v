(** Lemmas for C115. *)
From Coq Require Import String Ascii.
From Coq Require Import List ZArith QArith Qcanon Bool Permutation Sorted Lia.
From Verif Require Import Py PyFacts MemModel MemSpec MemFacts7 RankModel RankSpec RankFacts RankFacts2 SampFacts2 KnnModel KnnSpec KnnFacts RecDbModel RecDbModel3 RecDbFacts9 RecDbFacts3 CaserSpec.
Import ListNotations.
Open Scope string_scope.
Open Scope Z_scope.
Open Scope list_scope.

(** ** Stable sorting keeps the order of equal elements *)
Section Stable.
Context {A : Type} (leb : A -> A -> bool) (P : A -> Prop) (R : A -> A -> Prop).
Hypothesis total : forall x y, P x -> P y -> leb x y = true \/ leb y x = true.
Hypothesis trans : forall x y z, P x -> P y -> P z -> leb x y = true -> leb y z = true -> leb x z = true.
Definition first_by (x y : A) : Prop := leb x y = true /\ (leb y x = true -> R x y).
Lemma insert_first x l : P x -> Forall P l -> Forall (R x) l -> StronglySorted first_by l -> StronglySorted first_by (insert_by leb x l).
Proof.
  induction l as [|y l IH]; intros Px F Fr S; cbn [insert_by]; [repeat constructor|].
  inversion S as [|? ? S1 S2]; subst. inversion F as [|? ? Py F']; subst. inversion Fr as [|? ? Ry Fr']; subst. destruct (leb x y) eqn:E.
  - constructor; [auto|]. rewrite !Forall_forall in *. intros a [<-|Ha]; [split; auto|]. split; [|auto]. eapply (trans x y a); auto. apply S2. auto.
  - constructor; [auto|]. apply Forall_forall. intros z Hz. apply (Permutation_in _ (Permutation_sym (insert_by_perm leb x l))) in Hz.
    destruct Hz as [<-|Hz]; [|rewrite Forall_forall in S2; auto]. split; [destruct (total x y); auto; congruence|congruence].
Qed.
Lemma sort_first l : Forall P l -> StronglySorted R l -> StronglySorted first_by (sort_by leb l).
Proof.
  induction l as [|x l IH]; intros F S; cbn [sort_by]; [constructor|]. inversion F; subst. inversion S; subst.
  assert (In_ : forall y, In y (sort_by leb l) -> In y l) by (intros y Hy; eapply Permutation_in; [apply Permutation_sym, sort_by_perm|exact Hy]).
  apply insert_first; auto; rewrite Forall_forall in *; auto.
Qed.
End Stable.

Lemma earlier_sorted_aux {A} (f : A -> bool) (l pre : list A) :
  StronglySorted (fun r r' => exists l1 l2 l3, pre ++ l = l1 ++ r :: l2 ++ r' :: l3) (filter f l).
Proof.
  revert pre. induction l as [|r l IH]; intro pre; cbn [filter]; [constructor|].
  specialize (IH (pre ++ [r])). rewrite <- app_assoc in IH. cbn [app] in IH. destruct (f r); [|auto]. constructor; [auto|].
  apply Forall_forall. intros r' Hr. apply filter_In in Hr. destruct Hr as [Hr _]. apply in_split in Hr. destruct Hr as (a & b & ->). exists pre, a, b. reflexivity.
Qed.
Lemma earlier_sorted m f : StronglySorted (earlier m) (filter f (rows_of m)).
Proof. apply (earlier_sorted_aux f (rows_of m) []). Qed.

Lemma sorted_imp {A} (R S : A -> A -> Prop) l : (forall x y, In x l -> In y l -> R x y -> S x y) -> StronglySorted R l -> StronglySorted S l.
Proof.
  induction l as [|x l IH]; intros H Q; [constructor|]. inversion Q; subst. constructor; [apply IH; auto; intros; apply H; simpl; auto|].
  rewrite Forall_forall in *. intros y Hy. apply H; simpl; auto.
Qed.

Section Caser.
Variables (m0 m : mem) (tu ti : dtype).
Hypothesis T : trained_on m0 m tu ti.
Variable c : caser.
Hypothesis Small : forall k, cs_sort c = Some k -> In k (m_columns m) -> small_col m k.
Local Notation cs := (m_columns m).
Local Notation rows_u u := (filter (int_is "uid" u) (rows_of m)).

Lemma cell_val k r : In k cs -> In r (rows_of m) -> exists t v, row_val r k = Some v /\ (k = "rid" -> t = DInt) /\ (k <> "rid" -> In (k, t) (f_types (m_df m))) /\ type_of v = t.
Proof.
  intros Hk Hr. pose proof (trained_wf _ _ _ _ T) as W. apply (wf_cols _ W) in Hk. unfold row_val. destruct (String.eqb k "rid") eqn:E.
  - apply String.eqb_eq in E. subst. exists DInt. eexists. split; [reflexivity|]. split; [auto|]. split; [intro X; destruct (X eq_refl)|reflexivity].
  - destruct Hk as [->|Hk]; [discriminate|]. apply in_map_iff in Hk. destruct Hk as ([c' t] & <- & Ht). cbn [fst] in *.
    destruct (wf_typed _ (wf_df _ W) r c' t Hr Ht) as (v & Ev & Tv). exists t, v. split; [auto|]. split; [intros ->; discriminate|]. split; auto.
Qed.
Lemma one_kind k r r' x y : In k cs -> In r (rows_of m) -> In r' (rows_of m) -> row_val r k = Some x -> row_val r' k = Some y -> is_str x = is_str y.
Proof.
  intros Hk Hr Hr' Ex Ey. destruct (cell_val k r Hk Hr) as (t & v & Ev & R1 & R2 & Tv). destruct (cell_val k r' Hk Hr') as (t' & v' & Ev' & R1' & R2' & Tv').
  assert (t = t') as <-.
  { destruct (string_dec k "rid") as [e|n]; [rewrite R1, R1'; auto|].
    pose proof (wf_names _ (wf_df _ (trained_wf _ _ _ _ T))) as N. specialize (R2 n). specialize (R2' n).
    clear - N R2 R2'. induction (f_types (m_df m)) as [|[c' a] l IH]; [contradiction|]. cbn [map fst] in N. inversion N as [|? ? Nc Nl]; subst.
    destruct R2 as [E|R2], R2' as [E'|R2']; try congruence; [injection E as -> ->; destruct Nc; apply (in_map fst _ _ R2')|injection E' as -> ->; destruct Nc; apply (in_map fst _ _ R2)|auto]. }
  assert (x = v) as -> by congruence. assert (y = v') as -> by congruence. subst t. destruct v, v'; try discriminate; auto.
Qed.
Lemma in_user u r : In r (rows_u u) -> In r (rows_of m).
Proof. intro H. apply filter_In in H. tauto. Qed.
Lemma iid_at r : In r (rows_of m) -> cell r "iid" = Some (VInt (iid_of r)).
Proof.
  intro Hr. destruct (trained_cols m0 m tu ti T) as [_ Ci]. destruct (cell_val "iid" r Ci Hr) as (t & v & Ev & _ & Ht & Tv). change (row_val r "iid") with (cell r "iid") in Ev.
  specialize (Ht ltac:(discriminate)). pose proof (wf_names _ (wf_df _ (trained_wf _ _ _ _ T))) as N.
  assert (t = DInt) as ->.
  { apply (trained_id_types _ _ _ _ T "iid" t ltac:(cbn; auto)). clear - N Ht. induction (f_types (m_df m)) as [|[x a] l IH]; [contradiction|].
    cbn [map fst] in N. inversion N as [|? ? Nc Nl]; subst. cbn [assoc]. destruct Ht as [E|Ht]; [injection E as -> ->; rewrite String.eqb_refl; auto|].
    destruct (String.eqb "iid" x) eqn:E; [apply String.eqb_eq in E; subst x; destruct Nc; apply (in_map fst _ _ Ht)|auto]. }
  destruct v; try discriminate. unfold iid_of. rewrite Ev. reflexivity.
Qed.
Lemma ltb_of x y : is_str x = is_str y -> kleb x y = true -> kleb y x = false -> val_ltb x y = Some true.
Proof.
  intros K A B. unfold kleb in A, B. destruct (val_ltb x y) as [[|]|]; try discriminate. reflexivity.
Qed.

Lemma history_records u : exists rs, history c m u = Ok (map iid_of rs) /\ Permutation rs (rows_u u) /\ StronglySorted (in_time m (cs_sort c)) rs.
Proof.
  destruct (user_rows_ok m0 m tu ti T u) as (mu & S & Wu & Iu & Cu & Ru). unfold history. rewrite S. cbn [bind].
  assert (Cs : (exists k, sorts c cs = true /\ looked_at c cs = [k; "iid"] /\ cs_sort c = Some k /\ In k cs) \/
               (sorts c cs = false /\ looked_at c cs = ["iid"] /\ forall k, cs_sort c = Some k -> ~ In k cs)).
  { unfold sorts, looked_at. destruct (cs_sort c) as [k|]; [|right; split; [auto|split; [auto|discriminate]]]. destruct (mem_b String.eqb k cs) eqn:E.
    - left. exists k. apply mem_b_exists in E. destruct E as (y & Hy & E). apply String.eqb_eq in E. subst y. auto.
    - right. split; [auto|]. split; [auto|]. intros k' X. injection X as <-. intro I.
      assert (mem_b String.eqb k cs = true) by (apply mem_b_exists; exists k; split; [auto|apply String.eqb_refl]). congruence. }
  destruct (trained_cols m0 m tu ti T) as [_ Ci].
  assert (Sub : forall k, small_col m k -> small_col mu k) by (intros k H r z Hr; rewrite Ru in Hr; apply H; apply (in_user u r Hr)).
  assert (Si : small_col mu "iid") by (apply Sub; exact (trained_small _ _ _ _ T "iid" (or_intror eq_refl))).
  assert (Ii : forall r, In r (rows_u u) -> exists z, cell r "iid" = Some (VInt z)) by (intros r Hr; rewrite (iid_at r (in_user u r Hr)); eauto).
  destruct Cs as [(k & Es & El & Ek & Hk)|(Es & El & Nk)]; rewrite Es, El.
  - destruct (values_ok mu [k; "iid"] Wu) as (vs & V & _ & F).
    + intros x [<-|[<-|[]]]; rewrite Cu; auto.
    + intros x [<-|[<-|[]]]; [apply Sub, (Small k Ek Hk)|exact Si].
    + rewrite V. cbn [bind]. rewrite Ru in F.
      destruct (history_same k (rows_u u) (rows_u u) vs vs F F Ii (Permutation_refl _) eq_refl) as [_ E]. rewrite E.
      exists (sort_by (row_leb k) (rows_u u)). split; [auto|]. split; [apply Permutation_sym, sort_by_perm|].
      assert (Val : forall r, In r (rows_of m) -> exists v, row_val r k = Some v) by (intros r Hr; destruct (cell_val k r Hk Hr) as (t & v & Ev & _); eauto).
      apply (sorted_imp (first_by (row_leb k) (earlier m))).
      * intros r r' Hr Hr' [L1 L2]. apply (Permutation_in _ (Permutation_sym (sort_by_perm _ _))) in Hr, Hr'. apply in_user in Hr, Hr'.
        unfold in_time. rewrite Ek. split; [|contradiction]. intros _. destruct (Val r Hr) as [x Ex], (Val r' Hr') as [y Ey]. exists x, y. split; [auto|]. split; [auto|].
        unfold row_leb in L1, L2. rewrite Ex, Ey in L1, L2. pose proof (one_kind k r r' x y Hk Hr Hr' Ex Ey) as Kd.
        destruct (kleb y x) eqn:E2; [right; split; [apply kleb_same; auto|apply L2; auto]|left; apply ltb_of; auto].
      * apply (sort_first (row_leb k) (fun r => In r (rows_of m))).
        -- intros r r' Hr Hr'. destruct (Val r Hr) as [x Ex], (Val r' Hr') as [y Ey]. unfold row_leb. rewrite Ex, Ey. apply kleb_total. exact (one_kind k r r' x y Hk Hr Hr' Ex Ey).
        -- intros r1 r2 r3 H1 H2 H3. destruct (Val _ H1) as [x Ex], (Val _ H2) as [y Ey], (Val _ H3) as [z Ez]. unfold row_leb. rewrite Ex, Ey, Ez.
           exact (kleb_trans x y z (one_kind k r1 r2 x y Hk H1 H2 Ex Ey) (one_kind k r2 r3 y z Hk H2 H3 Ey Ez)).
        -- apply Forall_forall. intros r Hr. apply (in_user u r Hr).
        -- apply earlier_sorted.
  - destruct (values_ok mu ["iid"] Wu) as (vs & V & _ & F).
    + intros x [<-|[]]. rewrite Cu. auto.
    + intros x [<-|[]]. exact Si.
    + rewrite V. cbn [bind]. rewrite Ru in F. unfold user_history. rewrite (shown_ids [] _ _ F Ii). exists (rows_u u). split; [auto|]. split; [auto|].
      apply (sorted_imp (earlier m)); [|apply earlier_sorted]. intros r r' _ _ E. unfold in_time. destruct (cs_sort c) as [k|]; [|auto].
      split; [|auto]. intro I. destruct (Nk k eq_refl I).
Qed.
Lemma suffix_last {A} L (l : list A) (f : A -> Z) : (0 < L)%nat ->
  exists a b, l = a ++ b /\ length b = Nat.min L (length l) /\ suffix L (map f l) = map f b.
Proof.
  intro P. destruct L as [|L]; [lia|]. exists (firstn (length l - S L) l), (skipn (length l - S L) l). split; [symmetry; apply firstn_skipn|].
  split; [rewrite skipn_length; lia|]. unfold suffix. rewrite map_length, skipn_map. reflexivity.
Qed.
Lemma network_input u : (0 < cs_L c)%nat -> exists l, last_items m (cs_sort c) (cs_L c) u l /\ caser_vec c m u = cs_net c u l.
Proof.
  intro P. destruct (history_records u) as (rs & E & Pr & S). destruct (suffix_last (cs_L c) rs iid_of P) as (a & b & -> & Ln & Es).
  exists (map iid_of b). unfold caser_vec. rewrite E. cbn [bind]. rewrite Es. split; [|auto]. exists a, b. split; [exact Pr|]. split; [exact S|]. split; [exact Ln|].
  assert (H : forall r, In r b -> In r (rows_of m)).
  { intros r Hr. apply (in_user u). eapply Permutation_in; [exact Pr|]. apply in_or_app. auto. }
  clear - H T. induction b as [|r b IH]; [constructor|]. cbn [map]. constructor; [apply iid_at, H; left; auto|apply IH; intros; apply H; right; auto].
Qed.
End Caser.
