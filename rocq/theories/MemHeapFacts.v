(** Facts about the object-level model of in-memory data sets: it behaves like a
    list of independent values. *)
From Coq Require Import String Ascii.
From Coq Require Import List ZArith QArith Qcanon Bool Lia.
From Verif Require Import Py PyFacts MemModel MemHeap MemHeapSpec.
Import ListNotations.
Open Scope string_scope.
Open Scope Z_scope.

Lemma upd_length {A} n (a : A) l : length (upd n a l) = length l.
Proof. revert n; induction l; destruct n; simpl; auto. Qed.
Lemma upd_nth_error {A} n (a : A) l j :
  nth_error (upd n a l) j = if Nat.eqb j n && Nat.ltb n (length l) then Some a else nth_error l j.
Proof.
  revert n j; induction l as [|x l IH]; intros n j.
  - replace (Nat.ltb n (length (@nil A))) with false by (destruct n; reflexivity). rewrite andb_false_r. destruct n, j; reflexivity.
  - destruct n, j; simpl; try reflexivity. rewrite IH. reflexivity.
Qed.
Lemma nth_error_ext {A} (l l' : list A) : (forall j, nth_error l j = nth_error l' j) -> l = l'.
Proof.
  revert l'; induction l as [|x l IH]; intros [|y l'] H; auto.
  - specialize (H 0%nat). discriminate.
  - specialize (H 0%nat). discriminate.
  - f_equal; [specialize (H 0%nat); simpl in H; congruence|]. apply IH. intros j. apply (H (S j)).
Qed.
Lemma upd_nth {A} n (a : A) l j d : nth j (upd n a l) d = if Nat.eqb j n && Nat.ltb n (length l) then a else nth j l d.
Proof.
  revert n j; induction l as [|x l IH]; intros n j.
  - replace (Nat.ltb n (length (@nil A))) with false by (destruct n; reflexivity). rewrite andb_false_r. destruct n, j; reflexivity.
  - destruct n, j; simpl; try reflexivity. rewrite IH. reflexivity.
Qed.
Lemma upd_same {A} n (a : A) l d : (n < length l)%nat -> nth n (upd n a l) d = a.
Proof. intros H. rewrite upd_nth, Nat.eqb_refl. apply Nat.ltb_lt in H. rewrite H. reflexivity. Qed.
Lemma upd_other {A} n (a : A) l j d : j <> n -> nth j (upd n a l) d = nth j l d.
Proof. intros H. rewrite upd_nth. apply Nat.eqb_neq in H. rewrite H. reflexivity. Qed.
Lemma upd_upd {A} n (a b : A) l : upd n a (upd n b l) = upd n a l.
Proof. revert n; induction l; destruct n; simpl; auto; rewrite IHl; auto. Qed.

Lemma map_upd {A B} (f f' : A -> B) i x l :
  (forall j y, j <> i -> nth_error l j = Some y -> f' y = f y) -> map f' (upd i x l) = upd i (f' x) (map f l).
Proof.
  revert i; induction l as [|a l IH]; intros i H; simpl; auto. destruct i; simpl; f_equal.
  - apply map_ext_in. intros y Hy. apply In_nth_error in Hy. destruct Hy as [j E]. apply (H (S j) y); auto.
  - apply (H 0%nat a); auto.
  - apply IH. intros j y N E. apply (H (S j) y); auto.
Qed.
Lemma upd_id {A} i (l : list A) d : upd i (nth i l d) l = l.
Proof. revert i; induction l; destruct i; simpl; auto. rewrite IHl; auto. Qed.

Lemma upd_split {A} i (a : A) l : (i < length l)%nat -> upd i a l = (firstn i l ++ a :: skipn (S i) l)%list.
Proof. revert i; induction l; destruct i; simpl; intros; try lia; auto. rewrite IHl by lia. reflexivity. Qed.

Lemma NoDup_app_snoc_local {A} (l : list A) a : NoDup l -> ~ In a l -> NoDup (l ++ [a])%list.
Proof.
  induction l as [|x l IH]; simpl; intros N H; [constructor; [simpl; tauto|constructor]|].
  inversion N; subst. constructor; [|apply IH; auto]. rewrite in_app_iff. simpl. intuition.
Qed.

(** references are valid, column lists are not shared *)
Record hinv (w : world) : Prop := {
  hi_df : forall x, In x (w_insts w) -> (i_df x < length (w_frames w))%nat;
  hi_cols : forall x, In x (w_insts w) -> (i_cols x < length (w_cols w))%nat;
  hi_own : NoDup (map i_cols (w_insts w)) }.

Definition live (w : world) (i : nat) : Prop := (i < length (w_insts w))%nat.
Definition sole (w : world) (i : nat) : Prop :=
  forall j y, j <> i -> nth_error (w_insts w) j = Some y -> i_df y <> i_df (get w i).

Lemma get_in w i : live w i -> In (get w i) (w_insts w).
Proof. intros H. apply nth_In. exact H. Qed.
Lemma get_nth_error w i : live w i -> nth_error (w_insts w) i = Some (get w i).
Proof. intros H. apply nth_error_nth'. exact H. Qed.
Lemma in_upd {A} n (a x : A) l : In x (upd n a l) -> x = a \/ In x l.
Proof. revert n; induction l; destruct n; simpl; intros; intuition; try (apply IHl in H0; intuition). Qed.

Lemma view_nth w i : live w i -> nth_error (views w) i = Some (view_of w (get w i)).
Proof. intros H. unfold views. rewrite nth_error_map, get_nth_error by auto. reflexivity. Qed.

Lemma map_upd_same_key {A B} (f : A -> B) i x l d : f x = f (nth i l d) -> map f (upd i x l) = map f l.
Proof. revert i; induction l as [|a l IH]; intros i H; simpl; auto. destruct i; simpl in *; [rewrite H|rewrite IH]; auto. Qed.

Section step.
Variable w : world.
Variable i : nat.
Hypothesis I : hinv w.
Hypothesis L : live w i.
Let m := view_of w (get w i).

(** *** new_df *)
Lemma new_df_views f : views (new_df w i f) = upd i (set_df m f) (views w).
Proof.
  unfold views, new_df. cbn [w_insts]. rewrite (map_upd (view_of w)).
  - unfold view_of at 1, df_of, cols_of. cbn. rewrite app_nth2, Nat.sub_diag by lia. reflexivity.
  - intros j y N E. unfold view_of, df_of, cols_of. cbn [w_frames w_cols].
    rewrite app_nth1; [reflexivity|]. apply (hi_df _ I). eapply nth_error_In; eauto.
Qed.
Lemma new_df_inv f : hinv (new_df w i f).
Proof.
  destruct I as [A B C]. constructor; cbn.
  - intros x Hx. rewrite app_length. simpl. apply in_upd in Hx. destruct Hx as [->|Hx]; cbn; [lia|].
    specialize (A x Hx). lia.
  - intros x Hx. apply in_upd in Hx. destruct Hx as [->|Hx]; cbn; auto. apply B, get_in, L.
  - rewrite (map_upd_same_key i_cols _ _ _ no_inst); auto.
Qed.
Lemma new_df_sole f : sole (new_df w i f) i.
Proof.
  intros j y N E. unfold get, new_df in *. cbn [w_insts] in *. rewrite upd_same by exact L. cbn.
  rewrite upd_nth_error in E. apply Nat.eqb_neq in N. rewrite N in E. cbn in E.
  assert (H := hi_df _ I y (nth_error_In _ _ E)). lia.
Qed.
Lemma new_df_live f j : live w j -> live (new_df w i f) j.
Proof. unfold live, new_df. cbn. rewrite upd_length. auto. Qed.

(** *** write_df *)
Lemma write_df_views f : sole w i -> views (write_df w i f) = upd i (set_df m f) (views w).
Proof.
  intros S. unfold views, write_df. cbn [w_insts].
  set (F := view_of (mkWorld _ _ _)).
  transitivity (map F (upd i (get w i) (w_insts w))); [unfold get; rewrite upd_id; reflexivity|].
  rewrite (map_upd (view_of w)); unfold F.
  - f_equal. unfold view_of at 1, df_of, cols_of. cbn. fold (get w i).
    rewrite upd_same by (apply (hi_df _ I), get_in, L). reflexivity.
  - intros j y N E. unfold view_of, df_of, cols_of. cbn [w_frames w_cols].
    rewrite upd_other; [reflexivity|]. apply (S j y); auto.
Qed.
Lemma write_df_inv f : hinv (write_df w i f).
Proof. destruct I as [A B C]. constructor; cbn; auto. intros x Hx. rewrite upd_length. auto. Qed.
Lemma write_df_sole f : sole w i -> sole (write_df w i f) i.
Proof. intros S j y. apply S. Qed.

(** *** write_cols *)
Lemma write_cols_views cs : views (write_cols w i cs) = upd i (set_columns m cs) (views w).
Proof.
  unfold views, write_cols. cbn [w_insts].
  set (F := view_of (mkWorld _ _ _)).
  transitivity (map F (upd i (get w i) (w_insts w))); [unfold get; rewrite upd_id; reflexivity|].
  rewrite (map_upd (view_of w)); unfold F.
  - f_equal. unfold view_of at 1, df_of, cols_of. cbn. fold (get w i).
    rewrite upd_same by (apply (hi_cols _ I), get_in, L). reflexivity.
  - intros j y N E. unfold view_of, df_of, cols_of. cbn [w_frames w_cols].
    rewrite upd_other; [reflexivity|]. intros X. apply N.
    assert (U := hi_own _ I). rewrite NoDup_nth_error in U. apply U.
    + rewrite map_length. apply nth_error_Some. congruence.
    + rewrite !nth_error_map, E, (get_nth_error w i L). simpl. congruence.
Qed.
Lemma write_cols_inv cs : hinv (write_cols w i cs).
Proof. destruct I as [A B C]. constructor; cbn; auto. intros x Hx. rewrite upd_length. auto. Qed.
Lemma write_cols_sole cs : sole w i -> sole (write_cols w i cs) i.
Proof. intros S j y. apply S. Qed.

(** *** new_cols *)
Lemma new_cols_views cs : views (new_cols w i cs) = upd i (set_columns m cs) (views w).
Proof.
  unfold views, new_cols. cbn [w_insts]. rewrite (map_upd (view_of w)).
  - unfold view_of at 1, df_of, cols_of. cbn. rewrite app_nth2, Nat.sub_diag by lia. reflexivity.
  - intros j y N E. unfold view_of, df_of, cols_of. cbn [w_frames w_cols].
    rewrite app_nth1; [reflexivity|]. apply (hi_cols _ I). eapply nth_error_In; eauto.
Qed.
Lemma new_cols_inv cs : hinv (new_cols w i cs).
Proof.
  destruct I as [A B C]. constructor; cbn.
  - intros x Hx. apply in_upd in Hx. destruct Hx as [->|Hx]; cbn; auto. apply A, get_in, L.
  - intros x Hx. rewrite app_length. simpl. apply in_upd in Hx. destruct Hx as [->|Hx]; cbn; [lia|].
    specialize (B x Hx). lia.
  - assert (E : map i_cols (upd i (mkInst (length (w_cols w)) (i_df (get w i)) (i_ids (get w i)) (i_umap (get w i))
        (i_uinv (get w i)) (i_imap (get w i)) (i_iinv (get w i)) (i_cache (get w i)) (i_tcache (get w i))) (w_insts w))
        = upd i (length (w_cols w)) (map i_cols (w_insts w))).
    { rewrite (map_upd i_cols); auto. }
    rewrite E. clear E.
    assert (Hn : ~ In (length (w_cols w)) (map i_cols (w_insts w))).
    { intros H. apply in_map_iff in H. destruct H as [x [E Hx]]. specialize (B x Hx). lia. }
    clear - C Hn. set (l := map i_cols (w_insts w)) in *. set (k := length (w_cols w)) in *. clearbody l k.
    revert i. induction l as [|a l IH]; intros n; simpl; [constructor|].
    inversion C; subst. destruct n; simpl.
    + constructor; auto. intros X. apply Hn. right. exact X.
    + constructor; [|apply IH; auto; intros X; apply Hn; right; exact X].
      intros X. apply in_upd in X. destruct X as [X|X]; [|contradiction]. apply Hn. left. exact X.
Qed.

(** *** put of an instance with the same references *)
Lemma put_views x : i_cols x = i_cols (get w i) -> i_df x = i_df (get w i) ->
  views (put w i x) = upd i (view_of w x) (views w).
Proof. intros A B. unfold views, put. cbn [w_insts]. rewrite (map_upd (view_of w)); auto. Qed.
Lemma put_inv x : i_cols x = i_cols (get w i) -> i_df x = i_df (get w i) -> hinv (put w i x).
Proof.
  intros E F. destruct I as [A B C]. constructor; cbn.
  - intros y Hy. apply in_upd in Hy. destruct Hy as [->|Hy]; auto. rewrite F. apply A, get_in, L.
  - intros y Hy. apply in_upd in Hy. destruct Hy as [->|Hy]; auto. rewrite E. apply B, get_in, L.
  - rewrite (map_upd_same_key i_cols _ _ _ no_inst); auto.
Qed.
Lemma put_sole x : i_df x = i_df (get w i) -> sole w i -> sole (put w i x) i.
Proof.
  intros F S j y N E. unfold get, put in *. cbn [w_insts] in *. rewrite upd_same by exact L.
  rewrite upd_nth_error in E. assert (N' := N). apply Nat.eqb_neq in N'. rewrite N' in E. cbn in E. rewrite F. apply (S j y); auto.
Qed.
Lemma put_live x j : live w j -> live (put w i x) j.
Proof. unfold live, put. cbn. rewrite upd_length. auto. Qed.

(** *** copy *)
Lemma copy_views : views (h_copy w i) = (views w ++ [mem_copy m])%list.
Proof.
  unfold views, h_copy. cbn [w_insts]. rewrite map_app. f_equal.
  - apply map_ext_in. intros x Hx. unfold view_of, df_of, cols_of. cbn [w_frames w_cols].
    rewrite app_nth1; [reflexivity|]. apply (hi_cols _ I). auto.
  - simpl. unfold view_of at 1, df_of, cols_of. cbn. rewrite app_nth2, Nat.sub_diag by lia. reflexivity.
Qed.
Lemma copy_inv : hinv (h_copy w i).
Proof.
  destruct I as [A B C]. constructor; cbn.
  - intros x Hx. apply in_app_iff in Hx. destruct Hx as [Hx|[<-|[]]]; cbn; auto. apply A, get_in, L.
  - intros x Hx. rewrite app_length. simpl. apply in_app_iff in Hx. destruct Hx as [Hx|[<-|[]]]; cbn; [|lia].
    specialize (B x Hx). lia.
  - rewrite map_app. simpl. apply NoDup_app_snoc_local; auto.
    intros H. apply in_map_iff in H. destruct H as [x [E Hx]]. specialize (B x Hx). lia.
Qed.
End step.

Lemma view_after w w' i x : live w i -> live w' i -> views w' = upd i x (views w) -> view_of w' (get w' i) = x.
Proof.
  intros L L' E. assert (A := view_nth w' i L'). rewrite E, upd_nth_error, Nat.eqb_refl in A.
  assert (B : Nat.ltb i (length (views w)) = true) by (apply Nat.ltb_lt; unfold views; rewrite map_length; exact L).
  rewrite B in A. simpl in A. congruence.
Qed.

(** The state of a step under way on instance [i]: started in [w], the receiver's
    value is now [x], everything else is as before. *)
Record ongoing (w0 w : world) (i : nat) (x : mem) : Prop := {
  og_inv : hinv w; og_live : live w i; og_live0 : live w0 i; og_views : views w = upd i x (views w0) }.

Lemma og_value w0 w i x : ongoing w0 w i x -> view_of w (get w i) = x.
Proof. intros [A B C D]. eapply view_after; eauto. Qed.

Lemma og_start w i : hinv w -> live w i -> ongoing w w i (view_of w (get w i)).
Proof.
  intros I L. constructor; auto. apply nth_error_ext. intros j. rewrite upd_nth_error.
  destruct (Nat.eqb j i) eqn:E; simpl; auto. apply Nat.eqb_eq in E. subst j.
  rewrite view_nth by auto. destruct (Nat.ltb _ _); reflexivity.
Qed.

Lemma og_new_df w0 w i x f : ongoing w0 w i x -> ongoing w0 (new_df w i f) i (set_df x f) /\ sole (new_df w i f) i.
Proof.
  intros O. assert (V := og_value _ _ _ _ O). destruct O as [A B C D]. split; [constructor; auto|].
  - apply new_df_inv; auto.
  - apply new_df_live; auto.
  - rewrite new_df_views, D, upd_upd by auto. rewrite V. reflexivity.
  - apply new_df_sole; auto.
Qed.
Lemma og_write_df w0 w i x f : ongoing w0 w i x -> sole w i ->
  ongoing w0 (write_df w i f) i (set_df x f) /\ sole (write_df w i f) i.
Proof.
  intros O S. assert (V := og_value _ _ _ _ O). destruct O as [A B C D]. split; [constructor; auto|].
  - apply write_df_inv; auto.
  - rewrite write_df_views, D, upd_upd by auto. rewrite V. reflexivity.
  - apply write_df_sole; auto.
Qed.
Lemma og_write_cols w0 w i x cs : ongoing w0 w i x ->
  ongoing w0 (write_cols w i cs) i (set_columns x cs).
Proof.
  intros O. assert (V := og_value _ _ _ _ O). destruct O as [A B C D]. constructor; auto.
  - apply write_cols_inv; auto.
  - rewrite write_cols_views, D, upd_upd by auto. rewrite V. reflexivity.
Qed.
Lemma og_new_cols w0 w i x cs : ongoing w0 w i x ->
  ongoing w0 (new_cols w i cs) i (set_columns x cs).
Proof.
  intros O. assert (V := og_value _ _ _ _ O). destruct O as [A B C D]. constructor; auto.
  - apply new_cols_inv; auto.
  - unfold live, new_cols. cbn. rewrite upd_length. exact B.
  - rewrite new_cols_views, D, upd_upd by auto. rewrite V. reflexivity.
Qed.
Lemma og_put w0 w i x y : ongoing w0 w i x -> i_cols y = i_cols (get w i) -> i_df y = i_df (get w i) ->
  ongoing w0 (put w i y) i (view_of w y).
Proof.
  intros O E F. destruct O as [A B C D]. constructor; auto.
  - apply put_inv; auto.
  - apply put_live; auto.
  - rewrite put_views, D, upd_upd by auto. reflexivity.
Qed.

Lemma og_put_caches w0 w i x c t : ongoing w0 w i x -> ongoing w0 (put_caches w i c t) i (set_caches x c t).
Proof.
  intros O. assert (V := og_value _ _ _ _ O). subst x. unfold put_caches. cbv zeta.
  match goal with |- ongoing _ (put _ _ ?y) _ _ => exact (og_put w0 w i _ y O eq_refl eq_refl) end.
Qed.
Lemma og_put_ids w0 w i x b : ongoing w0 w i x -> ongoing w0 (put_ids w i b) i
  (mkMem (m_columns x) (m_df x) b (m_umap x) (m_uinv x) (m_imap x) (m_iinv x) (m_cache x) (m_tcache x)).
Proof.
  intros O. assert (V := og_value _ _ _ _ O). subst x. unfold put_ids. cbv zeta.
  match goal with |- ongoing _ (put _ _ ?y) _ _ => exact (og_put w0 w i _ y O eq_refl eq_refl) end.
Qed.
Lemma og_put_umaps w0 w i x a b : ongoing w0 w i x -> ongoing w0 (put_umaps w i a b) i
  (mkMem (m_columns x) (m_df x) (m_ids x) a b (m_imap x) (m_iinv x) (m_cache x) (m_tcache x)).
Proof.
  intros O. assert (V := og_value _ _ _ _ O). subst x. unfold put_umaps. cbv zeta.
  match goal with |- ongoing _ (put _ _ ?y) _ _ => exact (og_put w0 w i _ y O eq_refl eq_refl) end.
Qed.
Lemma og_put_imaps w0 w i x a b : ongoing w0 w i x -> ongoing w0 (put_imaps w i a b) i
  (mkMem (m_columns x) (m_df x) (m_ids x) (m_umap x) (m_uinv x) a b (m_cache x) (m_tcache x)).
Proof.
  intros O. assert (V := og_value _ _ _ _ O). subst x. unfold put_imaps. cbv zeta.
  match goal with |- ongoing _ (put _ _ ?y) _ _ => exact (og_put w0 w i _ y O eq_refl eq_refl) end.
Qed.

Lemma upd_app_new {A} (l : list A) a b : upd (length l) b (l ++ [a])%list = (l ++ [b])%list.
Proof. induction l; simpl; auto. rewrite IHl. reflexivity. Qed.

(** A copy is a data set under construction in the enlarged world. *)
Lemma og_copy w i : hinv w -> live w i -> ongoing (h_copy w i) (h_copy w i) (length (w_insts w)) (mem_copy (view_of w (get w i))).
Proof.
  intros I L. assert (L' : live (h_copy w i) (length (w_insts w))).
  { unfold live, h_copy. cbn. rewrite app_length. simpl. lia. }
  assert (O := og_start _ _ (copy_inv w i I L) L').
  assert (V : view_of (h_copy w i) (get (h_copy w i) (length (w_insts w))) = mem_copy (view_of w (get w i))).
  { assert (E := view_nth _ _ L'). rewrite copy_views in E by auto.
    rewrite nth_error_app2 in E by (unfold views; rewrite map_length; lia).
    unfold views in E at 1. rewrite map_length, Nat.sub_diag in E. simpl in E. congruence. }
  rewrite V in O. exact O.
Qed.

Lemma og_copy_views w i w' x : hinv w -> live w i -> ongoing (h_copy w i) w' (length (w_insts w)) x ->
  views w' = (views w ++ [x])%list.
Proof.
  intros I L O. rewrite (og_views _ _ _ _ O), copy_views by auto.
  assert (E : length (w_insts w) = length (views w)) by (unfold views; rewrite map_length; reflexivity).
  rewrite E. apply upd_app_new.
Qed.

Lemma sstep_upd ms i o m : nth_error ms i = Some m ->
  sstep ms (i, o) = (upd i (fst (effect m o)) ms ++ match snd (effect m o) with Some x => [x] | None => [] end)%list.
Proof.
  intros E. unfold sstep. simpl. rewrite E. destruct (effect m o) as [m' new]. simpl.
  rewrite upd_split; [rewrite <- app_assoc; reflexivity|]. apply nth_error_Some. congruence.
Qed.

Lemma og_done w i w' o : hinv w -> live w i ->
  snd (effect (view_of w (get w i)) o) = None ->
  ongoing w w' i (fst (effect (view_of w (get w i)) o)) -> hinv w' /\ views w' = sstep (views w) (i, o).
Proof.
  intros I L N O. split; [apply (og_inv _ _ _ _ O)|].
  rewrite (sstep_upd _ i o _ (view_nth w i L)), N, app_nil_r. apply (og_views _ _ _ _ O).
Qed.
Lemma og_done_new w i w' o x : hinv w -> live w i ->
  effect (view_of w (get w i)) o = (view_of w (get w i), Some x) ->
  ongoing (h_copy w i) w' (length (w_insts w)) x -> hinv w' /\ views w' = sstep (views w) (i, o).
Proof.
  intros I L E O. split; [apply (og_inv _ _ _ _ O)|].
  rewrite (sstep_upd _ i o _ (view_nth w i L)), E. cbn [fst snd].
  rewrite (og_copy_views w i w' x I L O). f_equal.
  apply (og_views _ _ _ _ (og_start w i I L)).
Qed.
Lemma same_done w i o : hinv w -> live w i ->
  effect (view_of w (get w i)) o = (view_of w (get w i), None) -> hinv w /\ views w = sstep (views w) (i, o).
Proof. intros I L E. apply og_done; auto; rewrite E; auto. apply og_start; auto. Qed.

Lemma set_caches_same m : set_caches m (m_cache m) (m_tcache m) = m.
Proof. destruct m; reflexivity. Qed.

Lemma user_vec_caches m u : set_caches m (m_cache (snd (user_vec m u))) (m_tcache (snd (user_vec m u))) = snd (user_vec m u).
Proof.
  unfold user_vec. repeat (match goal with |- context [match ?x with _ => _ end] => destruct x end; cbn [snd]); try apply set_caches_same; reflexivity.
Qed.
Lemma item_vec_caches m u : set_caches m (m_cache (snd (item_vec m u))) (m_tcache (snd (item_vec m u))) = snd (item_vec m u).
Proof.
  unfold item_vec. repeat (match goal with |- context [match ?x with _ => _ end] => destruct x end; cbn [snd]); try apply set_caches_same; reflexivity.
Qed.
Lemma apply_err_same m c f e : mapM (apply_row c f) (rows_of m) = Err e -> snd (apply_col m c f) = m.
Proof.
  intros E. unfold apply_col. destruct (validate_column m c); [|reflexivity].
  destruct (mem_b String.eqb c read_only); [reflexivity|].
  destruct (rows_of m) eqn:R; [reflexivity|]. rewrite E. destruct (col_type m c); reflexivity.
Qed.
Lemma apply_frame m c f : set_caches (set_df m (m_df (snd (apply_col m c f))))
   (m_cache (snd (apply_col m c f))) (m_tcache (snd (apply_col m c f))) = snd (apply_col m c f).
Proof.
  assert (S : set_caches (set_df m (m_df m)) (m_cache m) (m_tcache m) = m) by (destruct m; reflexivity).
  unfold apply_col. destruct (validate_column m c); [|exact S].
  destruct (mem_b String.eqb c read_only); [exact S|].
  destruct (rows_of m) eqn:R; [exact S|]. destruct (col_type m c); [|exact S].
  destruct (mapM _ _); [|exact S].
  destruct (String.eqb c "interaction"); [|reflexivity]. cbn [m_cache set_df].
  destruct (m_cache m) eqn:C; [|cbn [snd]; apply set_caches_same].
  destruct (build_matrix _) as [[mx tmx]|]; reflexivity.
Qed.

Lemma hstep_sim w i o : hinv w -> live w i ->
  hinv (hstep w (i, o)) /\ views (hstep w (i, o)) = sstep (views w) (i, o).
Proof.
  intros I L. unfold hstep. assert (L' := L). apply Nat.ltb_lt in L'. rewrite L'.
  set (m := view_of w (get w i)).
  destruct o as [|q cp|ids keep cp|cs cp| | |c f|u|u].
  - apply (og_done_new w i _ _ (mem_copy m)); auto. apply og_copy; auto.
  - unfold h_select. destruct cp; cbn [target].
    + rewrite (og_value _ _ _ _ (og_copy w i I L)). fold m.
      destruct (apply_query (mem_copy m) q) as [f|e] eqn:E.
      * apply (og_done_new w i _ _ (set_df (mem_copy m) f)); auto.
        -- fold m. unfold effect, select. rewrite E. reflexivity.
        -- apply og_new_df. apply og_copy; auto.
      * apply same_done; auto. unfold effect, select. fold m. rewrite E. reflexivity.
    + fold m. destruct (apply_query m q) as [f|e] eqn:E.
      * apply og_done; auto. fold m. unfold effect, select_inplace. rewrite E. cbn [bind fst].
        apply og_new_df. apply og_start; auto.
      * apply same_done; auto. unfold effect, select_inplace. fold m. rewrite E. reflexivity.
  - unfold h_drop. destruct cp; cbn [target].
    + assert (O := og_copy w i I L). assert (V := og_value _ _ _ _ O).
      apply (og_done_new w i _ _ (drop m ids keep)); auto.
      apply (f_equal m_df) in V. cbn [m_df view_of] in V. rewrite V. apply (og_new_df _ _ _ _ _ O).
    + apply og_done; auto. apply (og_new_df _ _ _ _ _ (og_start w i I L)).
  - unfold h_unique. destruct cp; cbn [target].
    + rewrite (og_value _ _ _ _ (og_copy w i I L)). fold m.
      destruct (unique_inplace (mem_copy m) cs) as [m'|e] eqn:E.
      * assert (X : m' = set_columns (set_df (mem_copy m) (m_df m')) (m_columns m')).
        { unfold unique_inplace in E. destruct (handle_columns (mem_copy m) cs); cbn [bind] in E; [|discriminate].
          destruct (df_columns _); [discriminate|]. destruct (mapM _ _); cbn [bind] in E; [|discriminate].
          injection E as <-. reflexivity. }
        apply (og_done_new w i _ _ m'); auto.
        -- fold m. unfold effect, unique. rewrite E. reflexivity.
        -- rewrite X at 3. apply og_new_cols, og_new_df, og_copy; auto.
      * apply same_done; auto. unfold effect, unique. fold m. rewrite E. reflexivity.
    + fold m. destruct (unique_inplace m cs) as [m'|e] eqn:E.
      * assert (X : m' = set_columns (set_df m (m_df m')) (m_columns m')).
        { unfold unique_inplace in E. destruct (handle_columns m cs); cbn [bind] in E; [|discriminate].
          destruct (df_columns _); [discriminate|]. destruct (mapM _ _); cbn [bind] in E; [|discriminate].
          injection E as <-. reflexivity. }
        apply og_done; auto. fold m. unfold effect. rewrite E. cbn [fst].
        rewrite X at 3. apply og_new_cols, og_new_df, og_start; auto.
      * apply same_done; auto. unfold effect. fold m. rewrite E. reflexivity.
  - apply og_done; auto. unfold effect. cbn [fst]. unfold h_assign, assign_result. fold m. cbv zeta.
    destruct (og_new_df w w i m (m_df m) (og_start w i I L)) as [O1 S1].
    rewrite (og_value _ _ _ _ O1).
    assert (O2 := og_write_cols _ _ _ _ (add_column (set_df m (m_df m)) "uid") O1).
    set (w2 := write_cols (new_df w i (m_df m)) i _) in *.
    assert (S2 : sole w2 i) by (apply write_cols_sole; exact S1).
    unfold assign_internal_ids. destruct (col_type m "user") as [tu|] eqn:Tu; cbn [bind].
    2: { exact O2. }
    assert (D2 : df_of w2 (get w2 i) = m_df m).
    { assert (V := og_value _ _ _ _ O2). apply (f_equal m_df) in V. exact V. }
    rewrite D2.
    destruct (og_write_df _ _ _ _ (assign_frame "user" "uid" (m_df m)) O2 S2) as [O3 S3].
    set (w3 := write_df w2 i _) in *.
    assert (O4 := og_put_umaps _ _ _ _ (mapping_of (distinct_col "user" (rows_of m))) (mapping_inv_of (distinct_col "user" (rows_of m))) O3).
    assert (S4 : sole (put_umaps w3 i (mapping_of (distinct_col "user" (rows_of m))) (mapping_inv_of (distinct_col "user" (rows_of m)))) i).
    { apply put_sole; auto. apply (og_live _ _ _ _ O3). }
    set (w4 := put_umaps w3 i _ _) in *.
    rewrite (og_value _ _ _ _ O4).
    set (m4 := mkMem _ _ _ _ _ _ _ _ _) in O4 |- *.
    assert (O5 := og_write_cols _ _ _ _ (add_column m4 "iid") O4).
    assert (S5 : sole (write_cols w4 i (add_column m4 "iid")) i) by (apply write_cols_sole; exact S4).
    set (w5 := write_cols w4 i _) in *.
    destruct (col_type m "item") as [ti|] eqn:Ti; cbn [bind].
    2: { exact O5. }
    assert (D5 : df_of w5 (get w5 i) = assign_frame "user" "uid" (m_df m)).
    { assert (V := og_value _ _ _ _ O5). apply (f_equal m_df) in V. exact V. }
    rewrite D5.
    destruct (og_write_df _ _ _ _ (assign_frame "item" "iid" (assign_frame "user" "uid" (m_df m))) O5 S5) as [O6 _].
    assert (O7 := og_put_imaps _ _ _ _ (mapping_of (distinct_col "item" (rows_of m))) (mapping_inv_of (distinct_col "item" (rows_of m))) O6).
    exact (og_put_ids _ _ _ _ true O7).
  - apply og_done; auto. unfold effect. cbn [fst]. unfold h_remove, remove_result. fold m.
    assert (O1 := og_put_ids _ _ _ _ false (og_start w i I L)). fold m in O1.
    rewrite (og_value _ _ _ _ O1). cbv zeta.
    change (cols_of w (get w i)) with (m_columns m).
    unfold remove_internal_ids. cbn [m_columns m_df].
    destruct (mem_b String.eqb "uid" (m_columns m)); [|exact O1].
    unfold col_type. cbn [m_df].
    destruct (if String.eqb "uid" "rid" then _ else _); cbn [bind]; [|exact O1].
    destruct (if String.eqb "iid" "rid" then _ else _); cbn [bind]; [|exact O1].
    destruct (negb (mem_b String.eqb "iid" (m_columns m))); [exact O1|].
    apply og_write_cols. refine (proj1 (og_new_df _ _ _ _ _ O1)).
  - apply og_done; auto. fold m. unfold effect. cbn [fst]. unfold h_apply. fold m. cbv zeta.
    destruct (mapM (apply_row c f) (rows_of m)) as [rs|e] eqn:E.
    + destruct (og_new_df _ _ _ _ (m_df m) (og_start w i I L)) as [O1 S1]. fold m in O1.
      destruct (og_write_df _ _ _ _ (m_df (snd (apply_col m c f))) O1 S1) as [O2 _].
      assert (O3 := og_put_caches _ _ _ _ (m_cache (snd (apply_col m c f))) (m_tcache (snd (apply_col m c f))) O2).
      rewrite <- apply_frame. exact O3.
    + rewrite (apply_err_same m c f e E). apply og_start; auto.
  - apply og_done; auto. fold m. unfold effect. cbn [fst]. unfold h_uvec. fold m. cbv zeta.
    rewrite <- (user_vec_caches m u) at 3. apply og_put_caches. apply og_start; auto.
  - apply og_done; auto. fold m. unfold effect. cbn [fst]. unfold h_ivec. fold m. cbv zeta.
    rewrite <- (item_vec_caches m u) at 3. apply og_put_caches. apply og_start; auto.
Qed.

Lemma hrun_sim cs : forall w, hinv w -> hinv (hrun w cs) /\ views (hrun w cs) = srun (views w) cs.
Proof.
  induction cs as [|[i o] cs IH]; intros w I; simpl; [auto|].
  destruct (Nat.ltb i (length (w_insts w))) eqn:E.
  - assert (L : live w i) by (apply Nat.ltb_lt; exact E).
    destruct (hstep_sim w i o I L) as [A B]. unfold hstep in *. rewrite E in *. rewrite <- B. apply IH. exact A.
  - assert (X : sstep (views w) (i, o) = views w).
    { unfold sstep. simpl. assert (N : nth_error (views w) i = None).
      { apply nth_error_None. unfold views. rewrite map_length. apply Nat.ltb_ge. exact E. }
      rewrite N. reflexivity. }
    rewrite X. apply IH. exact I.
Qed.

Lemma w_init_inv m : hinv (w_init m).
Proof.
  constructor; simpl.
  - intros x [<-|[]]; simpl; lia.
  - intros x [<-|[]]; simpl; lia.
  - constructor; [simpl; tauto|constructor].
Qed.
Lemma w_init_views m : views (w_init m) = [m].
Proof. destruct m; reflexivity. Qed.

Lemma heap_is_values m cs : views (hrun (w_init m) cs) = srun [m] cs.
Proof. rewrite <- w_init_views. apply hrun_sim, w_init_inv. Qed.

(** entries other than the receiver's never change *)
Lemma sstep_other ms i o j x : j <> i -> nth_error ms j = Some x -> nth_error (sstep ms (i, o)) j = Some x.
Proof.
  intros N E. destruct (nth_error ms i) as [m|] eqn:Ei.
  - rewrite (sstep_upd ms i o m Ei). rewrite nth_error_app1.
    + rewrite upd_nth_error. apply Nat.eqb_neq in N. rewrite N. exact E.
    + rewrite upd_length. apply nth_error_Some. congruence.
  - unfold sstep. simpl. rewrite Ei. exact E.
Qed.
Lemma srun_other ms cs j x : Forall (fun c => fst c <> j) cs -> nth_error ms j = Some x ->
  nth_error (srun ms cs) j = Some x.
Proof.
  revert ms; induction cs as [|[i o] cs IH]; intros ms F E; simpl; auto.
  inversion F; subst. apply IH; auto. apply sstep_other; auto.
Qed.

(** after any history, calls on other data sets do not change what [j] shows *)
Lemma isolation m h cs j x : Forall (fun c => fst c <> j) cs ->
  nth_error (views (hrun (w_init m) h)) j = Some x ->
  nth_error (views (hrun (hrun (w_init m) h) cs)) j = Some x.
Proof.
  intros F E. destruct (hrun_sim h (w_init m) (w_init_inv m)) as [I _].
  destruct (hrun_sim cs _ I) as [_ ->]. apply srun_other; auto.
Qed.
