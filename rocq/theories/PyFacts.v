(** Facts about the Python prelude. *)
From Coq Require Import String Ascii Decimal DecimalString DecimalZ.
From Coq Require Import List ZArith QArith Qcanon Bool Lia Permutation Sorted.
From Verif Require Import Py.
Import ListNotations.
Open Scope Z_scope.

Definition reflects {A} (eqb : A -> A -> bool) := forall x y, eqb x y = true <-> x = y.

Lemma reflects_Z : reflects Z.eqb.
Proof. intros x y; apply Z.eqb_eq. Qed.
Lemma reflects_nat : reflects Nat.eqb.
Proof. intros x y; apply Nat.eqb_eq. Qed.
Lemma reflects_string : reflects String.eqb.
Proof. intros x y; apply String.eqb_eq. Qed.

Lemma reflects_refl {A} (eqb : A -> A -> bool) : reflects eqb -> forall x, eqb x x = true.
Proof. intros R x; apply R; reflexivity. Qed.

Lemma reflects_false {A} (eqb : A -> A -> bool) :
  reflects eqb -> forall x y, eqb x y = false <-> x <> y.
Proof.
  intros R x y. specialize (R x y). destruct (eqb x y).
  - split; [discriminate|]. intros N. exfalso. apply N. apply R. reflexivity.
  - split; [|reflexivity]. intros _ E. apply R in E. discriminate.
Qed.

Lemma mem_b_In {A} (eqb : A -> A -> bool) : reflects eqb ->
  forall x l, mem_b eqb x l = true <-> In x l.
Proof.
  intros R x l; induction l as [|y l IH]; simpl.
  - split; [discriminate|tauto].
  - rewrite orb_true_iff, IH, (R x y). split; intros [H|H]; auto.
Qed.

Lemma mem_b_false {A} (eqb : A -> A -> bool) : reflects eqb ->
  forall x l, mem_b eqb x l = false <-> ~ In x l.
Proof.
  intros R x l. rewrite <- (mem_b_In eqb R x l). destruct (mem_b eqb x l).
  - split; [discriminate|]. intros H; exfalso; apply H; reflexivity.
  - split; [|reflexivity]. intros _ H; discriminate.
Qed.

Lemma mem_b_app {A} (eqb : A -> A -> bool) x l m :
  mem_b eqb x (l ++ m) = mem_b eqb x l || mem_b eqb x m.
Proof. induction l; simpl; auto. rewrite IHl, orb_assoc. reflexivity. Qed.

Lemma mem_b_ext {A} (eqb : A -> A -> bool) : reflects eqb ->
  forall x l m, (In x l <-> In x m) -> mem_b eqb x l = mem_b eqb x m.
Proof.
  intros R x l m H. apply eq_true_iff_eq. rewrite !(mem_b_In eqb R). exact H.
Qed.

Lemma dedup_acc_In {A} (eqb : A -> A -> bool) : reflects eqb ->
  forall l seen x, In x (dedup_acc eqb seen l) <-> In x l /\ ~ In x seen.
Proof.
  intros R l; induction l as [|y l IH]; intros seen x; simpl.
  - tauto.
  - destruct (mem_b eqb y seen) eqn:E.
    + rewrite IH. apply (mem_b_In eqb R) in E. split.
      * intros [H1 H2]; auto.
      * intros [[<-|H1] H2]; [contradiction|auto].
    + apply (mem_b_false eqb R) in E. simpl. rewrite IH. simpl. split.
      * intros [<-|[H1 H2]]; auto.
      * intros [[<-|H1] H2]; auto.
        destruct (eqb y x) eqn:F; [left; apply R; auto|].
        right. apply (reflects_false eqb R) in F. split; auto. intros [G|G]; auto.
Qed.

Lemma dedup_In {A} (eqb : A -> A -> bool) : reflects eqb ->
  forall l x, In x (dedup eqb l) <-> In x l.
Proof. intros R l x. unfold dedup. rewrite dedup_acc_In by auto. simpl. tauto. Qed.

Lemma dedup_acc_NoDup {A} (eqb : A -> A -> bool) : reflects eqb ->
  forall l seen, NoDup (dedup_acc eqb seen l).
Proof.
  intros R l; induction l as [|y l IH]; intros seen; simpl; [constructor|].
  destruct (mem_b eqb y seen); auto. constructor; auto.
  rewrite dedup_acc_In by auto. simpl. tauto.
Qed.

Lemma dedup_NoDup {A} (eqb : A -> A -> bool) : reflects eqb ->
  forall l, NoDup (dedup eqb l).
Proof. intros R l; apply dedup_acc_NoDup; auto. Qed.

Lemma dedup_acc_NoDup_id {A} (eqb : A -> A -> bool) : reflects eqb ->
  forall l seen, NoDup l -> (forall x, In x l -> ~ In x seen) -> dedup_acc eqb seen l = l.
Proof.
  intros R l; induction l as [|y l IH]; intros seen N D; simpl; auto.
  inversion N; subst. destruct (mem_b eqb y seen) eqn:E.
  - apply (mem_b_In eqb R) in E. exfalso; apply (D y); simpl; auto.
  - f_equal. apply IH; auto. intros x Hx [<-|Hs]; auto. apply (D x); simpl; auto.
Qed.

Lemma dedup_NoDup_id {A} (eqb : A -> A -> bool) : reflects eqb ->
  forall l, NoDup l -> dedup eqb l = l.
Proof. intros R l N; apply dedup_acc_NoDup_id; auto. Qed.

Lemma dedup_length_le {A} (eqb : A -> A -> bool) : forall l : list A, (length (dedup eqb l) <= length l)%nat.
Proof.
  unfold dedup. intros l. generalize (@nil A). induction l as [|y l IH]; intros s; simpl; auto.
  destruct (mem_b eqb y s); simpl.
  - specialize (IH s). lia.
  - specialize (IH (y :: s)). lia.
Qed.

(** index_of *)
Lemma index_of_Some {A} (eqb : A -> A -> bool) : reflects eqb ->
  forall l x n, index_of eqb x l = Some n ->
    nth_error l n = Some x /\ ~ In x (firstn n l) /\ (n < length l)%nat.
Proof.
  intros R l x; induction l as [|y l IH]; intros n; simpl; [discriminate|].
  destruct (eqb x y) eqn:E.
  - intros H; injection H as <-. apply R in E; subst. simpl. repeat split; auto. lia.
  - apply (reflects_false eqb R) in E.
    destruct (index_of eqb x l) as [m|]; [|discriminate].
    intros H; injection H as <-. destruct (IH m eq_refl) as [H1 [H2 H3]]. simpl.
    repeat split; auto; [|lia]. intros [->|H]; auto.
Qed.

Lemma index_of_None {A} (eqb : A -> A -> bool) : reflects eqb ->
  forall l x, index_of eqb x l = None <-> ~ In x l.
Proof.
  intros R l x; induction l as [|y l IH]; simpl; [tauto|].
  destruct (eqb x y) eqn:E.
  - apply R in E; subst. split; [discriminate|]. intros H; exfalso; auto.
  - apply (reflects_false eqb R) in E. destruct (index_of eqb x l).
    + split; [discriminate|]. intros H. exfalso. apply H. right.
      destruct (in_dec (fun a b => match eqb a b as e return eqb a b = e -> {a = b} + {a <> b} with
                  | true => fun F => left (proj1 (R a b) F)
                  | false => fun F => right (proj1 (reflects_false eqb R a b) F) end eq_refl) x l); auto.
      exfalso. apply IH in n0. discriminate.
    + split; auto. intros _ [->|H]; auto. apply IH in H; auto.
Qed.

Lemma index_of_nth {A} (eqb : A -> A -> bool) : reflects eqb ->
  forall l n x, NoDup l -> nth_error l n = Some x -> index_of eqb x l = Some n.
Proof.
  intros R l; induction l as [|y l IH]; intros n x N; destruct n; simpl; try discriminate.
  - intros H; injection H as <-. rewrite (reflects_refl eqb R). reflexivity.
  - intros H. inversion N; subst. destruct (eqb x y) eqn:E.
    + apply R in E; subst. apply nth_error_In in H; contradiction.
    + rewrite (IH n x); auto.
Qed.

Lemma index_of_In {A} (eqb : A -> A -> bool) : reflects eqb ->
  forall l x, In x l -> exists n, index_of eqb x l = Some n.
Proof.
  intros R l x H. destruct (index_of eqb x l) eqn:E; [eauto|].
  apply (index_of_None eqb R) in E. contradiction.
Qed.

(** association lists *)
Lemma assoc_In {A B} (eqb : A -> A -> bool) : reflects eqb ->
  forall (l : list (A * B)) k v, assoc eqb k l = Some v -> In (k, v) l.
Proof.
  intros R l k v; induction l as [|[k' v'] l IH]; simpl; [discriminate|].
  destruct (eqb k k') eqn:E.
  - apply R in E; subst. intros H; injection H as ->. auto.
  - auto.
Qed.

Lemma assoc_None {A B} (eqb : A -> A -> bool) : reflects eqb ->
  forall (l : list (A * B)) k, assoc eqb k l = None <-> ~ In k (map fst l).
Proof.
  intros R l k; induction l as [|[k' v'] l IH]; simpl; [tauto|].
  destruct (eqb k k') eqn:E.
  - apply R in E; subst. split; [discriminate|]. intros H; exfalso; auto.
  - apply (reflects_false eqb R) in E. rewrite IH. split; [|tauto].
    intros H [->|G]; auto.
Qed.

Lemma assoc_NoDup {A B} (eqb : A -> A -> bool) : reflects eqb ->
  forall (l : list (A * B)) k v, NoDup (map fst l) -> In (k, v) l -> assoc eqb k l = Some v.
Proof.
  intros R l k v; induction l as [|[k' v'] l IH]; simpl; [tauto|].
  intros N. inversion N; subst. intros [E|H].
  - injection E as -> ->. rewrite (reflects_refl eqb R). reflexivity.
  - destruct (eqb k k') eqn:E; auto. apply R in E; subst.
    exfalso. apply H1. apply in_map_iff. exists (k', v); auto.
Qed.

Lemma assoc_set_same {A B} (eqb : A -> A -> bool) : reflects eqb ->
  forall (l : list (A * B)) k v, assoc eqb k (assoc_set eqb k v l) = Some v.
Proof.
  intros R l k v; induction l as [|[k' v'] l IH]; simpl.
  - rewrite (reflects_refl eqb R). reflexivity.
  - destruct (eqb k k') eqn:E; simpl; rewrite E; auto.
Qed.

Lemma assoc_set_other {A B} (eqb : A -> A -> bool) : reflects eqb ->
  forall (l : list (A * B)) k k2 v, k2 <> k -> assoc eqb k2 (assoc_set eqb k v l) = assoc eqb k2 l.
Proof.
  intros R l k k2 v N; induction l as [|[k' v'] l IH]; simpl.
  - apply (reflects_false eqb R) in N. rewrite N. reflexivity.
  - destruct (eqb k k') eqn:E; simpl.
    + apply R in E; subst. apply (reflects_false eqb R) in N. rewrite N. reflexivity.
    + destruct (eqb k2 k'); auto.
Qed.

Lemma assoc_set_keys {A B} (eqb : A -> A -> bool) : reflects eqb ->
  forall (l : list (A * B)) k v, In k (map fst l) -> map fst (assoc_set eqb k v l) = map fst l.
Proof.
  intros R l k v; induction l as [|[k' v'] l IH]; simpl; [tauto|].
  destruct (eqb k k') eqn:E; simpl; auto.
  apply (reflects_false eqb R) in E. intros [->|H]; [contradiction|]. rewrite IH; auto.
Qed.

Lemma assoc_set_keys_new {A B} (eqb : A -> A -> bool) : reflects eqb ->
  forall (l : list (A * B)) k v, ~ In k (map fst l) -> assoc_set eqb k v l = l ++ [(k, v)].
Proof.
  intros R l k v; induction l as [|[k' v'] l IH]; simpl; [reflexivity|].
  intros N. destruct (eqb k k') eqn:E.
  - apply R in E; subst. exfalso; auto.
  - rewrite IH; auto.
Qed.

(** list equality *)
Lemma list_eqb_reflects {A} (eqb : A -> A -> bool) : reflects eqb -> reflects (list_eqb eqb).
Proof.
  intros R l; induction l as [|x l IH]; intros [|y m]; simpl; split; try discriminate; auto.
  - rewrite andb_true_iff. intros [H1 H2]. apply R in H1. apply IH in H2. subst; auto.
  - intros H; injection H as -> ->. rewrite (reflects_refl eqb R). simpl. apply IH. reflexivity.
Qed.

Lemma opt_eqb_reflects {A} (eqb : A -> A -> bool) : reflects eqb -> reflects (opt_eqb eqb).
Proof.
  intros R [x|] [y|]; simpl; split; try discriminate; auto.
  - intros H; apply R in H; subst; auto.
  - intros H; injection H as ->. apply R; auto.
Qed.

(** sorting *)
Lemma insert_by_perm {A} (leb : A -> A -> bool) x l : Permutation (x :: l) (insert_by leb x l).
Proof.
  induction l as [|y l IH]; simpl; auto.
  destruct (leb x y); auto.
  transitivity (y :: x :: l); [constructor|]. constructor. exact IH.
Qed.

Lemma sort_by_perm {A} (leb : A -> A -> bool) l : Permutation l (sort_by leb l).
Proof.
  induction l as [|x l IH]; simpl; auto.
  transitivity (x :: sort_by leb l); [constructor; auto|]. apply insert_by_perm.
Qed.

Section SortFacts.
  Context {A : Type} (leb : A -> A -> bool).
  Hypothesis leb_total : forall x y, leb x y = true \/ leb y x = true.
  Hypothesis leb_trans : forall x y z, leb x y = true -> leb y z = true -> leb x z = true.

  Definition le_rel x y := leb x y = true.

  Lemma insert_by_sorted x l :
    StronglySorted le_rel l -> StronglySorted le_rel (insert_by leb x l).
  Proof.
    induction l as [|y l IH]; intros S; simpl.
    - repeat constructor.
    - inversion S; subst. destruct (leb x y) eqn:E.
      + constructor; auto. constructor; auto.
        eapply Forall_impl; [|exact H2]. intros a Ha. eapply leb_trans; eauto.
      + constructor; auto.
        assert (F : le_rel y x) by (destruct (leb_total x y); [congruence|auto]).
        apply Forall_forall. intros z Hz.
        apply (Permutation_in _ (Permutation_sym (insert_by_perm leb x l))) in Hz.
        destruct Hz as [<-|Hz]; auto.
        rewrite Forall_forall in H2. auto.
  Qed.

  Lemma sort_by_sorted l : StronglySorted le_rel (sort_by leb l).
  Proof. induction l; simpl; [constructor|]. apply insert_by_sorted; auto. Qed.

  Lemma sort_by_id l : StronglySorted le_rel l -> sort_by leb l = l.
  Proof.
    induction l as [|x l IH]; simpl; auto. intros S. inversion S; subst.
    rewrite IH by auto. destruct l as [|y l]; simpl; auto.
    inversion H2; subst. unfold le_rel in H3. rewrite H3. reflexivity.
  Qed.
End SortFacts.

Lemma firstn_incl {A} n (l : list A) x : In x (firstn n l) -> In x l.
Proof.
  intros H. rewrite <- (firstn_skipn n l). apply in_or_app. auto.
Qed.

Lemma StronglySorted_firstn {A} (R : A -> A -> Prop) n l :
  StronglySorted R l -> StronglySorted R (firstn n l).
Proof.
  intros S; revert n; induction S as [|x l S IH F]; intros [|n]; simpl; try constructor; auto.
  apply Forall_forall. intros y Hy. rewrite Forall_forall in F. apply F.
  eapply firstn_incl; eauto.
Qed.

Lemma StronglySorted_app_le {A} (R : A -> A -> Prop) l m :
  StronglySorted R (l ++ m) -> forall x y, In x l -> In y m -> R x y.
Proof.
  induction l as [|z l IH]; simpl; [tauto|].
  intros S x y Hx Hy. inversion S; subst. destruct Hx as [<-|Hx].
  - rewrite Forall_forall in H2. apply H2. apply in_or_app; auto.
  - eapply IH; eauto.
Qed.

Lemma StronglySorted_impl {A} (R S : A -> A -> Prop) l :
  (forall x y, R x y -> S x y) -> StronglySorted R l -> StronglySorted S l.
Proof.
  intros H; induction 1 as [|x l S1 IH F]; constructor; auto.
  eapply Forall_impl; [|exact F]. auto.
Qed.

(** The [n] largest: a sorted sub-multiset that dominates what is left out. *)
Lemma nlargest_spec {A} (geb : A -> A -> bool) :
  (forall x y, geb x y = true \/ geb y x = true) ->
  (forall x y z, geb x y = true -> geb y z = true -> geb x z = true) ->
  forall n l, exists rest,
    Permutation l (nlargest geb n l ++ rest) /\
    length (nlargest geb n l) = Nat.min n (length l) /\
    StronglySorted (fun x y => geb x y = true) (nlargest geb n l) /\
    (forall x y, In x (nlargest geb n l) -> In y rest -> geb x y = true).
Proof.
  intros T Tr n l. unfold nlargest. exists (skipn n (sort_by geb l)).
  rewrite firstn_skipn. split; [apply sort_by_perm|]. split.
  - rewrite firstn_length. f_equal. symmetry. apply Permutation_length, sort_by_perm.
  - split.
    + apply StronglySorted_firstn. apply (sort_by_sorted geb); auto.
    + apply StronglySorted_app_le. rewrite firstn_skipn. apply (sort_by_sorted geb); auto.
Qed.

(** [l[:k]] *)
Lemma py_take_nonneg {A} k (l : list A) : 0 <= k -> py_take k l = firstn (Z.to_nat k) l.
Proof. intros H. unfold py_take. apply Z.leb_le in H. rewrite H. reflexivity. Qed.

Lemma py_take_incl {A} k (l : list A) x : In x (py_take k l) -> In x l.
Proof. unfold py_take. destruct (0 <=? k); apply firstn_incl. Qed.

Lemma py_trunc_incl {A} k (l : list A) x : In x (py_trunc k l) -> In x l.
Proof. destruct k; simpl; auto. apply py_take_incl. Qed.

Lemma py_take_idem {A} k (l : list A) : 0 <= k -> py_take k (py_take k l) = py_take k l.
Proof.
  intros H. rewrite !py_take_nonneg by auto. rewrite firstn_firstn, Nat.min_id. reflexivity.
Qed.

(** decimal numbers *)
Lemma little_rev_nonnil p : Pos.to_little_uint p <> Decimal.Nil.
Proof.
  induction p; simpl; try discriminate;
    destruct (Pos.to_little_uint p); simpl; congruence.
Qed.

Lemma revapp_nonnil : forall u v, (u <> Decimal.Nil \/ v <> Decimal.Nil) -> Decimal.revapp u v <> Decimal.Nil.
Proof.
  induction u; simpl; intros v H; try (apply IHu; right; discriminate).
  destruct H; congruence.
Qed.

Lemma pos_uint_nonnil p : Pos.to_uint p <> Decimal.Nil.
Proof.
  unfold Pos.to_uint, Decimal.rev. apply revapp_nonnil. left. apply little_rev_nonnil.
Qed.

Lemma Z_of_str_of_Z z : Z_of_str (str_of_Z z) = Some z.
Proof.
  unfold Z_of_str, str_of_Z. rewrite NilZero.isi.
  - rewrite DecimalZ.of_to. reflexivity.
  - destruct z; simpl; try discriminate. intros E. injection E. apply pos_uint_nonnil.
  - destruct z; simpl; try discriminate. intros E. injection E. apply pos_uint_nonnil.
Qed.

(** strings without a given character *)
Fixpoint str_no (c : ascii) (s : string) : Prop :=
  match s with EmptyString => True | String a s' => a <> c /\ str_no c s' end.

Lemma str_no_app c s t : str_no c s -> str_no c t -> str_no c (s ++ t)%string.
Proof. induction s; simpl; auto. intros [H1 H2] H3; auto. Qed.

Lemma split_on_no c s : str_no c s -> split_on c s = [s].
Proof.
  induction s as [|a s IH]; simpl; auto. intros [H1 H2].
  rewrite IH by auto. destruct (Ascii.eqb a c) eqn:E; auto.
  apply Ascii.eqb_eq in E. contradiction.
Qed.

Lemma split_on_app c s t : str_no c s ->
  split_on c (s ++ String c t)%string = s :: split_on c t.
Proof.
  induction s as [|a s IH]; simpl.
  - intros _. rewrite Ascii.eqb_refl. reflexivity.
  - intros [H1 H2]. rewrite IH by auto.
    destruct (Ascii.eqb a c) eqn:E; auto. apply Ascii.eqb_eq in E. contradiction.
Qed.

Definition digit_char (a : ascii) : Prop := In a ["0"; "1"; "2"; "3"; "4"; "5"; "6"; "7"; "8"; "9"; "-"]%char.


Lemma uint_digits u : str_all digit_char (NilEmpty.string_of_uint u).
Proof. induction u; simpl; auto; split; auto; unfold digit_char; simpl; tauto. Qed.

Lemma str_of_Z_digits z : str_all digit_char (str_of_Z z).
Proof.
  unfold str_of_Z, NilZero.string_of_int, NilZero.string_of_uint.
  destruct (Z.to_int z) as [u|u].
  - destruct u; try apply uint_digits. simpl. split; auto. unfold digit_char; simpl; tauto.
  - simpl. split; [unfold digit_char; simpl; tauto|].
    destruct u; try apply uint_digits. simpl. split; auto. unfold digit_char; simpl; tauto.
Qed.

Lemma str_all_no P c s : str_all P s -> ~ P c -> str_no c s.
Proof.
  induction s as [|a s IH]; simpl; auto. intros [H1 H2] N. split; auto.
  intros ->; auto.
Qed.

Lemma digit_not_space : ~ digit_char " ".
Proof. unfold digit_char; simpl. intros H; repeat (destruct H as [H|H]; [discriminate|]); auto. Qed.
Lemma digit_not_comma : ~ digit_char ",".
Proof. unfold digit_char; simpl. intros H; repeat (destruct H as [H|H]; [discriminate|]); auto. Qed.

Lemma str_of_Z_no_space z : str_no " " (str_of_Z z).
Proof. eapply str_all_no; [apply str_of_Z_digits|apply digit_not_space]. Qed.
Lemma str_of_Z_no_comma z : str_no "," (str_of_Z z).
Proof. eapply str_all_no; [apply str_of_Z_digits|apply digit_not_comma]. Qed.

Lemma str_of_Z_inj a b : str_of_Z a = str_of_Z b -> a = b.
Proof.
  intros H. assert (E : Some a = Some b) by (rewrite <- !Z_of_str_of_Z, H; reflexivity).
  congruence.
Qed.

Lemma str_of_Z_nonempty z : str_of_Z z <> EmptyString.
Proof.
  intros E. assert (H := Z_of_str_of_Z z). rewrite E in H. discriminate.
Qed.

(** strip does nothing on a string whose ends are not blank *)
Fixpoint last_char (s : string) (d : ascii) : ascii :=
  match s with EmptyString => d | String a s' => last_char s' a end.

Lemma rstrip_id s a : is_space (last_char s a) = false -> s <> EmptyString -> rstrip s = s.
Proof.
  revert a; induction s as [|b s IH]; intros a H N; [contradiction|].
  simpl in *. destruct s as [|c s].
  - simpl in *. rewrite H. reflexivity.
  - rewrite (IH b); auto. discriminate.
Qed.

Lemma strip_id s a : is_space a = false ->
  is_space (last_char s a) = false -> strip (String a s) = String a s.
Proof.
  intros H1 H2. unfold strip. simpl. rewrite H1.
  apply (rstrip_id (String a s) a); [exact H2|discriminate].
Qed.

Lemma strip_empty : strip EmptyString = EmptyString.
Proof. reflexivity. Qed.

(** float64 conversion is exact up to 2^53 *)
Lemma f64_exact z : Z.abs z <= 2 ^ 53 -> f64_of_Z z = z.
Proof. intros H. unfold f64_of_Z. apply Z.leb_le in H. rewrite H. reflexivity. Qed.

(** value equality *)
Lemma Qc_eq_bool_iff x y : Qc_eq_bool x y = true <-> x = y.
Proof.
  split; [apply Qc_eq_bool_correct|]. intros ->. unfold Qc_eq_bool.
  destruct (Qc_eq_dec y y); congruence.
Qed.

Lemma reflects_value : reflects value_eqb.
Proof.
  intros [x|x|x] [y|y|y]; simpl; split; try discriminate; intros H.
  - apply Z.eqb_eq in H; congruence.
  - injection H as ->. apply Z.eqb_refl.
  - apply Qc_eq_bool_iff in H; congruence.
  - injection H as ->. apply Qc_eq_bool_iff; reflexivity.
  - apply String.eqb_eq in H; congruence.
  - injection H as ->. apply String.eqb_refl.
Qed.

Lemma val_eqb_refl v : val_eqb v v = true.
Proof.
  destruct v; simpl; [apply Z.eqb_refl|apply Qc_eq_bool_iff; reflexivity|apply String.eqb_refl].
Qed.

Lemma Qc_of_Z_inj x y : Qc_of_Z x = Qc_of_Z y -> x = y.
Proof.
  intros H. apply (f_equal this) in H. change (Qred (inject_Z x) = Qred (inject_Z y)) in H.
  assert (E : (inject_Z x == inject_Z y)%Q).
  { rewrite <- (Qred_correct (inject_Z x)), H, Qred_correct. reflexivity. }
  unfold Qeq in E. simpl in E. lia.
Qed.

(** [val_eqb] is an equivalence: equality of the numeric value or of the str. *)
Definition val_norm (v : value) : Qc + string :=
  match v with VInt z => inl (Qc_of_Z z) | VFlt q => inl q | VStr s => inr s end.

Lemma val_eqb_norm a b : val_eqb a b = true <-> val_norm a = val_norm b.
Proof.
  destruct a as [x|x|x], b as [y|y|y]; simpl.
  - rewrite Z.eqb_eq. split; intros H; [congruence|].
    apply Qc_of_Z_inj. congruence.
  - rewrite Qc_eq_bool_iff. split; intros H; congruence.
  - split; discriminate.
  - rewrite Qc_eq_bool_iff. split; intros H; congruence.
  - rewrite Qc_eq_bool_iff. split; intros H; congruence.
  - split; discriminate.
  - split; discriminate.
  - split; discriminate.
  - rewrite String.eqb_eq. split; intros H; congruence.
Qed.

Lemma val_eqb_sym a b : val_eqb a b = val_eqb b a.
Proof. apply eq_true_iff_eq. rewrite !val_eqb_norm. split; congruence. Qed.

Lemma val_eqb_trans a b c : val_eqb a b = true -> val_eqb b c = true -> val_eqb a c = true.
Proof. rewrite !val_eqb_norm. congruence. Qed.
