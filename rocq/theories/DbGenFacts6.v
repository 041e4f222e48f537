(** Under streams in which every finite sequence of draws comes again and again, every
    pair without a positive row comes again and again. *)
From Coq Require Import String Ascii.
From Coq Require Import List ZArith QArith Qcanon Bool Permutation Lia Cantor.
From Verif Require Import Py PyFacts MemModel MemFacts MemSpec DbModel DbFacts DbFacts2 DbFacts3 DbFacts4 DbFacts5 DbFacts7 DbFacts10
  DbSpec DbFacts11 DbFacts12 DbFacts13 DbFacts14 DbFacts15 DbFacts17 SampModel DbGenModel DbGenSpec DbGenSpec2 DbGenFacts DbGenFacts2 DbGenFacts3 DbGenFacts4.
Import ListNotations.
Open Scope string_scope.
Open Scope Z_scope.
Open Scope list_scope.

(** ** A rich stream *)
Fixpoint digit (k j : nat) : nat :=
  let (a, r) := Cantor.of_nat k in match j with O => a | Datatypes.S j' => digit r j' end.
Definition all_words (m : nat) : nat := let (x, y) := Cantor.of_nat m in digit (x + y) y.
Fixpoint code (l : list nat) (r : nat) : nat := match l with [] => r | x :: l' => Cantor.to_nat (x, code l' r) end.
Lemma pair_above a r : (r <= Cantor.to_nat (a, r))%nat.
Proof. unfold Cantor.to_nat. lia. Qed.
Lemma code_above l r : (r <= code l r)%nat.
Proof. induction l as [|x l IH]; cbn [code]; [lia|]. pose proof (pair_above x (code l r)). lia. Qed.
Lemma digit_code l : forall r j x, nth_error l j = Some x -> digit (code l r) j = x.
Proof.
  induction l as [|y l IH]; intros r [|j] x H; try discriminate; cbn [code nth_error] in *.
  - unfold digit. rewrite Cantor.cancel_of_to. congruence.
  - unfold digit. rewrite Cantor.cancel_of_to. apply IH. exact H.
Qed.
Lemma to_nat_shift k i : (i <= k)%nat -> (Cantor.to_nat (k, 0) + i)%nat = Cantor.to_nat (k - i, i)%nat.
Proof. intro H. unfold Cantor.to_nat. replace (i + (k - i))%nat with k by lia. replace (0 + k)%nat with k by lia. lia. Qed.
Theorem all_words_rich : rich all_words.
Proof.
  intros l n. set (k := code l (n + length l)). exists (Cantor.to_nat (k, 0%nat)). pose proof (code_above l (n + length l)) as K. fold k in K. split.
  - pose proof (Cantor.to_nat_non_decreasing k 0). lia.
  - intros i x H. assert (i < length l)%nat by (apply nth_error_Some; congruence). rewrite to_nat_shift by lia. unfold all_words.
    rewrite Cantor.cancel_of_to. replace (k - i + i)%nat with k by lia. apply digit_code. exact H.
Qed.

Section Facts.
Variable inode : string -> nat.
Notation Inv := (Inv inode).
Variable ord : list trow -> list trow.
Hypothesis Po : permuting ord.

(** ** Pulls of random rows *)
Section Rows.
Variables (s : nat -> nat) (j : nat) (mu : Z) (w : world) (b : book) (d : ds).
Hypothesis R : rich s.
Hypothesis I : Inv w b.
Hypothesis Hb : b j = Some d.
Hypothesis Nd : numbered d.
Hypothesis Ex : extreme Datatypes.Gt "uid" (d_rows d) (Some (VInt mu)).
Hypothesis Some_row : d_rows d <> [].
Notation loop := (fun f k => rand_loop inode f ord s j mu k w).

Lemma mu_pos : 0 <= mu.
Proof. apply (extreme_nonneg d "uid"); [apply numbered_numbers|]; auto. Qed.

(** nothing comes, or a row *)
Definition idle (k : nat) : Prop := forall f, loop (Datatypes.S f) k = loop f (Datatypes.S k).
Definition gives_row (k : nat) (r : trow) : Prop := forall f, loop (Datatypes.S f) k = (w, Some (Ok (r, Datatypes.S (Datatypes.S k)))).
Definition has_rows (a : nat) : bool := existsb (fun row => number_is (Z.of_nat a mod (mu + 1)) (tcell row "uid")) (d_rows d).
Lemma round_row k : if has_rows (s k) then exists r, gives_row k r else idle k.
Proof.
  assert (Eu : forall f, randint s k 0 mu = Ok f -> f = Z.of_nat (s k) mod (mu + 1)).
  { intros f. unfold randint. pose proof mu_pos. destruct (Z.ltb_spec mu 0); [lia|]. intro E. injection E as <-. f_equal. lia. }
  destruct (has_rows (s k)) eqn:H.
  - apply existsb_exists in H. destruct H as (row & Hr & Hn).
    assert (C : forall f, exists rec rows x idx, loop (Datatypes.S f) k = (w, Some (Ok (rec, Datatypes.S (Datatypes.S k)))) /\
      rows_where inode j ("uid == " ++ str_of_Z (Z.of_nat (s k) mod (mu + 1)))%string w = (w, Ok rows) /\ w_inst w j = Some x /\
      randint s (Datatypes.S k) 0 (Z.of_nat (length rows) - 1) = Ok idx /\ nth_error (map (zip_row x) (ord rows)) (Z.to_nat idx) = Some rec).
    { intro f. destruct (rand_step inode f ord s j mu k w b d Po I Hb (nb_uid _ Nd) mu_pos) as (u & E & _ & [[Nr _]|(rec & rows & x & El & _ & _ & Er & Hx & _ & idx & Ei & En)]).
      - apply Eu in E. subst u. rewrite (Nr row Hr) in Hn. discriminate.
      - apply Eu in E. subst u. exists rec, rows, x, idx. auto. }
    destruct (C 0%nat) as (rec & rows & x & idx & _ & Er & Hx & Ei & En). exists rec. intro f.
    destruct (C f) as (rec' & rows' & x' & idx' & El & Er' & Hx' & Ei' & En').
    assert (rows' = rows) by congruence. assert (x' = x) by congruence. subst. assert (idx' = idx) by congruence. subst. assert (rec' = rec) by congruence. subst. exact El.
  - intro f. destruct (rand_step inode f ord s j mu k w b d Po I Hb (nb_uid _ Nd) mu_pos) as (u & E & _ & [[Nr El]|(rec & rows & x & El & Hr & Hn & _)]); [exact El|].
    exfalso. apply Eu in E. subst u. assert (X : has_rows (s k) = true) by (apply existsb_exists; eauto). congruence.
Qed.

(** the rows that come while the position moves on *)
Inductive row_runs : nat -> list trow -> nat -> Prop :=
| RR0 k : row_runs k [] k
| RRi k l q : idle k -> row_runs (Datatypes.S k) l q -> row_runs k l q
| RRy k r l q : gives_row k r -> row_runs (Datatypes.S (Datatypes.S k)) l q -> row_runs k (r :: l) q.
Definition row_pull (k : nat) (r : trow) (k' : nat) : Prop := exists f0, forall f, (f0 <= f)%nat -> loop f k = (w, Some (Ok (r, k'))).
Lemma row_runs_app k l q : row_runs k l q -> forall l' q', row_runs q l' q' -> row_runs k (l ++ l') q'.
Proof. induction 1; intros l' q' H'; cbn [app]; [auto|apply RRi; auto|eapply RRy; eauto]. Qed.
Lemma row_runs_pull k l0 q : row_runs k l0 q -> forall r l, l0 = r :: l -> exists k', row_pull k r k' /\ row_runs k' l q.
Proof.
  induction 1 as [k|k l0 q Hi H IH|k r0 l0 q Hg H IH]; intros r l E; [discriminate| |].
  - destruct (IH r l E) as (k' & (f0 & Hf) & Hr). exists k'. split; [|exact Hr]. exists (Datatypes.S f0). intros f L.
    destruct f as [|f]; [lia|]. rewrite (Hi f). apply Hf. lia.
  - injection E as -> ->. exists (Datatypes.S (Datatypes.S k)). split; [|exact H]. exists 1%nat. intros f L. destruct f as [|f]; [lia|]. apply Hg.
Qed.
Lemma row_reach : forall g k n, (k + g = n)%nat -> exists l q, row_runs k l q /\ (q = n \/ q = Datatypes.S n).
Proof.
  induction g as [g IH] using lt_wf_ind. intros k n E. destruct g as [|g].
  { exists [], k. split; [constructor|left; lia]. }
  pose proof (round_row k) as H. destruct (has_rows (s k)).
  - destruct H as [r Hr]. destruct g as [|g].
    + exists [r], (Datatypes.S (Datatypes.S k)). split; [eapply RRy; [exact Hr|constructor]|right; lia].
    + destruct (IH g ltac:(lia) (Datatypes.S (Datatypes.S k)) n ltac:(lia)) as (l & q & Hl & Hq). exists (r :: l), q. split; [eapply RRy; eauto|exact Hq].
  - destruct (IH g ltac:(lia) (Datatypes.S k) n ltac:(lia)) as (l & q & Hl & Hq). exists l, q. split; [apply RRi; auto|exact Hq].
Qed.

(** every row comes *)
Lemma row_comes row k : In row (d_rows d) -> exists l q, row_runs k (l ++ [row]) q.
Proof.
  intro Hr. destruct (nb_rows _ Nd row Hr) as (u & v & Eu & _ & Hu & _).
  destruct (rand_loop_drawn inode ord j mu w b d row u Po I Hb (nb_uid _ Nd) Hr Eu (conj Hu (extreme_above _ _ _ _ _ Ex Hr Eu))) as (a & c & H).
  assert (Y : forall q, s q = a -> s (Datatypes.S q) = c -> row_runs q [row] (Datatypes.S (Datatypes.S q))).
  { intros q Ea Ec. eapply RRy; [|constructor]. intro f. apply H; auto. }
  assert (Ha : forall q, s q = a -> exists r, gives_row q r).
  { intros q Eq. pose proof (round_row q) as Hq. rewrite Eq in Hq. destruct (has_rows a) eqn:Z; [exact Hq|]. exfalso.
    set (s' := fun n => if Nat.eqb n q then a else c).
    assert (H1 : rand_loop inode 1 ord s' j mu q w = (w, Some (Ok (row, Datatypes.S (Datatypes.S q))))).
    { apply H; unfold s'; [rewrite Nat.eqb_refl; auto|]. destruct (Nat.eqb_spec (Datatypes.S q) q); [lia|auto]. }
    destruct (rand_step inode 0 ord s' j mu q w b d Po I Hb (nb_uid _ Nd) mu_pos) as (u' & E' & _ & [[_ El]|(rec & rows & x & _ & Hrec & Hn & _)]).
    - rewrite El in H1. cbn in H1. unfold hangs in H1. discriminate.
    - unfold randint in E'. pose proof mu_pos. destruct (Z.ltb_spec mu 0); [lia|]. injection E' as <-. unfold s' in Hn. rewrite Nat.eqb_refl in Hn.
      rewrite Z.sub_0_r in Hn.
      assert (X : has_rows a = true) by (apply existsb_exists; exists rec; split; [exact Hrec|exact Hn]). congruence. }
  set (W := [a; a; c] ++ (if has_rows c then [a; a; c] else [a; c])).
  destruct (R W k) as (n & Ln & HW). destruct (row_reach (n - k) k n ltac:(lia)) as (l & q & Hl & [->| ->]).
  - assert (W0 := HW 0%nat a eq_refl). assert (W2 := HW 2%nat c eq_refl). rewrite Nat.add_0_r in W0.
    destruct (Ha n W0) as [r0 H0]. pose proof (round_row (n + 2)) as H2. rewrite W2 in H2. destruct (has_rows c) eqn:Hc.
    + destruct H2 as [r2 H2]. exists (l ++ [r0; r2]), (n + 6)%nat. rewrite <- app_assoc. eapply row_runs_app; [exact Hl|]. cbn [app].
      eapply RRy; [exact H0|]. replace (Datatypes.S (Datatypes.S n)) with (n + 2)%nat by lia. eapply RRy; [exact H2|].
      replace (Datatypes.S (Datatypes.S (n + 2))) with (n + 4)%nat by lia. replace (n + 6)%nat with (Datatypes.S (Datatypes.S (n + 4))) by lia.
      apply Y; [apply (HW 4%nat)|replace (Datatypes.S (n + 4)) with (n + 5)%nat by lia; apply (HW 5%nat)]; unfold W; rewrite ?Hc; reflexivity.
    + exists (l ++ [r0]), (n + 5)%nat. rewrite <- app_assoc. eapply row_runs_app; [exact Hl|]. cbn [app].
      eapply RRy; [exact H0|]. replace (Datatypes.S (Datatypes.S n)) with (n + 2)%nat by lia. apply RRi; [exact H2|].
      replace (Datatypes.S (n + 2)) with (n + 3)%nat by lia. replace (n + 5)%nat with (Datatypes.S (Datatypes.S (n + 3))) by lia.
      apply Y; [apply (HW 3%nat)|replace (Datatypes.S (n + 3)) with (n + 4)%nat by lia; apply (HW 4%nat)]; unfold W; rewrite ?Hc; reflexivity.
  - exists l, (n + 3)%nat. eapply row_runs_app; [exact Hl|]. replace (n + 3)%nat with (Datatypes.S (Datatypes.S (Datatypes.S n))) by lia.
    apply Y; [replace (Datatypes.S n) with (n + 1)%nat by lia; apply (HW 1%nat); reflexivity|replace (Datatypes.S (Datatypes.S n)) with (n + 2)%nat by lia; apply (HW 2%nat); reflexivity].
Qed.
(** every pull returns *)
Lemma row_pulls k : exists r k', row_pull k r k'.
Proof.
  assert (X : exists row, In row (d_rows d)) by (clear - Some_row; destruct (d_rows d) as [|row rows]; [contradiction|exists row; left; auto]).
  destruct X as [row Hr]. destruct (row_comes row k Hr) as (l & q & H).
  destruct l as [|r l]; cbn [app] in H; destruct (row_runs_pull _ _ _ H _ _ eq_refl) as (k' & Hp & _); eauto.
Qed.
Lemma row_pull_in k r k' : row_pull k r k' -> In r (d_rows d).
Proof.
  intros (f0 & H). specialize (H f0 (le_n _)). destruct (rand_loop_spec inode f0 ord s j mu w b d Po I Hb (nb_uid _ Nd) mu_pos k) as [(r' & k1 & E & Hr)|E]; congruence.
Qed.
End Rows.

(** ** Pulls of pairs *)
Section Pairs.
Variables (s s2 : nat -> nat) (i : nat) (mu mi : Z) (w : world) (b : book) (d : ds).
Hypothesis R : rich s.
Hypothesis R2 : rich s2.
Hypothesis I : Inv w b.
Hypothesis Hb : b i = Some d.
Hypothesis Nd : numbered d.
Hypothesis Xu : extreme Datatypes.Gt "uid" (d_rows d) (Some (VInt mu)).
Hypothesis Xi : extreme Datatypes.Gt "iid" (d_rows d) (Some (VInt mi)).
(** the rows below the threshold, if there are any *)
Variable below_ds : option (nat * Z * ds).
Hypothesis Below : match below_ds with
  | None => True
  | Some (j, m, dj) => b j = Some dj /\ numbered dj /\ d_rows dj <> [] /\ extreme Datatypes.Gt "uid" (d_rows dj) (Some (VInt m))
  end.
Definition gen (k2 : nat) : option (nat * rgen) := match below_ds with None => None | Some (j, m, _) => Some (j, RAt j m k2) end.
Notation loop := (fun f k2 k => pair_loop inode f ord s s2 i mu mi (gen k2) k w).

Lemma mu_pos' : 0 <= mu. Proof. apply (extreme_nonneg d "uid"); [apply numbered_numbers|]; auto. Qed.
Lemma mi_pos' : 0 <= mi. Proof. apply (extreme_nonneg d "iid"); [apply numbered_numbers|]; auto. Qed.

Definition no_pair (k k2 k' : nat) : Prop := forall f, loop (Datatypes.S f) k2 k = loop f k2 k'.
Definition pair_pull (k k2 : nat) (p : pair) (k' k2' : nat) : Prop :=
  exists f0, forall f, (f0 <= f)%nat -> loop f k2 k = (w, Some (Ok (p, gen k2', k'))).
Inductive pair_runs : nat -> nat -> list pair -> nat -> nat -> Prop :=
| PR0 k k2 : pair_runs k k2 [] k k2
| PRi k k2 k' l q q2 : no_pair k k2 k' -> pair_runs k' k2 l q q2 -> pair_runs k k2 l q q2
| PRy k k2 p k' k2' l q q2 : pair_pull k k2 p k' k2' -> pair_runs k' k2' l q q2 -> pair_runs k k2 (p :: l) q q2.
Lemma pair_runs_app k k2 l q q2 : pair_runs k k2 l q q2 -> forall l' r r2, pair_runs q q2 l' r r2 -> pair_runs k k2 (l ++ l') r r2.
Proof. induction 1; intros l' r r2 H'; cbn [app]; [auto|eapply PRi; eauto|eapply PRy; eauto]. Qed.
Lemma pair_runs_pull k k2 l0 q q2 : pair_runs k k2 l0 q q2 -> forall p l, l0 = p :: l -> exists k' k2', pair_pull k k2 p k' k2' /\ pair_runs k' k2' l q q2.
Proof.
  induction 1 as [k k2|k k2 k1 l0 q q2 Hi H IH|k k2 p0 k1 k21 l0 q q2 Hp H IH]; intros p l E; [discriminate| |].
  - destruct (IH p l E) as (k' & k2' & (f0 & Hf) & Hr). exists k', k2'. split; [|exact Hr]. exists (Datatypes.S f0). intros f L.
    destruct f as [|f]; [lia|]. rewrite (Hi f). apply Hf. lia.
  - injection E as -> ->. eauto.
Qed.
Lemma take_runs l : forall k k2 q q2, pair_runs k k2 l q q2 ->
  exists f0, forall f, (f0 <= f)%nat -> null_take inode (length l) f ord s s2 (NAt i mu mi (gen k2) k) w = (w, Some (Ok l)).
Proof.
  induction l as [|p l IH]; intros k k2 q q2 H; [exists 0%nat; intros; reflexivity|].
  destruct (pair_runs_pull _ _ _ _ _ H _ _ eq_refl) as (k' & k2' & (f1 & H1) & H2). destruct (IH _ _ _ _ H2) as (f2 & H3).
  exists (Nat.max f1 f2). intros f L. cbn [length null_take].
  assert (En : null_next inode f ord s s2 (NAt i mu mi (gen k2) k) w = (w, Some (Ok (Some p), NAt i mu mi (gen k2') k'))).
  { unfold null_next. rewrite (fthen_ok _ _ w w (p, gen k2', k')) by (apply H1; lia). reflexivity. }
  rewrite En. rewrite (fthen_ok _ _ w w l) by (apply H3; lia). reflexivity.
Qed.

(** a pair is drawn at [k] *)
Lemma drawn k : exists u v rows, draw_pair inode s i mu mi k w = (w, Ok (u, v, rows)) /\ u = Z.of_nat (s k) mod (mu + 1) /\ v = Z.of_nat (s (Datatypes.S k)) mod (mi + 1) /\
  (~ observed d u v -> rows = []).
Proof.
  destruct (draw_ok inode s i mu mi k w b d I Hb (nb_uid _ Nd) (nb_iid _ Nd) mu_pos' mi_pos') as (u & v & rows & E & Eu & Ev & Hr).
  exists u, v, rows. split; [exact E|]. pose proof mu_pos'. pose proof mi_pos'. unfold randint in Eu, Ev.
  destruct (Z.ltb_spec mu 0); [lia|]. destruct (Z.ltb_spec mi 0); [lia|]. injection Eu as Eu. injection Ev as Ev. rewrite Z.sub_0_r in Eu, Ev.
  split; [auto|]. split; [auto|]. intro No. apply Hr. apply unobserved_rows; auto.
Qed.
(** whether an existing pair is taken at [k] *)
Definition existing (k : nat) : bool :=
  match below_ds with None => false | Some (_, _, dj) => mu * mi <=? Z.of_nat (s k) mod (mu * mi + Z.of_nat (length (d_rows dj)) + 1) end.
Definition at_pair (k : nat) : nat := match below_ds with None => k | Some _ => Datatypes.S k end.
Lemma takes k k2 : takes_existing s mu mi (gen k2) k w = (w, Ok (if existing k then gen k2 else None, at_pair k)).
Proof.
  unfold takes_existing, gen, existing, at_pair. destruct below_ds as [[[j m] dj]|]; [|reflexivity]. destruct Below as (Bj & _).
  rewrite (andthen_ok _ _ _ _ _ (len_is inode w b j dj I Bj)). unfold andthen, lift, randint. pose proof mu_pos'. pose proof mi_pos'.
  destruct (Z.ltb_spec (mu * mi + Z.of_nat (length (d_rows dj))) 0); [nia|]. rewrite Z.sub_0_r, Z.add_0_l.
  destruct (mu * mi <=? _); reflexivity.
Qed.
(** a round that takes no existing pair *)
Lemma round_new k k2 : existing k = false ->
  no_pair k k2 (2 + at_pair k) /\ ~ ~ observed d (Z.of_nat (s (at_pair k)) mod (mu + 1)) (Z.of_nat (s (Datatypes.S (at_pair k))) mod (mi + 1)) \/
  pair_pull k k2 (Some (VInt (Z.of_nat (s (at_pair k)) mod (mu + 1))), Some (VInt (Z.of_nat (s (Datatypes.S (at_pair k))) mod (mi + 1)))) (2 + at_pair k) k2.
Proof.
  intro Ne. pose proof (takes k k2) as T. rewrite Ne in T. destruct (drawn (at_pair k)) as (u & v & rows & Ed & Eu & Ev & Ho). rewrite <- Eu, <- Ev.
  destruct rows as [|r rows].
  - right. exists 1%nat. intros f L. destruct f as [|f]; [lia|]. cbn [pair_loop].
    rewrite (fthen_ok _ _ w w (None, at_pair k)) by (apply runs_ok; exact T). cbn [fst snd].
    rewrite (fthen_ok _ _ w w (u, v, [])) by (apply runs_ok; exact Ed). reflexivity.
  - left. split.
    + intro f. cbn [pair_loop]. rewrite (fthen_ok _ _ w w (None, at_pair k)) by (apply runs_ok; exact T). cbn [fst snd].
      rewrite (fthen_ok _ _ w w (u, v, r :: rows)) by (apply runs_ok; exact Ed). reflexivity.
    + intro O. specialize (Ho O). discriminate.
Qed.

Definition below_row (r : trow) : Prop := match below_ds with None => False | Some (_, _, dj) => In r (d_rows dj) end.
Definition below_pull (k2 : nat) (r : trow) (k2' : nat) : Prop :=
  match below_ds with None => False | Some (j, m, _) => row_pull s2 j m w k2 r k2' end.
Definition below_runs (k2 : nat) (l : list trow) (k2' : nat) : Prop :=
  match below_ds with None => False | Some (j, m, _) => row_runs s2 j m w k2 l k2' end.
Lemma round_existing k k2 r k2' : existing k = true -> below_pull k2 r k2' -> pair_pull k k2 (pair_of r) (Datatypes.S k) k2'.
Proof.
  intros Hx Hp. pose proof (takes k k2) as T. rewrite Hx in T. unfold existing in Hx. unfold below_pull in Hp. unfold pair_pull, gen, at_pair in *.
  destruct below_ds as [[[j m] dj]|]; [|discriminate]. destruct Below as (Bj & Nj & Rj & Ej). destruct Hp as (f0 & Hf).
  assert (Hr : In r (d_rows dj)) by (apply (row_pull_in s2 j m w b dj I Bj Nj Ej k2 r k2'); exists f0; exact Hf).
  exists (Datatypes.S f0). intros f L. destruct f as [|f]; [lia|]. cbn [pair_loop].
  rewrite (fthen_ok _ _ w w (Some (j, RAt j m k2), Datatypes.S k)) by (apply runs_ok; exact T). cbn [fst snd].
  rewrite (fthen_ok _ _ w w (r, RAt j m k2')).
  2:{ unfold rand_pull, rand_next. cbn [rand_start]. rewrite (fthen_ok _ _ w w (j, m, k2)) by reflexivity.
      rewrite (fthen_ok _ _ w w (r, k2')) by (apply Hf; lia). reflexivity. }
  pose proof (row_keys inode w _ j dj r I Bj Hr) as Ks.
  assert (Er : record_pair r = Ok (pair_of r)).
  { unfold record_pair. rewrite !pick_key by (rewrite Ks; [apply (nb_uid _ Nj) || apply (nb_iid _ Nj)]). reflexivity. }
  cbn [fst snd]. unfold fthen, runs, lift. rewrite Er. reflexivity.
Qed.
Lemma below_pulls k k2 : existing k = true -> exists r k2', below_pull k2 r k2'.
Proof.
  unfold existing, below_pull. destruct below_ds as [[[j m] dj]|]; [|discriminate]. intros _. destruct Below as (Bj & Nj & Rj & Ej).
  apply (row_pulls s2 j m w b dj R2 I Bj Nj Ej Rj).
Qed.
Lemma at_pair_le k : (k <= at_pair k <= Datatypes.S k)%nat.
Proof. unfold at_pair. destruct below_ds; lia. Qed.
Lemma one_round k k2 : exists l k' k2', pair_runs k k2 l k' k2' /\ (k < k' <= k + 3)%nat /\ (below_ds = None -> k' = (k + 2)%nat) /\ (existing k = false -> k2' = k2).
Proof.
  destruct (existing k) eqn:Hx.
  - destruct (below_pulls k k2 Hx) as (r & k2' & Hp). exists [pair_of r], (Datatypes.S k), k2'. split; [|split; [lia|split; [|discriminate]]].
    + eapply PRy; [apply round_existing; eauto|constructor].
    + intro X. unfold existing in Hx. rewrite X in Hx. discriminate.
  - pose proof (at_pair_le k). assert (A : below_ds = None -> (2 + at_pair k = k + 2)%nat) by (intro X; unfold at_pair; rewrite X; lia).
    destruct (round_new k k2 Hx) as [[H' _]|H']; [exists []|eexists]; exists (2 + at_pair k)%nat, k2; (split; [|split; [lia|auto]]).
    + eapply PRi; [exact H'|constructor].
    + eapply PRy; [exact H'|constructor].
Qed.
Lemma pair_reach : forall g k k2 n, (k + g = n)%nat -> exists l q q2, pair_runs k k2 l q q2 /\ (n <= q <= n + 2)%nat /\ (below_ds = None -> (q <= n + 1)%nat).
Proof.
  induction g as [g IH] using lt_wf_ind. intros k k2 n E. destruct g as [|g].
  { exists [], k, k2. split; [constructor|split; intros; lia]. }
  destruct (one_round k k2) as (l & k' & k2' & Hl & Hk & Hn & _). destruct (le_lt_dec n k') as [L|L].
  - exists l, k', k2'. split; [exact Hl|]. split; [lia|]. intro X. specialize (Hn X). lia.
  - destruct (IH (n - k')%nat ltac:(lia) k' k2' n ltac:(lia)) as (l' & q & q2 & Hq & Rq & Nq). exists (l ++ l'), q, q2.
    split; [eapply pair_runs_app; eauto|auto].
Qed.

(** a pair without a row comes *)
Lemma pair_comes u v k k2 : in_range d u v -> ~ observed d u v -> (below_ds <> None -> 0 < mu /\ 0 < mi) ->
  exists l q q2, pair_runs k k2 (l ++ [(Some (VInt u), Some (VInt v))]) q q2.
Proof.
  intros Rg No Big. destruct (range_bounds d mu mi u v Nd Xu Xi Rg) as [Hu Hv].
  assert (Y : forall q q2, existing q = false -> s (at_pair q) = Z.to_nat u -> s (Datatypes.S (at_pair q)) = Z.to_nat v ->
    pair_runs q q2 [(Some (VInt u), Some (VInt v))] (2 + at_pair q) q2).
  { intros q q2 Hx Eu Ev. destruct (round_new q q2 Hx) as [[_ X]|X]; rewrite Eu, Ev, !Z2Nat.id, !Z.mod_small in X by lia.
    - contradiction.
    - eapply PRy; [exact X|constructor]. }
  assert (C : (exists j m dj, below_ds = Some (j, m, dj)) \/ below_ds = None) by (clear; destruct below_ds as [[[j m] dj]|]; [left; eauto|right; auto]).
  destruct C as [(j & m & dj & Eb)|Eb].
  - destruct (Big ltac:(congruence)) as [Pu Pi]. set (e := Z.to_nat (mu * mi)).
    destruct (R [e; e; 0%nat; Z.to_nat u; Z.to_nat v] k) as (n & Ln & HW).
    destruct (pair_reach (n - k) k k2 n ltac:(lia)) as (l & q & q2 & Hl & Rq & _).
    assert (He : forall x, s x = e -> existing x = true).
    { intros x Hx. unfold existing. rewrite Eb, Hx. unfold e. rewrite Z2Nat.id by nia. rewrite Z.mod_small by nia. apply Z.leb_refl. }
    assert (H0 : existing (n + 2) = false).
    { unfold existing. rewrite Eb, (HW 2%nat 0%nat eq_refl). cbn [Z.of_nat]. rewrite Z.mod_0_l by nia. apply Z.leb_gt. nia. }
    assert (Last : forall q2, pair_runs (n + 2) q2 [(Some (VInt u), Some (VInt v))] (2 + at_pair (n + 2)) q2).
    { intro q3. apply Y; [exact H0| |]; unfold at_pair; rewrite Eb;
      [replace (Datatypes.S (n + 2)) with (n + 3)%nat by lia; apply (HW 3%nat)|replace (Datatypes.S (Datatypes.S (n + 2))) with (n + 4)%nat by lia; apply (HW 4%nat)]; reflexivity. }
    assert (One : forall x q2, s x = e -> exists l q3, pair_runs x q2 l (Datatypes.S x) q3).
    { intros x q3 Hx. destruct (below_pulls x q3 (He x Hx)) as (r & k2' & Hp). exists [pair_of r], k2'. eapply PRy; [apply round_existing; eauto|constructor]. }
    assert (W1 : s (n + 1)%nat = e) by (apply (HW 1%nat); reflexivity). assert (W0 : s n = e) by (rewrite <- (Nat.add_0_r n); apply (HW 0%nat); reflexivity).
    assert (From1 : forall q2, exists l q q3, pair_runs (n + 1) q2 (l ++ [(Some (VInt u), Some (VInt v))]) q q3).
    { intro q3. destruct (One (n + 1)%nat q3 W1) as (l1 & q4 & H1). exists l1. do 2 eexists. eapply pair_runs_app; [exact H1|].
      replace (Datatypes.S (n + 1)) with (n + 2)%nat by lia. apply Last. }
    assert (From : exists l' q' q3, pair_runs q q2 (l' ++ [(Some (VInt u), Some (VInt v))]) q' q3).
    { destruct (Nat.eq_dec q n) as [->|N0]; [|destruct (Nat.eq_dec q (n + 1)) as [->|N1]].
      - destruct (One n q2 W0) as (l1 & q4 & H1). replace (Datatypes.S n) with (n + 1)%nat in H1 by lia.
        destruct (From1 q4) as (l2 & q5 & q6 & H2). exists (l1 ++ l2), q5, q6. rewrite <- app_assoc. eapply pair_runs_app; eauto.
      - apply From1.
      - replace q with (n + 2)%nat by lia. exists []. do 2 eexists. apply Last. }
    destruct From as (l' & q' & q3 & H'). exists (l ++ l'), q', q3. rewrite <- app_assoc. eapply pair_runs_app; eauto.
  - destruct (R [Z.to_nat u; Z.to_nat v; 0%nat; Z.to_nat u; Z.to_nat v] k) as (n & Ln & HW).
    destruct (pair_reach (n - k) k k2 n ltac:(lia)) as (l & q & q2 & Hl & Rq & Nq). specialize (Nq Eb).
    assert (Nx : forall x, existing x = false) by (intro; unfold existing; rewrite Eb; reflexivity).
    assert (At : forall x, at_pair x = x) by (intro; unfold at_pair; rewrite Eb; reflexivity).
    assert (W : forall x, (x = n \/ x = n + 3)%nat -> s x = Z.to_nat u /\ s (Datatypes.S x) = Z.to_nat v).
    { intros x [-> | ->].
      - split; [rewrite <- (Nat.add_0_r n); apply (HW 0%nat); reflexivity|replace (Datatypes.S n) with (n + 1)%nat by lia; apply (HW 1%nat); reflexivity].
      - split; [apply (HW 3%nat); reflexivity|replace (Datatypes.S (n + 3)) with (n + 4)%nat by lia; apply (HW 4%nat); reflexivity]. }
    destruct (Nat.eq_dec q n) as [->|Nq'].
    + exists l. do 2 eexists. eapply pair_runs_app; [exact Hl|]. apply Y; [apply Nx| |]; rewrite At; apply (W n); auto.
    + assert (q = n + 1)%nat by lia. subst q. destruct (one_round (n + 1) q2) as (l1 & k1 & q3 & H1 & _ & K1 & _). specialize (K1 Eb).
      replace (n + 1 + 2)%nat with (n + 3)%nat in K1 by lia. subst k1. exists (l ++ l1). do 2 eexists. rewrite <- app_assoc. eapply pair_runs_app; [exact Hl|].
      eapply pair_runs_app; [exact H1|]. apply Y; [apply Nx| |]; rewrite At; apply (W (n + 3)%nat); auto.
Qed.

(** an existing pair is taken at some later time *)
Lemma next_existing : forall g k k2 n, (k + g = n + 2)%nat -> (forall x, (n <= x <= n + 2)%nat -> existing x = true) ->
  exists l q, pair_runs k k2 l q k2 /\ existing q = true.
Proof.
  induction g as [g IH] using lt_wf_ind. intros k k2 n E Hn. destruct (existing k) eqn:Hx; [exists [], k; split; [constructor|auto]|].
  destruct (one_round k k2) as (l & k' & k2' & Hl & Hk & _ & H2). rewrite (H2 Hx) in Hl.
  assert (L : (k < n)%nat). { destruct (le_lt_dec n k) as [L|L]; [|exact L]. rewrite Hn in Hx by lia. discriminate. }
  destruct (IH (n + 2 - k')%nat ltac:(lia) k' k2 n ltac:(lia) Hn) as (l' & q & H' & Hq). exists (l ++ l'), q. split; [eapply pair_runs_app; eauto|exact Hq].
Qed.
Lemma existing_comes k k2 : below_ds <> None -> exists l q, pair_runs k k2 l q k2 /\ existing q = true.
Proof.
  intro Nb. set (e := Z.to_nat (mu * mi)). destruct (R [e; e; e] k) as (n & Ln & HW).
  apply (next_existing (n + 2 - k) k k2 n ltac:(lia)). intros x Hx.
  assert (Sx : s x = e). { replace x with (n + (x - n))%nat by lia. apply HW. destruct (x - n)%nat as [|[|[|y]]] eqn:E; [auto|auto|auto|lia]. }
  unfold existing. pose proof mu_pos'. pose proof mi_pos'. destruct below_ds as [[[j m] dj]|]; [|contradiction]. rewrite Sx. unfold e. rewrite Z2Nat.id by nia. rewrite Z.mod_small by nia. apply Z.leb_refl.
Qed.
Lemma pulls_come row : forall l2 k k2 q2, below_runs k2 (l2 ++ [row]) q2 -> exists l q k2', pair_runs k k2 (l ++ [pair_of row]) q k2'.
Proof.
  induction l2 as [|r l2 IH]; intros k k2 q2 H.
  - assert (Nb : below_ds <> None) by (unfold below_runs in H; destruct below_ds; [discriminate|contradiction]).
    assert (P : exists k2', below_pull k2 row k2').
    { unfold below_runs, below_pull in *. destruct below_ds as [[[j m] dj]|]; [|contradiction]. destruct (row_runs_pull _ _ _ _ _ _ _ H _ _ eq_refl) as (k' & Hp & _). eauto. }
    destruct P as [k2' Hp]. destruct (existing_comes k k2 Nb) as (l & q & Hl & Hq). exists l. do 2 eexists. eapply pair_runs_app; [exact Hl|].
    eapply PRy; [apply round_existing; eauto|constructor].
  - assert (Nb : below_ds <> None) by (unfold below_runs in H; destruct below_ds; [discriminate|contradiction]).
    assert (P : exists k2', below_pull k2 r k2' /\ below_runs k2' (l2 ++ [row]) q2).
    { unfold below_runs, below_pull in *. destruct below_ds as [[[j m] dj]|]; [|contradiction]. destruct (row_runs_pull _ _ _ _ _ _ _ H _ _ eq_refl) as (k' & Hp & Hr). eauto. }
    destruct P as (k2' & Hp & Hr). destruct (existing_comes k k2 Nb) as (l & q & Hl & Hq). destruct (IH (Datatypes.S q) k2' q2 Hr) as (l' & q' & k3 & H').
    exists (l ++ pair_of r :: l'), q', k3. rewrite <- app_assoc. eapply pair_runs_app; [exact Hl|]. eapply PRy; [apply round_existing; eauto|exact H'].
Qed.
Lemma below_comes row k k2 : below_row row -> exists l q q2, pair_runs k k2 (l ++ [pair_of row]) q q2.
Proof.
  intro Hr. assert (P : exists l2 q2, below_runs k2 (l2 ++ [row]) q2).
  { unfold below_row, below_runs in *. destruct below_ds as [[[j m] dj]|]; [|contradiction]. destruct Below as (Bj & Nj & Rj & Ej).
    apply (row_comes s2 j m w b dj R2 I Bj Nj Ej row k2 Hr). }
  destruct P as (l2 & q2 & H). apply (pulls_come row l2 k k2 q2 H).
Qed.
(** again and again *)
Definition null_one (p : pair) : Prop :=
  (exists u v, p = (Some (VInt u), Some (VInt v)) /\ in_range d u v /\ ~ observed d u v /\ (below_ds <> None -> 0 < mu /\ 0 < mi)) \/
  (exists row, p = pair_of row /\ below_row row).
Lemma again p n : null_one p -> forall k k2, exists l q q2, (n <= length l)%nat /\ pair_runs k k2 (l ++ [p]) q q2.
Proof.
  intros Hp. assert (One : forall k k2, exists l q q2, pair_runs k k2 (l ++ [p]) q q2).
  { intros k k2. destruct Hp as [(u & v & -> & Rg & No & Big)|(row & -> & Hr)]; [apply pair_comes; auto|apply below_comes; auto]. }
  induction n as [|n IH]; intros k k2.
  - destruct (One k k2) as (l & q & q2 & H). exists l, q, q2. split; [lia|exact H].
  - destruct (One k k2) as (l & q & q2 & H). destruct (IH q q2) as (l' & q' & q2' & L & H'). exists ((l ++ [p]) ++ l'), q', q2'.
    split; [rewrite !app_length; cbn [length]; lia|]. rewrite <- app_assoc. eapply pair_runs_app; eauto.
Qed.
End Pairs.

(** the first part of the start, see [some_below] *)
Lemma begins_below i l w b d s2 : rich s2 -> Inv w b -> b i = Some d -> complete d -> numbered d -> threshold_fits d (Some l) ->
  d_rows (restricted d (below l)) <> [] ->
  exists w1 j m k f0, Inv w1 b /\ b j = None /\ Inv w1 (note b j (Some (restricted d (below l)))) /\
    extreme Datatypes.Gt "uid" (d_rows (restricted d (below l))) (Some (VInt m)) /\
    forall f, (f0 <= f)%nat ->
    attempt (j <~~ runs (filtered_copy inode i ("interaction < " ++ lit_text l)%string) ;; rg <~~ rand_pull inode f ord s2 (RNew j) ;; runs (ret (j, snd rg))) w
    = (w1, Some (Ok (Some (j, RAt j m k)))).
Proof.
  intros R2 I Hb Cm Nd Tf Nr. destruct (copy_ok inode ord i l w b d Po I Hb Cm Tf) as (w1 & j & E1 & Bj & I1 & I2).
  set (dj := restricted d (below l)) in *. pose proof (restricted_numbered d (below l) Nd) as Nj. fold dj in Nj.
  destruct (rand_start_new inode ord w1 _ j dj Po I2 (note_same _ _ _) Nj Cm Nr) as (w2 & m & Es & I3 & Ex & Hm).
  destruct (row_pulls s2 j m w2 _ dj R2 I3 (note_same _ _ _) Nj Ex Nr 0) as (r & k & f0 & Hf).
  exists w2, j, m, k, f0. split; [|split; [auto|split; [auto|split; [auto|]]]].
  { eapply Inv_sub; [exact I3|]. intros k' d0 Hk. rewrite note_other; [auto|congruence]. }
  intros f L. unfold attempt. rewrite (fthen_ok _ _ w w1 j) by (apply runs_ok; exact E1).
  rewrite (fthen_ok _ _ w1 w2 (r, RAt j m k)); [reflexivity|].
  unfold rand_pull, rand_next. rewrite (fthen_ok _ _ w1 w2 (j, m, 0%nat)) by (apply runs_ok; exact Es).
  rewrite (fthen_ok _ _ w2 w2 (r, k)); [reflexivity|]. apply Hf. exact L.
Qed.

Theorem null_again i w b d t s s2 (p : pair) n : rich s -> rich s2 -> Inv w b -> b i = Some d -> threshold_fits d t -> numbered d -> complete d -> d_ids d = true ->
  (exists u v, p = (Some (VInt u), Some (VInt v)) /\ in_range d u v /\ ~ observed d u v /\
     forall l row, t = Some l -> In row (d_rows d) -> forallb (holds row) (below l) = true ->
       (exists row z, In row (d_rows d) /\ tcell row "uid" = Some (VInt z) /\ 0 < z) /\
       (exists row z, In row (d_rows d) /\ tcell row "iid" = Some (VInt z) /\ 0 < z)) \/
  (exists l row, t = Some l /\ In row (d_rows d) /\ forallb (holds row) (below l) = true /\ p = pair_of row) ->
  exists w' l f0, (n <= length l)%nat /\
    forall f, (f0 <= f)%nat -> null_take inode (Datatypes.S (length l)) f ord s s2 (NNew i (thr_text t)) w = (w', Some (Ok (l ++ [p]))).
Proof.
  intros Rs R2 I Hb Tf Nd Cm Hi Hp.
  assert (Nr : d_rows d <> []).
  { destruct Hp as [(u & v & _ & (_ & _ & (r & z & Hr & _) & _) & _)|(l & r & _ & Hr & _)]; intro X; rewrite X in Hr; contradiction. }
  set (part f := match thr_text t with
     | None => runs (ret None)
     | Some t => attempt (j <~~ runs (filtered_copy inode i ("interaction < " ++ t)%string) ;; rg <~~ rand_pull inode f ord s2 (RNew j) ;; runs (ret (j, snd rg)))
     end).
  assert (K : exists w1 bl k2 f0 b', Inv w1 b /\ Inv w1 b' /\ b' i = Some d /\ (forall f, (f0 <= f)%nat -> part f w = (w1, Some (Ok (gen bl k2)))) /\
    match bl with
    | None => forall l, t = Some l -> d_rows (restricted d (below l)) = []
    | Some (j, m, dj) => b' j = Some dj /\ numbered dj /\ d_rows dj <> [] /\ extreme Datatypes.Gt "uid" (d_rows dj) (Some (VInt m)) /\ exists l, t = Some l /\ dj = restricted d (below l)
    end).
  { unfold part. destruct t as [l|]; cbn [thr_text option_map].
    - destruct (d_rows (restricted d (below l))) as [|row rs] eqn:Er.
      + destruct (none_below inode ord i l w b d Po I Hb Cm Tf Er) as (w1 & I1 & K). exists w1, None, 0%nat, 0%nat, b. repeat (split; [auto|]).
        intros l' E. injection E as <-. exact Er.
      + assert (Nr' : d_rows (restricted d (below l)) <> []) by congruence.
        destruct (begins_below i l w b d s2 R2 I Hb Cm Nd Tf Nr') as (w1 & j & m & k & f0 & I1 & Bj & I2 & Ex & K).
        exists w1, (Some (j, m, restricted d (below l))), k, f0, (note b j (Some (restricted d (below l)))).
        split; [auto|]. split; [auto|]. split; [rewrite note_other; [auto|congruence]|]. split; [exact K|].
        split; [apply note_same|]. split; [apply restricted_numbered; auto|]. split; [auto|]. split; [auto|]. eauto.
    - exists w, None, 0%nat, 0%nat, b. repeat (split; [auto|]). discriminate. }
  destruct K as (w1 & bl & k2 & f0 & b' & I1 & I1' & Hb' & K & Hbl).
  assert (Es : exists w2 mu mi, Inv w2 b' /\ extreme Datatypes.Gt "uid" (d_rows d) (Some (VInt mu)) /\ extreme Datatypes.Gt "iid" (d_rows d) (Some (VInt mi)) /\
    forall f, (f0 <= f)%nat -> null_start inode f ord s2 i (thr_text t) w = (w2, Some (Ok (mu, mi, gen bl k2)))).
  { destruct (start_ok inode f0 ord s2 i w b d w1 _ (thr_text t) Po I Hb Nd Cm Hi Nr (K f0 (le_n _)) I1) as (w2 & mu & mi & _ & Em & S2 & Xu & Xi).
    exists w2, mu, mi. split; [apply S2; auto|]. split; [auto|]. split; [auto|]. intros f L.
    destruct (start_ok inode f ord s2 i w b d w1 _ (thr_text t) Po I Hb Nd Cm Hi Nr (K f L) I1) as (w2' & mu' & mi' & Es & Em' & _).
    destruct Em as [Em1 Em2], Em' as [Em1' Em2']. assert (mu' = mu) by congruence. subst mu'. assert (X : (w2', Ok mi') = (w2, Ok mi)) by congruence. injection X as -> ->. exact Es. }
  destruct Es as (w2 & mu & mi & I2 & Xu & Xi & Es).
  assert (Bl : match bl with None => True | Some (j, m, dj) => b' j = Some dj /\ numbered dj /\ d_rows dj <> [] /\ extreme Datatypes.Gt "uid" (d_rows dj) (Some (VInt m)) end).
  { destruct bl as [[[j m] dj]|]; [|auto]. destruct Hbl as (A1 & A2 & A3 & A4 & _). auto. }
  assert (Hp' : null_one mu mi d bl p).
  { destruct Hp as [(u & v & -> & Rg & No & Big)|(l & row & Et & Hr & Hh & ->)].
    - left. exists u, v. split; [auto|]. split; [auto|]. split; [auto|]. intro Nb. destruct bl as [[[j m] dj]|]; [|contradiction].
      destruct Hbl as (_ & _ & Nj & _ & l & Et & ->). destruct (d_rows (restricted d (below l))) as [|row rs] eqn:Er; [contradiction|].
      assert (Hr : In row (d_rows (restricted d (below l)))) by (rewrite Er; left; auto). cbn [restricted d_rows] in Hr. apply filter_In in Hr.
      destruct (Big l row Et (proj1 Hr) (proj2 Hr)) as [(ru & zu & Ru & Eu & Lu) (ri & zi & Ri & Ei & Li)].
      pose proof (extreme_above _ _ _ _ _ Xu Ru Eu). pose proof (extreme_above _ _ _ _ _ Xi Ri Ei). lia.
    - right. exists row. split; [auto|]. assert (Hin : In row (d_rows (restricted d (below l)))) by (apply filter_In; auto).
      unfold below_row. destruct bl as [[[j m] dj]|].
      + destruct Hbl as (_ & _ & _ & _ & l' & Et' & ->). assert (l' = l) by congruence. subst. exact Hin.
      + rewrite (Hbl l Et) in Hin. contradiction. }
  destruct (again s s2 i mu mi w2 b' d Rs R2 I2 Hb' Nd Xu Xi bl Bl p n Hp' 0 k2) as (l & q & q2 & Ll & H).
  assert (Pn : exists p0 l0, l ++ [p] = p0 :: l0 /\ length l0 = length l).
  { destruct l as [|p0 l]; [exists p, []; auto|]. exists p0, (l ++ [p]). split; [reflexivity|]. rewrite app_length. cbn [length]. lia. }
  destruct Pn as (p0 & l0 & El & Ln). rewrite El in H. destruct (pair_runs_pull s s2 i mu mi w2 bl _ _ _ _ _ H _ _ eq_refl) as (k' & k2' & (f1 & H1) & H2).
  destruct (take_runs s s2 i mu mi w2 bl l0 _ _ _ _ H2) as (f2 & H3).
  exists w2, l, (Nat.max f0 (Nat.max f1 f2)). split; [exact Ll|]. intros f L. rewrite El, <- Ln. cbn [null_take].
  assert (En : null_next inode f ord s s2 (NNew i (thr_text t)) w = (w2, Some (Ok (Some p0), NAt i mu mi (gen bl k2') k'))).
  { unfold null_next. rewrite (fthen_ok _ _ w w2 (mu, mi, gen bl k2)) by (apply Es; lia).
    rewrite (fthen_ok _ _ w2 w2 (p0, gen bl k2', k')) by (apply H1; lia). reflexivity. }
  rewrite En. rewrite (fthen_ok _ _ w2 w2 l0) by (apply H3; lia). reflexivity.
Qed.

(** ** Random rows, again and again *)
Lemma take_rows s j mu w l : forall k q, row_runs s j mu w k l q ->
  exists f0, forall f, (f0 <= f)%nat -> rand_take inode (length l) f ord s (RAt j mu k) w = (w, Some (Ok l)).
Proof.
  induction l as [|r l IH]; intros k q H; [exists 0%nat; intros; reflexivity|].
  destruct (row_runs_pull _ _ _ _ _ _ _ H _ _ eq_refl) as (k' & (f1 & H1) & H2). destruct (IH _ _ H2) as (f2 & H3).
  exists (Nat.max f1 f2). intros f L. cbn [length rand_take].
  assert (En : rand_next inode f ord s (RAt j mu k) w = (w, Some (Ok (Some r), RAt j mu k'))).
  { unfold rand_next. cbn [rand_start]. rewrite (fthen_ok _ _ w w (j, mu, k)) by reflexivity. rewrite (fthen_ok _ _ w w (r, k')) by (apply H1; lia). reflexivity. }
  rewrite En. rewrite (fthen_ok _ _ w w l) by (apply H3; lia). reflexivity.
Qed.
Theorem rand_again j w b d s row n : rich s -> Inv w b -> b j = Some d -> numbered d -> complete d -> In row (d_rows d) ->
  exists w' l f0, (n <= length l)%nat /\
    forall f, (f0 <= f)%nat -> rand_take inode (Datatypes.S (length l)) f ord s (RNew j) w = (w', Some (Ok (l ++ [row]))).
Proof.
  intros R I Hb Nd Cm Hr. assert (Nr : d_rows d <> []) by (intro X; rewrite X in Hr; contradiction).
  destruct (rand_start_new inode ord w b j d Po I Hb Nd Cm Nr) as (w2 & mu & Es & I2 & Ex & Hm).
  assert (A : forall m k, exists l q, (m <= length l)%nat /\ row_runs s j mu w2 k (l ++ [row]) q).
  { induction m as [|m IH]; intro k.
    - destruct (row_comes s j mu w2 b d R I2 Hb Nd Ex row k Hr) as (l & q & H). exists l, q. split; [lia|exact H].
    - destruct (row_comes s j mu w2 b d R I2 Hb Nd Ex row k Hr) as (l & q & H). destruct (IH q) as (l' & q' & L & H'). exists ((l ++ [row]) ++ l'), q'.
      split; [rewrite !app_length; cbn [length]; lia|]. rewrite <- app_assoc. eapply row_runs_app; eauto. }
  destruct (A n 0%nat) as (l & q & Ll & H).
  assert (Pn : exists r0 l0, l ++ [row] = r0 :: l0 /\ length l0 = length l).
  { destruct l as [|r0 l]; [exists row, []; auto|]. exists r0, (l ++ [row]). split; [reflexivity|]. rewrite app_length. cbn [length]. lia. }
  destruct Pn as (r0 & l0 & El & Ln). rewrite El in H. destruct (row_runs_pull _ _ _ _ _ _ _ H _ _ eq_refl) as (k' & (f1 & H1) & H2).
  destruct (take_rows s j mu w2 l0 _ _ H2) as (f2 & H3).
  exists w2, l, (Nat.max f1 f2). split; [exact Ll|]. intros f L. rewrite El, <- Ln. cbn [rand_take].
  assert (En : rand_next inode f ord s (RNew j) w = (w2, Some (Ok (Some r0), RAt j mu k'))).
  { unfold rand_next. rewrite (fthen_ok _ _ w w2 (j, mu, 0%nat)) by (apply runs_ok; exact Es). rewrite (fthen_ok _ _ w2 w2 (r0, k')) by (apply H1; lia). reflexivity. }
  rewrite En. rewrite (fthen_ok _ _ w2 w2 l0) by (apply H3; lia). reflexivity.
Qed.
(** fewer pulls return as well *)
Lemma take_fewer s s2 f : forall m n g w w' l, (m <= n)%nat -> null_take inode n f ord s s2 g w = (w', Some (Ok l)) -> length l = n ->
  exists w1 l1, null_take inode m f ord s s2 g w = (w1, Some (Ok l1)) /\ length l1 = m.
Proof.
  induction m as [|m IH]; intros n g w w' l L E Ln; [exists w, []; auto|]. destruct n as [|n]; [lia|]. cbn [null_take] in *.
  destruct (null_next inode f ord s s2 g w) as [w1 [[[[p|]|e] g']|]]; try discriminate.
  - unfold fthen at 1 in E. destruct (null_take inode n f ord s s2 g' w1) as [w2 [[l2|e]|]] eqn:E2; cbn [runs ret] in E; try discriminate.
    injection E as <- <-. cbn [length] in Ln. destruct (IH n g' w1 w2 l2 ltac:(lia) E2 ltac:(lia)) as (w3 & l3 & E3 & L3).
    exists w3, (p :: l3). split; [|cbn [length]; lia]. rewrite (fthen_ok _ _ w1 w3 l3) by exact E3. reflexivity.
  - injection E as <- <-. discriminate.
Qed.
End Facts.
