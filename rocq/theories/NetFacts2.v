(** Lemmas about shapes and batches of Caser, and about training targets. *)
From Coq Require Import String Ascii.
From Coq Require Import List ZArith QArith Qcanon Bool Lia Permutation.
From Verif Require Import Py PyFacts MemModel MemSpec MemFacts MemFacts2 KnnModel KnnSpec KnnFacts TrainModel TrainFacts3 SampModel SampSpec SampFacts SampFacts2 SampFacts3 NetModel NetFacts.
Import ListNotations.
Open Scope nat_scope.

(** ** Shapes *)
Lemma pool_one len size : 1 <= len <= size -> (len + size - 1) / size = 1.
Proof.
  intros H. replace (len + size - 1) with (len - 1 + 1 * size) by lia.
  rewrite Nat.div_add by lia. rewrite Nat.div_small by lia. reflexivity.
Qed.
Lemma pool_more len size : 1 <= size -> size < len -> 2 <= (len + size - 1) / size.
Proof.
  intros H1 H2. replace (len + size - 1) with (len - 1 - size + 2 * size) by lia.
  rewrite Nat.div_add by lia. lia.
Qed.
Lemma concat1_repeat b h n : 1 <= n -> concat1 (repeat [b; h] n) = Ok [b; n * h].
Proof.
  intros H. destruct n as [|n]; [lia|]. clear H. induction n as [|n IH].
  - cbn [repeat concat1]. rewrite Nat.mul_1_l. reflexivity.
  - change (repeat [b; h] (S (S n))) with ([b; h] :: repeat [b; h] (S n)).
    change (concat1 ([b; h] :: repeat [b; h] (S n))) with
      (s <- concat1 (repeat [b; h] (S n)) ;;
       match s with [b'; y] => if b =? b' then Ok [b; h + y] else no_shape | _ => no_shape end).
    rewrite IH. cbn [bind]. rewrite Nat.eqb_refl. reflexivity.
Qed.
Lemma mapM_const {A B} (f : A -> res B) x l : (forall a, In a l -> f a = Ok x) -> mapM f l = Ok (repeat x (length l)).
Proof.
  induction l as [|a l IH]; intros H; auto. cbn [mapM length repeat]. rewrite H by (left; auto). cbn [bind].
  rewrite IH by (intros; apply H; right; auto). reflexivity.
Qed.
Lemma broadcast_row b k n : broadcast (rev [b; 1; n]) (rev [b; k; n]) = Some (rev [b; k; n]).
Proof.
  cbn [rev app broadcast]. rewrite (Nat.eqb_refl b). cbn. rewrite (Nat.eqb_refl n). destruct k as [|[|k]]; reflexivity.
Qed.
Lemma broadcast_same b k : broadcast (rev [b; k]) (rev [b; k]) = Some (rev [b; k]).
Proof. cbn [rev app broadcast]. rewrite (Nat.eqb_refl b), (Nat.eqb_refl k). reflexivity. Qed.

Lemma caser_shape_ok L d n_v n_h b after : 1 <= L <= n_h ->
  caser_shape L d n_v n_h (caser_input_size L n_v n_h) b L after = Ok [b; after].
Proof.
  intros H. unfold caser_shape, embed. cbn [bind app].
  unfold conv1d at 1. assert (E0 : (L =? 0) = false) by (apply Nat.eqb_neq; lia).
  rewrite E0, Nat.ltb_irrefl. cbn [orb bind flat].
  rewrite (mapM_const _ [b; n_h]).
  2:{ intros i Hi. apply in_seq in Hi. unfold conv1d.
      assert (E1 : (i + 1 =? 0) = false) by (apply Nat.eqb_neq; lia).
      assert (E2 : (L <? i + 1) = false) by (apply Nat.ltb_ge; lia).
      rewrite E1, E2. cbn [orb bind max_pool1d]. assert (E3 : (n_h =? 0) = false) by (apply Nat.eqb_neq; lia).
      rewrite E3. cbn [bind]. rewrite pool_one by lia. reflexivity. }
  cbn [bind]. rewrite seq_length, concat1_repeat by lia. cbn [bind concat1].
  rewrite (Nat.eqb_refl b). cbn [bind dense_layer]. unfold caser_input_size.
  replace (L - L + 1) with 1 by lia. rewrite Nat.mul_1_l, Nat.eqb_refl. cbn [bind concat1]. rewrite (Nat.eqb_refl b). cbn [bind].
  replace (d + d) with (2 * d) by lia. rewrite broadcast_row. cbn [bind]. rewrite rev_involutive.
  cbn [bind squeeze2]. rewrite broadcast_same, rev_involutive. reflexivity.
Qed.

Lemma caser_shape_wide L d n_v n_h n b after : n_h < L -> exists e, caser_shape L d n_v n_h n b L after = Err e.
Proof.
  intros H. unfold caser_shape, embed. cbn [bind app].
  unfold conv1d at 1. assert (E0 : (L =? 0) = false) by (apply Nat.eqb_neq; lia).
  rewrite E0, Nat.ltb_irrefl. cbn [orb bind flat].
  destruct L as [|L]; [lia|]. cbn [seq mapM]. unfold conv1d at 1. cbn [plus Nat.eqb orb].
  assert (E2 : (S L <? 1) = false) by (apply Nat.ltb_ge; lia). rewrite E2. cbn [bind max_pool1d].
  destruct (n_h =? 0) eqn:E3; [eexists; reflexivity|]. apply Nat.eqb_neq in E3. cbn [bind].
  assert (P := pool_more (S L - 1 + 1) n_h ltac:(lia) ltac:(lia)).
  destruct ((S L - 1 + 1 + n_h - 1) / n_h) as [|[|k]]; [lia|lia|]. eexists. reflexivity.
Qed.

Lemma caser_shape_short L d n_v n_h n b before after : before < L -> exists e, caser_shape L d n_v n_h n b before after = Err e.
Proof.
  intros H. unfold caser_shape, embed. cbn [bind app]. unfold conv1d at 1.
  assert (E : (before <? L) = true) by (apply Nat.ltb_lt; auto). rewrite E, orb_true_r. eexists. reflexivity.
Qed.

(** ** Batches of Caser *)
Open Scope string_scope.
Open Scope Z_scope.

Definition id_of (c : string) (r : row) : option Z :=
  match cell r c with Some (VInt z) => Some z | _ => None end.

Lemma shows_field m r rec c z : shows m r rec -> In c (m_columns m) -> c <> "rid" -> id_of c r = Some z ->
  exists v, field rec c = Ok v /\ int_value v = Ok z.
Proof.
  intros [K F] I N E. unfold field.
  assert (A : exists v, assoc String.eqb c rec = Some v /\ In (c, v) rec).
  { rewrite <- K in I. clear -I. induction rec as [|[c' v] l IH]; [contradiction|]. cbn [assoc].
    destruct (String.eqb c c') eqn:Q.
    - apply String.eqb_eq in Q. subst. exists v. split; [auto|left; auto].
    - destruct I as [<-|I]; [rewrite String.eqb_refl in Q; discriminate|]. destruct (IH I) as [w [A B]]. exists w. split; auto. right. auto. }
  destruct A as [v [A B]]. rewrite A. exists v. split; auto. rewrite Forall_forall in F. destruct (F _ B) as [y [Y S]].
  cbn [fst snd] in *. unfold row_val in Y. apply String.eqb_neq in N. rewrite N in Y. unfold id_of in E. rewrite Y in E.
  destruct y; try discriminate. injection E as ->. apply int_value_same; auto.
Qed.

Lemma ids_shown m c rows recs : In c (m_columns m) -> c <> "rid" ->
  (forall r, In r rows -> exists z, id_of c r = Some z) -> Forall2 (shows m) rows recs ->
  exists zs, mapM (fun r => v <- field r c ;; int_value v) recs = Ok zs /\ map (id_of c) rows = map Some zs.
Proof.
  intros I N H F. induction F as [|r rec rows recs S F IH]; [exists []; auto|].
  destruct (H r ltac:(left; auto)) as [z Z]. destruct (shows_field m r rec c z S I N Z) as [v [E1 E2]].
  destruct IH as [zs [E3 E4]]; [intros; apply H; right; auto|].
  exists (z :: zs). cbn [mapM map]. rewrite E1. cbn [bind]. rewrite E2. cbn [bind]. rewrite E3. cbn [bind].
  rewrite Z, E4. auto.
Qed.

Lemma sequence_incl m a t rs : sequence m a t rs -> incl rs (rows_of m).
Proof.
  intros [g [r [_ [_ O]]]] x Hx. unfold in_order in O. destruct (l_sort a).
  - destruct O as [P _]. eapply Permutation_in in Hx; [|apply Permutation_sym; exact P]. apply filter_In in Hx. tauto.
  - subst rs. apply filter_In in Hx. tauto.
Qed.

(** the rows of the user [u] at or above the threshold, in the order of the sort
    column *)
Definition history (m : mem) (t : option slit) (sort : option string) (u : Z) (rs : list row) : Prop :=
  in_order sort (filter (fun r => match id_of "uid" r with Some z => z =? u | None => false end && above t r) (rows_of m)) rs.

Lemma sequence_history m a t rs : coded m -> l_groups a = ["uid"] -> sequence m a t rs -> exists u, history m t (l_sort a) u rs.
Proof.
  intros C G [g [r0 [I0 [F O]]]]. rewrite G in *. inversion F as [|? v ? g' E F']; subst. inversion F'; subst.
  destruct (cd_rows m C r0 I0) as (u & i & Eu & Ei & _ & _).
  unfold row_val in E. cbn in E. change (cell r0 "uid" = Some v) in E. rewrite Eu in E. injection E as <-.
  exists u. unfold history.
  assert (X : filter (fun r => in_group ["uid"] [VInt u] r && above t r) (rows_of m) =
    filter (fun r => match id_of "uid" r with Some z => z =? u | None => false end && above t r) (rows_of m)).
  { apply filter_ext_in. intros r Hr. f_equal. destruct (cd_rows m C r Hr) as (u' & i' & Eu' & _).
    unfold in_group. cbn [combine forallb fst snd]. unfold row_val. change (String.eqb "uid" "rid") with false. cbn iota.
    unfold id_of. rewrite Eu'. rewrite andb_true_r. reflexivity. }
  rewrite X in O. exact O.
Qed.

Lemma Forall2_len {A B} (P : A -> B -> Prop) l l' : Forall2 P l l' -> length l = length l'.
Proof. induction 1; cbn; auto. Qed.
Lemma coded_id m r : coded m -> In r (rows_of m) -> (exists z, id_of "uid" r = Some z) /\ (exists z, id_of "iid" r = Some z).
Proof. intros C I. destruct (cd_rows m C r I) as (u & i & E1 & E2 & _). unfold id_of. rewrite E1, E2. eauto. Qed.

Lemma ids_negs m col rs n negs : coded m -> col = "iid" -> unobserved_ids m col rs n negs -> incl rs (rows_of m) ->
  exists zs, mapM int_value negs = Ok zs /\ negs = map VInt zs /\
    forall z, In z zs -> (exists r, In r (rows_of m) /\ id_of "iid" r = Some z) /\ forall r, In r rs -> id_of "iid" r <> Some z.
Proof.
  intros C -> [_ [_ H]] IN.
  assert (K : forall v, In v negs -> exists z, v = VInt z /\ (exists r, In r (rows_of m) /\ id_of "iid" r = Some z) /\
                forall r, In r rs -> id_of "iid" r <> Some z).
  { intros v Hv. destruct (H v Hv) as [A B]. unfold column in A. apply in_flat_map in A. destruct A as [r [Ir E]].
    destruct (cd_rows m C r Ir) as (u & i & _ & Ei & _). rewrite Ei in E. destruct E as [<-|[]]. exists i. split; auto. split.
    - exists r. unfold id_of. rewrite Ei. auto.
    - intros r' I' E'. apply B. apply in_flat_map. exists r'. split; auto. unfold id_of in E'.
      destruct (cell r' "iid") as [[z| |]|]; try discriminate. injection E' as ->. left. auto. }
  clear H. induction negs as [|v negs IH]; [exists []; repeat split; contradiction|].
  destruct IH as [zs [E1 [E2 E3]]]; [intros; apply K; right; auto|]. destruct (K v ltac:(left; auto)) as [z [-> P]].
  exists (z :: zs). cbn [mapM]. rewrite (int_value_same (VInt z) z eq_refl). cbn [bind]. rewrite E1. cbn [bind map].
  rewrite E2. split; auto. split; auto. intros y [<-|Hy]; auto.
Qed.

(** what one sample of a batch of Caser must be *)
Record caser_sample_ok (m : mem) (t : option slit) (sort : option string) (L T neg : Z) (x : Z * list Z * list Z) : Prop := {
  cs_split : exists uid before after negs, x = (uid, before, (after ++ negs)%list) /\
    Z.of_nat (length before) = L /\ Z.of_nat (length after) = T /\ Z.of_nat (length negs) = neg * T /\ NoDup negs /\
    exists rs front p q back, history m t sort uid rs /\ rs = (front ++ p ++ q ++ back)%list /\
      map (id_of "iid") p = map Some before /\ map (id_of "iid") q = map Some after /\
      forall i, In i negs -> (exists r, In r (rows_of m) /\ id_of "iid" r = Some i) /\
                             forall r, In r rs -> id_of "iid" r <> Some i }.

Lemma caser_batch m L T neg t sort pick s ls n k l :
  coded m -> config_ok m (caser_args L T neg (thr_text t) sort) t -> sampler_ok pick -> 1 <= L ->
  ls_init m (caser_args L T neg (thr_text t) sort) = Ok ls -> sample_groups pick s n ls k = Ok l ->
  length l = n /\
  Forall (fun g => exists x, caser_input g = Ok x /\ caser_sample_ok m t sort L T neg x) l.
Proof.
  intros C K P HL I H. set (a := caser_args L T neg (thr_text t) sort) in *.
  destruct (sample_groups_ok m a t pick s C K P ls ltac:(cbn; lia) I n k l H) as [Len F]. split; auto.
  destruct (init_ok m a t C K ls I) as [Ck _]. destruct (check_inv m a Ck) as [Ct _]. cbn [l_targets a caser_args] in Ct.
  eapply Forall_impl; [|exact F]. intros g [rs [S G]]. cbn [l_targets a caser_args] in G.
  destruct g as [pos|pos tg negs]; [contradiction|].
  destruct G as [U [B [front [p [q [back [E [Fp [Fq X]]]]]]]]].
  assert (IN := sequence_incl m a t rs S).
  destruct (sequence_history m a t rs C eq_refl S) as [u Hu].
  unfold full in X. cbn [l_max l_min l_negcol l_neg l_sort a caser_args] in *.
  assert (Sz : Z.of_nat (length pos) = L /\ Z.of_nat (length tg) = T).
  { destruct (L <? Z.of_nat (length rs)) eqn:Q.
    - destruct X as [X1 X2]. injection X1 as X1. auto.
    - apply Z.ltb_ge in Q. lia. }
  destruct Sz as [S1 S2].
  assert (Ip : forall r, In r p -> In r (rows_of m)) by (intros r Hr; apply IN; rewrite E; rewrite !in_app_iff; auto).
  assert (Iq : forall r, In r q -> In r (rows_of m)) by (intros r Hr; apply IN; rewrite E; rewrite !in_app_iff; auto).
  destruct (ids_shown m "iid" p pos (cd_iid m C) ltac:(discriminate)) as [before [E1 E2]]; auto.
  { intros r Hr. apply (coded_id m r C). auto. }
  destruct (ids_shown m "iid" q tg (cd_iid m C) ltac:(discriminate)) as [after [E3 E4]]; auto.
  { intros r Hr. apply (coded_id m r C). auto. }
  destruct (ids_negs m "iid" rs _ negs C eq_refl U IN) as [ns [E5 [E6 E7]]].
  destruct pos as [|r0 pos]; [cbn in S1; lia|]. inversion Fp as [|p0 ? p' ? Sh Fp']; subst p.
  assert (Uid : id_of "uid" p0 = Some u).
  { assert (I0 : In p0 rs) by (rewrite E; rewrite !in_app_iff; right; left; left; auto).
    unfold history in Hu. assert (J : In p0 (filter (fun r => match id_of "uid" r with Some z => z =? u | None => false end && above t r) (rows_of m))).
    { unfold in_order in Hu. destruct sort; [|rewrite <- Hu; exact I0]. destruct Hu as [Pm _]. eapply Permutation_in; [apply Permutation_sym; exact Pm|auto]. }
    apply filter_In in J. destruct J as [_ J]. apply andb_true_iff in J. destruct J as [J _].
    destruct (id_of "uid" p0); [|discriminate]. apply Z.eqb_eq in J. congruence. }
  destruct (shows_field m p0 r0 "uid" u Sh (cd_uid m C) ltac:(discriminate) Uid) as [v [V1 V2]].
  exists (u, before, (after ++ ns)%list). split.
  { unfold caser_input. cbn [bind]. rewrite V1. cbn [bind]. rewrite V2. cbn [bind]. rewrite E1. cbn [bind]. rewrite E3. cbn [bind].
    rewrite E5. reflexivity. }
  destruct U as [U1 [U2 _]].
  constructor. exists u, before, after, ns. split; auto.
  assert (L1 : length before = length (r0 :: pos)).
  { rewrite <- (map_length Some before), <- E2, map_length. eapply Forall2_len; eauto. }
  assert (L2 : length after = length tg).
  { rewrite <- (map_length Some after), <- E4, map_length. eapply Forall2_len; eauto. }
  rewrite L1, L2. split; auto. split; auto. split; [rewrite E6, map_length in U1; lia|]. split.
  { rewrite E6 in U2. eapply NoDup_map_inv; eauto. }
  exists rs, front, (p0 :: p'), q, back. auto.
Qed.
