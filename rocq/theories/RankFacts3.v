(** Proofs about ranking: when calls succeed, unknown ids, order of the request. *)
From Coq Require Import String Ascii.
From Coq Require Import List ZArith QArith Qcanon Bool Lia Permutation Sorted.
From Verif Require Import Py PyFacts MemModel MemSpec MemFacts MemFacts2 MemFacts3 MemFacts4 MemFacts5 MemFacts6 MemFacts7.
From Verif Require Import RankModel RankSpec RankFacts RankFacts2.
Import ListNotations.
Open Scope string_scope.
Open Scope Z_scope.

Section Final.
Variables (m0 m : mem) (tu ti : dtype).
Hypothesis T : trained_on m0 m tu ti.

Lemma rank_abc_final (f : option Z -> option Z -> res (option Qc)) fitted user items nov skip n out :
  type_of user = tu -> Forall (fun v => type_of v = ti) items ->
  rank (rank_abc f m) fitted m user items nov skip n = Ok out ->
  exists out', items_named out out' /\
    best_of (candidate m0 user nov (fun v => In v items)) (fun v s => predict f true m user v false = Ok (Some s))
      (match n with Some k => Z.to_nat k | None => count_known m0 items end) out'.
Proof.
  intros Yu Yi H.
  destruct (rank_best m0 m tu ti T _ _ nov fitted user items skip n out (rank_abc_ok m0 m tu ti T f nov) Yu Yi H)
    as [out' [N B]].
  exists out'. split; auto. eapply best_of_ext; [|exact B]. intros v s. rewrite predict_iff. tauto.
Qed.

Lemma recommend_abc_final (f : option Z -> option Z -> res (option Qc)) fitted ni user n nov thr out :
  type_of user = tu -> count_unique m (Some ["iid"]) = Ok ni ->
  recommend (rank_abc f m) fitted m ni user n nov thr = Ok out ->
  exists out', items_named out out' /\
    best_of (candidate m0 user nov (fun _ => True))
      (fun v s => predict f true m user v false = Ok (Some s) /\ forall t, thr = Some t -> (t <= s)%Qc)
      (match n with Some k => Z.to_nat k | None => ni end) out'.
Proof.
  intros Yu N H.
  destruct (recommend_best m0 m tu ti T _ _ nov fitted ni user n thr out (rank_abc_ok m0 m tu ti T f nov) Yu N H)
    as [out' [N' B]].
  exists out'. split; auto. eapply best_of_ext; [|exact B]. intros v s. rewrite predict_iff. tauto.
Qed.

Lemma rank_cdae_final vec fitted ni user items nov skip n out :
  type_of user = tu -> Forall (fun v => type_of v = ti) items -> count_unique m (Some ["iid"]) = Ok ni ->
  rank (rank_cdae vec m ni) fitted m user items nov skip n = Ok out ->
  exists out', items_named out out' /\
    best_of (candidate m0 user nov (fun v => In v items))
      (fun v s => predict (predict_cdae vec) true m user v false = Ok (Some (inl s)))
      (match n with Some k => Z.to_nat k | None => count_known m0 items end) out'.
Proof.
  intros Yu Yi N H.
  destruct (rank_best m0 m tu ti T _ _ nov fitted user items skip n out (rank_cdae_ok m0 m tu ti T vec ni nov) Yu Yi H)
    as [out' [N' B]].
  exists out'. split; auto. eapply best_of_ext; [|exact B]. intros v s.
  split; intros [C S]; split; auto; apply (cdae_score m0 m tu ti T vec ni user v s N); auto; apply C.
Qed.

Lemma recommend_cdae_final vec fitted ni user n nov thr out :
  type_of user = tu -> count_unique m (Some ["iid"]) = Ok ni ->
  recommend (rank_cdae vec m ni) fitted m ni user n nov thr = Ok out ->
  exists out', items_named out out' /\
    best_of (candidate m0 user nov (fun _ => True))
      (fun v s => predict (predict_cdae vec) true m user v false = Ok (Some (inl s)) /\
                  forall t, thr = Some t -> (t <= s)%Qc)
      (match n with Some k => Z.to_nat k | None => ni end) out'.
Proof.
  intros Yu N H.
  destruct (recommend_best m0 m tu ti T _ _ nov fitted ni user n thr out (rank_cdae_ok m0 m tu ti T vec ni nov) Yu N H)
    as [out' [N' B]].
  exists out'. split; auto. eapply best_of_ext; [|exact B]. intros v s.
  split; intros [C [S S2]]; split; auto; split; auto; apply (cdae_score m0 m tu ti T vec ni user v s N); auto; apply C.
Qed.

(** Caser has no predict; the score of an item is its entry in the vector of the
    user. *)
Lemma rank_caser_final vec fitted ni user items skip n out :
  type_of user = tu -> Forall (fun v => type_of v = ti) items -> count_unique m (Some ["iid"]) = Ok ni ->
  rank (rank_caser vec m ni) fitted m user items true skip n = Ok out ->
  exists out', items_named out out' /\
    best_of (candidate m0 user true (fun v => In v items))
      (fun v s => predict (predict_cdae vec) true m user v false = Ok (Some (inl s)))
      (match n with Some k => Z.to_nat k | None => count_known m0 items end) out'.
Proof.
  intros Yu Yi N H.
  destruct (rank_best m0 m tu ti T _ _ true fitted user items skip n out (rank_caser_ok m0 m tu ti T vec ni) Yu Yi H)
    as [out' [N' B]].
  exists out'. split; auto. eapply best_of_ext; [|exact B]. intros v s.
  split; intros [C S]; split; auto; apply (cdae_score m0 m tu ti T vec ni user v s N); auto; apply C.
Qed.

(** ** success *)
Lemma pred_list_total (f : option Z -> option Z -> res (option Qc)) u iids :
  (forall i, In i iids -> exists o, f (Some u) (Some i) = Ok o) -> exists ps, pred_list f u iids = Ok ps.
Proof.
  intros H. unfold pred_list.
  assert (M : exists l, mapM (fun i => p <- f (Some u) (Some i) ;; Ok (p, i)) iids = Ok l).
  { induction iids as [|i iids IH]; simpl; [eauto|].
    destruct (H i (or_introl eq_refl)) as [o E]. rewrite E. cbn [bind].
    destruct IH as [l El]; [intros; apply H; simpl; auto|]. rewrite El. cbn [bind]. eauto. }
  destruct M as [l ->]. cbn [bind]. eauto.
Qed.

Lemma rank_abc_total (f : option Z -> option Z -> res (option Qc)) u iids n nov :
  (forall u i, exists o, f (Some u) (Some i) = Ok o) -> exists l, rank_abc f m u iids n nov = Ok l.
Proof.
  intros H. unfold rank_abc. destruct nov.
  - destruct (rated_spec m0 m tu ti T u) as [rated [R _]]. rewrite R. cbn [bind].
    destruct (pred_list_total f u (set_minus iids rated)) as [ps P]; auto. rewrite P. cbn [bind]. eauto.
  - cbn [bind]. destruct (pred_list_total f u iids) as [ps P]; auto. rewrite P. cbn [bind]. eauto.
Qed.

Lemma with_items_total l : exists out, with_items m l = Ok out.
Proof.
  unfold with_items. induction l as [|p l [out IH]]; simpl; [eauto|].
  rewrite (trained_assigned m0 m tu ti T), iid_to_item_assigned. cbn [bind].
  rewrite (trained_assigned m0 m tu ti T) in IH. rewrite IH. cbn [bind]. eauto.
Qed.

Lemma rank_returns (f : option Z -> option Z -> res (option Qc)) user items nov n :
  (forall u i, exists o, f (Some u) (Some i) = Ok o) -> known_user m0 user -> Forall (fun v => type_of v = ti) items ->
  (forall k, n = Some k -> k <= Z.of_nat (count_known m0 items)) ->
  exists out, rank (rank_abc f m) true m user items nov true n = Ok out.
Proof.
  intros F K Y N. unfold rank. cbn [negb]. destruct (known_user_uid m0 m tu ti T user K) as [_ [u U]]. rewrite U. cbn [bind].
  destruct (known_iids_total m0 m tu ti T items Y) as [iids E]. rewrite E. cbn [bind].
  assert (L := Forall2_len _ _ _ (known_iids_ok m0 m tu ti T true items iids Y E)).
  change (length (filter (known_b m0) items)) with (count_known m0 items) in L. rewrite <- L.
  set (n' := match n with Some k => k | None => Z.of_nat (count_known m0 items) end).
  assert (B : (n' <=? Z.of_nat (count_known m0 items)) = true).
  { apply Z.leb_le. unfold n'. destruct n; [auto|lia]. }
  rewrite B. cbn [negb]. destruct (rank_abc_total f u iids n' nov F) as [l R]. rewrite R. cbn [bind]. apply with_items_total.
Qed.

Lemma recommend_returns (f : option Z -> option Z -> res (option Qc)) ni user n nov thr :
  (forall u i, exists o, f (Some u) (Some i) = Ok o) -> known_user m0 user ->
  exists out, recommend (rank_abc f m) true m ni user n nov thr = Ok out.
Proof.
  intros F K. unfold recommend, recommend_int. cbn [negb].
  destruct (known_user_uid m0 m tu ti T user K) as [_ [u U]]. rewrite U. cbn [bind].
  destruct (rank_abc_total f u (Zseq ni) (match n with Some k => k | None => Z.of_nat ni end) nov F) as [l R].
  rewrite R. cbn [bind]. apply with_items_total.
Qed.

(** ** unknown ids *)
Lemma known_iids_filter items : Forall (fun v => type_of v = ti) items ->
  known_iids m true items = known_iids m true (filter (known_b m0) items).
Proof.
  induction 1 as [|v items Yv Y IH]; simpl; auto. destruct (known_b m0 v) eqn:K.
  - simpl. destruct (item_to_iid m v) as [[i|]|]; cbn [bind]; auto. rewrite IH. reflexivity.
  - assert (N : ~ known_item m0 v) by (rewrite <- known_b_iff; congruence).
    rewrite (unknown_item_iid m0 m tu ti T v Yv N). cbn [bind]. exact IH.
Qed.

Lemma known_iids_skip items : Forall (known_item m0) items -> known_iids m false items = known_iids m true items.
Proof.
  induction 1 as [|v items K F IH]; simpl; auto.
  destruct (known_item_iid m0 m tu ti T v K) as [_ [k [E _]]]. rewrite E. cbn [bind]. rewrite IH. reflexivity.
Qed.

Lemma rank_unknown_items impl fitted user items nov n : Forall (fun v => type_of v = ti) items ->
  let known := filter (known_b m0) items in
  rank impl fitted m user items nov true n = rank impl fitted m user known nov true n /\
  rank impl fitted m user items nov true n = rank impl fitted m user known nov false n.
Proof.
  intros Y known. assert (E := known_iids_filter items Y). fold known in E.
  assert (K : Forall (known_item m0) known).
  { apply Forall_forall. intros v Hv. apply filter_In in Hv. apply known_b_iff. tauto. }
  assert (E2 := known_iids_skip known K). unfold rank. rewrite E, E2. auto.
Qed.

Lemma rank_unknown_raises impl user items nov n : known_user m0 user -> Forall (fun v => type_of v = ti) items ->
  Exists (fun v => ~ known_item m0 v) items ->
  rank impl true m user items nov false n = Err GenericException.
Proof.
  intros K Y X. unfold rank. cbn [negb]. destruct (known_user_uid m0 m tu ti T user K) as [_ [u U]]. rewrite U. cbn [bind].
  assert (E : known_iids m false items = Err GenericException).
  { clear -T Y X. induction Y as [|v items Yv Y IH]; [inversion X|]. simpl.
    destruct (in_dec value_eq_dec v (column "item" (rows_of m0))) as [Kv|Kv].
    - destruct (known_item_iid m0 m tu ti T v Kv) as [_ [k [E _]]]. rewrite E. cbn [bind].
      rewrite IH; [reflexivity|]. inversion X; subst; auto. contradiction.
    - rewrite (unknown_item_iid m0 m tu ti T v Yv Kv). reflexivity. }
  rewrite E. reflexivity.
Qed.

Lemma unknown_user_raises impl ni user items nov skip n thr : type_of user = tu -> ~ known_user m0 user ->
  rank impl true m user items nov skip n = Err AssertionError /\
  recommend impl true m ni user n nov thr = Err AssertionError.
Proof.
  intros Y N. assert (U := unknown_user_uid m0 m tu ti T user Y N).
  unfold rank, recommend. cbn [negb]. rewrite U. auto.
Qed.

Lemma predict_unknown {A} (f : option Z -> option Z -> res (option A)) user v :
  type_of user = tu -> type_of v = ti -> ~ (known_user m0 user /\ known_item m0 v) ->
  predict f true m user v false = Err AssertionError /\
  ((forall u i x, f u i = Ok (Some x) -> u <> None /\ i <> None) -> predict f true m user v true = Ok None).
Proof.
  intros Yu Yv N. unfold predict. cbn [negb bind].
  assert (CU : (exists u, user_to_uid m user = Ok (Some u)) \/ user_to_uid m user = Ok None).
  { destruct (in_dec value_eq_dec user (column "user" (rows_of m0))) as [K|K].
    - left. destruct (known_user_uid m0 m tu ti T user K) as [_ [u U]]. eauto.
    - right. apply (unknown_user_uid m0 m tu ti T user Yu K). }
  assert (CI : (exists u, item_to_iid m v = Ok (Some u)) \/ item_to_iid m v = Ok None).
  { destruct (in_dec value_eq_dec v (column "item" (rows_of m0))) as [K|K].
    - left. destruct (known_item_iid m0 m tu ti T v K) as [_ [u [U _]]]. eauto.
    - right. apply (unknown_item_iid m0 m tu ti T v Yv K). }
  assert (X : user_to_uid m user = Ok None \/ item_to_iid m v = Ok None).
  { destruct (in_dec value_eq_dec user (column "user" (rows_of m0))) as [K|K];
      [|left; apply (unknown_user_uid m0 m tu ti T user Yu K)].
    destruct (in_dec value_eq_dec v (column "item" (rows_of m0))) as [K2|K2]; [exfalso; apply N; split; auto|].
    right. apply (unknown_item_iid m0 m tu ti T v Yv K2). }
  split.
  - destruct CU as [[u U]|U]; rewrite U; cbn [bind]; [|reflexivity].
    destruct X as [X|X]; [congruence|]. rewrite X. reflexivity.
  - intros S. assert (exists uo io, user_to_uid m user = Ok uo /\ item_to_iid m v = Ok io /\ (uo = None \/ io = None)).
    { assert (CU' : exists uo, user_to_uid m user = Ok uo) by (destruct CU as [[u U]|U]; eauto).
      assert (CI' : exists io, item_to_iid m v = Ok io) by (destruct CI as [[u U]|U]; eauto).
      destruct CU' as [uo U], CI' as [io I]. exists uo, io. split; auto. split; auto.
      destruct X as [X|X]; [left|right]; congruence. }
    destruct H as [uo [io [-> [-> D]]]]. cbn [bind].
    destruct (f uo io) as [[x|]|] eqn:F; cbn [bind]; auto. apply S in F. destruct D; subst; intuition congruence.
Qed.

Lemma predict_skip_total {A} (f : option Z -> option Z -> res (option A)) user v :
  exists o, predict f true m user v true = Ok o.
Proof.
  unfold predict. cbn [negb bind]. match goal with |- exists o, match ?e with _ => _ end = _ => destruct e end; eauto.
Qed.

Lemma predict_skip_same {A} (f : option Z -> option Z -> res (option A)) user v x :
  known_user m0 user -> known_item m0 v ->
  (predict f true m user v true = Ok (Some x) <-> predict f true m user v false = Ok (Some x)).
Proof.
  intros Ku Ki. destruct (known_user_uid m0 m tu ti T user Ku) as [_ [u U]].
  destruct (known_item_iid m0 m tu ti T v Ki) as [_ [i [I _]]].
  unfold predict. cbn [negb bind]. rewrite U, I. cbn [bind].
  destruct (f (Some u) (Some i)) as [[y|]|]; cbn [bind]; split; intros H; try discriminate; auto.
Qed.

(** ** the order of the request does not matter *)
Lemma dedup_perm (l l' : list Z) : Permutation l l' -> Permutation (dedup Z.eqb l) (dedup Z.eqb l').
Proof.
  intros P. apply NoDup_Permutation.
  - apply dedup_NoDup, reflects_Z.
  - apply dedup_NoDup, reflects_Z.
  - intros x. rewrite !(dedup_In _ reflects_Z). split; apply Permutation_in; auto using Permutation_sym.
Qed.
Lemma filter_perm {A} (f : A -> bool) l l' : Permutation l l' -> Permutation (filter f l) (filter f l').
Proof.
  induction 1; simpl; auto.
  - destruct (f x); auto.
  - destruct (f x), (f y); auto. constructor.
  - etransitivity; eauto.
Qed.

Lemma Forall2_perm {A B} (P : A -> B -> Prop) l l2 : Permutation l l2 -> forall l', Forall2 P l l' ->
  exists l2', Forall2 P l2 l2' /\ Permutation l' l2'.
Proof.
  induction 1 as [|x l l2 p IH|x y l|l l2 l3 p1 IH1 p2 IH2]; intros l' F.
  - inversion F; subst. exists []. auto.
  - inversion F as [|? z ? l'' Hz F']; subst. destruct (IH _ F') as [l2' [G Q]]. exists (z :: l2'). split; constructor; auto.
  - inversion F as [|? z ? l'' Hz F']; subst. inversion F' as [|? z' ? l3 Hz' F3]; subst.
    exists (z' :: z :: l3). split; [repeat constructor; auto|constructor].
  - destruct (IH1 _ F) as [l2' [G Q]]. destruct (IH2 _ G) as [l3' [G3 Q3]]. exists l3'. split; auto. etransitivity; eauto.
Qed.

Lemma flat_map_perm {A B} (f : A -> list B) l l' : Permutation l l' -> Permutation (flat_map f l) (flat_map f l').
Proof.
  induction 1; simpl; auto.
  - apply Permutation_app_head; auto.
  - rewrite !app_assoc. apply Permutation_app_tail, Permutation_app_comm.
  - etransitivity; eauto.
Qed.

Lemma pred_list_perm f u iids iids' ps : Permutation iids iids' -> pred_list f u iids = Ok ps ->
  exists ps', pred_list f u iids' = Ok ps' /\ Permutation ps ps'.
Proof.
  intros P. unfold pred_list. destruct (mapM _ iids) as [l|] eqn:M; cbn [bind]; [|discriminate].
  intros H. injection H as <-. apply mapM_Forall2 in M. destruct (Forall2_perm _ _ _ P _ M) as [l' [M' Q]].
  apply mapM_Forall2 in M'. rewrite M'. cbn [bind]. eexists. split; [reflexivity|]. apply flat_map_perm. auto.
Qed.

Lemma rank_abc_perm f u iids iids' n nov l : Permutation iids iids' ->
  rank_abc f m u iids n nov = Ok l -> rank_abc f m u iids' n nov = Ok l.
Proof.
  intros P. unfold rank_abc. destruct nov.
  - destruct (rated_iids m u) as [rated|]; cbn [bind]; [|discriminate].
    destruct (pred_list f u (set_minus iids rated)) as [ps|] eqn:E; cbn [bind]; [|discriminate].
    intros H. injection H as <-.
    destruct (pred_list_perm f u (set_minus iids rated) (set_minus iids' rated) ps) as [ps' [E' Q]]; auto.
    { unfold set_minus. apply filter_perm, dedup_perm. auto. }
    rewrite E'. cbn [bind]. f_equal. apply top_perm, Permutation_sym. auto.
  - cbn [bind]. destruct (pred_list f u iids) as [ps|] eqn:E; cbn [bind]; [|discriminate].
    intros H. injection H as <-. destruct (pred_list_perm f u iids iids' ps P E) as [ps' [E' Q]].
    rewrite E'. cbn [bind]. f_equal. apply top_perm, Permutation_sym. auto.
Qed.

Lemma known_iids_perm items items' iids : Forall (fun v => type_of v = ti) items -> Permutation items items' ->
  known_iids m true items = Ok iids -> exists iids', known_iids m true items' = Ok iids' /\ Permutation iids iids'.
Proof.
  intros Y P E.
  assert (Y' : Forall (fun v => type_of v = ti) items').
  { rewrite Forall_forall in *. intros v Hv. apply Y. eapply Permutation_in; [apply Permutation_sym|]; eauto. }
  destruct (known_iids_total m0 m tu ti T items' Y') as [iids' E']. exists iids'. split; auto.
  assert (F := known_iids_ok m0 m tu ti T true items iids Y E).
  assert (F' := known_iids_ok m0 m tu ti T true items' iids' Y' E').
  destruct (Forall2_perm _ _ _ (filter_perm (known_b m0) _ _ P) _ F) as [l2 [G Q]].
  assert (l2 = iids'); [|congruence].
  clear -G F'. revert iids' F'. induction G as [|v i l l2 H G IH]; intros iids' F'; inversion F'; subst; auto.
  f_equal; [congruence|]. apply IH; auto.
Qed.

Lemma rank_perm f user items items' nov n out : Forall (fun v => type_of v = ti) items -> Permutation items items' ->
  rank (rank_abc f m) true m user items nov true n = Ok out -> rank (rank_abc f m) true m user items' nov true n = Ok out.
Proof.
  intros Y P. unfold rank. cbn [negb]. destruct (user_to_uid m user) as [[u|]|]; cbn [bind]; try discriminate.
  destruct (known_iids m true items) as [iids|] eqn:E; cbn [bind]; [|discriminate].
  destruct (known_iids_perm items items' iids Y P E) as [iids' [E' Q]]. rewrite E'. cbn [bind].
  rewrite (Permutation_length Q). destruct (negb _); auto.
  destruct (rank_abc f m u iids _ nov) as [l|] eqn:R; cbn [bind]; [|discriminate].
  rewrite (rank_abc_perm _ _ _ _ _ _ _ Q R). auto.
Qed.
End Final.
