(** Proofs about the neighbourhood recommenders: predictions and rankings. *)
From Coq Require Import String Ascii.
From Coq Require Import List ZArith QArith Qcanon Qround Bool Lia Permutation Sorted.
From Verif Require Import Py PyFacts MemModel MemSpec MemFacts MemFacts2 MemFacts3 MemFacts4 MemFacts5 MemFacts6 MemFacts7.
From Verif Require Import RankModel RankSpec RankFacts RankFacts2 KnnModel KnnSpec KnnFacts KnnFacts2.
Import ListNotations.
Open Scope string_scope.
Open Scope Z_scope.

(** ** means *)
Lemma Qc_of_Z_plus a b : Qc_of_Z (a + b) = (Qc_of_Z a + Qc_of_Z b)%Qc.
Proof.
  apply Qc_is_canon. rewrite this_of_Z.
  etransitivity; [|symmetry; apply (Qred_correct (this (Qc_of_Z a) + this (Qc_of_Z b)))].
  rewrite !this_of_Z. rewrite inject_Z_plus; reflexivity.
Qed.
Lemma fold_total l : forall a, (fold_left Qcplus l a = a + total l)%Qc.
Proof. induction l as [|x l IH]; intros a; simpl; [ring|]. rewrite IH. ring. Qed.
Lemma Qcsum_total l : Qcsum l = total l.
Proof. unfold Qcsum. rewrite fold_total. ring. Qed.

Lemma total_pos l : Forall (fun x => (0 < x)%Qc) l -> l <> [] -> (0 < total l)%Qc.
Proof.
  intros F. induction F as [|x l H F IH]; [congruence|]. intros _. simpl. destruct l as [|y l].
  - simpl. rewrite Qcplus_0_r. exact H.
  - apply Qclt_le_trans with x; auto. replace x with (x + 0)%Qc at 1 by ring.
    apply Qcplus_le_compat; [apply Qcle_refl|]. apply Qclt_le_weak, IH. discriminate.
Qed.
Lemma len_nonzero {A} (l : list A) : l <> [] -> (0 < Qc_of_Z (Z.of_nat (length l)))%Qc.
Proof. intros H. apply Qc_of_Z_pos. destruct l; [congruence|]. simpl. lia. Qed.
Lemma pos_ne x : (0 < x)%Qc -> x <> 0%Qc.
Proof. intros H E. rewrite E in H. discriminate. Qed.

Lemma aggregate_mean c l : l <> [] -> Forall (fun p => (0 < snd p)%Qc) l ->
  exists p, aggregate c l = Some p /\ is_mean (kn_weighted c) l p.
Proof.
  intros N F. unfold aggregate, is_mean. destruct (kn_weighted c).
  - unfold weighted_mean. rewrite !Qcsum_total.
    assert (P : (0 < total (map snd l))%Qc).
    { apply total_pos; [|destruct l; [congruence|discriminate]]. rewrite Forall_map. exact F. }
    rewrite (Qcltb_lt _ _ P). eexists. split; [reflexivity|]. field. apply pos_ne. auto.
  - unfold mean. destruct l as [|p l]; [congruence|]. rewrite Qcsum_total. eexists. split; [reflexivity|].
    field. apply pos_ne, len_nonzero. auto.
Qed.
Lemma aggregate_nil c : aggregate c [] = None.
Proof. unfold aggregate. destruct (kn_weighted c); reflexivity. Qed.

Lemma total_scale_le (l : list (Qc * Qc)) lo hi : Forall (fun p => (0 < snd p)%Qc) l ->
  Forall (fun p => (lo <= fst p)%Qc /\ (fst p <= hi)%Qc) l ->
  (lo * total (map snd l) <= total (map (fun q => snd q * fst q) l))%Qc /\
  (total (map (fun q => snd q * fst q) l) <= hi * total (map snd l))%Qc.
Proof.
  intros F G. induction l as [|[x w] l IH]; cbn [map total fst snd].
  - rewrite !Qcmult_0_r. split; apply Qcle_refl.
  - inversion F as [|? ? F1 F2]; inversion G as [|? ? [G1 G2] G3]; subst. simpl in *. destruct (IH F2 G3) as [A B].
    rewrite !Qcmult_plus_distr_r. split; (apply Qcplus_le_compat; [|auto]).
    + rewrite (Qcmult_comm w x). apply Qcmult_le_compat_r; auto. apply Qclt_le_weak; auto.
    + rewrite (Qcmult_comm w x). apply Qcmult_le_compat_r; auto. apply Qclt_le_weak; auto.
Qed.
Lemma total_len_le (l : list Qc) lo hi : Forall (fun x => (lo <= x)%Qc /\ (x <= hi)%Qc) l ->
  (lo * Qc_of_Z (Z.of_nat (length l)) <= total l)%Qc /\ (total l <= hi * Qc_of_Z (Z.of_nat (length l)))%Qc.
Proof.
  intros G. induction l as [|x l IH].
  - cbn [length total]. change (Qc_of_Z (Z.of_nat 0)) with 0%Qc. rewrite !Qcmult_0_r. split; apply Qcle_refl.
  - inversion G as [|? ? [G1 G2] G3]; subst. destruct (IH G3) as [A B].
    assert (E : Qc_of_Z (Z.of_nat (length (x :: l))) = (1 + Qc_of_Z (Z.of_nat (length l)))%Qc).
    { cbn [length]. rewrite Nat2Z.inj_succ. unfold Z.succ. rewrite Z.add_comm. apply Qc_of_Z_plus. }
    rewrite E. cbn [total]. rewrite !Qcmult_plus_distr_r, !Qcmult_1_r. split; apply Qcplus_le_compat; auto.
Qed.

Lemma mul_le_inv x y w : (0 < w)%Qc -> (x * w <= y * w)%Qc -> (x <= y)%Qc.
Proof. intros P H. apply Qcmult_lt_0_le_reg_r with w; auto. Qed.

Lemma is_mean_between weighted l p lo hi : l <> [] -> Forall (fun p => (0 < snd p)%Qc) l -> is_mean weighted l p ->
  Forall (fun q => (lo <= fst q)%Qc /\ (fst q <= hi)%Qc) l -> (lo <= p)%Qc /\ (p <= hi)%Qc.
Proof.
  intros N F M G. unfold is_mean in M. destruct weighted.
  - assert (P : (0 < total (map snd l))%Qc).
    { apply total_pos; [|destruct l; [congruence|discriminate]]. rewrite Forall_map. exact F. }
    destruct (total_scale_le l lo hi F G) as [A B]. rewrite <- M in A, B. split; eapply mul_le_inv; eauto.
  - assert (P := len_nonzero l N).
    destruct (total_len_le (map fst l) lo hi) as [A B]; [rewrite Forall_map; exact G|].
    rewrite map_length in A, B. rewrite <- M in A, B. split; eapply mul_le_inv; eauto.
Qed.

(** ** reading the neighbours *)
Lemma gather_ok get (g : Z -> option Qc) l : (forall b, get b = Ok (g b)) ->
  gather get l = Ok (flat_map (fun p => match g (snd p) with Some x => [(x, fst p)] | None => [] end) l).
Proof.
  intros H. unfold gather.
  assert (E : mapM (fun p : Qc * Z => x <- get (snd p);; Ok (x, fst p)) l = Ok (map (fun p => (g (snd p), fst p)) l)).
  { induction l as [|p l IH]; simpl; auto. rewrite H. cbn [bind]. rewrite IH. reflexivity. }
  rewrite E. cbn [bind]. f_equal. rewrite flat_map_concat_map, map_map, <- flat_map_concat_map. reflexivity.
Qed.

Lemma first_obs_entity c es a k : first_obs (entity_first c es) a k = if kn_user c then first_obs es a k else first_obs es k a.
Proof.
  unfold first_obs, entity_first. destruct (kn_user c); induction es as [|[[u i] x] es IH]; simpl; auto.
  - destruct ((u =? a) && (i =? k)); auto.
  - rewrite (andb_comm (i =? a)). destruct ((u =? k) && (i =? a)); auto.
Qed.

Lemma says_pos es l i : Forall (fun p => (0 < fst p)%Qc) l -> Forall (fun p => (0 < snd p)%Qc) (says es l i).
Proof.
  induction 1 as [|p l H F IH]; simpl; [constructor|]. destruct (first_obs es (snd p) i); simpl; auto.
Qed.
Lemma says_fst es l i p : In p (says es l i) -> exists b, In b (map snd l) /\ first_obs es b i = Some (fst p).
Proof.
  unfold says. rewrite in_flat_map. intros [[s b] [H1 H2]]. cbn [fst snd] in H2.
  destruct (first_obs es b i) as [x|] eqn:E; [|contradiction]. destruct H2 as [<-|[]]. exists b. split; auto.
  apply in_map_iff. exists (s, b). auto.
Qed.
Lemma first_obs_In es a i x : first_obs es a i = Some x -> In (a, i, x) es.
Proof.
  unfold first_obs. destruct (find _ es) as [[[a' i'] x']|] eqn:E; [|discriminate]. intros H. injection H as <-.
  apply find_some in E. destruct E as [E1 E2]. rewrite andb_true_iff, !Z.eqb_eq in E2. cbn in E2. destruct E2; subst. auto.
Qed.
Lemma first_obs_None es a i : first_obs es a i = None <-> has_obs es a i = false.
Proof.
  unfold first_obs, has_obs. induction es as [|e es IH]; simpl; [tauto|].
  destruct ((fst (fst e) =? a) && (snd (fst e) =? i)); simpl; [split; discriminate|auto].
Qed.

Section Pred.
Variables (m0 m : mem) (tu ti : dtype).
Hypothesis T : trained_on m0 m tu ti.
Hypothesis Nm : numeric m0.

Definition other (c : knn) (u i : Z) : Z := if kn_user c then i else u.
Definition self (c : knn) (u i : Z) : Z := if kn_user c then u else i.
(** the interactions of the other side: of the item for UserKNN, of the user for ItemKNN *)
Definition others (c : knn) (u i : Z) : list Qc :=
  map snd (filter (fun e => snd (fst e) =? other c u i) (entity_first c (obs m))).

Lemma default_eq c u i : (if kn_user c then predict_default m "iid" i else predict_default m "uid" u) =
  (if (length (others c u i) =? 0)%nat then Err ZeroDivisionError
   else Ok (Qcsum (others c u i) / Qc_of_Z (Z.of_nat (length (others c u i)))))%Qc.
Proof.
  unfold others, other, entity_first. destruct (kn_user c); rewrite (predict_default_ok m0 m tu ti T Nm) by auto.
  - change (String.eqb "iid" "uid") with false. cbv zeta. cbv iota.
    rewrite (map_ext _ (fun e => e)) by (intros [[? ?] ?]; reflexivity). rewrite map_id. reflexivity.
  - change (String.eqb "uid" "uid") with true. cbv zeta. cbv iota.
    assert (E : map snd (filter (is_u u) (obs m)) =
                map snd (filter (fun e => snd (fst e) =? u) (map (fun e : Z * Z * Qc => let '(u0, i0, x) := e in (i0, u0, x)) (obs m)))).
    { induction (obs m) as [|[[a b] x] l IH]; simpl; auto. unfold is_u at 1, t_u. cbn [fst snd]. destruct (a =? u); simpl; congruence. }
    rewrite <- E. reflexivity.
Qed.

Lemma knn_predict_eq c nb u i : knn_predict c m nb (Some u) (Some i) =
  (l <- neighbours nb (self c u i) ;;
   match says (entity_first c (obs m)) l (other c u i) with
   | [] => if kn_avg c then (if (length (others c u i) =? 0)%nat then Err ZeroDivisionError
             else Ok (Some (Qcsum (others c u i) / Qc_of_Z (Z.of_nat (length (others c u i)))))%Qc) else Ok None
   | g => Ok (aggregate c g)
   end).
Proof.
  unfold knn_predict. fold (self c u i). destruct (neighbours nb (self c u i)) as [l|]; cbn [bind]; auto.
  rewrite (gather_ok _ (fun b => first_obs (entity_first c (obs m)) b (other c u i))).
  2:{ intros b. rewrite first_obs_entity. unfold other. destruct (kn_user c); apply (get_interaction_ok m0 m tu ti T Nm). }
  cbn [bind]. fold (says (entity_first c (obs m)) l (other c u i)).
  unfold conclude. rewrite default_eq. destruct (says (entity_first c (obs m)) l (other c u i)); auto.
  destruct (kn_avg c); [|rewrite aggregate_nil; reflexivity].
  destruct (length (others c u i) =? 0)%nat; reflexivity.
Qed.

(** ** ItemKNN ranks what it predicts *)
Lemma mapM_ext_all {A B} (f g : A -> res B) l : (forall x, f x = g x) -> mapM f l = mapM g l.
Proof. intros H. apply mapM_ext_in. auto. Qed.

Lemma present_pred f u iids : (ps <- mapM (fun i => p <- f (Some u) (Some i) ;; Ok (p, i)) iids ;; Ok (present ps)) = pred_list f u iids.
Proof. reflexivity. Qed.

Lemma dedup_dedup l : dedup Z.eqb (dedup Z.eqb l) = dedup Z.eqb l.
Proof. apply (dedup_NoDup_id _ reflects_Z). apply dedup_NoDup, reflects_Z. Qed.

Lemma item_rank_eq c nb u iids n nov : kn_user c = false ->
  item_rank c m nb u iids n nov = rank_abc (knn_predict c m nb) m u (dedup Z.eqb iids) n nov.
Proof.
  intros Hi. unfold item_rank, rank_abc, knn_candidates.
  destruct (rated_spec m0 m tu ti T u) as [seen [R RS]].
  destruct (user_ds_ok m0 m tu ti T Nm u) as [ds [D DS]].
  assert (E : forall i,
    (l <- neighbours nb i;;
     g <- gather (fun b => if negb (mem_b val_eqb (VInt b) seen) then Ok None else
           r <- select_one ds ("iid == " ++ str_of_Z b) (Some ["interaction"]) ;;
           match r with
           | None => Ok None
           | Some [v] => x <- num_value v ;; Ok (Some x)
           | Some _ => Err KeyError
           end) l ;;
     p <- conclude c (predict_default m "uid" u) g ;; Ok (p, i)) =
    (p <- knn_predict c m nb (Some u) (Some i);; Ok (p, i))).
  { intros i. unfold knn_predict. rewrite Hi. destruct (neighbours nb i) as [l|]; cbn [bind]; auto.
    rewrite (gather_ok _ (fun b => first_obs (obs m) u b)).
    2:{ intros b. rewrite DS. destruct (mem_b val_eqb (VInt b) seen) eqn:B; auto. cbn [negb]. f_equal. symmetry.
        apply first_obs_None. destruct (has_obs (obs m) u b) eqn:H; auto. exfalso.
        assert (P : pair_in m u b).
        { unfold has_obs in H. apply existsb_exists in H. destruct H as [e [H1 H2]].
          rewrite (obs_map m0 m tu ti T Nm) in H1. apply in_map_iff in H1. destruct H1 as [r [<- Hr]].
          rewrite andb_true_iff, !Z.eqb_eq in H2. destruct H2 as [H2 H3].
          destruct (good m0 m tu ti T Nm r Hr) as [G1 [G2 _]]. unfold t_u, t_i in *. exists r. rewrite G1, G2. subst. auto. }
        apply RS in P. congruence. }
    rewrite (gather_ok _ (fun b => first_obs (obs m) u b)); [reflexivity|].
    intros b. apply (get_interaction_ok m0 m tu ti T Nm). }
  destruct nov.
  - rewrite R. cbn [bind]. rewrite D. cbn [bind]. rewrite (mapM_ext_all _ _ _ E).
    unfold set_minus. rewrite dedup_dedup. unfold pred_list. destruct (mapM _ _); reflexivity.
  - cbn [bind]. rewrite D, R. cbn [bind]. rewrite (mapM_ext_all _ _ _ E). unfold pred_list. destruct (mapM _ _); reflexivity.
Qed.

Lemma item_rank_ok c nb nov : kn_user c = false ->
  impl_ok m (item_rank c m nb) (fun u i s => knn_predict c m nb (Some u) (Some i) = Ok (Some s)) nov.
Proof.
  intros Hi u iids n l H. rewrite item_rank_eq in H by auto. apply (rank_abc_ok m0 m tu ti T) in H.
  eapply best_of_ext; [|exact H]. intros i s. cbv beta. rewrite (dedup_In _ reflects_Z). reflexivity.
Qed.

(** ** UserKNN *)
Lemma assoc_set_keys_or {A B} (eqb : A -> A -> bool) : reflects eqb -> forall (l : list (A * B)) k v,
  NoDup (map fst l) -> NoDup (map fst (assoc_set eqb k v l)).
Proof.
  intros R l k v N. destruct (assoc eqb k l) as [x|] eqn:E.
  - rewrite (assoc_set_keys _ R); auto. apply (assoc_In _ R) in E. apply in_map_iff. exists (k, x). auto.
  - apply (assoc_None _ R) in E. rewrite (assoc_set_keys_new _ R) by auto. rewrite map_app. cbn [map fst].
    apply (Permutation_NoDup (Permutation_cons_append (map fst l) k)). constructor; auto.
Qed.
Lemma assoc_set_In_or {A B} (eqb : A -> A -> bool) (l : list (A * B)) k v k' x :
  In (k', x) (assoc_set eqb k v l) -> In (k', x) l \/ x = v.
Proof.
  induction l as [|[a b] l IH]; simpl.
  - intros [H|[]]. right. congruence.
  - destruct (eqb k a); simpl; intros [H|H]; auto; [right; congruence|]. destruct (IH H); auto.
Qed.

Definition getl (t : list (Z * list (Qc * Qc))) (i : Z) : list (Qc * Qc) :=
  match assoc Z.eqb i t with Some l => l | None => [] end.
Definition full (t : list (Z * list (Qc * Qc))) : Prop := NoDup (map fst t) /\ forall i l, In (i, l) t -> l <> [].

Lemma getl_In t i l : full t -> (In (i, l) t <-> getl t i = l /\ l <> []).
Proof.
  intros [N F]. unfold getl. split.
  - intros H. split; [|eauto]. rewrite (assoc_NoDup _ reflects_Z _ _ _ N H). reflexivity.
  - intros [H1 H2]. destruct (assoc Z.eqb i t) as [l'|] eqn:E; [|congruence].
    subst. apply (assoc_In _ reflects_Z) in E. exact E.
Qed.

Lemma add_info_ok cands s t e : full t -> full (add_info cands s t e) /\
  forall i, getl (add_info cands s t e) i = (getl t i ++ (if (fst e =? i) && mem_b Z.eqb i cands then [(snd e, s)] else []))%list.
Proof.
  intros F. destruct e as [j x]. unfold add_info. cbn [fst snd].
  destruct (mem_b Z.eqb j cands) eqn:M; cbn [negb].
  - split.
    + destruct F as [N F]. split.
      * apply assoc_set_keys_or; auto. apply reflects_Z.
      * intros i l H. apply assoc_set_In_or in H. destruct H as [H| ->]; [eauto|].
        intros E. apply app_eq_nil in E. destruct E; discriminate.
    + intros i. unfold getl at 1. destruct (Z.eqb_spec j i) as [->|N].
      * rewrite (assoc_set_same _ reflects_Z), M. reflexivity.
      * rewrite (assoc_set_other _ reflects_Z) by auto. cbn [andb]. rewrite app_nil_r. reflexivity.
  - split; auto. intros i. destruct (Z.eqb_spec j i) as [->|N]; cbn [andb]; rewrite ?M, app_nil_r; reflexivity.
Qed.

Definition all_obs (es : list (Z * Z * Qc)) (b i : Z) : list Qc :=
  map snd (filter (fun e => (fst (fst e) =? b) && (snd (fst e) =? i)) es).

Lemma fold_info_ok cands s rs : forall t, full t -> full (fold_left (add_info cands s) rs t) /\
  forall i, getl (fold_left (add_info cands s) rs t) i =
    (getl t i ++ (if mem_b Z.eqb i cands then map (fun e => (snd e, s)) (filter (fun e => fst e =? i) rs) else []))%list.
Proof.
  induction rs as [|e rs IH]; intros t F; cbn [fold_left].
  - split; auto. intros i. cbn. destruct (mem_b Z.eqb i cands); rewrite app_nil_r; reflexivity.
  - destruct (add_info_ok cands s t e F) as [F1 G1]. destruct (IH _ F1) as [F2 G2]. split; auto.
    intros i. rewrite G2, G1, <- app_assoc. f_equal. cbn [filter].
    destruct (fst e =? i); cbn [andb]; destruct (mem_b Z.eqb i cands); reflexivity.
Qed.

Lemma user_info_ok cands l : forall t, full t -> exists info, user_info m cands t l = Ok info /\ full info /\
  forall i, getl info i = (getl t i ++ (if mem_b Z.eqb i cands
     then flat_map (fun p => map (fun x => (x, fst p)) (all_obs (obs m) (snd p) i)) l else []))%list.
Proof.
  induction l as [|[s b] l IH]; intros t F; cbn [user_info].
  - exists t. split; auto. split; auto. intros i. cbn. destruct (mem_b Z.eqb i cands); rewrite app_nil_r; reflexivity.
  - destruct (user_records_ok m0 m tu ti T Nm b) as [mb [vs [E1 [E2 E3]]]]. rewrite E1. cbn [bind]. rewrite E2. cbn [bind].
    rewrite E3. cbn [bind].
    destruct (fold_info_ok cands s (map (fun e => (t_i e, snd e)) (filter (is_u b) (obs m))) t F) as [F1 G1].
    destruct (IH _ F1) as [info [E [F2 G2]]]. exists info. split; auto. split; auto.
    intros i. rewrite G2, G1, <- app_assoc. f_equal. destruct (mem_b Z.eqb i cands); auto. cbn [flat_map fst snd]. f_equal.
    unfold all_obs. rewrite map_map. clear. induction (obs m) as [|[[u k] x] es IH]; auto. cbn [filter].
    unfold is_u at 1, t_u. cbn [fst snd]. destruct (u =? b); cbn [andb]; auto. cbn [map filter].
    change (t_i (u, k, x)) with k. cbn [fst snd]. destruct (k =? i); cbn [map fst snd]; congruence.
Qed.

Lemma filter_none {A} (P : A -> bool) l : (forall x, In x l -> P x = false) -> filter P l = [].
Proof. induction l as [|x l IH]; simpl; auto. intros H. rewrite (H x) by auto. apply IH. auto. Qed.

Lemma all_obs_first es b i : no_repeats es -> all_obs es b i = match first_obs es b i with Some x => [x] | None => [] end.
Proof.
  unfold all_obs, first_obs, no_repeats. induction es as [|[[u k] x] es IH]; intros N; auto.
  inversion N as [|? ? N1 N2]; subst. cbn [filter find fst snd]. destruct (Z.eqb_spec u b) as [->|]; cbn [andb]; auto.
  destruct (Z.eqb_spec k i) as [->|]; auto. cbn [map snd]. f_equal.
  rewrite (filter_none _ es); auto. intros [[u k] y] H. cbn [fst snd].
  destruct (Z.eqb_spec u b) as [->|]; auto. destruct (Z.eqb_spec k i) as [->|]; auto. exfalso. apply N1.
  cbn [fst]. change (b, i) with (fst (b, i, y)). apply in_map. exact H.
Qed.

Lemma all_obs_says es l i : no_repeats es ->
  flat_map (fun p : scored => map (fun x => (x, fst p)) (all_obs es (snd p) i)) l = says es l i.
Proof.
  intros N. unfold says. apply flat_map_ext. intros p. rewrite all_obs_first by auto.
  destruct (first_obs es (snd p) i); reflexivity.
Qed.

Lemma entity_first_user c es : kn_user c = true -> entity_first c es = es.
Proof.
  intros H. unfold entity_first. rewrite H. rewrite (map_ext _ (fun e => e)) by (intros [[? ?] ?]; reflexivity). apply map_id.
Qed.

Lemma knn_candidates_In u iids nov cands : knn_candidates m u iids nov = Ok cands ->
  NoDup cands /\ forall i, In i cands <-> In i iids /\ (nov = true -> ~ pair_in m u i).
Proof.
  unfold knn_candidates. destruct nov.
  - destruct (rated_iids m u) as [rated|] eqn:R; cbn [bind]; [|discriminate]. intros H. injection H as <-.
    split; [unfold set_minus; apply NoDup_filter, dedup_NoDup, reflects_Z|].
    intros i. rewrite (set_minus_In m0 m tu ti T u rated iids i R). intuition.
  - intros H. injection H as <-. split; [apply dedup_NoDup, reflects_Z|].
    intros i. rewrite (dedup_In _ reflects_Z). intuition discriminate.
Qed.

(** what UserKNN ranks *)
Lemma user_rank_list c nb u iids n nov out : kn_user c = true ->
  user_rank c m nb u iids n nov = Ok out ->
  exists cands l ps, knn_candidates m u iids nov = Ok cands /\ neighbours nb u = Ok l /\ out = top n ps /\
    forall s i, In (s, i) ps <-> In i cands /\
      let g := flat_map (fun p : scored => map (fun x => (x, fst p)) (all_obs (obs m) (snd p) i)) l in
      g <> [] /\ aggregate c g = Some s.
Proof.
  intros Hu. unfold user_rank. destruct (knn_candidates m u iids nov) as [cands|] eqn:K; cbn [bind]; [|discriminate].
  destruct (neighbours nb u) as [l|] eqn:L; cbn [bind]; [|discriminate].
  destruct (user_info_ok cands l []) as [info [E [F G]]]; [split; [constructor|intros ? ? []]|].
  rewrite E. cbn [bind].
  destruct (mapM _ info) as [ps|] eqn:M; cbn [bind]; [|discriminate]. intros H. injection H as <-.
  exists cands, l, (present ps). split; auto. split; auto. split; auto. intros s i. cbv zeta.
  set (g := flat_map _ l). apply mapM_Forall2 in M. unfold present. rewrite in_flat_map.
  assert (X : forall j lj, In (j, lj) info -> forall d, conclude c d lj = Ok (aggregate c lj)).
  { intros j lj H d. apply F in H. unfold conclude. destruct lj; [congruence|reflexivity]. }
  split.
  - intros [[o j] [H1 H2]]. cbn [fst snd] in H2. destruct o as [s'|]; [|contradiction]. destruct H2 as [H2|[]].
    injection H2 as -> ->. destruct (Forall2_in_r _ _ _ _ M H1) as [[j lj] [Hj Ej]]. cbn [fst snd] in Ej.
    rewrite (X j lj Hj) in Ej. cbn [bind] in Ej. injection Ej as Ea ->.
    apply (getl_In info i lj F) in Hj. destruct Hj as [Hg Hn]. rewrite G in Hg. cbn [getl assoc app] in Hg.
    destruct (mem_b Z.eqb i cands) eqn:B; [|congruence]. apply (mem_b_In _ reflects_Z) in B.
    fold g in Hg. subst lj. auto.
  - intros [H1 [H2 H3]]. assert (Hj : In (i, g) info).
    { apply getl_In; auto. split; auto. rewrite G. apply (mem_b_In _ reflects_Z) in H1. rewrite H1. reflexivity. }
    destruct (Forall2_in_l _ _ _ _ M Hj) as [o [Ho Eo]]. cbn [fst snd] in Eo. rewrite (X i g Hj) in Eo. cbn [bind] in Eo.
    injection Eo as <-. exists (aggregate c g, i). split; auto. rewrite H3. simpl. auto.
Qed.

Lemma user_rank_sound c nb u iids n nov out : kn_user c = true -> no_repeats (obs m) ->
  user_rank c m nb u iids n nov = Ok out ->
  forall s i, In (s, i) out -> In i iids /\ (nov = true -> ~ pair_in m u i) /\ knn_predict c m nb (Some u) (Some i) = Ok (Some s).
Proof.
  intros Hu N H s i Hi. destruct (user_rank_list c nb u iids n nov out Hu H) as [cands [l [ps [K [L [-> P]]]]]].
  assert (B := bo_sound _ _ _ _ (top_best n ps) s i Hi). destruct B as [_ B]. apply P in B. cbv zeta in B.
  rewrite all_obs_says in B by auto. destruct (knn_candidates_In u iids nov cands K) as [_ C].
  destruct B as [B1 [B2 B3]]. apply C in B1. split; [tauto|]. split; [tauto|].
  rewrite knn_predict_eq. unfold self, other. rewrite Hu, L. cbn [bind]. rewrite entity_first_user by auto.
  destruct (says (obs m) l i); [congruence|]. rewrite B3. reflexivity.
Qed.

Lemma user_rank_ok c nb nov : kn_user c = true -> no_repeats (obs m) -> kn_avg c = false ->
  impl_ok m (user_rank c m nb) (fun u i s => knn_predict c m nb (Some u) (Some i) = Ok (Some s)) nov.
Proof.
  intros Hu N Ha u iids n out H. destruct (user_rank_list c nb u iids n nov out Hu H) as [cands [l [ps [K [L [-> P]]]]]].
  eapply best_of_ext; [|apply top_best]. intros i s. cbv beta. rewrite P. cbv zeta. rewrite all_obs_says by auto.
  destruct (knn_candidates_In u iids nov cands K) as [_ C].
  assert (Q : (says (obs m) l i <> [] /\ aggregate c (says (obs m) l i) = Some s) <->
              knn_predict c m nb (Some u) (Some i) = Ok (Some s)).
  { rewrite knn_predict_eq. unfold self, other. rewrite Hu, L. cbn [bind]. rewrite entity_first_user, Ha by auto.
    destruct (says (obs m) l i); [split; [tauto|discriminate]|]. split; [intros [_ ->]; reflexivity|].
    intros E. split; [discriminate|congruence]. }
  rewrite C, Q. split; [tauto|]. intros [A B]. split; [|tauto].
  apply in_map_iff. exists (s, i). split; auto. apply P. cbv zeta. rewrite all_obs_says by auto. rewrite C, Q. tauto.
Qed.

Lemma user_rank_total c nb u iids n nov l : neighbours nb u = Ok l -> exists out, user_rank c m nb u iids n nov = Ok out.
Proof.
  intros L. unfold user_rank.
  assert (K : exists cands, knn_candidates m u iids nov = Ok cands).
  { unfold knn_candidates. destruct (rated_spec m0 m tu ti T u) as [seen [R RS]]. rewrite R. destruct nov; cbn [bind]; eauto. }
  destruct K as [cands K]. rewrite K, L. cbn [bind].
  destruct (user_info_ok cands l []) as [info [E [F G]]]; [split; [constructor|intros ? ? []]|].
  rewrite E. cbn [bind]. destruct F as [_ F]. clear E G.
  assert (X : exists ps, mapM (fun p : Z * list (Qc * Qc) => r <- conclude c (predict_default m "iid" (fst p)) (snd p);; Ok (r, fst p)) info = Ok ps).
  { induction info as [|[j lj] info IH]; [eexists; reflexivity|]. destruct IH as [ps IH]; [intros; eapply F; simpl; eauto|].
    cbn [mapM fst snd]. assert (Hn : lj <> []) by (eapply F; left; reflexivity). unfold conclude at 1.
    destruct lj; [congruence|]. cbn [bind]. rewrite IH. cbn [bind]. eauto. }
  destruct X as [ps ->]. cbn [bind]. eauto.
Qed.
End Pred.
