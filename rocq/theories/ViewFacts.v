(** Proofs about answers of rank and recommend: scores of a set of candidates. *)
From Coq Require Import String Ascii.
From Coq Require Import List ZArith QArith Qcanon Bool Lia Permutation Sorted.
From Verif Require Import Py PyFacts MemModel MemSpec MemFacts3 MemFacts4 MemFacts6.
From Verif Require Import RankModel RankSpec RankFacts RankFacts2 RankFacts3 KnnModel KnnFacts3 ViewSpec.
Import ListNotations.
Open Scope string_scope.
Open Scope Z_scope.
Open Scope list_scope.

(** ** sorted lists *)
Definition geb_rel (x y : scored) : Prop := scored_geb x y = true.
Definition ranked (l : list scored) : list scored := sort_by scored_geb l.
Lemma ranked_sorted l : StronglySorted geb_rel (ranked l).
Proof. apply (sort_by_sorted scored_geb); [apply scored_geb_total|apply scored_geb_trans]. Qed.
Lemma sorted_filter {A} (R : A -> A -> Prop) p l : StronglySorted R l -> StronglySorted R (filter p l).
Proof.
  induction 1 as [|a l S IH F]; simpl; [constructor|]. destruct (p a); auto. constructor; auto.
  rewrite Forall_forall in *. intros x Hx. apply filter_In in Hx. apply F, Hx.
Qed.
Lemma ranked_filter p l : ranked (filter p l) = filter p (ranked l).
Proof.
  apply sorted_unique; [apply ranked_sorted|apply sorted_filter, ranked_sorted|].
  transitivity (filter p l); [apply Permutation_sym, sort_by_perm|apply filter_perm, sort_by_perm].
Qed.
Lemma ranked_perm l l' : Permutation l l' -> ranked l = ranked l'.
Proof.
  intros P. apply sorted_unique; try apply ranked_sorted.
  transitivity l; [apply Permutation_sym, sort_by_perm|]. transitivity l'; auto. apply sort_by_perm.
Qed.
Lemma top_ranked n l : top n l = firstn (Z.to_nat n) (ranked l).
Proof. reflexivity. Qed.
Lemma top_shorter n n' l : n' <= n -> top n' l = firstn (Z.to_nat n') (top n l).
Proof. intros H. rewrite !top_ranked, firstn_firstn. f_equal. lia. Qed.
Lemma top_all n l : (length l <= Z.to_nat n)%nat -> top n l = ranked l.
Proof.
  intros H. rewrite top_ranked. apply firstn_all2. unfold ranked. rewrite <- (Permutation_length (sort_by_perm scored_geb l)). auto.
Qed.
Lemma top_sorted n l : StronglySorted geb_rel (top n l).
Proof. rewrite top_ranked. apply StronglySorted_firstn, ranked_sorted. Qed.

Lemma filter_none {A} (p : A -> bool) l : (forall x, In x l -> p x = false) -> filter p l = [].
Proof. induction l as [|a l IH]; simpl; auto. intros H. rewrite H by auto. auto. Qed.

Lemma ltb_lt x y : (x < y)%Qc -> Qcltb x y = true.
Proof. intros H. destruct (Qcltb x y) eqn:E; auto. apply Qcltb_false in E. exfalso. exact (Qcle_not_lt _ _ E H). Qed.
Lemma ltb_ge x y : (y <= x)%Qc -> Qcltb x y = false.
Proof. intros H. destruct (Qcltb x y) eqn:E; auto. apply Qcltb_true in E. exfalso. exact (Qcle_not_lt _ _ H E). Qed.

(** *** thresholds *)
Definition useful (thr : option Qc) (l : list scored) : list scored :=
  match thr with None => l | Some t => filter (fun x => negb (Qcltb (fst x) t)) l end.
Lemma threshold_split t l : StronglySorted geb_rel l -> exists a b, l = a ++ b /\
  filter (fun x => negb (Qcltb (fst x) t)) l = a /\
  Forall (fun x => (t <= fst x)%Qc) a /\ Forall (fun x => (fst x < t)%Qc) b.
Proof.
  induction 1 as [|x l S (a & b & E & F & A & B) G]; [exists [], []; auto|].
  destruct (Qcltb (fst x) t) eqn:C.
  - exists [], (x :: l). assert (Fb : Forall (fun x => (fst x < t)%Qc) (x :: l)).
    { constructor; [apply Qcltb_true; auto|]. rewrite Forall_forall in *. intros y Hy. apply G in Hy.
      apply scored_geb_le in Hy. apply Qcltb_true in C. eapply Qcle_lt_trans; eauto. }
    split; auto. split; [|auto]. apply filter_none. intros y Hy. rewrite Forall_forall in Fb. apply Fb in Hy. rewrite (ltb_lt _ _ Hy). auto.
  - exists (x :: a), b. subst l. split; [reflexivity|]. split; [cbn [filter]; rewrite C; cbn [negb]; rewrite F; reflexivity|]. split; auto.
    constructor; auto. apply Qcltb_false in C. auto.
Qed.
Lemma useful_firstn thr n l : StronglySorted geb_rel l -> useful thr (firstn n l) = firstn n (useful thr l).
Proof.
  intros S. destruct thr as [t|]; auto. simpl. destruct (threshold_split t l S) as (a & b & -> & -> & A & B).
  rewrite firstn_app, filter_app. rewrite filter_id.
  - rewrite filter_none; [apply app_nil_r|].
    intros x Hx. apply firstn_incl in Hx. rewrite Forall_forall in B. apply B in Hx. rewrite (ltb_lt _ _ Hx). auto.
  - intros x Hx. apply firstn_incl in Hx. rewrite Forall_forall in A. apply A in Hx. rewrite (ltb_ge _ _ Hx). auto.
Qed.

(** ** scores of candidates *)
Lemma mapM_firstn {A B} (f : A -> res B) n l out : mapM f l = Ok out -> mapM f (firstn n l) = Ok (firstn n out).
Proof.
  rewrite !mapM_Forall2. intros F. revert n. induction F; intros [|n]; simpl; constructor; auto.
Qed.
Lemma NoDup_filter_map {A B} (f : A -> B) p l : NoDup (map f l) -> NoDup (map f (filter p l)).
Proof.
  induction l as [|a l IH]; simpl; auto. intros N. inversion N as [|? ? N1 N2]; subst. destruct (p a); simpl; auto.
  constructor; auto. intros H. apply N1. apply in_map_iff in H. destruct H as (b & E & Hb). apply filter_In in Hb.
  apply in_map_iff. exists b. tauto.
Qed.

Definition among (cands : list Z) (p : scored) : bool := mem_b Z.eqb (snd p) cands.
Lemma among_true cands p : among cands p = true <-> In (snd p) cands.
Proof. apply (mem_b_In _ reflects_Z). Qed.

(** scores of sets of candidates: one entry per candidate at most, and scores of
    a candidate do not depend on the others *)
Record cs_ok (CS : list Z -> res (list scored)) : Prop := {
  cs_keys : forall cands ps, NoDup cands -> CS cands = Ok ps -> NoDup (map snd ps) /\ incl (map snd ps) cands;
  cs_restrict : forall cands cands' ps, NoDup cands -> NoDup cands' -> incl cands' cands -> CS cands = Ok ps ->
    exists ps', CS cands' = Ok ps' /\ Permutation ps' (filter (among cands') ps) }.

Lemma cs_ranked CS cands cands' ps : cs_ok CS -> NoDup cands -> NoDup cands' -> incl cands' cands -> CS cands = Ok ps ->
  exists ps', CS cands' = Ok ps' /\ ranked ps' = filter (among cands') (ranked ps).
Proof.
  intros K N N' I E. destruct (cs_restrict CS K cands cands' ps N N' I E) as (ps' & E' & P). exists ps'. split; auto.
  rewrite (ranked_perm _ _ P). apply ranked_filter.
Qed.
Lemma cs_length CS cands ps : cs_ok CS -> NoDup cands -> CS cands = Ok ps -> (length ps <= length cands)%nat.
Proof.
  intros K N E. destruct (cs_keys CS K cands ps N E) as [N1 I]. eapply Nat.le_trans; [|apply (NoDup_incl_length N1 I)].
  rewrite map_length. apply Nat.le_refl.
Qed.
Lemma cs_same CS cands cands' ps n : cs_ok CS -> NoDup cands -> NoDup cands' -> (forall i, In i cands <-> In i cands') ->
  CS cands = Ok ps -> exists ps', CS cands' = Ok ps' /\ top n ps' = top n ps.
Proof.
  intros K N N' S E. destruct (cs_restrict CS K cands cands' ps N N') as (ps' & E' & P); auto; [intros i; apply S|].
  exists ps'. split; auto. apply top_perm. rewrite P. rewrite filter_id; auto.
  intros p Hp. apply among_true, S. apply (cs_keys CS K cands ps N E). apply in_map. auto.
Qed.

(** *** one score at a time *)
Lemma present_keys l : NoDup (map snd l) -> NoDup (map snd (present l)) /\ incl (map snd (present l)) (map snd l).
Proof.
  induction l as [|[o i] l IH]; simpl; [split; [constructor|intros x []]|]. intros N. inversion N as [|? ? N1 N2]; subst.
  destruct (IH N2) as [D I]. destruct o as [s|]; simpl.
  - split; [constructor; auto|]. intros x [<-|H]; simpl; auto.
  - split; auto. intros x H. right. auto.
Qed.
Lemma present_filter (p : Z -> bool) l : present (filter (fun e => p (snd e)) l) = filter (fun e => p (snd e)) (present l).
Proof.
  induction l as [|[o i] l IH]; simpl; auto. destruct (p i) eqn:E; simpl; rewrite IH; destruct o; simpl; rewrite ?E; auto.
Qed.
Definition each (g : Z -> res (option Qc)) (cands : list Z) : res (list scored) :=
  ps <- mapM (fun i => p <- g i ;; Ok (p, i)) cands ;; Ok (present ps).
Lemma mapM_snd g cands ps : mapM (fun i => p <- g i ;; Ok (p, i)) cands = Ok ps -> map (@snd (option Qc) Z) ps = cands.
Proof.
  rewrite mapM_Forall2. induction 1 as [|i p l ps H F IH]; simpl; auto. destruct (g i); cbn [bind] in H; [|discriminate].
  injection H as <-. simpl. congruence.
Qed.
Lemma each_ok g : cs_ok (each g).
Proof.
  constructor.
  - unfold each. intros cands ps N. destruct (mapM _ cands) as [l|] eqn:M; cbn [bind]; [|discriminate].
    intros E. injection E as <-. apply mapM_snd in M. subst cands. apply present_keys. auto.
  - unfold each. intros cands cands' ps N N' I. destruct (mapM _ cands) as [l|] eqn:M; cbn [bind]; [|discriminate].
    intros E. injection E as <-. pose proof (mapM_snd _ _ _ M) as S. apply mapM_Forall2 in M.
    assert (F : Forall2 (fun i p => (q <- g i ;; Ok (q, i)) = Ok p) (filter (fun i => mem_b Z.eqb i cands') cands)
                  (filter (fun p : option Qc * Z => mem_b Z.eqb (snd p) cands') l)).
    { clear -M. induction M as [|i p c l H F IH]; simpl; [constructor|].
      assert (E : snd p = i) by (destruct (g i); cbn [bind] in H; [injection H as <-; auto|discriminate]).
      rewrite E. destruct (mem_b Z.eqb i cands'); auto. }
    assert (P : Permutation (filter (fun i => mem_b Z.eqb i cands') cands) cands').
    { apply NoDup_Permutation; auto; [apply NoDup_filter; auto|]. intros i. rewrite filter_In, (mem_b_In _ reflects_Z).
      split; [tauto|]. auto. }
    destruct (Forall2_perm _ _ _ P _ F) as (l2 & G & Q). exists (present l2). apply mapM_Forall2 in G. rewrite G. cbn [bind].
    split; auto. unfold among. rewrite <- (present_filter (fun i => mem_b Z.eqb i cands')).
    apply Permutation_flat_map, Permutation_sym. exact Q.
Qed.

(** *** all scores at once *)
Lemma combine_snd_NoDup {A B} (v : list A) (l : list B) : NoDup l -> NoDup (map snd (combine v l)) /\ incl (map snd (combine v l)) l.
Proof.
  revert l. induction v as [|a v IH]; intros [|b l] N; cbn [combine map];
    [split; [constructor|intros x []]..|].
  inversion N as [|? ? N1 N2]; subst. destruct (IH l N2) as [D I]. split.
  - constructor; auto.
  - intros x [<-|H]; simpl; auto.
Qed.
Lemma picked_ok (vu : res (list Qc)) ni : cs_ok (fun cands => v <- vu ;; Ok (picked v ni cands)).
Proof.
  destruct vu as [v|e]; cbn [bind]; constructor; try discriminate.
  - intros cands ps N E. injection E as <-. unfold picked. split.
    + apply NoDup_filter_map, combine_snd_NoDup, Zseq_NoDup.
    + intros x Hx. apply in_map_iff in Hx. destruct Hx as (p & <- & Hp). apply filter_In in Hp.
      apply (mem_b_In _ reflects_Z). apply Hp.
  - intros cands cands' ps N N' I E. injection E as <-. eexists. split; [reflexivity|]. apply Permutation_refl'.
    unfold picked, among. induction (combine v (Zseq ni)) as [|p l IH]; cbn [filter]; auto.
    destruct (mem_b Z.eqb (snd p) cands) eqn:E; cbn [filter].
    + rewrite IH. reflexivity.
    + rewrite IH. destruct (mem_b Z.eqb (snd p) cands') eqn:E'; auto. apply (mem_b_In _ reflects_Z) in E'. apply I in E'.
      apply (mem_b_In _ reflects_Z) in E'. congruence.
Qed.

(** *** UserKNN *)
Definition sel (p : Z -> bool) (t : list (Z * list (Qc * Qc))) := filter (fun e => p (fst e)) t.
Lemma sel_assoc p i t : p i = true -> assoc Z.eqb i (sel p t) = assoc Z.eqb i t.
Proof.
  intros P. induction t as [|[k x] t IH]; simpl; auto. destruct (p k) eqn:E; simpl.
  - rewrite IH. auto.
  - destruct (Z.eqb_spec i k); [congruence|auto].
Qed.
Lemma sel_set p i v t : sel p (assoc_set Z.eqb i v t) = if p i then assoc_set Z.eqb i v (sel p t) else sel p t.
Proof.
  induction t as [|[k x] t IH]; simpl; [destruct (p i); auto|].
  destruct (Z.eqb_spec i k) as [->|N]; simpl.
  - destruct (p k); simpl; auto. rewrite Z.eqb_refl. auto.
  - destruct (p k) eqn:E; simpl; rewrite IH; destruct (p i); simpl; auto.
    apply Z.eqb_neq in N. rewrite N. auto.
Qed.
Definition inb (cands : list Z) (i : Z) : bool := mem_b Z.eqb i cands.
Lemma add_info_sel cands cands' s t e : incl cands' cands ->
  add_info cands' s (sel (inb cands') t) e = sel (inb cands') (add_info cands s t e).
Proof.
  intros I. destruct e as [i x]. unfold add_info. fold (inb cands' i) (inb cands i).
  destruct (inb cands' i) eqn:E'; simpl.
  - assert (E : inb cands i = true) by (apply (mem_b_In _ reflects_Z); apply I; apply (mem_b_In _ reflects_Z); auto).
    rewrite E. simpl. rewrite sel_set, E', sel_assoc by auto. reflexivity.
  - destruct (inb cands i); simpl; auto. rewrite sel_set, E'. auto.
Qed.
Lemma user_info_sel m cands cands' l : incl cands' cands -> forall t,
  user_info m cands' (sel (inb cands') t) l = (r <- user_info m cands t l ;; Ok (sel (inb cands') r)).
Proof.
  intros I. induction l as [|[s b] l IH]; intros t; simpl; auto.
  destruct (select m _) as [mb|]; cbn [bind]; auto. destruct (values mb _) as [vs|]; cbn [bind]; auto.
  destruct (mapM pair_of vs) as [rs|]; cbn [bind]; auto. rewrite <- IH. f_equal.
  clear IH. revert t. induction rs as [|e rs IH]; intros t; simpl; auto. rewrite <- IH. f_equal. apply add_info_sel. auto.
Qed.
Lemma user_info_keys m cands l : forall t r, NoDup (map fst t) -> incl (map fst t) cands ->
  user_info m cands t l = Ok r -> NoDup (map fst r) /\ incl (map fst r) cands.
Proof.
  induction l as [|[s b] l IH]; intros t r N I; simpl; [intros E; injection E as <-; auto|].
  destruct (select m _) as [mb|]; cbn [bind]; [|discriminate]. destruct (values mb _) as [vs|]; cbn [bind]; [|discriminate].
  destruct (mapM pair_of vs) as [rs|]; cbn [bind]; [|discriminate]. intros E.
  assert (K : NoDup (map fst (fold_left (add_info cands s) rs t)) /\ incl (map fst (fold_left (add_info cands s) rs t)) cands).
  { clear E IH. revert t N I. induction rs as [|[i x] rs IH]; intros t N I; simpl; auto. apply IH.
    - unfold add_info. destruct (negb _); auto. apply (assoc_set_keys_or _ reflects_Z). auto.
    - unfold add_info. destruct (negb (mem_b Z.eqb i cands)) eqn:E; auto. apply negb_false_iff in E.
      apply (mem_b_In _ reflects_Z) in E.
      destruct (assoc Z.eqb i t) as [y|] eqn:A.
      + rewrite (assoc_set_keys _ reflects_Z); auto. apply (assoc_In _ reflects_Z) in A. apply in_map_iff. exists (i, y). auto.
      + apply (assoc_None _ reflects_Z) in A. rewrite (assoc_set_keys_new _ reflects_Z) by auto. rewrite map_app. simpl.
        intros z Hz. apply in_app_iff in Hz. destruct Hz as [Hz|[<-|[]]]; auto. }
  destruct K as [K1 K2]. exact (IH _ _ K1 K2 E).
Qed.
Definition user_cs (c : knn) (m : mem) (t : nbs) (uid : Z) (cands : list Z) : res (list scored) :=
  l <- neighbours t uid ;;
  info <- user_info m cands [] l ;;
  ps <- mapM (fun p => r <- conclude c (predict_default m "iid" (fst p)) (snd p) ;; Ok (r, fst p)) info ;;
  Ok (present ps).
Lemma user_ok c m t uid : cs_ok (user_cs c m t uid).
Proof.
  assert (G : forall info ps, mapM (fun p : Z * list (Qc * Qc) => r <- conclude c (predict_default m "iid" (fst p)) (snd p) ;; Ok (r, fst p)) info = Ok ps ->
    Forall2 (fun p q => snd q = fst p) info ps).
  { intros info ps. rewrite mapM_Forall2. intros F. induction F as [|p q info ps H F IH]; constructor; auto.
    destruct (conclude _ _ _); cbn [bind] in H; [|discriminate]. injection H as <-. auto. }
  unfold user_cs. destruct (neighbours t uid) as [l|]; cbn [bind]; constructor; try discriminate.
  - intros cands ps N. destruct (user_info m cands [] l) as [info|] eqn:U; cbn [bind]; [|discriminate].
    destruct (mapM _ info) as [qs|] eqn:M; cbn [bind]; [|discriminate]. intros E. injection E as <-.
    apply G in M. assert (S : map snd qs = map fst info) by (clear -M; induction M; simpl; congruence).
    destruct (user_info_keys m cands l [] info) as [K1 K2]; auto; [constructor|intros x []|].
    rewrite <- S in K1, K2. destruct (present_keys qs K1) as [D I]. split; auto. intros x Hx. apply K2. auto.
  - intros cands cands' ps N N' I. pose proof (user_info_sel m cands cands' l I []) as U'. simpl in U'. rewrite U'. clear U'.
    destruct (user_info m cands [] l) as [info|] eqn:U; cbn [bind]; [|discriminate].
    destruct (mapM _ info) as [qs|] eqn:M; cbn [bind]; [|discriminate]. intros E. injection E as <-.
    pose proof (G _ _ M) as S. apply mapM_Forall2 in M.
    exists (present (filter (fun e => inb cands' (snd e)) qs)).
    assert (M' : mapM (fun p : Z * list (Qc * Qc) => r <- conclude c (predict_default m "iid" (fst p)) (snd p) ;; Ok (r, fst p))
                   (sel (inb cands') info) = Ok (filter (fun e => inb cands' (snd e)) qs)).
    { apply mapM_Forall2. clear -M S. unfold sel. induction M as [|p q info qs H F IH]; simpl; [constructor|].
      inversion S; subst. rewrite H3. destruct (inb cands' (fst p)); auto. }
    rewrite M'. cbn [bind]. split; auto. rewrite present_filter. apply Permutation_refl.
Qed.
