(** Proofs about answers of rank and recommend: the rankings of the library. *)
From Coq Require Import String Ascii.
From Coq Require Import List ZArith QArith Qcanon Bool Lia Permutation Sorted.
From Verif Require Import Py PyFacts MemModel MemSpec MemFacts MemFacts2 MemFacts3 MemFacts4 MemFacts5 MemFacts6 MemFacts7.
From Verif Require Import RankModel RankSpec RankFacts RankFacts2 RankFacts3 KnnModel KnnFacts3 ViewSpec ViewFacts.
Import ListNotations.
Open Scope string_scope.
Open Scope Z_scope.
Open Scope list_scope.

Definition item_g (c : knn) (m : mem) (t : nbs) (uid : Z) (user_ds : mem) (seen : list value) (i : Z) : res (option Qc) :=
  l <- neighbours t i ;;
  g <- gather (fun b =>
         if negb (mem_b val_eqb (VInt b) seen) then Ok None else
         r <- select_one user_ds ("iid == " ++ str_of_Z b)%string (Some ["interaction"]) ;;
         match r with
         | None => Ok None
         | Some [v] => x <- num_value v ;; Ok (Some x)
         | Some _ => Err KeyError
         end) l ;;
  conclude c (predict_default m "uid" uid) g.
Lemma item_rank_each c m t uid iids n nov : item_rank c m t uid iids n nov =
  (cands <- knn_candidates m uid iids nov ;;
   user_ds <- select m ("uid == " ++ str_of_Z uid)%string ;;
   seen <- rated_iids m uid ;;
   ps <- each (item_g c m t uid user_ds seen) cands ;;
   Ok (top n ps)).
Proof.
  unfold item_rank. destruct (knn_candidates m uid iids nov) as [cands|]; cbn [bind]; [|reflexivity].
  destruct (select m _) as [ds|]; cbn [bind]; [|reflexivity].
  destruct (rated_iids m uid) as [seen|]; cbn [bind]; [|reflexivity].
  unfold each. rewrite (mapM_ext_all _ (fun i => p <- item_g c m t uid ds seen i ;; Ok (p, i))).
  - destruct (mapM _ cands); reflexivity.
  - intros i. unfold item_g. destruct (neighbours t i); cbn [bind]; [|reflexivity].
    destruct (gather _ _); cbn [bind]; reflexivity.
Qed.
Lemma user_rank_cs c m t uid iids n nov : user_rank c m t uid iids n nov =
  (cands <- knn_candidates m uid iids nov ;; ps <- user_cs c m t uid cands ;; Ok (top n ps)).
Proof.
  unfold user_rank, user_cs. destruct (knn_candidates m uid iids nov) as [cands|]; cbn [bind]; [|reflexivity].
  destruct (neighbours t uid) as [l|]; cbn [bind]; [|reflexivity].
  destruct (user_info m cands [] l) as [info|]; cbn [bind]; [|reflexivity].
  destruct (mapM _ info); reflexivity.
Qed.

(** ** shorter lists *)
Definition by_top (impl : rank_impl) : Prop := forall u iids nov, exists ps : res (list scored),
  forall n, impl u iids n nov = (l <- ps ;; Ok (top n l)).
Lemma library_by_top m ni impl : of_library m ni impl -> by_top impl.
Proof.
  intros [f|vec|vec|c t] u iids nov.
  - exists (iids <- (if nov then rated <- rated_iids m u ;; Ok (set_minus iids rated) else Ok iids) ;; pred_list f u iids).
    intros n. unfold rank_abc. destruct (if nov then _ else _); cbn [bind]; auto.
  - exists (v <- vec u ;; cands <- cdae_candidates m u iids nov ;; Ok (picked v ni cands)).
    intros n. unfold rank_cdae. destruct (vec u); cbn [bind]; auto. destruct (cdae_candidates m u iids nov); cbn [bind]; auto.
  - exists (rated <- rated_iids m u ;; v <- vec u ;;
            Ok (if nov then picked v ni (filter (fun i => negb (mem_b val_eqb (VInt i) rated)) iids) else combine v (Zseq ni))).
    intros n. unfold rank_caser. destruct (rated_iids m u); cbn [bind]; auto. destruct (vec u); cbn [bind]; auto.
    destruct nov; auto.
  - unfold knn_rank. destruct (kn_user c).
    + exists (cands <- knn_candidates m u iids nov ;; user_cs c m t u cands).
      intros n. rewrite user_rank_cs. destruct (knn_candidates m u iids nov) as [cands|]; cbn [bind]; reflexivity.
    + exists (cands <- knn_candidates m u iids nov ;; user_ds <- select m ("uid == " ++ str_of_Z u)%string ;;
              seen <- rated_iids m u ;; each (item_g c m t u user_ds seen) cands).
      intros n. rewrite item_rank_each. destruct (knn_candidates m u iids nov) as [cands|]; cbn [bind]; [|reflexivity].
      destruct (select m _) as [ds|]; cbn [bind]; [|reflexivity]. destruct (rated_iids m u); reflexivity.
Qed.

Lemma recommend_int_eq impl ni u n nov thr : recommend_int impl ni u n nov thr =
  (l <- impl u (Zseq ni) n nov ;; Ok (useful thr l)).
Proof. reflexivity. Qed.
Lemma recommend_shorter impl fitted m ni user n n' nov thr out : by_top impl -> asked ni n' <= asked ni n ->
  recommend impl fitted m ni user n nov thr = Ok out ->
  recommend impl fitted m ni user n' nov thr = Ok (firstn (Z.to_nat (asked ni n')) out).
Proof.
  intros B L. unfold recommend. destruct (negb fitted); [discriminate|].
  destruct (user_to_uid m user) as [[u|]|]; cbn [bind]; try discriminate.
  fold (asked ni n) (asked ni n'). rewrite !recommend_int_eq.
  destruct (B u (Zseq ni) nov) as [ps E]. rewrite !E. destruct ps as [ps|]; cbn [bind]; [|discriminate].
  rewrite (top_shorter _ _ ps L), useful_firstn by apply top_sorted. apply mapM_firstn.
Qed.
Lemma recommend_threshold impl fitted m ni user n nov t out : by_top impl ->
  recommend impl fitted m ni user n nov None = Ok out ->
  exists good rest, out = good ++ rest /\ recommend impl fitted m ni user n nov (Some t) = Ok good /\
    Forall (fun p => (t <= fst p)%Qc) good /\ Forall (fun p => (fst p < t)%Qc) rest.
Proof.
  intros B. unfold recommend. destruct (negb fitted); [discriminate|].
  destruct (user_to_uid m user) as [[u|]|]; cbn [bind]; try discriminate.
  fold (asked ni n). rewrite !recommend_int_eq.
  destruct (B u (Zseq ni) nov) as [ps E]. rewrite !E. destruct ps as [ps|]; cbn [bind]; [|discriminate].
  destruct (threshold_split t (top (asked ni n) ps) (top_sorted _ _)) as (a & b & S & F & A & Lt).
  cbn [useful]. rewrite F, S. unfold with_items. intros M. apply mapM_Forall2 in M. apply Forall2_app_inv_l in M.
  destruct M as (o1 & o2 & M1 & M2 & ->). exists o1, o2. split; auto. split; [apply mapM_Forall2; auto|].
  assert (G : forall (Q : Qc -> Prop) (l : list scored) o, Forall2 (fun x y => (w <- iid_to_item m (snd x) ;; Ok (fst x, w)) = Ok y) l o ->
    Forall (fun x => Q (fst x)) l -> Forall (fun x : Qc * option value => Q (fst x)) o).
  { intros Q l o H. induction H as [|x y l o Hx H IH]; intros Hl; inversion Hl; subst; constructor; auto.
    destruct (iid_to_item m (snd x)); cbn [bind] in Hx; [|discriminate]. injection Hx as <-. auto. }
  split; [exact (G (fun s => (t <= s)%Qc) _ _ M1 A)|exact (G (fun s => (s < t)%Qc) _ _ M2 Lt)].
Qed.
Lemma rank_shorter impl fitted m user items nov skip n n' out : by_top impl -> n' <= n ->
  rank impl fitted m user items nov skip (Some n) = Ok out ->
  rank impl fitted m user items nov skip (Some n') = Ok (firstn (Z.to_nat n') out).
Proof.
  intros B L. unfold rank. destruct (negb fitted); [discriminate|].
  destruct (user_to_uid m user) as [[u|]|]; cbn [bind]; try discriminate.
  destruct (known_iids m skip items) as [iids|]; cbn [bind]; [|discriminate].
  destruct (n <=? Z.of_nat (length iids)) eqn:E; cbn [negb]; [|discriminate].
  apply Z.leb_le in E. replace (n' <=? Z.of_nat (length iids)) with true by (symmetry; apply Z.leb_le; lia). cbn [negb].
  destruct (B u iids nov) as [ps F]. rewrite !F. destruct ps as [ps|]; cbn [bind]; [|discriminate].
  rewrite (top_shorter _ _ ps L). apply mapM_firstn.
Qed.
Lemma rank_default_shorter impl fitted m user items nov skip n' out out' : by_top impl ->
  rank impl fitted m user items nov skip None = Ok out ->
  rank impl fitted m user items nov skip (Some n') = Ok out' -> out' = firstn (Z.to_nat n') out.
Proof.
  intros B. unfold rank. destruct (negb fitted); [discriminate|].
  destruct (user_to_uid m user) as [[u|]|]; cbn [bind]; try discriminate.
  destruct (known_iids m skip items) as [iids|]; cbn [bind]; [|discriminate].
  destruct (n' <=? Z.of_nat (length iids)) eqn:E; cbn [negb]; [|discriminate]. apply Z.leb_le in E.
  rewrite Z.leb_refl. cbn [negb].
  destruct (B u iids nov) as [ps F]. rewrite !F. destruct ps as [ps|]; cbn [bind]; [|discriminate].
  rewrite (top_shorter _ _ ps E). intros H H'. apply (mapM_firstn _ (Z.to_nat n')) in H. 
  assert (X : Ok out' = Ok (firstn (Z.to_nat n') out)) by (etransitivity; [symmetry; exact H'|exact H]).
  injection X; auto.
Qed.

(** ** kept *)
Lemma kept_filter {A} (p : A -> bool) (P : A -> Prop) l : (forall x, In x l -> (p x = true <-> P x)) -> kept P l (filter p l).
Proof.
  induction l as [|a l IH]; intros H; simpl; [constructor|]. destruct (p a) eqn:E.
  - apply kept_yes; [apply H; simpl; auto|]. apply IH. intros; apply H; simpl; auto.
  - apply kept_no; [intros C; apply H in C; [congruence|simpl; auto]|]. apply IH. intros; apply H; simpl; auto.
Qed.
Lemma with_items_cons m s i (l : list scored) : with_items m ((s, i) :: l) =
  (w <- iid_to_item m i ;; o <- with_items m l ;; Ok ((s, w) :: o)).
Proof. unfold with_items. cbn [mapM fst snd]. destruct (iid_to_item m i); reflexivity. Qed.
Lemma kept_items m (P : scored -> Prop) (Q : Qc * option value -> Prop) l l' out :
  (forall s i w, In (s, i) l -> iid_to_item m i = Ok w -> (P (s, i) <-> Q (s, w))) ->
  kept P l l' -> with_items m l = Ok out -> exists out', with_items m l' = Ok out' /\ kept Q out out'.
Proof.
  intros H K. revert out. induction K as [|[s i] l l' Px K IH|[s i] l l' Px K IH]; intros out.
  - intros E. cbn in E. injection E as <-. exists []. split; [reflexivity|constructor].
  - rewrite !with_items_cons. destruct (iid_to_item m i) as [w|] eqn:W; cbn [bind]; [|discriminate].
    destruct (with_items m l) as [o|]; cbn [bind]; [|discriminate]. intros E. injection E as <-.
    destruct (IH ltac:(intros; apply H; simpl; auto) o eq_refl) as (o' & -> & Ko). cbn [bind].
    exists ((s, w) :: o'). split; auto. apply kept_yes; auto. apply (H s i w); simpl; auto.
  - rewrite with_items_cons. destruct (iid_to_item m i) as [w|] eqn:W; cbn [bind]; [|discriminate].
    destruct (with_items m l) as [o|]; cbn [bind]; [|discriminate]. intros E. injection E as <-.
    destruct (IH ltac:(intros; apply H; simpl; auto) o eq_refl) as (o' & Eo & Ko).
    exists o'. split; auto. apply kept_no; auto. intros C. apply Px. apply (H s i w); simpl; auto.
Qed.

Section Trained.
Variables (m0 m : mem) (tu ti : dtype).
Hypothesis T : trained_on m0 m tu ti.

(** [cands] are the candidates among [iids] *)
Definition cands_of (u : Z) (iids : list Z) (nov : bool) (cands : list Z) : Prop :=
  NoDup cands /\ forall i, In i cands <-> In i iids /\ (nov = true -> ~ pair_in m u i).
Lemma cands_exist u iids nov : NoDup iids -> exists cands, cands_of u iids nov cands.
Proof.
  intros N. destruct (rated_spec m0 m tu ti T u) as (rated & _ & S). destruct nov.
  - exists (filter (fun i => negb (mem_b val_eqb (VInt i) rated)) iids). split; [apply NoDup_filter; auto|].
    intros i. rewrite filter_In, negb_true_iff, <- S. destruct (mem_b val_eqb (VInt i) rated); intuition congruence.
  - exists iids. split; auto. intros i. intuition discriminate.
Qed.
Definition impl_by (impl : rank_impl) (u : Z) (nov : bool) (CS : list Z -> res (list scored)) : Prop :=
  forall iids n l, NoDup iids ->
  (impl u iids n nov = Ok l <-> exists cands ps, cands_of u iids nov cands /\ CS cands = Ok ps /\ l = top n ps).
Lemma impl_by_intro impl u nov CS : cs_ok CS ->
  (forall iids, NoDup iids -> exists cands, cands_of u iids nov cands /\
     forall n l, impl u iids n nov = Ok l <-> exists ps, CS cands = Ok ps /\ l = top n ps) -> impl_by impl u nov CS.
Proof.
  intros K H iids n l N. destruct (H iids N) as (cands & C & E). rewrite E. split.
  - intros (ps & E1 & E2). eauto.
  - intros (c2 & ps2 & [N2 M2] & E2 & ->). destruct C as [N1 M1].
    destruct (cs_same CS c2 cands ps2 n K N2 N1) as (ps & E1 & Et); auto; [intros i; rewrite M1, M2; tauto|].
    exists ps. split; auto.
Qed.
Lemma bind_top (r : res (list scored)) n l : (ps <- r ;; Ok (top n ps)) = Ok l <-> exists ps, r = Ok ps /\ l = top n ps.
Proof.
  destruct r as [ps|]; cbn [bind]; split.
  - intros E. injection E as <-. eauto.
  - intros (q & E & ->). congruence.
  - discriminate.
  - intros (q & E & _). discriminate.
Qed.

Lemma set_minus_cands u rated iids : NoDup iids -> rated_iids m u = Ok rated -> cands_of u iids true (set_minus iids rated).
Proof.
  intros N R. split; [apply NoDup_filter, (dedup_NoDup _ reflects_Z)|]. intros i.
  rewrite (set_minus_In m0 m tu ti T u rated iids i R). tauto.
Qed.
Lemma knn_cands u iids nov : NoDup iids -> exists cands, knn_candidates m u iids nov = Ok cands /\ cands_of u iids nov cands.
Proof.
  intros N. unfold knn_candidates. destruct nov.
  - destruct (rated_spec m0 m tu ti T u) as (rated & R & _). rewrite R. cbn [bind]. eexists. split; [reflexivity|].
    apply set_minus_cands; auto.
  - eexists. split; [reflexivity|]. split; [apply (dedup_NoDup _ reflects_Z)|]. intros i. rewrite (dedup_In _ reflects_Z).
    intuition discriminate.
Qed.
Lemma cdae_cands u iids nov : exists cands, cdae_candidates m u iids nov = Ok cands.
Proof.
  unfold cdae_candidates. destruct nov; [|eauto].
  destruct (user_rows_ok m0 m tu ti T u) as (mu & S & Wu & Iu & Cu & Ru). rewrite S. cbn [bind].
  destruct (mem_len mu <? length iids)%nat.
  - destruct (rated_spec m0 m tu ti T u) as (rated & R & _). unfold rated_iids in R. rewrite S in R. cbn [bind] in R.
    destruct (values mu _); cbn [bind] in *; [eauto|discriminate].
  - assert (M : exists bs, mapM (fun i => b <- exists_q mu ("iid == " ++ str_of_Z i)%string ;; Ok (i, b)) iids = Ok bs).
    { induction iids as [|i iids [bs IH]]; cbn [mapM]; [eauto|].
      assert (Si := select_int_exact mu "iid" i Wu Iu ltac:(simpl; auto)
           ltac:(rewrite Cu; apply (trained_cols m0 m tu ti T))
           ltac:(intros r z Hr E; rewrite Ru in Hr; apply filter_In in Hr; destruct Hr as [Hr _];
                 exact (trained_small _ _ _ _ T "iid" (or_intror eq_refl) r z Hr E))).
      change ("iid" ++ " == " ++ str_of_Z i)%string with ("iid == " ++ str_of_Z i)%string in Si.
      rewrite (exists_iff mu _ _ Wu Si). cbn [bind]. rewrite IH. cbn [bind]. eauto. }
    destruct M as [bs M]. rewrite M. cbn [bind]. eauto.
Qed.
Lemma picked_ext v ni c c' : (forall i, In i c <-> In i c') -> picked v ni c = picked v ni c'.
Proof.
  intros H. apply filter_ext. intros p. apply eq_true_iff_eq. rewrite !(mem_b_In _ reflects_Z). apply H.
Qed.
Definition vec_cs (vec : Z -> res (list Qc)) ni u (cands : list Z) : res (list scored) := v <- vec u ;; Ok (picked v ni cands).

Lemma cdae_impl vec ni u iids nov n l cands : cands_of u iids nov cands ->
  (rank_cdae vec m ni u iids n nov = Ok l <-> exists ps, vec_cs vec ni u cands = Ok ps /\ l = top n ps).
Proof.
  intros [_ C]. unfold rank_cdae, vec_cs. destruct (vec u) as [v|]; cbn [bind].
  - destruct (cdae_cands u iids nov) as [cc E]. rewrite E. cbn [bind].
    pose proof (cdae_candidates_ok m0 m tu ti T u iids nov cc E) as I.
    rewrite (picked_ext v ni cc cands) by (intros i; rewrite I, C; tauto). split.
    + intros H. injection H as <-. eauto.
    + intros (ps & H & ->). congruence.
  - split; [discriminate|]. intros (ps & H & _). discriminate.
Qed.
Lemma library_cs ni impl u : not_caser m ni impl -> exists CS, cs_ok CS /\ forall nov, impl_by impl u nov CS.
Proof.
  intros [f|vec|c t].
  - exists (each (fun i => f (Some u) (Some i))). split; [apply each_ok|]. intros nov. apply impl_by_intro; [apply each_ok|].
    intros iids N. unfold rank_abc. destruct nov.
    + destruct (rated_spec m0 m tu ti T u) as (rated & R & _). exists (set_minus iids rated).
      split; [apply set_minus_cands; auto|]. intros n l. rewrite R. cbn [bind]. apply bind_top.
    + exists iids. split; [split; auto; intros i; intuition discriminate|]. intros n l. cbn [bind]. apply bind_top.
  - exists (vec_cs vec ni u). split; [apply picked_ok|]. intros nov. apply impl_by_intro; [apply picked_ok|].
    intros iids N. destruct (cands_exist u iids nov N) as [cands C]. exists cands. split; auto. intros n l.
    apply cdae_impl; auto.
  - unfold knn_rank. destruct (kn_user c).
    + exists (user_cs c m t u). split; [apply user_ok|]. intros nov. apply impl_by_intro; [apply user_ok|].
      intros iids N. destruct (knn_cands u iids nov N) as (cands & E & C). exists cands. split; auto. intros n l.
      rewrite user_rank_cs, E. cbn [bind]. apply bind_top.
    + destruct (user_rows_ok m0 m tu ti T u) as (ds & S & _). destruct (rated_spec m0 m tu ti T u) as (rated & R & _).
      exists (each (item_g c m t u ds rated)). split; [apply each_ok|]. intros nov. apply impl_by_intro; [apply each_ok|].
      intros iids N. destruct (knn_cands u iids nov N) as (cands & E & C). exists cands. split; auto. intros n l.
      rewrite item_rank_each, E. cbn [bind]. rewrite S. cbn [bind]. rewrite R. cbn [bind]. apply bind_top.
Qed.
(** Caser with all items, or with new ones only, answers like CDAE with its scores *)
Lemma caser_like_cdae vec ni u iids n nov l : NoDup iids -> nov = true \/ iids = Zseq ni ->
  (rank_caser vec m ni u iids n nov = Ok l <-> rank_cdae vec m ni u iids n nov = Ok l).
Proof.
  intros N H. destruct (cands_exist u iids nov N) as [cands C]. rewrite (cdae_impl vec ni u iids nov n l cands C).
  destruct C as [_ C]. unfold rank_caser, vec_cs. destruct (rated_spec m0 m tu ti T u) as (rated & R & S).
  rewrite R. cbn [bind]. destruct (vec u) as [v|]; cbn [bind]; [|split; [discriminate|intros (ps & E & _); discriminate]].
  assert (E : (if nov then Ok (top n (picked v ni (filter (fun i => negb (mem_b val_eqb (VInt i) rated)) iids)))
               else Ok (top n (combine v (Zseq ni)))) = Ok (top n (picked v ni cands))).
  { destruct nov.
    - rewrite (picked_ext v ni _ cands); auto. intros i. rewrite C, filter_In, negb_true_iff, <- S.
      destruct (mem_b val_eqb (VInt i) rated); intuition congruence.
    - destruct H as [H|H]; [discriminate|]. subst iids. f_equal. f_equal. unfold picked. symmetry. apply filter_id.
      intros [s i] Hp. apply in_combine_r in Hp. apply (mem_b_In _ reflects_Z). apply C. split; auto. discriminate. }
  cbv zeta. rewrite E. split.
  - intros F. injection F as <-. eauto.
  - intros (ps & F & ->). congruence.
Qed.

(** ** restricting a ranking *)
Lemma restrict impl u nov nov' CS iids iids' l : cs_ok CS -> impl_by impl u nov CS -> impl_by impl u nov' CS ->
  NoDup iids -> NoDup iids' -> incl iids' iids -> (nov = true -> nov' = true) ->
  impl u iids (Z.of_nat (length iids)) nov = Ok l ->
  exists cands' l', cands_of u iids' nov' cands' /\ impl u iids' (Z.of_nat (length iids')) nov' = Ok l' /\
    l' = filter (among cands') l /\ incl (map snd l) iids.
Proof.
  intros K B B' N N' I Hn E. apply (B iids _ _ N) in E. destruct E as (cands & ps & [Nc Mc] & E & ->).
  destruct (cands_exist u iids' nov' N') as (cands' & [Nc' Mc']). exists cands'.
  destruct (cs_ranked CS cands cands' ps K Nc Nc') as (ps' & E' & R); auto.
  { intros i Hi. apply Mc' in Hi. apply Mc. destruct Hi as [Hi P]. split; auto. }
  assert (L : forall ii cc (qs : list scored), CS cc = Ok qs -> NoDup cc -> NoDup ii -> incl cc ii -> top (Z.of_nat (length ii)) qs = ranked qs).
  { intros ii cc qs Eq N1 N2 I2. apply top_all. rewrite Nat2Z.id. eapply Nat.le_trans; [apply (cs_length CS cc); auto|].
    apply NoDup_incl_length; auto. }
  exists (ranked ps'). split; [split; auto|]. split.
  - apply (B' iids' _ _ N'). exists cands', ps'. split; [split; auto|]. split; auto. symmetry. eapply L; eauto.
    intros i Hi. apply Mc'. auto.
  - rewrite (L iids cands ps E Nc N) by (intros i Hi; apply Mc; auto). split; auto.
    intros i Hi. apply in_map_iff in Hi. destruct Hi as (p & <- & Hp). apply Mc.
    apply (cs_keys CS K cands ps Nc E). apply in_map. eapply Permutation_in; [apply Permutation_sym, sort_by_perm|exact Hp].
Qed.

(** ** raw ids *)
Lemma known_NoDup skip items iids : Forall (fun v => type_of v = ti) items -> NoDup items ->
  known_iids m skip items = Ok iids -> NoDup iids.
Proof.
  intros Y N E. pose proof (known_iids_ok m0 m tu ti T skip items iids Y E) as F.
  assert (N' : NoDup (filter (known_b m0) items)) by (apply NoDup_filter; auto).
  assert (Y' : Forall (fun v => type_of v = ti) (filter (known_b m0) items)).
  { rewrite Forall_forall in *. intros v Hv. apply filter_In in Hv. apply Y, Hv. }
  clear -T F N' Y'. induction F as [|v i vs is H F IH]; [constructor|]. apply NoDup_cons_iff in N'. destruct N' as [Nv N'].
  pose proof (Forall_inv Y') as Yv. pose proof (Forall_inv_tail Y') as Yt. cbn beta in Yv.
  constructor; auto. intros C. destruct (Forall2_in_r _ _ _ _ F C) as (w & Hw & Ew).
  assert (v = w); [|congruence]. rewrite Forall_forall in Yt. eapply (item_iid_inj m0 m tu ti T); eauto.
Qed.
Lemma known_In skip items iids : Forall (fun v => type_of v = ti) items -> known_iids m skip items = Ok iids ->
  forall i v, iid_to_item m i = Ok (Some v) -> (In i iids <-> In v items).
Proof.
  intros Y E i v W. pose proof (known_iids_ok m0 m tu ti T skip items iids Y E) as F.
  destruct (iid_to_item_known m0 m tu ti T i v W) as [K Tv]. apply (item_iid m0 m tu ti T v i Tv) in W. split.
  - intros H. destruct (Forall2_in_r _ _ _ _ F H) as (w & Hw & Ew). apply filter_In in Hw. destruct Hw as [Hw _].
    assert (v = w); [|congruence]. rewrite Forall_forall in Y. eapply (item_iid_inj m0 m tu ti T); eauto.
  - intros H. assert (Hf : In v (filter (known_b m0) items)) by (apply filter_In; split; auto; apply known_b_iff; auto).
    destruct (Forall2_in_l _ _ _ _ F Hf) as (j & Hj & Ej). congruence.
Qed.
Lemma known_range skip items iids i : Forall (fun v => type_of v = ti) items -> known_iids m skip items = Ok iids ->
  In i iids -> exists v, iid_to_item m i = Ok (Some v).
Proof.
  intros Y E H. pose proof (known_iids_ok m0 m tu ti T skip items iids Y E) as F.
  destruct (Forall2_in_r _ _ _ _ F H) as (w & Hw & Ew). apply filter_In in Hw. rewrite Forall_forall in Y.
  exists w. apply (item_iid m0 m tu ti T w i); auto. apply Y, Hw.
Qed.

Lemma rank_restricted impl ni user items items' nov nov' out :
  (not_caser m ni impl \/ (exists vec, impl = rank_caser vec m ni) /\ nov = true) -> type_of user = tu ->
  Forall (fun v => type_of v = ti) items -> Forall (fun v => type_of v = ti) items' ->
  NoDup items -> NoDup items' -> (forall v, In v items' -> known_item m0 v -> In v items) -> (nov = true -> nov' = true) ->
  rank impl true m user items nov true None = Ok out ->
  exists out', rank impl true m user items' nov' true None = Ok out' /\
    kept (fun p => exists v, snd p = Some v /\ In v items' /\ (nov' = true -> ~ interacted m0 user v)) out out'.
Proof.
  intros Hi Yu Y Y' N N' I Hn. unfold rank. cbn [negb].
  destruct (user_to_uid m user) as [[u|]|] eqn:U; cbn [bind]; try discriminate.
  destruct (known_iids m true items) as [iids|] eqn:E; cbn [bind]; [|discriminate].
  destruct (known_iids_total m0 m tu ti T items' Y') as [iids' E']. rewrite E'. cbn [bind]. rewrite !Z.leb_refl. cbn [negb].
  pose proof (known_NoDup _ _ _ Y N E) as Ni. pose proof (known_NoDup _ _ _ Y' N' E') as Ni'.
  assert (Ii : incl iids' iids).
  { intros i H. destruct (known_range _ _ _ _ Y' E' H) as [v W]. apply (known_In _ _ _ Y E i v W).
    apply I; [apply (known_In _ _ _ Y' E' i v W); auto|apply (iid_to_item_known m0 m tu ti T i v W)]. }
  destruct (impl u iids _ nov) as [l|] eqn:R; cbn [bind]; [|discriminate]. intros Wi.
  assert (X : exists cands' l', cands_of u iids' nov' cands' /\ impl u iids' (Z.of_nat (length iids')) nov' = Ok l' /\
    l' = filter (among cands') l /\ incl (map snd l) iids).
  { destruct Hi as [Hi|[[vec ->] Hnov]].
    - destruct (library_cs ni impl u Hi) as (CS & K & B). eapply restrict; eauto.
    - assert (nov' = true) by auto. subst nov nov'. apply (caser_like_cdae vec ni u iids _ true l Ni) in R; auto.
      destruct (library_cs ni _ u (nc_cdae m ni vec)) as (CS & K & B).
      destruct (restrict (rank_cdae vec m ni) u true true CS iids iids' l K (B true) (B true) Ni Ni' Ii ltac:(auto) R)
        as (c' & l' & C & R' & Rest). exists c', l'. split; auto. split; auto.
      apply caser_like_cdae; auto. }
  destruct X as (cands' & l' & [_ C] & R' & El & Il). rewrite R'. cbn [bind].
  eapply kept_items; [| |exact Wi].
  - intros s i w Hin W. instantiate (1 := fun p => In (snd p) cands'). cbn [snd].
    assert (Hi' : In i iids) by (apply Il; apply in_map_iff; exists (s, i); auto).
    destruct (known_range _ _ _ _ Y E Hi') as [v Wv]. rewrite W in Wv. injection Wv as ->.
    rewrite C, (known_In _ _ _ Y' E' i v W), (pair_interacted m0 m tu ti T user v u i Yu U W). split.
    + intros H. exists v. split; auto.
    + intros (v' & Ev & H). injection Ev as <-. exact H.
  - subst l'. apply kept_filter. intros x _. apply among_true.
Qed.

Lemma useful_filter thr p l : useful thr (filter p l) = filter p (useful thr l).
Proof.
  destruct thr as [t|]; auto. simpl. induction l as [|a l IH]; simpl; auto.
  destruct (p a) eqn:E; simpl; destruct (Qcltb (fst a) t); simpl; rewrite ?E, IH; auto.
Qed.
Lemma recommend_new impl ni user thr out : of_library m ni impl -> type_of user = tu ->
  count_unique m (Some ["iid"]) = Ok ni ->
  recommend impl true m ni user None false thr = Ok out ->
  exists out', recommend impl true m ni user None true thr = Ok out' /\
    kept (fun p => exists v, snd p = Some v /\ ~ interacted m0 user v) out out'.
Proof.
  intros Hi Yu Cn. pose proof (n_items_count m0 m tu ti T ni Cn) as En. unfold recommend. cbn [negb].
  destruct (user_to_uid m user) as [[u|]|] eqn:U; cbn [bind]; try discriminate. rewrite !recommend_int_eq.
  destruct (impl u (Zseq ni) _ false) as [l|] eqn:R; cbn [bind]; [|discriminate]. intros Wi.
  assert (X : exists cands' l', cands_of u (Zseq ni) true cands' /\ impl u (Zseq ni) (Z.of_nat ni) true = Ok l' /\
    l' = filter (among cands') l /\ incl (map snd l) (Zseq ni)).
  { assert (G : forall impl, not_caser m ni impl -> impl u (Zseq ni) (Z.of_nat ni) false = Ok l ->
      exists cands' l', cands_of u (Zseq ni) true cands' /\ impl u (Zseq ni) (Z.of_nat ni) true = Ok l' /\
        l' = filter (among cands') l /\ incl (map snd l) (Zseq ni)).
    { intros im Hc R'. destruct (library_cs ni im u Hc) as (CS & K & B).
      pose proof (restrict im u false true CS (Zseq ni) (Zseq ni) l K (B false) (B true) (Zseq_NoDup ni) (Zseq_NoDup ni)
        (fun x H => H) ltac:(auto)) as P. rewrite Zseq_length in P. auto. }
    destruct Hi as [f|vec|vec|c t].
    - apply G; auto. constructor.
    - apply G; auto. constructor.
    - apply (caser_like_cdae vec ni u (Zseq ni) _ false l (Zseq_NoDup ni)) in R; auto.
      destruct (G _ (nc_cdae m ni vec) R) as (c' & l' & C & R' & Rest). exists c', l'. split; auto. split; auto.
      apply caser_like_cdae; auto. apply Zseq_NoDup.
    - apply G; auto. constructor. }
  destruct X as (cands' & l' & [_ C] & R' & El & Il). rewrite R'. cbn [bind].
  assert (Iu : forall x, In x (useful thr l) -> In x l).
  { intros x. destruct thr; simpl; auto. intros H. apply filter_In in H. apply H. }
  eapply kept_items; [| |exact Wi].
  - intros s i w Hin W. instantiate (1 := fun p => In (snd p) cands'). cbn [snd].
    assert (Hi' : In i (Zseq ni)) by (apply Il; apply in_map_iff; exists (s, i); auto).
    pose proof Hi' as Hr. apply Zseq_In in Hr. rewrite En in Hr. destruct (iid_in_range m0 m tu ti T i Hr) as [v Wv].
    rewrite W in Wv. injection Wv as ->.
    rewrite C, (pair_interacted m0 m tu ti T user v u i Yu U W). split.
    + intros [_ H]. exists v. split; auto.
    + intros (v' & Ev & H). injection Ev as <-. auto.
  - subst l'. rewrite useful_filter. apply kept_filter. intros x _. apply among_true.
Qed.

(** ** rank with all items is recommend *)
Lemma rank_all impl ni user all n nov skip : of_library m ni impl -> type_of user = tu ->
  count_unique m (Some ["iid"]) = Ok ni -> NoDup all -> (forall v, In v all <-> known_item m0 v) ->
  asked ni n <= Z.of_nat ni ->
  forall out, rank impl true m user all nov skip n = Ok out <-> recommend impl true m ni user n nov None = Ok out.
Proof.
  intros Hi Yu Cn N A L out. pose proof (n_items_count m0 m tu ti T ni Cn) as En.
  assert (Y : Forall (fun v => type_of v = ti) all).
  { apply Forall_forall. intros v Hv. apply A in Hv. apply (known_item_iid m0 m tu ti T v Hv). }
  unfold rank, recommend. cbn [negb].
  destruct (user_to_uid m user) as [[u|]|] eqn:U; cbn [bind]; try (split; discriminate).
  assert (E : exists iids, known_iids m skip all = Ok iids).
  { assert (K : Forall (known_item m0) all) by (apply Forall_forall; intros v; apply A). clear -T K.
    induction K as [|v all Kv K [iids IH]]; simpl; [eauto|].
    destruct (known_item_iid m0 m tu ti T v Kv) as (_ & k & E & _). rewrite E. cbn [bind]. rewrite IH. cbn [bind]. eauto. }
  destruct E as [iids E]. rewrite E. cbn [bind]. pose proof (known_NoDup _ _ _ Y N E) as Ni.
  assert (P : Permutation iids (Zseq ni)).
  { apply NoDup_Permutation; auto; [apply Zseq_NoDup|]. intros i. rewrite Zseq_In, En. split.
    - intros H. destruct (known_range _ _ _ _ Y E H) as [v W]. eapply (iid_range m0 m tu ti T); eauto.
    - intros H. destruct (iid_in_range m0 m tu ti T i H) as [v W]. apply (known_In _ _ _ Y E i v W). apply A.
      apply (iid_to_item_known m0 m tu ti T i v W). }
  assert (Ll : length iids = ni) by (rewrite (Permutation_length P); apply Zseq_length).
  rewrite recommend_int_eq. rewrite Ll. fold (asked ni n).
  replace (asked ni n <=? Z.of_nat ni) with true by (symmetry; apply Z.leb_le; auto). cbn [negb].
  assert (S : forall l, impl u iids (asked ni n) nov = Ok l <-> impl u (Zseq ni) (asked ni n) nov = Ok l).
  { assert (G : forall im, not_caser m ni im -> forall l, im u iids (asked ni n) nov = Ok l <-> im u (Zseq ni) (asked ni n) nov = Ok l).
    { intros im Hc l. destruct (library_cs ni im u Hc) as (CS & K & B). rewrite (B nov iids _ l Ni), (B nov (Zseq ni) _ l (Zseq_NoDup ni)).
      assert (Q : forall c, cands_of u iids nov c <-> cands_of u (Zseq ni) nov c).
      { intros c. unfold cands_of. assert (PI : forall i, In i iids <-> In i (Zseq ni)).
        { intros i. split; apply Permutation_in; auto. apply Permutation_sym; auto. }
        split; intros [N1 M1]; split; auto; intros i; rewrite M1, PI; tauto. }
      split; intros (c & ps & Hc' & Rest); exists c, ps; split; auto; apply Q; auto. }
    destruct Hi as [f|vec|vec|c t]; try (apply G; constructor).
    intros l. destruct nov.
    - rewrite !caser_like_cdae; auto; [apply G; constructor|apply Zseq_NoDup].
    - unfold rank_caser. tauto. }
  destruct (impl u iids (asked ni n) nov) as [l|] eqn:R.
  - pose proof (proj1 (S l) eq_refl) as R'. rewrite R'. cbn [bind useful]. tauto.
  - destruct (impl u (Zseq ni) (asked ni n) nov) as [l|] eqn:R'; cbn [bind]; [|split; discriminate].
    pose proof (proj2 (S l) eq_refl). discriminate.
Qed.
End Trained.
