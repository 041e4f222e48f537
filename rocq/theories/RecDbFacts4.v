(** The neighbourhood recommenders on a data set in a database and on the same
    data set in memory: rankings, and the public methods. *)
From Coq Require Import String Ascii.
From Coq Require Import List ZArith QArith Qcanon Bool Permutation Sorted Lia.
From Verif Require Import Py PyFacts MemModel MemSpec MemFacts MemFacts2 MemFacts3 MemFacts4 MemFacts5 RankModel RankSpec RankFacts RankFacts2 KnnModel KnnSpec KnnFacts KnnFacts2 KnnFacts3 FitModel
  DbModel DbFacts DbSpec DbFacts3 DbFacts7 DbFacts12 DbFacts13 DbFacts14 DbFacts15 DbFacts16 SampModel DbGenModel DbGenSpec DbGenFacts DbGenFacts2
  DbSplitModel DbSplitSpec DbSplitFacts DbSplitFacts3 DbSplitFacts6 TwinSpec TwinFacts TwinFacts5 TwinFacts6 RecDbModel RecDbFacts RecDbFacts2 RecDbFacts3.
Import ListNotations.
Open Scope string_scope.
Open Scope Z_scope.
Open Scope list_scope.

Section Rec.
Variable inode : string -> nat.
Variable ords : nat -> list trow -> list trow.
Hypothesis Po : forall k, permuting (ords k).
Variables (i : nat) (d : ds) (m0 m : mem) (tu ti : dtype).
Hypothesis T : trained_on m0 m tu ti.
Hypothesis Nm : numeric m0.
Hypothesis Tw : twin d m.
Hypothesis Cm : complete d.
Hypothesis Nr : no_repeats (obs m).
Local Notation cs := (m_columns m).
Local Notation fine := (fine inode i d).
Local Notation runs := (runs inode i d).
Local Notation gives := (gives inode i d).
Local Notation sub := (sub d).
Local Notation rdy := (rec_ready d m0 m tu ti T Nm Tw Cm).
Local Notation srdy := (sub_ready inode d m0 m tu ti T Nm Tw Cm).

(** ** ItemKNN *)
Lemma unrated_first u k : ~ pair_in m u k -> first_obs (obs m) u k = None.
Proof.
  intro N. apply first_obs_None. destruct (has_obs (obs m) u k) eqn:H; [|auto]. exfalso. apply N.
  unfold has_obs in H. apply existsb_exists in H. destruct H as [e [H1 H2]].
  rewrite (obs_map m0 m tu ti T Nm) in H1. apply in_map_iff in H1. destruct H1 as [r [<- Hr]].
  rewrite andb_true_iff, !Z.eqb_eq in H2. destruct H2 as [H2 H3].
  destruct (KnnFacts.good m0 m tu ti T Nm r Hr) as [G1 [G2 _]]. unfold t_u, t_i in *. exists r. rewrite G1, G2. subst. auto.
Qed.
Definition item_score (c : knn) (nb : nbs) (u k : Z) : res (option Qc * Z) :=
  l <- neighbours nb k ;;
  g <- gather (fun b => Ok (first_obs (obs m) u b)) l ;;
  p <- conclude c (predict_default m "uid" u) g ;; Ok (p, k).
Lemma item_rank_form c nb u iids n nov : item_rank c m nb u iids n nov =
  (cands <- knn_candidates m u iids nov ;; ps <- mapM (item_score c nb u) cands ;; Ok (top n (present ps))).
Proof.
  unfold item_rank. destruct (knn_candidates m u iids nov) as [cands|e]; cbn [bind]; [|auto].
  destruct (user_ds_ok m0 m tu ti T Nm u) as [ds [D DS]]. rewrite D. cbn [bind].
  destruct (rated_spec m0 m tu ti T u) as [seen [R RS]]. rewrite R. cbn [bind].
  assert (E : forall l k, In k l -> (l0 <- neighbours nb k;;
     g <- gather (fun b => if negb (mem_b val_eqb (VInt b) seen) then Ok None else
           r <- MemModel.select_one ds ("iid == " ++ str_of_Z b) (Some ["interaction"]) ;;
           match r with
           | None => Ok None
           | Some [v] => x <- num_value v ;; Ok (Some x)
           | Some _ => Err KeyError
           end) l0 ;;
     p <- conclude c (predict_default m "uid" u) g ;; Ok (p, k)) = item_score c nb u k).
  { intros l k _. unfold item_score. destruct (neighbours nb k) as [l0|]; cbn [bind]; [|auto].
    rewrite (gather_ok _ (fun b => first_obs (obs m) u b)); [rewrite (gather_ok _ (fun b => first_obs (obs m) u b)) by auto; reflexivity|].
    intro b. rewrite DS. destruct (mem_b val_eqb (VInt b) seen) eqn:B; cbn [negb]; [auto|].
    f_equal. symmetry. apply unrated_first. intro X. apply RS in X. congruence. }
  rewrite (mapM_ext_in _ (item_score c nb u)); [reflexivity|]. intros k Hk. apply (E cands k Hk).
Qed.
Lemma item_rank_runs c nb u iids n nov b : gives b (db_item_rank inode ords c i nb u iids n nov) (item_rank c m nb u iids n nov).
Proof.
  rewrite item_rank_form. unfold db_item_rank. apply gives_bind; [apply (candidates_runs inode ords Po i d m0 m tu ti T Nm Tw Cm)|]. intros b0 cands _ _.
  apply runs_book. intro Hb.
  eapply runs_bind; [apply (select_runs inode i d rdy b0 "uid" u (or_introl eq_refl))| |intros b' e (j & X & _); discriminate].
  cbn beta. intros b1 j0 (j & Ej & Fr & ->). injection Ej as ->. fold (sub "uid" u). assert (Nj : j <> i) by congruence.
  eapply runs_bind; [apply (rated_runs_at inode ords Po i d m0 m tu ti T Nm Tw Cm _ j u); apply note_same| |intros b' e (_ & l & X & _); discriminate].
  cbn beta. intros b2 vs (X2 & vs' & E & K). apply ok_same in E. subst vs'.
  eapply runs_bind.
  - apply (gives_map inode i d _ (item_score c nb u) cands). intros b3 k X3 _. pose proof (extends_trans _ _ _ X2 X3) as X23.
    unfold item_score. apply gives_bind; [apply gives_ret|]. intros b4 l X4 _. apply gives_bind.
    + apply gather_runs. intros b5 x X5. destruct (mem_b val_eqb (VInt x) (concat vs)) eqn:B; cbn [negb].
      * apply (sub_one_runs inode ords Po i d m0 m tu ti T Nm Tw Cm Nr). apply (ext_at b0). eapply extends_trans; [exact X23|]. eapply extends_trans; eauto.
      * rewrite unrated_first; [apply gives_ret|]. intro Y. apply K in Y. congruence.
    + intros b5 g _ _. apply gives_bind; [|intros; apply gives_ret]. apply conclude_runs. apply (default_runs inode ords Po i d m0 m tu ti T Nm Tw Cm). auto.
  - cbn beta. intros b3 ps (X3 & E3). rewrite <- E3. cbn [bind]. pose proof (extends_trans _ _ _ X2 X3) as X23.
    eapply runs_bind; [apply (close_runs inode i d b3 j (sub "uid" u) (ext_at _ _ _ _ X23) Nj)| |intros b' e (X & _); discriminate].
    cbn beta. intros b4 _u (_ & ->). apply runs_ret. split; [eapply ext_close; eauto|auto].
  - cbn beta. intros b3 e (X3 & E3). rewrite <- E3. cbn [bind]. split; [|auto]. eapply extends_trans; [apply ext_note; eauto|]. eapply extends_trans; eauto.
Qed.

(** ** UserKNN *)
Lemma perm_short {A} (l l' : list A) : Permutation l l' -> (length l' <= 1)%nat -> l = l'.
Proof.
  intros P L. destruct l' as [|a [|a' l']]; [|apply Permutation_sym, Permutation_length_1_inv in P; auto|cbn in L; lia].
  apply Permutation_sym, Permutation_nil in P. auto.
Qed.
Lemma all_obs_pairs es b k : map snd (filter (fun e => fst e =? k) (map (fun e => (t_i e, snd e)) (filter (is_u b) es))) = all_obs es b k.
Proof.
  unfold all_obs. induction es as [|[[u k'] x] es IH]; [auto|]. cbn [filter]. unfold is_u at 1, t_u. cbn [fst snd].
  destruct (u =? b); cbn [andb]; [|auto]. cbn [map filter]. change (t_i (u, k', x)) with k'. cbn [fst snd]. destruct (k' =? k); cbn [map snd]; congruence.
Qed.
Definition keeps (b0 b : book) (last : option nat) : Prop :=
  extends b0 b /\ match last with Some j => j <> i /\ b0 j = None /\ exists e, b j = Some e | None => True end.
Lemma drop_runs b0 b last : keeps b0 b last -> runs b (drop_last inode last) (fun b' r => r = Ok tt /\ extends b0 b' /\ match last with Some j => b' = note b j None | None => b' = b end).
Proof.
  intros [X K]. destruct last as [j|]; cbn [drop_last].
  - destruct K as (N & F & e & Hj). eapply runs_weaken; [apply (close_runs inode i d b j e Hj N)|]. cbn beta. intros b' r (-> & ->). split; [auto|].
    split; [|auto]. intros x Hx. rewrite note_other by congruence. apply X. exact Hx.
  - apply runs_ret. auto.
Qed.
Lemma info_runs cands l : forall b0 b t last, keeps b0 b last -> full t ->
  runs b (db_user_info inode ords i cands t last l) (fun b' r => exists info last', r = Ok (info, last') /\ keeps b0 b' last' /\ full info /\
    forall k, getl info k = getl t k ++ (if mem_b Z.eqb k cands
     then flat_map (fun p => map (fun x => (x, fst p)) (all_obs (obs m) (snd p) k)) l else [])).
Proof.
  induction l as [|[s a] l IH]; intros b0 b t last Kp F; cbn [db_user_info].
  - apply runs_ret. exists t, last. split; [auto|]. split; [auto|]. split; [auto|]. intro k. cbn. destruct (mem_b Z.eqb k cands); rewrite app_nil_r; reflexivity.
  - apply runs_book. intro Hb.
    eapply runs_bind; [apply (select_runs inode i d rdy b "uid" a (or_introl eq_refl))| |intros b' e (j & X & _); discriminate].
    cbn beta. intros b1 j0 (j & Ej & Fr & ->). injection Ej as ->. fold (sub "uid" a). assert (Nj : j <> i) by congruence.
    pose proof Kp as [X K].
    assert (Fr0 : b0 j = None). { destruct (b0 j) as [e|] eqn:E; [|auto]. assert (Y : b j = b0 j) by (apply X; congruence). congruence. }
    assert (K1 : keeps b0 (note b j (Some (sub "uid" a))) last).
    { split; [eapply extends_trans; [exact X|apply ext_note; exact Fr]|]. destruct last as [jl|]; [|auto]. destruct K as (N & F0 & e & Hj).
      split; [auto|]. split; [auto|]. exists e. rewrite note_other by congruence. exact Hj. }
    eapply runs_bind; [apply (drop_runs b0 _ last K1)| |intros b' e (Y & _); discriminate].
    cbn beta. intros b2 _u (_ & X2 & E2).
    assert (B2 : b2 j = Some (sub "uid" a)).
    { destruct last as [jl|]; subst b2; [|apply note_same]. destruct K as (_ & _ & e & Hj). rewrite note_other by congruence. apply note_same. }
    eapply runs_bind.
    + apply (each_runs inode ords Po i d b2 j (sub "uid" a) ["iid"; "interaction"]); [exact B2|apply (rd_complete _ (srdy "uid" a))| |].
      * intros x Hx. apply (rec_cols d m0 m tu ti T Nm Tw Cm). destruct Hx as [<-|[<-|[]]]; cbn; auto.
      * intros row Hr x Hx. apply (rec_full _ (srdy "uid" a) row Hr). destruct Hx as [<-|[<-|[]]]; cbn; auto.
    + cbn beta. intros b3 vs (X3 & rl & Pl & E). apply ok_same in E. subst vs.
      assert (Em : mapM KnnModel.pair_of (map (fun row => map (fun c => match tcell row c with Some v => v | None => VInt 0 end) ["iid"; "interaction"]) rl)
                   = Ok (map (fun row => (t_i (dtri row), snd (dtri row))) rl)).
      { rewrite mapM_map. apply mapM_all. intros row Hr. pose proof (Permutation_in _ Pl Hr) as Hr'. cbn [map].
        fold (sure "iid" row) (sure "interaction" row). rewrite (int_id "iid" _ row (srdy "uid" a) Hr' (or_intror eq_refl)).
        cbn [KnnModel.pair_of]. rewrite int_value_int. cbn [bind]. rewrite (read_num _ row (srdy "uid" a) Hr'). reflexivity. }
      rewrite Em. eapply runs_bind; [apply (runs_ret inode i d _ _ (fun b' r => b' = b3 /\ r = Ok (map (fun row => (t_i (dtri row), snd (dtri row))) rl))); auto| |intros b' e (_ & Y); discriminate].
      cbn beta. intros b4 rs (-> & E5). apply ok_same in E5. subst rs.
      destruct (fold_info_ok cands s (map (fun row => (t_i (dtri row), snd (dtri row))) rl) t F) as [F1 G1].
      assert (K3 : keeps b0 b3 (Some j)).
      { split; [eapply extends_trans; eauto|]. split; [auto|]. split; [auto|]. exists (sub "uid" a). rewrite X3; congruence. }
      eapply runs_weaken; [apply (IH b0 b3 _ (Some j) K3 F1)|]. cbn beta. intros b5 r (info & last' & -> & K5 & F5 & G5). exists info, last'.
      split; [auto|]. split; [auto|]. split; [auto|]. intro k. rewrite G5, G1, <- app_assoc. f_equal. destruct (mem_b Z.eqb k cands); [|auto].
      cbn [flat_map fst snd]. f_equal.
      assert (Ea : map snd (filter (fun e => fst e =? k) (map (fun row => (t_i (dtri row), snd (dtri row))) rl)) = all_obs (obs m) a k).
      { apply perm_short; [|rewrite all_obs_first by exact Nr; destruct (first_obs (obs m) a k); cbn; lia].
        rewrite <- all_obs_pairs. apply Permutation_map, filter_perm. rewrite <- (map_map dtri (fun e => (t_i e, snd e))). apply Permutation_map.
        eapply Permutation_trans; [apply Permutation_map, Pl|]. apply (sub_rows d m0 m tu ti T Nm Tw Cm "uid" a (or_introl eq_refl)). }
      rewrite <- Ea, map_map. reflexivity.
    + intros b' e (_ & l' & _ & Y). discriminate.
Qed.
Lemma conclude_some c df l : l <> [] -> conclude c df l = Ok (aggregate c l).
Proof. destruct l; [congruence|auto]. Qed.
Lemma user_rank_runs c nb u iids n nov b : gives b (db_user_rank inode ords c i nb u iids n nov) (user_rank c m nb u iids n nov).
Proof.
  unfold db_user_rank, user_rank. apply gives_bind; [apply (candidates_runs inode ords Po i d m0 m tu ti T Nm Tw Cm)|]. intros b0 cands _ _.
  apply gives_bind; [apply gives_ret|]. intros b1 l _ _.
  assert (F0 : full []) by (split; [constructor|intros ? ? []]).
  destruct (user_info_ok m0 m tu ti T Nm cands l [] F0) as (info & -> & Fi & Gi). cbn [bind].
  eapply runs_bind; [apply (info_runs cands l b1 b1 [] None); [split; [apply extends_refl|auto]|exact F0]| |intros b' e (? & ? & Y & _); discriminate].
  cbn beta. intros b2 p (info' & last & E & Kp & Fi' & Gi'). apply ok_same in E. subst p. cbn [fst snd].
  assert (Pi : Permutation info' info). { apply assoc_full_perm; [auto|auto|]. intro k. rewrite Gi, Gi'. auto. }
  assert (Ms : forall t, full t -> mapM (fun p => r <- conclude c (predict_default m "iid" (fst p)) (snd p) ;; Ok (r, fst p)) t = Ok (map (fun p => (aggregate c (snd p), fst p)) t)).
  { intros t [_ Ft]. apply mapM_all. intros [k g] Hp. cbn [fst snd]. rewrite conclude_some by (apply (Ft k g Hp)). reflexivity. }
  rewrite (Ms info Fi). cbn [bind].
  eapply runs_bind.
  - apply (gives_map inode i d _ (fun p => r <- conclude c (predict_default m "iid" (fst p)) (snd p) ;; Ok (r, fst p)) info').
    intros b3 q _ _. apply gives_bind; [|intros; apply gives_ret]. apply conclude_runs. apply (default_runs inode ords Po i d m0 m tu ti T Nm Tw Cm). auto.
  - cbn beta. intros b3 ps (X3 & E3). rewrite (Ms info' Fi') in E3. apply ok_same in E3. subst ps.
    assert (K3 : keeps b1 b3 last).
    { destruct Kp as [X K]. split; [eapply extends_trans; eauto|]. destruct last as [j|]; [|auto]. destruct K as (N & F & e & Hj).
      split; [auto|]. split; [auto|]. exists e. rewrite X3; congruence. }
    eapply runs_bind; [apply (drop_runs b1 b3 last K3)| |intros b' e (Y & _); discriminate].
    cbn beta. intros b4 _u (_ & X4 & _). apply runs_ret. split; [exact X4|]. f_equal. apply top_perm. unfold present. apply flat_map_perm, Permutation_map, Pi.
  - cbn beta. intros b3 e (_ & E3). rewrite (Ms info' Fi') in E3. discriminate.
Qed.
Lemma rank_runs c nb u iids n nov b : gives b (db_knn_rank inode ords c i nb u iids n nov) (knn_rank c m nb u iids n nov).
Proof. unfold db_knn_rank, knn_rank. destruct (kn_user c); [apply user_rank_runs|apply item_rank_runs]. Qed.
End Rec.

(** ** The public methods *)
Section Public.
Variable inode : string -> nat.
Variable ords : nat -> list trow -> list trow.
Hypothesis Po : forall k, permuting (ords k).
Variables (w0 : world) (b0 : book) (i : nat) (d0 : ds) (m0 : mem) (tu ti : dtype).
Hypothesis I0 : Inv inode w0 b0.
Hypothesis S0 : safe inode w0 b0 (OAssign i).
Hypothesis H0 : b0 i = Some d0.
Hypothesis Tw0 : twin d0 m0.
Hypothesis Tu : col_type m0 "user" = Ok tu.
Hypothesis Ti : col_type m0 "item" = Ok ti.
Local Notation d := (assigned d0).
Local Notation m := (MemFacts3.assigned m0).
Local Notation fine := (fine inode i d).
Local Notation runs := (runs inode i d).
Local Notation gives := (gives inode i d).

Lemma id_gives b (q : M (option value)) (o : option Z) : (forall w, fine w b -> q w = (w, Ok (option_map VInt o))) -> gives b (db_id q) (Ok o).
Proof.
  intros H [n w] F. cbn [snd] in F. exists (n, w), (Ok o), b. split; [|split; [exact F|split; [apply extends_refl|auto]]].
  unfold db_id, pbind, db. cbn [snd fst]. rewrite (H w F). unfold pret. destruct o; cbn [option_map]; [rewrite int_value_int|]; reflexivity.
Qed.
Lemma fine_inv w b : fine w b -> exists b', Inv inode w b' /\ b' i = Some d /\ at_rest w i.
Proof. intros ((b' & E & R) & Hb & C). exists b'. split; [eapply reaches_inv; eauto|]. split; [rewrite E; exact Hb|apply calm_rest, C]. Qed.
Lemma cols_ui : In "user" (m_columns m0) /\ In "item" (m_columns m0).
Proof.
  pose proof S0 as (_ & _ & d' & Hb0 & _ & Iui & _). rewrite H0 in Hb0. injection Hb0 as <-. rewrite (tw_cols _ _ Tw0) in Iui.
  split; apply Iui; cbn; auto.
Qed.
Lemma fits_same t v : type_of v = t -> fits_column t v.
Proof. destruct v; intros <-; cbn; eauto. Qed.
Lemma user_gives b v : raw_id m0 "user" v -> gives b (db_id (db_user_to_uid inode i v)) (user_to_uid m v).
Proof.
  intros (t & Ht & Nt & Tv). destruct cols_ui as [Iu _]. rewrite (user_to_uid_assigned m0 t v (tw_wf _ _ Tw0) Ht Nt Tv). apply id_gives. intros w F.
  destruct (fine_inv w b F) as (b' & Iv & Hb & Ar).
  destruct (lookups_at inode w0 b0 i d0 w b' "user" "uid" I0 S0 H0 Iv Hb Ar (or_introl (conj eq_refl eq_refl))) as (U1 & _).
  destruct (tw_types _ _ Tw0) as (ts & Ts & Ty). unfold db_user_to_uid. rewrite (U1 ts t v Ts (Ty _ _ Iu Ht) (fits_same _ _ Tv)).
  rewrite (lookup_raw d0 m0 Tw0 "user" v Iu ltac:(discriminate)). auto.
Qed.
Lemma item_gives b v : raw_id m0 "item" v -> gives b (db_id (db_item_to_iid inode i v)) (item_to_iid m v).
Proof.
  intros (t & Ht & Nt & Tv). destruct cols_ui as [_ Ii]. rewrite (item_to_iid_assigned m0 t v (tw_wf _ _ Tw0) Ht Nt Tv). apply id_gives. intros w F.
  destruct (fine_inv w b F) as (b' & Iv & Hb & Ar).
  destruct (lookups_at inode w0 b0 i d0 w b' "item" "iid" I0 S0 H0 Iv Hb Ar (or_intror (conj eq_refl eq_refl))) as (U1 & _).
  destruct (tw_types _ _ Tw0) as (ts & Ts & Ty). unfold db_item_to_iid. rewrite (U1 ts t v Ts (Ty _ _ Ii Ht) (fits_same _ _ Tv)).
  rewrite (lookup_raw d0 m0 Tw0 "item" v Ii ltac:(discriminate)). auto.
Qed.
Lemma back_gives b z : gives b (db (db_iid_to_item inode i z)) (iid_to_item m z).
Proof.
  destruct cols_ui as [_ Ii]. rewrite iid_to_item_assigned. intros [n w] F. cbn [snd] in F. eexists (n, w), _, b. split; [|split; [exact F|split; [apply extends_refl|reflexivity]]].
  unfold db. cbn [snd fst]. destruct (fine_inv w b F) as (b' & Iv & Hb & Ar).
  destruct (lookups_at inode w0 b0 i d0 w b' "item" "iid" I0 S0 H0 Iv Hb Ar (or_intror (conj eq_refl eq_refl))) as (_ & U2 & U3).
  destruct (lookup_id d0 m0 Tw0 "item" z Ii ltac:(discriminate)) as [(row & v & Hr & Ev & Rk & ->)|[H ->]].
  - subst z. unfold db_iid_to_item. rewrite (U2 row v Hr Ev). auto.
  - unfold db_iid_to_item. rewrite (U3 z H). auto.
Qed.

Lemma known_runs sk items : (forall v, In v items -> raw_id m0 "item" v) -> forall b, gives b (db_known_iids inode i sk items) (known_iids m sk items).
Proof.
  induction items as [|v items IH]; intros H b; cbn [db_known_iids known_iids]; [apply gives_ret|].
  apply gives_bind; [apply item_gives, H; left; auto|]. intros b1 [k|] _ _.
  - apply gives_bind; [apply IH; intros; apply H; right; auto|]. intros; apply gives_ret.
  - destruct sk; [apply IH; intros; apply H; right; auto|apply gives_ret].
Qed.
Lemma items_runs l b : gives b (db_with_items inode i l) (with_items m l).
Proof. unfold db_with_items, with_items. apply gives_map. intros b1 p _ _. apply gives_bind; [apply back_gives|]. intros; apply gives_ret. Qed.

Lemma predict_gives {A} (f : option Z -> option Z -> P (option A)) f' ft u it sk b : raw_id m0 "user" u -> raw_id m0 "item" it -> (forall b x y, gives b (f x y) (f' x y)) ->
  gives b (db_predict inode f ft i u it sk) (predict f' ft m u it sk).
Proof.
  intros Ru Ri Hf. unfold db_predict, predict. destruct ft; cbn [negb]; [|apply gives_ret].
  apply gives_bind. { destruct sk; [apply gives_ret|]. apply gives_bind; [apply user_gives, Ru|]. intros; apply gives_ret. } intros b1 _ _ _.
  apply gives_bind. { destruct sk; [apply gives_ret|]. apply gives_bind; [apply item_gives, Ri|]. intros; apply gives_ret. } intros b2 _ _ _.
  assert (G : gives b2 (pbind (db_id (db_user_to_uid inode i u)) (fun uid => pbind (db_id (db_item_to_iid inode i it)) (fun iid => pbind (f uid iid) (fun p => pret (match p with None => Err GenericException | Some x => Ok x end)))))
    (uid <- user_to_uid m u ;; iid <- item_to_iid m it ;; p <- f' uid iid ;; match p with None => Err GenericException | Some x => Ok x end)).
  { apply gives_bind; [apply user_gives, Ru|]. intros b3 uid _ _. apply gives_bind; [apply item_gives, Ri|]. intros b4 iid _ _.
    apply gives_bind; [apply Hf|]. intros; apply gives_ret. }
  intros s F. destruct (G s F) as (s' & r & b' & E & F' & X & Er). rewrite <- Er.
  destruct r as [x|e]; do 3 eexists; (split; [rewrite E; reflexivity|]); eauto.
Qed.
Lemma rank_gives impl impl' ft u items nov sk n b : raw_id m0 "user" u -> (forall v, In v items -> raw_id m0 "item" v) ->
  (forall b u iids n nov, gives b (impl u iids n nov) (impl' u iids n nov)) ->
  gives b (db_rank inode impl ft i u items nov sk n) (RankModel.rank impl' ft m u items nov sk n).
Proof.
  intros Ru Ri Hf. unfold db_rank, RankModel.rank. destruct ft; cbn [negb]; [|apply gives_ret].
  apply gives_bind; [apply user_gives, Ru|]. intros b1 [uid|] _ Eu; [|apply gives_ret].
  pose proof (user_gives b1 u Ru) as G. rewrite Eu in G.
  eapply (gives_then inode i d b1 _ _ (fun r => r = Ok (Some uid)) _ G); [intros e Y; discriminate|].
  intros b2 o _ E. injection E as ->. apply gives_bind; [apply known_runs, Ri|]. intros b3 iids _ _.
  destruct (negb _); [apply gives_ret|]. apply gives_bind; [apply Hf|]. intros b4 l _ _. apply items_runs.
Qed.
Lemma recommend_gives impl impl' ft ni u n nov th b : raw_id m0 "user" u ->
  (forall b u iids n nov, gives b (impl u iids n nov) (impl' u iids n nov)) ->
  gives b (db_recommend inode impl ft i ni u n nov th) (recommend impl' ft m ni u n nov th).
Proof.
  intros Ru Hf. unfold db_recommend, recommend, recommend_int. destruct ft; cbn [negb]; [|apply gives_ret].
  apply gives_bind; [apply user_gives, Ru|]. intros b1 [uid|] _ Eu; [|apply gives_ret].
  pose proof (user_gives b1 u Ru) as G. rewrite Eu in G.
  eapply (gives_then inode i d b1 _ _ (fun r => r = Ok (Some uid)) _ G); [intros e Y; discriminate|].
  intros b2 o _ E. injection E as ->.
  assert (E : forall r : res (list scored), (l <- (l <- r ;; Ok (match th with None => l | Some t => filter (fun x => negb (Qcltb (fst x) t)) l end)) ;; with_items m l) =
    (l <- r ;; with_items m (match th with None => l | Some t => filter (fun x => negb (Qcltb (fst x) t)) l end))) by (intros [l|e]; reflexivity).
  cbv zeta. rewrite E. apply gives_bind; [apply Hf|]. intros b3 l _ _. apply items_runs.
Qed.
End Public.
