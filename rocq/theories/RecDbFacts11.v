(** Programs on databases whose data sets all had at most 5000 rows: they stay so. *)
From Coq Require Import String Ascii.
From Coq Require Import List ZArith QArith Qcanon Bool Permutation Lia.
From Verif Require Import Py PyFacts MemModel MemSpec RankModel KnnModel FitModel EvalModel DbModel DbFacts DbSpec DbFacts2 DbFacts3 DbFacts4 DbFacts5
  RecDbModel RecDbModel2 RecDbModel3 RecDbModel5 RecDbSpec RecDbSpec2 RecDbSpec3 RecDbSpec5.
Import ListNotations.
Open Scope string_scope.
Open Scope Z_scope.
Open Scope list_scope.

(** ** Calls *)
Definition keeps {A} (m : M A) : Prop := forall w w' r, small_world w -> m w = (w', r) -> small_world w'.
Lemma keeps_bind {A B} (m : M A) (f : A -> M B) : keeps m -> (forall a, keeps (f a)) -> keeps (andthen m f).
Proof.
  intros Hm Hf w w' r S E. unfold andthen in E. destruct (m w) as [w1 [a|e]] eqn:E1.
  - eapply Hf; [eapply Hm; eauto|eauto].
  - injection E as <- _. eapply Hm; eauto.
Qed.
Lemma keeps_self {B} i (f : inst -> M B) : (forall x, (i_before x <= 5000)%nat -> keeps (f x)) -> keeps (andthen (self i) f).
Proof.
  intros Hf w w' r S E. destruct (w_inst w i) as [x|] eqn:H.
  - rewrite (andthen_ok _ _ _ _ _ (self_ok i w x H)) in E. eapply Hf; [exact (S i x H)|exact S|exact E].
  - unfold andthen, self in E. rewrite H in E. injection E as <- _. exact S.
Qed.
Lemma keeps_put i x : (i_before x <= 5000)%nat -> keeps (put i x).
Proof.
  intros L w w' r S E. injection E as <- _. intros n y. cbn [w_inst set_insts]. unfold upd_nat. destruct (Nat.eqb n i); [|apply S].
  intro X. injection X as <-. exact L.
Qed.
Lemma keeps_same {A} (m : M A) : (forall w w' r, m w = (w', r) -> w_inst w' = w_inst w) -> keeps m.
Proof. intros H w w' r S E n x. rewrite (H _ _ _ E). apply S. Qed.
Lemma keeps_lift {A} (r : res A) : keeps (lift r).
Proof. apply keeps_same. intros w w' r' E. injection E as <- _. auto. Qed.
Lemma keeps_read {A} (f : world -> res A) : keeps (fun w => (w, f w)).
Proof. apply keeps_same. intros w w' r' E. injection E as <- _. auto. Qed.
Lemma keeps_modify f : (forall w, w_inst (f w) = w_inst w) -> keeps (modify f).
Proof. intro H. apply keeps_same. intros w w' r' E. injection E as <- _. auto. Qed.
Lemma keeps_ret {A} (a : A) : keeps (ret a).
Proof. apply keeps_same. intros w w' r' E. injection E as <- _. auto. Qed.
Lemma keeps_raise {A} e : keeps (@raise A e).
Proof. apply keeps_same. intros w w' r' E. injection E as <- _. auto. Qed.
Lemma keeps_fresh : keeps fresh_name.
Proof. apply keeps_same. intros w w' r' E. injection E as <- _. auto. Qed.
Lemma keeps_self1 i : keeps (self i).
Proof. apply keeps_same. unfold self. intros w w' r' E. destruct (w_inst w i); injection E as <- _; auto. Qed.

Section Calls.
Variable inode : string -> nat.
Lemma keeps_query x s : keeps (query inode x s).
Proof. apply keeps_same. unfold query. intros w w' r' E. injection E as <- _; auto. Qed.
Lemma keeps_move i x name tb : (i_before x <= 5000)%nat -> keeps (move_to inode i x name tb).
Proof.
  intro L. unfold move_to. apply keeps_bind; [apply keeps_modify; auto|intros _]. apply keeps_bind; [apply keeps_read|intro l].
  apply keeps_bind; [apply keeps_modify; auto|intros _]. apply keeps_put. exact L.
Qed.
Ltac kp := repeat first
  [simple apply keeps_self; let x := fresh "x" in let L := fresh "L" in intros x L; cbv zeta
  |simple apply keeps_bind; [|let a := fresh "a" in intro a; cbv zeta]
  |simple apply keeps_ret|simple apply keeps_lift|simple apply keeps_raise|simple apply keeps_query|simple apply keeps_fresh|simple apply keeps_read
  |simple apply keeps_put; cbn; (assumption || lia)|simple apply keeps_self1
  |match goal with |- keeps (if ?b then _ else _) => destruct b end
  |match goal with |- keeps (match ?b with _ => _ end) => destruct b end].
Lemma keeps_optimize i b : keeps (optimize inode i b).
Proof.
  unfold optimize. apply keeps_self. intros x L. cbv zeta. set (y := set_counts x (i_n x) (i_before x) 0 0).
  assert (Ly : (i_before y <= 5000)%nat) by exact L.
  apply keeps_bind; [apply keeps_put; exact Ly|intros _]. apply keeps_bind; [apply keeps_read|intro n].
  assert (G : forall st, keeps (if Nat.ltb 0 n then ret tt else
      (users <~ (fun w0 : world => (w0, match w_tabs w0 (i_path y) (i_table y) with Some l => Ok l | None => Err KeyError end));;
      (if Nat.eqb (length users) 1
      then _ <~ match st with
           | Some q => keep <~ query inode y (SSub ["rid"] (src_of q) []);;
               (let rids := map rid_of (snd keep) in
                modify (fun w0 => match tables inode w0 (i_path y) (i_table y) with
                  | Some tb => set_tables inode w0 (i_path y) (upd_str (tables inode w0 (i_path y)) (i_table y)
                       (Some (mkTable (tb_types tb) (filter (fun r0 => mem_b Z.eqb (rid_of r0) rids) (tb_rows tb)))))
                  | None => w0 end))
           | None => ret tt end;; put i (set_state y None)
      else name <~ fresh_name;; (types <~ lift (build_types y);;
           (rows <~ query inode y (SSub (i_cols y) (curr_source y) []);; (tb <~ lift (fill types (snd rows));; move_to inode i y name tb))))))).
  { intro st. destruct (Nat.ltb 0 n); [apply keeps_ret|]. apply keeps_bind; [apply keeps_read|]. intro users.
    destruct (Nat.eqb (length users) 1).
    - apply keeps_bind; [|intros _; apply keeps_put; exact Ly]. destruct st; [|apply keeps_ret].
      apply keeps_bind; [apply keeps_query|]. intro keep. cbv zeta. apply keeps_modify. intro w0. destruct (tables inode w0 _ _); auto.
    - apply keeps_bind; [apply keeps_fresh|]. intro name. apply keeps_bind; [apply keeps_lift|]. intro types.
      apply keeps_bind; [apply keeps_query|]. intro rows. apply keeps_bind; [apply keeps_lift|]. intro tb. apply keeps_move. exact Ly. }
  destruct (i_state y) as [q|]; [exact (G (Some q))|]. destruct b; [apply keeps_ret|exact (G None)].
Qed.
Lemma keeps_record i : keeps (record_interaction inode i).
Proof. unfold record_interaction. kp. apply keeps_optimize. Qed.
Lemma keeps_update i q : keeps (update_state inode i q).
Proof.
  unfold update_state. apply keeps_self. intros x L. cbv zeta. apply keeps_bind; [apply keeps_put; exact L|intros _].
  apply keeps_bind; [apply keeps_query|]. intro r. cbv zeta. apply keeps_bind; [apply keeps_put; exact L|intros _].
  apply keeps_bind; [apply keeps_read|intro n]. cbn [i_before set_state set_counts i_queries].
  replace (worth_it (length (snd r)) (i_before x) (S (i_queries x)) n) with false; [apply keeps_ret|].
  symmetry. unfold worth_it. apply andb_false_iff. left. destruct (length (snd r)) as [|k] eqn:E.
  - rewrite andb_false_iff. left. rewrite andb_false_iff. left. rewrite andb_false_iff. left. rewrite andb_false_iff. right. reflexivity.
  - rewrite andb_false_iff. right. apply Z.leb_gt. lia.
Qed.
Lemma keeps_register x : (i_before x <= 5000)%nat -> keeps (register x).
Proof.
  intros L w w' r S E. injection E as <- _. intros n y. cbn [w_inst set_insts set_dbs set_tabs set_next]. unfold upd_nat.
  destruct (Nat.eqb n _); [|apply S]. intro X. injection X as <-. exact L.
Qed.
Lemma keeps_copy i : keeps (copy inode i).
Proof.
  unfold copy. apply keeps_self. intros x L. apply keeps_bind; [|intros _; apply keeps_register; exact L].
  unfold open_db. apply keeps_bind; [|intros _; kp]. apply keeps_same. unfold file_exists. intros w w' r E. destruct (w_file w _); injection E as <- _; auto.
Qed.
Lemma keeps_target i cp : keeps (target inode i cp).
Proof. destruct cp; [apply keeps_copy|apply keeps_ret]. Qed.
Lemma keeps_touched i cp : keeps (touched inode i cp).
Proof. destruct cp; [apply keeps_record|apply keeps_ret]. Qed.
Lemma keeps_select i q cp : keeps (select inode i q cp).
Proof.
  unfold select. apply keeps_bind; [apply keeps_target|intro j]. apply keeps_bind; [apply keeps_touched|intros _]. kp. apply keeps_update.
Qed.
Lemma keeps_unique i cs cp : keeps (unique inode i cs cp).
Proof.
  unfold unique. apply keeps_self. intros x L. apply keeps_bind; [apply keeps_lift|intro c]. apply keeps_bind; [apply keeps_target|intro j].
  apply keeps_self. intros y Ly. apply keeps_bind; [apply keeps_put; exact Ly|intros _]. apply keeps_bind; [apply keeps_touched|intros _].
  apply keeps_self. intros z Lz. cbv zeta. apply keeps_bind; [apply keeps_put; exact Lz|intros _]. apply keeps_bind; [apply keeps_update|intros _]. apply keeps_ret.
Qed.
Lemma keeps_values ord i cs lo : keeps (values inode ord i cs lo).
Proof.
  unfold values. apply keeps_bind; [apply keeps_record|intros _]. apply keeps_self. intros x L. apply keeps_bind; [apply keeps_lift|intro c].
  apply keeps_bind; [unfold state_rows; kp|intro rows]. apply keeps_bind; [apply keeps_modify; intro w; destruct lo; auto|intros _]. apply keeps_lift.
Qed.
Lemma keeps_one ord i q cs : keeps (select_one inode ord i q cs).
Proof. unfold select_one. apply keeps_bind; [apply keeps_record|intros _]. kp. Qed.
Lemma keeps_len i : keeps (ds_len i).
Proof. unfold ds_len. kp. Qed.
Lemma keeps_count i cs : keeps (count_unique inode i cs).
Proof. unfold count_unique. apply keeps_bind; [apply keeps_record|intros _]. kp. Qed.
Lemma keeps_extremum f i c : keeps (extremum inode f i c).
Proof. unfold extremum. apply keeps_bind; [apply keeps_record|intros _]. kp. Qed.
Lemma keeps_lookup x k o v : keeps (lookup inode x k o v).
Proof. unfold lookup. kp. Qed.
Lemma keeps_raw raw id i v : keeps (raw_to_id inode raw id i v).
Proof. unfold raw_to_id. apply keeps_self. intros x L. destruct (negb _); [apply keeps_raise|]. apply keeps_bind; [apply keeps_lift|intro k; apply keeps_lookup]. Qed.
Lemma keeps_back raw id i z : keeps (id_to_raw inode raw id i z).
Proof. unfold id_to_raw. apply keeps_self. intros x L. destruct (negb _); [apply keeps_raise|apply keeps_lookup]. Qed.
Lemma keeps_generator : keeps close_generator.
Proof. apply keeps_modify. auto. Qed.
Lemma keeps_close i : keeps (close inode i).
Proof.
  unfold close. apply keeps_self. intros x L. unfold close_obj. cbv zeta. apply keeps_bind; [|intros _; apply keeps_bind; [|intros _]].
  - apply keeps_same. intros w w' r E. destruct (w_tabs w _ _) as [l|]; [|injection E as <- _; auto]. destruct (negb _); [injection E as <- _; auto|].
    destruct (set_remove i l); [|injection E as <- _; auto]. destruct (Nat.eqb _ 0); [|injection E as <- _; auto]. destruct (tables inode w _ _); injection E as <- _; auto.
  - apply keeps_same. intros w w' r E. destruct (w_dbs w _) as [l|]; [|injection E as <- _; auto]. destruct (negb _); [injection E as <- _; auto|].
    destruct (set_remove i l); [|injection E as <- _; auto]. destruct (is_temp _); [|injection E as <- _; auto]. destruct (w_file w _); injection E as <- _; auto.
  - intros w w' r S E. injection E as <- _. intros n y. cbn [w_inst set_insts]. unfold upd_nat. destruct (Nat.eqb n i); [discriminate|apply S].
Qed.
Lemma keeps_assign_one raw id i : keeps (assign_one inode raw id i).
Proof.
  unfold assign_one. apply keeps_self. intros x L. cbv zeta. apply keeps_bind; [apply keeps_put; exact L|intros _].
  destruct (i_types _); [|apply keeps_raise]. apply keeps_bind; [apply keeps_put; exact L|intros _]. apply keeps_bind; [apply keeps_query|intros _].
  apply keeps_modify. intro w0. destruct (tables inode w0 _ _); auto.
Qed.
Lemma keeps_assign i : keeps (assign_ids inode i).
Proof.
  unfold assign_ids. apply keeps_bind; [apply keeps_optimize|intros _]. apply keeps_bind; [apply keeps_assign_one|intros _].
  apply keeps_bind; [apply keeps_assign_one|intros _]. kp.
Qed.
End Calls.

(** ** Programs *)
Definition pkeeps {A} (p : P A) : Prop := forall s, small_world (snd s) -> small_world (snd (fst (p s))).
Lemma pkeeps_ret {A} (r : res A) : pkeeps (pret r).
Proof. intros s S. exact S. Qed.
Lemma pkeeps_bind {A B} (p : P A) (f : A -> P B) : pkeeps p -> (forall a, pkeeps (f a)) -> pkeeps (pbind p f).
Proof. intros Hp Hf s S. specialize (Hp s S). unfold pbind. destruct (p s) as [s1 [a|e]]; [apply Hf; exact Hp|exact Hp]. Qed.
Lemma pkeeps_db {A} (m : M A) : keeps m -> pkeeps (db m).
Proof. intros K s S. unfold db. destruct (m (snd s)) as [w r] eqn:E. exact (K _ _ _ S E). Qed.
Lemma pkeeps_dbo {A} ords (m : (list trow -> list trow) -> M A) : (forall ord, keeps (m ord)) -> pkeeps (dbo ords m).
Proof. intros K s S. unfold dbo. destruct (m _ (snd s)) as [w r] eqn:E. exact (K _ _ _ _ S E). Qed.
Lemma pkeeps_map {A B} (f : A -> P B) l : (forall a, pkeeps (f a)) -> pkeeps (pmap f l).
Proof. intro H. induction l as [|a l IH]; cbn [pmap]; [apply pkeeps_ret|]. apply pkeeps_bind; [auto|intro]. apply pkeeps_bind; [auto|intro; apply pkeeps_ret]. Qed.

Section Programs.
Variable inode : string -> nat.
Variable ords : nat -> list trow -> list trow.
Lemma pkeeps_values i cs : pkeeps (db_values inode ords i cs).
Proof. apply pkeeps_bind; [apply pkeeps_dbo; intro; apply keeps_values|intro; apply pkeeps_ret]. Qed.
Lemma pkeeps_each i cs : pkeeps (db_each inode ords i cs).
Proof. apply pkeeps_bind; [apply pkeeps_dbo; intro; apply keeps_values|intro]. apply pkeeps_bind; [apply pkeeps_db, keeps_generator|intro; apply pkeeps_ret]. Qed.
Lemma pkeeps_one i q cs : pkeeps (db_one inode ords i q cs).
Proof. apply pkeeps_bind; [apply pkeeps_dbo; intro; apply keeps_one|intro; apply pkeeps_ret]. Qed.
Lemma pkeeps_id m : keeps m -> pkeeps (db_id m).
Proof. intro K. apply pkeeps_bind; [apply pkeeps_db; exact K|intro; apply pkeeps_ret]. Qed.
Ltac pk := repeat first
  [simple apply pkeeps_ret|simple apply pkeeps_values|simple apply pkeeps_each|simple apply pkeeps_one
  |simple apply pkeeps_id; first [apply keeps_raw|apply keeps_back]
  |simple apply pkeeps_db; first [simple apply keeps_select|simple apply keeps_unique|simple apply keeps_close|simple apply keeps_len|simple apply keeps_count|apply keeps_extremum|apply keeps_raw|apply keeps_back
                          |simple apply keeps_generator|simple apply keeps_assign|simple apply keeps_self1]
  |simple apply pkeeps_dbo; intro; first [simple apply keeps_one|simple apply keeps_values]
  |simple apply pkeeps_map; intro
  |simple apply pkeeps_bind; [|let a := fresh "a" in intro a; cbv zeta]
  |match goal with |- pkeeps (if ?b then _ else _) => destruct b end
  |match goal with |- pkeeps (match ?b with _ => _ end) => destruct b end].
Lemma pkeeps_begin i c : pkeeps (db_begin_fit inode i c).
Proof. unfold db_begin_fit, db_statistics, db_min, db_max. pk. Qed.
Lemma pkeeps_knn_fit c simf f i st : pkeeps (db_knn_fit inode ords c simf f i st).
Proof. unfold db_knn_fit, db_entries. pk. Qed.
Lemma pkeeps_default i col k : pkeeps (db_predict_default inode ords i col k).
Proof. unfold db_predict_default. pk. Qed.
Lemma pkeeps_gather get l : (forall z, pkeeps (get z)) -> pkeeps (db_gather get l).
Proof. intro H. unfold db_gather. pk. apply H. Qed.
Lemma pkeeps_conclude c p l : pkeeps p -> pkeeps (db_conclude c p l).
Proof. intro H. unfold db_conclude. pk; exact H. Qed.
Lemma pkeeps_candidates i uid iids nov : pkeeps (db_candidates inode ords i uid iids nov).
Proof. unfold db_candidates, db_rated_iids. pk. Qed.
Definition ikeeps (impl : db_rank_impl) : Prop := forall uid iids n nov, pkeeps (impl uid iids n nov).
Lemma ikeeps_item c i t : ikeeps (db_item_rank inode ords c i t).
Proof.
  intros uid iids n nov. unfold db_item_rank. apply pkeeps_bind; [apply pkeeps_candidates|intro cands]. apply pkeeps_bind; [pk|intro j]. apply pkeeps_bind; [pk|intro vs].
  apply pkeeps_bind; [|intro; pk]. apply pkeeps_map. intro it. apply pkeeps_bind; [pk|intro l]. apply pkeeps_bind; [apply pkeeps_gather; intro; pk|intro g].
  apply pkeeps_bind; [apply pkeeps_conclude, pkeeps_default|intro; pk].
Qed.
Lemma pkeeps_info i cands l : forall t last, pkeeps (db_user_info inode ords i cands t last l).
Proof. induction l as [|[s b] l IH]; intros t last; cbn [db_user_info]; [pk|]. unfold drop_last. pk; apply IH. Qed.
Lemma ikeeps_user c i t : ikeeps (db_user_rank inode ords c i t).
Proof.
  intros uid iids n nov. unfold db_user_rank. apply pkeeps_bind; [apply pkeeps_candidates|intro cands]. apply pkeeps_bind; [pk|intro l].
  apply pkeeps_bind; [apply pkeeps_info|intro info]. apply pkeeps_bind; [|intro ps; unfold drop_last; pk].
  apply pkeeps_map. intro p. apply pkeeps_bind; [apply pkeeps_conclude, pkeeps_default|intro; pk].
Qed.
Lemma ikeeps_knn c i t : ikeeps (db_knn_rank inode ords c i t).
Proof. unfold db_knn_rank. destruct (kn_user c); [apply ikeeps_user|apply ikeeps_item]. Qed.
Lemma pkeeps_compute id other i k : pkeeps (db_compute inode ords id other i k).
Proof. unfold db_compute, db_max. pk. Qed.
Lemma pkeeps_known raw id i k : pkeeps (db_known (id_to_raw inode raw id i) i k).
Proof. unfold db_known. pk. Qed.
Lemma pkeeps_read lu li i v c : pkeeps (db_read inode ords lu li i v c).
Proof.
  destruct v; cbn [db_read]; unfold db_user_cached, db_item_cached; (apply pkeeps_bind; [apply pkeeps_known|intros _]); unfold db_cached;
    (apply pkeeps_bind; [|intro; pk]); (destruct (assoc _ _ _); [pk|]); (apply pkeeps_bind; [apply pkeeps_compute|intro; pk]).
Qed.
Lemma pkeeps_reads lu li i l : forall c, pkeeps (db_reads inode ords lu li i l c).
Proof.
  induction l as [|v l IH]; intro c; cbn [db_reads]; [pk|]. intros s S. pose proof (pkeeps_read lu li i v c s S) as S1.
  destruct (db_read inode ords lu li i v c s) as [s1 r]. cbn [fst] in S1. destruct r as [[vec c1]|e]; (apply pkeeps_bind; [apply IH|intro; pk|exact S1]).
Qed.
Lemma pkeeps_vec i uid : pkeeps (db_user_vector inode ords i uid).
Proof. unfold db_user_vector. apply pkeeps_bind; [apply pkeeps_known|intros _; apply pkeeps_compute]. Qed.
Lemma ikeeps_net k i n : ikeeps (db_net_rank inode ords k i n).
Proof.
  destruct k as [net|th net]; intros uid iids m nov; cbn [db_net_rank].
  - unfold db_rank_abc, db_rated_iids. apply pkeeps_bind; [pk|intro l]. apply pkeeps_bind; [|intro; pk]. apply pkeeps_map. intro it. apply pkeeps_bind; [|intro; pk].
    cbn [db_dmf_predict]. apply pkeeps_bind; [apply pkeeps_vec|intro]. apply pkeeps_bind; [|intro; pk]. unfold db_item_vector. apply pkeeps_bind; [apply pkeeps_known|intros _; apply pkeeps_compute].
  - unfold db_rank_cdae, db_cdae_vec. apply pkeeps_bind; [apply pkeeps_bind; [apply pkeeps_vec|intro; pk]|intro v]. unfold db_cdae_candidates. pk.
Qed.
Lemma ikeeps_caser c i n : ikeeps (db_rank_caser inode ords c i n).
Proof. intros uid iids m nov. unfold db_rank_caser, db_history. pk. Qed.
Lemma pkeeps_known_iids i sk items : pkeeps (db_known_iids inode i sk items).
Proof. induction items as [|v items IH]; cbn [db_known_iids]; pk; exact IH. Qed.
Lemma pkeeps_rank impl f i u items nov sk n : ikeeps impl -> pkeeps (db_rank inode impl f i u items nov sk n).
Proof.
  intro H. unfold db_rank. destruct (negb f); [pk|]. apply pkeeps_bind; [pk|intro o]. destruct o; [|pk]. apply pkeeps_bind; [pk|intro o]. destruct o; [|pk].
  apply pkeeps_bind; [apply pkeeps_known_iids|intro iids]. cbv zeta. destruct (negb _); [pk|]. apply pkeeps_bind; [apply H|intro l]. unfold db_with_items. pk.
Qed.
Lemma pkeeps_recommend impl f i ni u n nov th : ikeeps impl -> pkeeps (db_recommend inode impl f i ni u n nov th).
Proof.
  intro H. unfold db_recommend. destruct (negb f); [pk|]. apply pkeeps_bind; [pk|intro o]. destruct o; [|pk]. cbv zeta. apply pkeeps_bind; [pk|intro o]. destruct o; [|pk].
  apply pkeeps_bind; [apply H|intro l]. unfold db_with_items. pk.
Qed.
Lemma pkeeps_fit lu li L i : pkeeps (db_fit inode ords lu li L i).
Proof.
  unfold db_fit. apply pkeeps_bind; [apply pkeeps_begin|intro f]. destruct L.
  - apply pkeeps_bind; [apply pkeeps_knn_fit|intro; pk].
  - apply pkeeps_bind; [apply pkeeps_reads|intro; pk].
  - pk.
Qed.
(** what the processes do *)
Lemma pkeeps_pairs j : pkeeps (db_pairs inode ords j).
Proof. unfold db_pairs. pk. Qed.
Lemma pkeeps_items j : pkeeps (db_items inode ords j).
Proof. unfold db_items. pk. Qed.
Lemma pkeeps_relevancy j v : pkeeps (db_relevancy inode ords j v).
Proof. unfold db_relevancy. pk. Qed.
Lemma pkeeps_distinct j : pkeeps (db_distinct inode ords j).
Proof. unfold db_distinct, db_items. pk. Qed.
Lemma pkeeps_users j n : pkeeps (db_test_users inode ords j n).
Proof. unfold db_test_users. pk. Qed.
Lemma pkeeps_select j q : pkeeps (db (select inode j q true)).
Proof. pk. Qed.
Lemma pkeeps_len j : pkeeps (db (ds_len j)).
Proof. pk. Qed.
Lemma pkeeps_close j : pkeeps (db (close inode j)).
Proof. pk. Qed.
Lemma pkeeps_generator : pkeeps (db close_generator).
Proof. pk. Qed.
Lemma pkeeps_dm_rank impl i n u items nov : ikeeps impl -> pkeeps (dm_rank (db_recommender inode impl i n) u items nov).
Proof. intro H. cbn [dm_rank db_recommender]. apply pkeeps_bind; [apply pkeeps_rank; exact H|intro; pk]. Qed.
Lemma pkeeps_dm_recommend impl i n u k nov th : ikeeps impl -> pkeeps (dm_recommend (db_recommender inode impl i n) u k nov th).
Proof. intro H. cbn [dm_recommend db_recommender]. apply pkeeps_bind; [apply pkeeps_recommend; exact H|intro; pk]. Qed.
End Programs.
