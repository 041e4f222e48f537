(** The evaluation processes on data sets in a database: all tasks together, and
    fitting the recommender first. *)
From Coq Require Import String Ascii.
From Coq Require Import List ZArith QArith Qcanon Reals Bool Permutation Lia FunctionalExtensionality.
From Verif Require Import Py PyFacts MemModel MemSpec MemFacts MemFacts2 RankModel RankSpec KnnModel KnnSpec FitModel SampModel MetricModel EvalModel EvalSpec EvalFacts2 EvalFacts3 EvalFacts5 DbModel DbFacts DbSpec
  DbFacts2 DbFacts3 DbFacts4 DbFacts7 DbFacts13 DbGenModel DbGenSpec DbGenFacts DbGenFacts2
  DbSplitSpec TwinSpec TwinFacts TwinFacts5 TwinFacts6 RecDbModel RecDbModel2 RecDbModel3 RecDbModel5 RecDbSpec RecDbSpec2 RecDbSpec3 RecDbSpec4 RecDbFacts RecDbFacts2 RecDbFacts4 RecDbFacts5 RecDbFacts6
  RecDbFacts8 RecDbFacts9 RecDbFacts10 RecDbSpec5 RecDbFacts11 RecDbFacts12 RecDbFacts13 RecDbFacts14.
From Verif Require Import DbSplitFacts DbSplitFacts2 DbSplitFacts3 DbSplitFacts6.
From Verif Require RankFacts RecDbFacts7.
Import ListNotations.
Open Scope string_scope.
Open Scope Z_scope.
Open Scope list_scope.

(** ** The metric part *)
Definition same_res (c c' : res (option case)) : Prop := same_verdict (Some c) (Some c').
Lemma same_add ms ks c c' s : Forall blind_metric ms -> same_case c c' -> add_case ms ks c s = add_case ms ks c' s.
Proof.
  intros B S. unfold add_case. assert (G : Forall (fun p => blind_metric (fst p)) (grid ms ks)).
  { unfold grid. induction B as [|x ms Hx _ IH]; [constructor|]. cbn [flat_map]. apply Forall_app. split; [|exact IH]. apply Forall_forall. intros p Hp. apply in_map_iff in Hp. destruct Hp as (k & <- & _). exact Hx. }
  revert s. induction G as [|p l Hp _ IH]; intro s; [auto|]. cbn [fold_left].
  assert (E : add1 c s p = add1 c' s p) by (unfold add1; rewrite (Hp c c' (snd p) S); reflexivity). rewrite E. apply IH.
Qed.
Lemma same_block ms ks c c' : Forall blind_metric ms -> same_case c c' -> case_block ms ks c = case_block ms ks c'.
Proof.
  intros B S. unfold case_block. do 2 f_equal. apply functional_extensionality. intro v. unfold on_sums. destruct v; [|auto]. rewrite (same_add ms ks c c'); auto.
Qed.
Definition int_res (x : res (option case)) : Prop := forall c, x = Ok (Some c) -> ints c.
Lemma same_ints (cs cs' : list (res (option case))) : Forall int_res cs -> Forall2 same_res cs cs' -> cs = cs'.
Proof.
  intros I F. induction F as [|c c' cs cs' H _ IH]; [auto|]. inversion I as [|? ? Ic Ics]; subst. rewrite IH by exact Ics. f_equal.
  unfold same_res, same_verdict in H. destruct c as [[c|]|e], c' as [[c'|]|e']; try contradiction; [|auto|congruence].
  destruct H as [H I']. rewrite (ints_same c c' H (Ic c eq_refl) I'). auto.
Qed.
Lemma same_rank_tasks ms ks cs cs' : Forall blind_metric ms \/ Forall int_res cs -> Forall2 same_res cs cs' -> map (rank_task ms ks) cs = map (rank_task ms ks) cs'.
Proof.
  intros [B|I] F; [|rewrite (same_ints cs cs' I F); reflexivity]. induction F as [|c c' cs cs' H _ IH]; [auto|]. cbn [map]. rewrite IH. f_equal.
  unfold same_res, same_verdict in H. destruct c as [[c|]|e], c' as [[c'|]|e']; try contradiction; cbn [rank_task]; auto. rewrite (same_block ms ks c c'); [auto|auto|apply H].
Qed.
Lemma same_rec_tasks ms ks cs cs' : Forall blind_metric ms \/ Forall int_res cs -> Forall2 same_res cs cs' -> map (rec_task ms ks) cs = map (rec_task ms ks) cs'.
Proof.
  intros [B|I] F; [|rewrite (same_ints cs cs' I F); reflexivity]. induction F as [|c c' cs cs' H _ IH]; [auto|]. cbn [map]. rewrite IH. f_equal.
  unfold same_res, same_verdict in H. destruct c as [[c|]|e], c' as [[c'|]|e']; try contradiction; cbn [rec_task]; auto. rewrite (same_block ms ks c c'); [auto|auto|apply H].
Qed.

Lemma verdicts_same (l : list verdict) xs : Forall2 same_verdict l xs ->
  match all_some l with None => all_some xs = None | Some cs => exists cs', all_some xs = Some cs' /\ Forall2 same_res cs cs' end.
Proof.
  intro F. induction F as [|v x l xs H _ IH]; cbn [all_some]; [exists []; split; [auto|constructor]|].
  destruct v as [c|], x as [c'|]; cbn [same_verdict] in H; try contradiction.
  - destruct (all_some l) as [cs|].
    + destruct IH as (cs' & -> & F). exists (c' :: cs'). split; [auto|]. constructor; auto.
    + rewrite IH. auto.
  - destruct c as [[|]|]; contradiction.
  - auto.
Qed.

Definition same_cases (mem : option (list (res (option case)))) (x : option (res (list (res (option case))))) : Prop :=
  match mem with None => x = None | Some cs => exists cs', x = Some (Ok cs') /\ Forall2 same_res cs cs' end.

Section Process.
Variable inode : string -> nat.
Variable ords : nat -> list trow -> list trow.
Hypothesis Po : forall k, permuting (ords k).
Hypothesis So : forall k, sorting (ords k).
Variables (i : nat) (d : ds).
Local Notation fine := (fine inode i d).
Variables (s : nat * world) (b : book) (j : nat) (dt : ds) (mt : mem).
Hypothesis F : fine (snd s) b.
Hypothesis Sm : small_world (snd s).
Hypothesis Hj : b j = Some dt.
Hypothesis Tt : twin dt mt.
Hypothesis Ct : complete dt.
Hypothesis Dt : int_data mt.
Variables (task_of : Z -> value -> task) (V : Z -> value -> verdict).
Hypothesis Hg : forall base seed u, extends b base -> small_int u -> exists N, good inode i d base N [] (task_of seed u) (same_verdict (V seed u)).

Lemma entries base l : extends b base -> (forall p, In p l -> small_int (snd p)) ->
  exists es, Forall2 (suits inode i d base) es (map (fun p => task_of (fst p) (snd p)) l) /\ (forall e, In e es -> en_own e = []) /\ map en_q es = map (fun p => same_verdict (V (fst p) (snd p))) l.
Proof.
  intros X. induction l as [|p l IH]; intro H; [exists []; split; [constructor|split; [intros e []|auto]]|].
  destruct IH as (es & Fe & O & Q); [intros; apply H; right; auto|]. destruct (Hg base (fst p) (snd p) X) as [N G]; [apply H; left; auto|].
  exists (mkEntry N [] (same_verdict (V (fst p) (snd p))) :: es). split; [constructor; [exact G|exact Fe]|]. split; [intros e [<-|I]; auto|]. cbn [map en_q]. rewrite Q. auto.
Qed.
Lemma seeded_in seed us p : In p (seeded_users seed us) -> In (snd p) us.
Proof. unfold seeded_users. destruct p as [k u]. apply in_combine_r. Qed.

Lemma cases_run n seed sched : positive_opt n = true -> exists us, test_users mt n = Ok us /\
  let mem := all_some (map (fun p => V (fst p) (snd p)) (seeded_users seed us)) in
  (forall t, exists s' x b', db_cases inode ords j n seed task_of sched t s = (s', x) /\ fine (snd s') b' /\ extends b b' /\ (x = None \/ same_cases mem x)) /\
  (fair sched -> exists T, forall t, (T <= t)%nat -> exists s' x, db_cases inode ords j n seed task_of sched t s = (s', x) /\ same_cases mem x).
Proof.
  intro Hn. destruct (users_sure inode ords Po So i d j dt mt Tt Ct Dt b n s Hj F Sm) as (s1 & ju & us & E & Fr & Nj & F1 & Sm1 & Eu & Hu).
  exists us. split; [apply Eu; destruct n as [n|]; [apply Z.ltb_lt; exact Hn|exact Logic.I]|]. intro mem.
  set (base := note b ju (Some (col_ds dt "user"))) in *.
  assert (X : extends b base). { intros x Hx. unfold base, note. destruct (Nat.eqb_spec x ju) as [->|]; [congruence|auto]. }
  assert (Bi : base i = Some d) by apply F1.
  destruct (entries base (seeded_users seed us) X) as (es & Fe & O & Q).
  { intros p Hp. apply seeded_in in Hp. exact (Hu _ Hp). }
  set (ts := main_thread :: map (fun p => task_of (fst p) (snd p)) (seeded_users seed us)).
  set (es0 := mkEntry 1 [] (eq (Some (Ok None))) :: es).
  assert (P0 : pool_ok inode i d base (s1, ts) es0).
  { split; [exists base; split; [split; [exact F1|split; [exact Sm1|apply extends_refl]]|]|split].
    - intros e [<-|I] x dx; [intros []|]. rewrite (O e I). intros [].
    - constructor; [|exact Fe]. unfold suits, main_thread. cbn [en_n en_own en_q].
      apply (good_gives inode i d base 0 [] _ _ (Ok tt)); [intros; apply shut_gives|apply pkeeps_generator|reflexivity].
    - intros k k' e e' Ek Ek' _ x I _. apply nth_error_In in Ek. destruct Ek as [<-|Ek]; [destruct I|]. rewrite (O e Ek) in I. destruct I. }
  assert (Cl : forall w b2, fine w b2 -> extends base b2 -> forall k, exists s3, db (close inode ju) (k, w) = (s3, Ok tt) /\ exists b3, fine (snd s3) b3 /\ extends b b3).
  { intros w b2 F2 X2 k. assert (H2 : b2 ju = Some (col_ds dt "user")) by (rewrite X2; [apply note_same|unfold base; rewrite note_same; discriminate]).
    destruct (close_runs inode i d b2 ju _ H2 Nj (k, w) F2) as (s3 & r & b3 & E3 & F3 & -> & ->). exists s3. split; [exact E3|]. exists (note b2 ju None). split; [exact F3|].
    intros x Hx. rewrite note_other by congruence. rewrite (extends_trans _ _ _ X X2 x Hx). auto. }
  assert (Main : forall t, exists s' x b', db_cases inode ords j n seed task_of sched t s = (s', x) /\ fine (snd s') b' /\ extends b b' /\ (x = None \/ same_cases mem x) /\
     (done (snd (pool_run sched t (s1, ts))) -> same_cases mem x)).
  { intro t. destruct (pool_keeps inode i d base sched (s1, ts) es0 P0 t) as (es' & ((b2 & (F2 & Sm2 & X2) & _) & Fs & _) & Eq).
    unfold db_cases. rewrite E. fold ts. destruct (pool_run sched t (s1, ts)) as [s2 ts2] eqn:Er. cbn [fst snd] in *.
    destruct (all_some (map ended ts2)) as [xs|] eqn:Ea.
    2:{ exists s2, None, b2. split; [auto|]. split; [auto|]. split; [eapply extends_trans; eauto|]. split; [auto|]. intro Dn. destruct (done_all ts2 Dn) as [xs Ex]. congruence. }
    pose proof (ended_all inode i d base es' ts2 xs Fs Ea) as Fx. rewrite Eq in Fx. unfold es0 in Fx. cbn [map en_q] in Fx. inversion Fx as [|q x0 qs xs' _ Fx' Eq1 Eq2]; subst. clear Fx.
    rewrite Q in Fx'.
    assert (Fv : Forall2 same_verdict (map (fun p => V (fst p) (snd p)) (seeded_users seed us)) xs').
    { clear - Fx'. revert xs' Fx'. induction (seeded_users seed us) as [|p l IH]; intros xs' Fx'; inversion Fx'; subst; cbn [map]; constructor; auto. }
    pose proof (verdicts_same _ _ Fv) as Vs. fold mem in Vs. unfold same_cases. destruct mem as [cs|].
    - destruct Vs as (cs' & -> & Fc). destruct s2 as [k2 w2]. destruct (Cl w2 b2 F2 X2 k2) as (s3 & E3 & b3 & F3 & X3). rewrite E3.
      exists s3, (Some (Ok cs')), b3. split; [auto|]. split; [auto|]. split; [auto|]. split; [right|intros _]; exists cs'; auto.
    - rewrite Vs. exists s2, None, b2. split; [auto|]. split; [auto|]. split; [eapply extends_trans; eauto|]. auto. }
  split.
  - intro t. destruct (Main t) as (s' & x & b' & E' & F' & X' & C & _). exists s', x, b'. auto.
  - intro Fa. destruct (pool_ends inode i d base sched (s1, ts) es0 Fa P0) as [T0 Dn]. exists T0. intros t L.
    destruct (Main t) as (s' & x & b' & E' & _ & _ & _ & C). exists s', x. split; [exact E'|]. apply C. rewrite (done_stays sched (s1, ts) T0 Dn t L). exact Dn.
Qed.
End Process.

Section Start.
Variable inode : string -> nat.
Variable ords : nat -> list trow -> list trow.
Hypothesis Po : forall k, permuting (ords k).
Hypothesis So : forall k, sorting (ords k).
Variables (w0 : world) (b0 : book) (i : nat) (d0 : ds) (m0 m : mem).
Hypothesis R0 : reaches inode w0 b0.
Hypothesis S0 : safe inode w0 b0 (OAssign i).
Hypothesis H0 : b0 i = Some d0.
Hypothesis Tw0 : twin d0 m0.
Hypothesis T : trained_on m0 m DInt DInt.
Hypothesis Nm : KnnSpec.numeric m0.
Hypothesis Cd0 : complete d0.
Hypothesis D : int_data m.
Hypothesis Sm0 : small_world w0.
Local Notation d := (assigned d0).
Local Notation fine := (fine inode i d).
Local Notation gives := (gives inode i d).
Local Notation Em := (RecDbFacts6.Em m0 m DInt DInt T).
Local Notation Tw := (RecDbFacts6.Tw inode w0 b0 i d0 m0 m DInt DInt S0 H0 Tw0 T).
Local Notation Cd := (RecDbFacts6.Cd inode d0 Cd0).

(** what the tasks need of a model *)
Record model_ok (dm : db_model) (md : model) : Prop := {
  mk_ds : dm_ds dm = i;
  mk_md : md_ds md = m;
  mk_items : dm_items dm = md_items md;
  mk_small : Z.of_nat (md_items md) <= 2 ^ 53;
  mk_rank : forall b u l l' nov, small_int u -> Forall2 alike l l' -> gives b (dm_rank dm u l' nov) (md_rank md u l nov);
  mk_krank : forall u l nov, pkeeps (dm_rank dm u l nov);
  mk_rec : forall b u n nov low, small_int u -> gives b (dm_recommend dm u n nov low) (md_recommend md u n nov low);
  mk_krec : forall u n nov low, pkeeps (dm_recommend dm u n nov low);
  mk_irec : forall u n nov low recs, md_recommend md u n nov low = Ok recs -> Forall small_int recs }.

Lemma raw_small c v : In c ["user"; "item"] -> small_int v -> raw_id m0 c v.
Proof.
  intros Hc (z & -> & _). exists DInt. split; [|split; [discriminate|reflexivity]]. destruct Hc as [<-|[<-|[]]]; [apply (tr_user _ _ _ _ T)|apply (tr_item _ _ _ _ T)].
Qed.
Lemma known_alike sk l l' : Forall2 alike l l' -> known_iids m sk l = known_iids m sk l'.
Proof.
  intro F. induction F as [|v v' l l' (S & z & -> & _) _ IH]; [auto|]. cbn [known_iids]. rewrite IH.
  assert (E : item_to_iid m v = item_to_iid m (VInt z)) by (unfold item_to_iid; rewrite (in_item m D); apply to_internal_same; exact S). rewrite E. auto.
Qed.
Lemma recs_small impl f n u k nov low recs : md_recommend (recommender impl f m n) u k nov low = Ok recs -> Forall small_int recs.
Proof.
  cbn [recommender md_recommend]. destruct (recommend _ _ _ _ _ _ _ _) as [l|] eqn:E; cbn [bind]; [|discriminate].
  intros N. apply Forall_forall. intros v Hv.
  assert (K : exists i, iid_to_item m i = Ok (Some v)).
  { unfold named in N. destruct (MemFacts6.mapM_In _ _ _ _ N Hv) as [[s o] [Hp Eo]]. cbn [snd] in Eo. destruct o as [w|]; [|discriminate].
    injection Eo as ->. unfold recommend in E. cbn [negb] in E. destruct (user_to_uid m u) as [[uid|]|]; cbn [bind] in E; try discriminate.
    destruct (recommend_int _ _ _ _ _ _) as [sc|]; cbn [bind] in E; [|discriminate]. unfold with_items in E.
    destruct (MemFacts6.mapM_In _ _ _ _ E Hp) as [[s' i0] [_ Ei]]. cbn [snd fst] in Ei.
    destruct (iid_to_item m i0) as [w|] eqn:Ew; cbn [bind] in Ei; [|discriminate]. exists i0. injection Ei as _ ->. exact Ew. }
  destruct K as [i0 Hi]. destruct (RankFacts.iid_to_item_known m0 m DInt DInt T i0 v Hi) as [Kn Ty].
  unfold known_item, column in Kn. apply in_flat_map in Kn. destruct Kn as (r & Hr & Er).
  destruct (cell r "item") as [w|] eqn:Ec; [|destruct Er]. destruct Er as [->|[]].
  destruct v as [z| |]; try discriminate. exists z. split; [reflexivity|].
  assert (Hr' : In (MemFacts3.coded_row m0 r) (rows_of m)) by (rewrite Em, MemFacts3.assigned_rows; apply in_map; exact Hr).
  apply (in_small m D "item" ltac:(cbn; auto) (MemFacts3.coded_row m0 r) z Hr'). rewrite MemFacts3.coded_row_other by discriminate. exact Ec.
Qed.
Lemma recommender_ok impl impl' n : (forall b u iids k nov, gives b (impl u iids k nov) (impl' u iids k nov)) -> ikeeps impl -> Z.of_nat n <= 2 ^ 53 ->
  model_ok (db_recommender inode impl i n) (recommender impl' no_prediction m n).
Proof.
  intros G K B. pose proof (reaches_inv _ _ _ R0) as I0. constructor; try reflexivity; auto.
  - intros b u l l' nov Su Fa. cbn [dm_rank md_rank db_recommender recommender].
    assert (E : RankModel.rank impl' true m u l nov true None = RankModel.rank impl' true m u l' nov true None) by (unfold RankModel.rank; rewrite (known_alike true l l' Fa); reflexivity).
    rewrite E. apply gives_bind; [|intros; apply gives_ret]. rewrite Em.
    apply (rank_gives inode w0 b0 i d0 m0 I0 S0 H0 Tw0); [apply raw_small; cbn; auto| |exact G].
    intros v Hv. apply raw_small; [cbn; auto|]. pose proof (alike_small _ _ Fa) as F. rewrite Forall_forall in F. auto.
  - intros. apply pkeeps_dm_rank. exact K.
  - intros b u k nov low Su. cbn [dm_recommend md_recommend db_recommender recommender]. apply gives_bind; [|intros; apply gives_ret]. rewrite Em.
    apply (recommend_gives inode w0 b0 i d0 m0 I0 S0 H0 Tw0); [apply raw_small; cbn; auto|exact G].
  - intros. apply pkeeps_dm_recommend. exact K.
  - intros u k nov low recs. apply recs_small.
Qed.

Lemma column_len c (l : list row) : (length (column c l) <= length l)%nat.
Proof.
  unfold column. induction l as [|x l IH]; [auto|]. change (flat_map ?f (x :: l)) with (f x ++ flat_map f l). rewrite app_length. cbn [length].
  destruct (cell x c); cbn [length]; lia.
Qed.
Lemma fit_same lu li L n : trains m0 m L -> exists s1 b1 r, db_fit inode ords lu li L i (n, w0) = (s1, r) /\ fine (snd s1) b1 /\ small_world (snd s1) /\ extends (note b0 i (Some d)) b1 /\
  match r, mem_fit L m0 with Ok dm, Ok md => model_ok dm md | Err e, Err e' => e = e' | _, _ => False end.
Proof.
  intro HL.
  assert (X : exists s1 b1 r, db_fit inode ords lu li L i (n, w0) = (s1, r) /\ fine (snd s1) b1 /\ extends (note b0 i (Some d)) b1 /\
    match r, mem_fit L m0 with Ok dm, Ok md => model_ok dm md | Err e, Err e' => e = e' | _, _ => False end).
  2:{ destruct X as (s1 & b1 & r & E & F1 & X1 & K). exists s1, b1, r. split; [exact E|]. split; [exact F1|]. split; [|auto].
      pose proof (pkeeps_fit inode ords lu li L i (n, w0) Sm0) as P. rewrite E in P. exact P. }
  destruct (begin_runs inode w0 b0 i d0 m0 m DInt DInt R0 S0 H0 Tw0 T Nm Cd0 n) as (s1 & b1 & r & E1 & F1 & X1 & r' & Em0 & Sr & Rst).
  unfold db_fit, mem_fit. rewrite Em0. unfold pbind at 1. rewrite E1. destruct r as [f|e], r' as [f'|e']; cbn [same_start] in Sr; try contradiction.
  2:{ subst e'. exists s1, b1, (Err e). cbn [bind]. auto. }
  cbn [bind]. specialize (Rst f eq_refl). destruct (stats_counts m0 m DInt DInt T Nm f' Rst) as [Cu Ci]. destruct Sr as (_ & _ & Su & Si & _).
  assert (B : Z.of_nat (fi_items f') <= 2 ^ 53).
  { rewrite Ci. pose proof (tr_small _ _ _ _ T) as Hs. unfold n_distinct. assert (L1 : forall l : list value, (length (nodup value_eq_dec l) <= length l)%nat).
    { induction l as [|x l IH]; [auto|]. cbn [nodup length]. destruct (in_dec _ _ _); cbn [length]; lia. }
    assert (L2 : (length (column "item" (rows_of m0)) <= length (rows_of m0))%nat).
    { apply column_len. }
    specialize (L1 (column "item" (rows_of m0))). lia. }
  rewrite Si. destruct L as [c simf|k reads|c]; cbn [trains] in HL.
  - destruct HL as [Nr Ps].
    assert (Hf : (if kn_user c then fi_users f else fi_items f) = n_entities c m0) by (unfold n_distinct in *; unfold n_entities; destruct (kn_user c); congruence).
    destruct (fit_runs inode ords Po i d m0 m DInt DInt T Nm Tw Cd c simf f ([], []) b1 Ps Hf s1 F1) as (s2 & r2 & b2 & E2 & F2 & X2 & Sf).
    unfold pbind at 1. rewrite E2. destruct r2 as [[t nb]|e], (knn_fit c simf m ([], [])) as [[t' nb']|e']; cbn [same_fit] in Sf; try contradiction.
    2:{ subst e'. exists s2, b2, (Err e). cbn [bind]. split; [auto|]. split; [auto|]. split; [eapply extends_trans; eauto|auto]. }
    destruct Sf as [-> Nb]. cbn [bind snd]. exists s2, b2. eexists. split; [reflexivity|]. split; [exact F2|]. split; [eapply extends_trans; eauto|].
    apply recommender_ok; [|apply ikeeps_knn|exact B].
    intros b u iids k nov. rewrite <- (knn_rank_ext m0 m DInt DInt T Nm c nb nb' u iids k nov Nb). apply (rank_runs inode ords Po i d m0 m DInt DInt T Nm Tw Cd Nr).
  - destruct (start_reads inode ords Po w0 b0 i d0 m0 m DInt DInt R0 S0 H0 Tw0 T Nm Cd0 HL lu li reads b1 s1 F1) as (s2 & r2 & b2 & E2 & F2 & X2 & ->).
    unfold pbind at 1. rewrite E2. exists s2, b2. eexists. split; [reflexivity|]. split; [exact F2|]. split; [eapply extends_trans; eauto|].
    apply recommender_ok; [|apply ikeeps_net|exact B].
    intros b u iids q nov. apply (net_rank_gives inode ords Po i d m0 m DInt DInt T Nm Tw Cd HL); [apply (user_back inode w0 b0 i d0 m0 m DInt DInt R0 S0 H0 Tw0 T)|apply (item_back inode w0 b0 i d0 m0 m DInt DInt R0 S0 H0 Tw0 T)|].
    apply (RecDbFacts7.reads_mem d m0 m DInt DInt T Nm Tw HL reads m (RecDbFacts7.read_start d m0 m DInt DInt T Tw)).
  - exists s1, b1. eexists. split; [reflexivity|]. split; [exact F1|]. split; [exact X1|].
    apply recommender_ok; [|apply ikeeps_caser|exact B].
    intros b u iids q nov. apply (caser_rank_gives inode ords Po i d m0 m DInt DInt T Nm Tw Cd c). right. split; auto.
Qed.

(** ** The processes *)
Variables (j : option nat) (mt : option mem) (dt : ds).
Local Notation tj := (match j with Some j => j | None => i end).
Hypothesis Hj : note b0 i (Some d) tj = Some dt.
Hypothesis Ct : complete dt.
Hypothesis Tt : twin dt (tested m mt).
Hypothesis Dt : int_data (tested m mt).
Hypothesis Jt : is_train j = is_train mt.
Variables (lu li : nat) (L : ranker) (t : slit).
Hypothesis HL : trains m0 m L.
Hypothesis Ht : threshold_ok t.

Lemma ranking_run fmul fuel a rngs tsched sched mt_t n : e_thr a = lit_text t -> Forall blind_metric (e_metrics a) \/ no_floats (tested m mt) ->
  let mem := mem_ranking fmul fuel L m0 mt a rngs sched mt_t in
  (forall tt, exists s' x b', db_ranking inode ords lu li fmul fuel L i j a rngs tsched tt sched mt_t (n, w0) = (s', x) /\ fine (snd s') b' /\ extends (note b0 i (Some d)) b' /\ (x = ERunning \/ x = mem)) /\
  (fair tsched -> exists T, forall tt, (T <= tt)%nat -> snd (db_ranking inode ords lu li fmul fuel L i j a rngs tsched tt sched mt_t (n, w0)) = mem).
Proof.
  intros Et Bl mem. destruct (fit_same lu li L n HL) as (s1 & b1 & r & E & F1 & Sm1 & X1 & K). unfold mem, mem_ranking, db_ranking. rewrite E.
  destruct r as [dm|e], (mem_fit L m0) as [md|e']; try contradiction.
  2:{ subst e'. split; [intro tt; exists s1, (ERaised e), b1; auto|]. intros _. exists 0%nat. auto. }
  unfold db_ranking_evaluation, ranking_evaluation. rewrite (mk_md dm md K). destruct (re_check a) as [[]|e] eqn:Ec; cbn [bind].
  2:{ split; [intro tt; exists s1, (ERaised e), b1; auto|]. intros _. exists 0%nat. auto. }
  assert (Hb : b1 tj = Some dt) by (rewrite X1; [exact Hj|congruence]).
  assert (Pu : positive_opt (e_users a) = true). { unfold re_check in Ec. destruct (positive_opt (e_users a)); [auto|discriminate]. }
  destruct (cases_run inode ords Po So i d s1 b1 tj dt (tested m mt) F1 Sm1 Hb Tt Ct Dt
    (fun seed u => db_rank_user inode ords fmul fuel dm (is_train j) tj a u (rngs seed))
    (fun seed u => rank_user fmul fuel md (is_train mt) (tested m mt) a u (rngs seed))) with (n := e_users a) (seed := e_seed a) (sched := tsched) as (us & Eu & C1 & C2); [|exact Pu|].
  { intros base seed u X (z & -> & Hz). rewrite Jt.
    apply (rank_task_good inode ords Po So i d m base) with (dt := dt) (t := t); try apply K; auto.
    - rewrite X; [apply F1|]. destruct F1 as (_ & Hi & _). rewrite Hi. discriminate.
    - exact Tw.
    - exact Cd.
    - rewrite X; [exact Hb|congruence]. }
  rewrite Eu. unfold rank_cases. set (memc := all_some _) in *.
  assert (Bi : forall cs, memc = Some cs -> Forall blind_metric (e_metrics a) \/ Forall int_res cs).
  { intros cs Ec'. destruct Bl as [Bl|Nf]; [auto|right]. apply Forall_forall. intros x Hx c ->. apply EvalFacts5.all_some_map in Ec'.
    assert (Hs : forall p, In p (seeded_users (e_seed a) us) -> small_int (snd p)).
    { intros [k v] Hv. apply seeded_in in Hv. cbn [snd] in *. rewrite (test_users_first _ _ Dt) in Eu. injection Eu as <-. destruct (first_users_int _ _ _ Dt Hv) as (z & -> & B). exists z. auto. }
    clear - Ec' Hx Hs Et Nf Dt Ht. revert Hs Hx. induction Ec' as [|p y l ys Hp _ IH]; intros Hs Hx; [destruct Hx|]. destruct Hx as [->|Hx]; [|apply IH; auto; intros; apply Hs; right; auto].
    destruct (Hs p (or_introl eq_refl)) as (z & Ez & Bz). rewrite Ez in Hp. apply (rank_user_ints md (tested m mt) Dt z t Bz Ht Nf) with (2 := Hp). exact Et. }
  assert (Oc : forall x, same_cases memc x -> db_outcome (e_threads a) (e_verbose a) (e_metrics a) (e_k a) (rank_task (e_metrics a) (e_k a)) sched mt_t x =
    match memc with None => ERunning | Some cs => run_eval (e_threads a) (e_verbose a) (e_metrics a) (e_k a) (Ok (map (rank_task (e_metrics a) (e_k a)) cs)) sched mt_t end).
  { intros x Sx. unfold same_cases in Sx. destruct memc as [cs|]; [|subst x; reflexivity]. destruct Sx as (cs' & -> & Fc). cbn [db_outcome].
    rewrite (same_rank_tasks _ _ _ _ (Bi cs eq_refl) Fc). reflexivity. }
  split.
  - intro tt. destruct (C1 tt) as (s' & x & b' & E' & F' & X' & C). rewrite E'. exists s'. eexists. exists b'. split; [reflexivity|]. split; [exact F'|]. split; [eapply extends_trans; eauto|].
    destruct C as [->|C]; [left; reflexivity|right; apply Oc; exact C].
  - intro Fa. destruct (C2 Fa) as [T0 C]. exists T0. intros tt Lt0. destruct (C tt Lt0) as (s' & x & E' & Sx). rewrite E'. cbn [snd]. apply Oc. exact Sx.
Qed.

Lemma all_some_map {A B} (f : A -> B) l : all_some (map (fun x => Some (f x)) l) = Some (map f l).
Proof. induction l as [|x l IH]; [auto|]. cbn [map all_some]. rewrite IH. auto. Qed.
Lemma recommendation_run a rngs tsched sched mt_t n : r_thr a = lit_text t -> Forall blind_metric (r_metrics a) \/ no_floats (tested m mt) ->
  let mem := mem_recommendation L m0 mt a rngs sched mt_t in
  (forall tt, exists s' x b', db_recommendation inode ords lu li L i j a rngs tsched tt sched mt_t (n, w0) = (s', x) /\ fine (snd s') b' /\ extends (note b0 i (Some d)) b' /\ (x = ERunning \/ x = mem)) /\
  (fair tsched -> exists T, forall tt, (T <= tt)%nat -> snd (db_recommendation inode ords lu li L i j a rngs tsched tt sched mt_t (n, w0)) = mem).
Proof.
  intros Et Bl mem. destruct (fit_same lu li L n HL) as (s1 & b1 & r & E & F1 & Sm1 & X1 & K). unfold mem, mem_recommendation, db_recommendation. rewrite E.
  destruct r as [dm|e], (mem_fit L m0) as [md|e']; try contradiction.
  2:{ subst e'. split; [intro tt; exists s1, (ERaised e), b1; auto|]. intros _. exists 0%nat. auto. }
  unfold db_recommendation_evaluation, recommendation_evaluation. rewrite (mk_md dm md K). destruct (rc_check a) as [[]|e] eqn:Ec; cbn [bind].
  2:{ split; [intro tt; exists s1, (ERaised e), b1; auto|]. intros _. exists 0%nat. auto. }
  assert (Hb : b1 tj = Some dt) by (rewrite X1; [exact Hj|congruence]).
  assert (Pu : positive_opt (r_users a) = true). { unfold rc_check in Ec. destruct (positive_opt (r_users a)); [auto|discriminate]. }
  destruct (cases_run inode ords Po So i d s1 b1 tj dt (tested m mt) F1 Sm1 Hb Tt Ct Dt
    (fun seed u => db_rec_user inode ords dm tj a u (rngs seed))
    (fun seed u => Some (rec_user md (tested m mt) a u (rngs seed)))) with (n := r_users a) (seed := r_seed a) (sched := tsched) as (us & Eu & C1 & C2); [|exact Pu|].
  { intros base seed u X (z & -> & Hz).
    apply (rec_task_good inode ords Po So i d m base) with (dt := dt) (t := t); try apply K; auto.
    - rewrite X; [apply F1|]. destruct F1 as (_ & Hi & _). rewrite Hi. discriminate.
    - exact Tw.
    - rewrite X; [exact Hb|congruence]. }
  rewrite Eu. unfold rec_cases. rewrite (all_some_map (fun p => rec_user md (tested m mt) a (snd p) (rngs (fst p)))) in C1, C2.
  assert (Oc : forall x, same_cases (Some (map (fun p => rec_user md (tested m mt) a (snd p) (rngs (fst p))) (seeded_users (r_seed a) us))) x ->
    db_outcome (r_threads a) (r_verbose a) (r_metrics a) (r_k a) (rec_task (r_metrics a) (r_k a)) sched mt_t x =
    run_eval (r_threads a) (r_verbose a) (r_metrics a) (r_k a) (Ok (map (rec_task (r_metrics a) (r_k a)) (map (fun p => rec_user md (tested m mt) a (snd p) (rngs (fst p))) (seeded_users (r_seed a) us)))) sched mt_t).
  { assert (Bi : Forall blind_metric (r_metrics a) \/ Forall int_res (map (fun p => rec_user md (tested m mt) a (snd p) (rngs (fst p))) (seeded_users (r_seed a) us))).
    { destruct Bl as [Bl|Nf]; [auto|right]. apply Forall_forall. intros x Hx c ->. apply in_map_iff in Hx. destruct Hx as ([k v] & Hp & Hv). apply seeded_in in Hv. cbn [fst snd] in *.
      rewrite (test_users_first _ _ Dt) in Eu. injection Eu as <-. destruct (first_users_int _ _ _ Dt Hv) as (z & -> & B).
      apply (rec_user_ints md (mk_irec dm md K) (tested m mt) Dt z t B Ht Nf) with (2 := Hp). exact Et. }
    intros x (cs' & -> & Fc). cbn [db_outcome]. rewrite (same_rec_tasks _ _ _ _ Bi Fc). reflexivity. }
  split.
  - intro tt. destruct (C1 tt) as (s' & x & b' & E' & F' & X' & C). rewrite E'. exists s'. eexists. exists b'. split; [reflexivity|]. split; [exact F'|]. split; [eapply extends_trans; eauto|].
    destruct C as [->|C]; [left; reflexivity|right; apply Oc; exact C].
  - intro Fa. destruct (C2 Fa) as [T0 C]. exists T0. intros tt Lt0. destruct (C tt Lt0) as (s' & x & E' & Sx). rewrite E'. cbn [snd]. apply Oc. exact Sx.
Qed.
End Start.
