(** Batches of DMF and CDAE on a data set in a database. *)
From Coq Require Import String Ascii.
From Coq Require Import List ZArith QArith Qcanon Bool Permutation Sorted Lia.
From Verif Require Import Py PyFacts MemModel MemSpec MemFacts MemFacts2 MemFacts3 MemFacts4 MemFacts5 MemFacts6 MemFacts7 RankModel RankSpec RankFacts RankFacts2 KnnModel KnnSpec KnnFacts KnnFacts2 KnnFacts3 FitModel NetModel NetFacts3 TrainModel
  DbModel DbFacts DbSpec DbFacts3 DbFacts7 DbFacts12 DbFacts13 DbFacts14 DbFacts15 DbFacts16 DbFacts17 SampModel DbGenModel DbGenSpec DbGenFacts DbGenFacts2 DbGenFacts5
  DbSplitModel DbSplitSpec DbSplitFacts DbSplitFacts3 DbSplitFacts6 TwinSpec TwinFacts TwinFacts5 TwinFacts6 RecDbModel RecDbModel2 RecDbFacts RecDbFacts2 RecDbFacts3 RecDbFacts4 RecDbFacts6 RecDbFacts7 RecDbFacts8 RecDbFacts12 RecDbSpec RecDbSpec2
  RecDbModel7 RecDbSpec7 RecDbFacts17.
Import ListNotations.
Open Scope string_scope.
Open Scope Z_scope.
Open Scope list_scope.

(** ** Samples as triples of numbers *)
Section Samples.
Variables (d : ds) (m0 m : mem) (tu ti : dtype).
Hypothesis T : trained_on m0 m tu ti.
Hypothesis Nm : KnnSpec.numeric m0.
Hypothesis Tw : twin d m.
Hypothesis Ne : rows_of m0 <> [].
Variable t : option slit.
Hypothesis Tk : SampSpec.thr_ok t.
Local Notation cs := (m_columns m).
Local Notation nu := (n_distinct "user" m0).
Local Notation np := (n_distinct "item" m0).

Lemma trained_rows : exists r, In r (rows_of m).
Proof.
  rewrite (trained_assigned m0 m tu ti T), assigned_rows. destruct (rows_of m0) as [|r0 l] eqn:E; [congruence|]. eexists. left. reflexivity.
Qed.
Lemma thr_cond o l : t = Some l -> cond_ok m (mkCond "interaction" o l).
Proof.
  intros ->. destruct Tk as (ty & Nt & L). destruct trained_rows as [r Hr].
  destruct (number_type d m0 m tu ti T Nm Tw r Hr) as (tx & Ht & Nx).
  split; [exact (has_interaction m0 m tu ti T Nm)|]. split; [repeat split; discriminate|]. split; [exact (small_interaction m0 m tu ti T Nm)|].
  exists tx. split; [exact Ht|]. cbn [sc_col sc_lit].
  assert (Hin : ~ In "interaction" ["iid"; "uid"; "rid"]) by (simpl; intuition discriminate).
  inversion L; subst; try contradiction; first [apply lo_int; auto; fail | apply lo_dec; auto; fail].
Qed.
Lemma thr_number l : t = Some l -> (forall s, l <> LText s) /\ exists th, lit_num l = Some th.
Proof. intros ->. destruct Tk as (ty & Nt & L). inversion L; subst; try contradiction; (split; [intros s X; discriminate|eexists; reflexivity]). Qed.
Lemma thr_cases : t = None \/ exists l, t = Some l.
Proof. clear Tk. destruct t as [l|]; eauto. Qed.
Lemma thr_fits : threshold_fits d t.
Proof.
  destruct thr_cases as [E|[l E]]; unfold threshold_fits; rewrite E; [exact Logic.I|]. split; [apply (proj1 (thr_number l E))|].
  apply (fits_cond d m); [exact Tw|apply thr_cond; exact E| |simpl; intuition discriminate].
  unfold RecDbFacts12.numeric. cbn [sc_lit]. destruct l; auto. destruct (proj1 (thr_number _ E) _ eq_refl).
Qed.
Lemma row_sat o l r th : t = Some l -> lit_num l = Some th -> In r (rows_of m) ->
  forallb (holds (as_trow cs r)) [mkCond "interaction" o l] = op_holds o (snd (tri r) ?= th)%Qc.
Proof.
  intros E L Hr. cbn [forallb]. rewrite andb_true_r, (holds_sat d m Tw _ r (thr_cond o l E) Hr).
  destruct (KnnFacts.good m0 m tu ti T Nm r Hr) as (_ & _ & v & Ev & Q).
  unfold sat1. cbn [sc_col sc_lit sc_op]. unfold row_val. cbn [String.eqb Ascii.eqb Bool.eqb]. rewrite Ev. clear Ev. revert Q. generalize (snd (tri r)). intros x Q.
  destruct v as [z|q|s]; cbn [num_of] in Q; [| |discriminate]; injection Q as <-; rewrite L; destruct l; reflexivity.
Qed.
Lemma obs_row r : In r (rows_of m) -> In (tri r) (obs m).
Proof. intro Hr. rewrite (obs_map m0 m tu ti T Nm). apply in_map. exact Hr. Qed.
Lemma row_obs e : In e (obs m) -> exists r, In r (rows_of m) /\ tri r = e.
Proof. rewrite (obs_map m0 m tu ti T Nm), in_map_iff. intros (r & <- & Hr). eauto. Qed.
Lemma obs_range u k x : In (u, k, x) (obs m) -> 0 <= u < Z.of_nat nu /\ 0 <= k < Z.of_nat np.
Proof.
  intro H. destruct (row_obs _ H) as (r & Hr & E). destruct (KnnFacts.good m0 m tu ti T Nm r Hr) as (Eu & Ei & _). rewrite E in Eu, Ei.
  destruct (cg_row _ _ _ (trained_contig d m0 m tu ti T Nm Tw Ne) r Hr) as (u' & k' & Eu' & Bu & Ei' & Bi & _).
  cbn [t_u t_i fst snd] in *. assert (u' = u) by congruence. assert (k' = k) by congruence. subst. auto.
Qed.

Definition as_numbers (x : dbtriple) (y : Z * Z * Qc) : Prop :=
  exists v, x = (Some (VInt (fst (fst y))), Some (VInt (snd (fst y))), Some v) /\ num_of v = Some (snd y).
Lemma sampled_right neg draw x : sampled d t neg draw x -> exists y, as_numbers x y /\ right_sample (obs m) nu np t neg draw y.
Proof.
  intros [Sn Sp]. destruct (Qclt_le_dec 1 ((neg + 1) * draw)%Qc) as [L|G].
  - destruct (Sn L) as (p & Np & ->).
    assert (Hp : exists u k, p = (Some (VInt u), Some (VInt k)) /\ negative_pair (obs m) nu np t u k).
    { destruct Np as [(u & k & -> & (U0 & K0 & (ru & zu & Hu & Eu & Lu) & (rk & zk & Hk & Ek & Lk)) & No)|(l & row & El & Hr & Hb & ->)].
      - exists u, k. split; [auto|].
        destruct (rec_rows d m Tw ru Hu) as (r1 & H1 & ->). destruct (rec_rows d m Tw rk Hk) as (r2 & H2 & ->).
        destruct (dtri_as m0 m tu ti T Nm r1 H1) as (_ & A1 & _ & _). destruct (dtri_as m0 m tu ti T Nm r2 H2) as (_ & _ & A2 & _).
        rewrite A1 in Eu. rewrite A2 in Ek. injection Eu as Eu. injection Ek as Ek.
        pose proof (obs_row r1 H1) as O1. pose proof (obs_row r2 H2) as O2. unfold t_u in Eu. unfold t_i in Ek.
        destruct (tri r1) as [[a1 b1] c1]. destruct (tri r2) as [[a2 b2] c2]. cbn [fst snd] in Eu, Ek. subst a1 b2.
        destruct (obs_range _ _ _ O1) as [R1 _]. destruct (obs_range _ _ _ O2) as [_ R2].
        split; [lia|]. split; [lia|]. left. intros x Hx. apply No. destruct (row_obs _ Hx) as (r & Hr & E).
        exists (as_trow cs r). split; [apply (twin_row d m Tw); eauto|]. destruct (dtri_as m0 m tu ti T Nm r Hr) as (_ & A & B & _).
        rewrite A, B, E. auto.
      - destruct (rec_rows d m Tw row Hr) as (r & Hr0 & ->). destruct (dtri_as m0 m tu ti T Nm r Hr0) as (_ & A & B & _).
        exists (t_u (tri r)), (t_i (tri r)). split; [unfold DbGenSpec.pair_of; rewrite A, B; auto|].
        pose proof (obs_row r Hr0) as O. destruct (thr_number l El) as (_ & th & Lt). unfold below in Hb. rewrite (row_sat _ l r th El Lt Hr0) in Hb.
        unfold t_u, t_i. destruct (tri r) as [[a b] c]. cbn [fst snd] in *. destruct (obs_range _ _ _ O) as [Ra Rb].
        split; [exact Ra|]. split; [exact Rb|]. right. exists c. split; [exact O|]. rewrite El. exists th. split; [exact Lt|].
        cbn [op_holds] in Hb. destruct (c ?= th)%Qc eqn:Q; try discriminate. exact Q. }
    destruct Hp as (u & k & -> & Hn). exists (u, k, 0%Qc). split.
    + exists (VInt 0). cbn [fst snd]. split; [reflexivity|]. cbn [num_of]. reflexivity.
    + cbn [right_sample]. split; [auto|]. intro X. contradiction.
  - destruct (Sp (Qcle_not_lt _ _ G)) as (row & [Hr Ha] & ->). destruct (rec_rows d m Tw row Hr) as (r & Hr0 & ->).
    destruct (dtri_as m0 m tu ti T Nm r Hr0) as (_ & A & B & v & C & Q). pose proof (obs_row r Hr0) as O.
    exists (tri r). split; [exists v; split; [rewrite A, B, C; reflexivity|exact Q]|].
    destruct (tri r) as [[a b] c] eqn:Et. cbn [right_sample]. split; [intro X; destruct (Qcle_not_lt _ _ G X)|]. intros _. split; [exact O|].
    unfold reaches_threshold. destruct thr_cases as [El|[l El]]; rewrite El; [exact Logic.I|]. intros th Lt. rewrite El in Ha. unfold at_least in Ha. rewrite (row_sat _ l r th El Lt Hr0), Et in Ha. cbn [fst snd op_holds] in Ha.
    apply Qcnot_lt_le. intro X. assert (Y : (c ?= th)%Qc = Datatypes.Lt) by exact X. rewrite Y in Ha. discriminate.
Qed.
Lemma no_positive : ~ (exists row, positive_row d t row) -> forall u k x, In (u, k, x) (obs m) -> ~ reaches_threshold t x.
Proof.
  intros N u k x H Rt. destruct (row_obs _ H) as (r & Hr & E). apply N. exists (as_trow cs r). split; [apply (twin_row d m Tw); eauto|].
  destruct thr_cases as [El|[l El]]; rewrite El; [exact Logic.I|]. destruct (thr_number l El) as (_ & th & Lt). unfold at_least. rewrite (row_sat _ l r th El Lt Hr), E. cbn [snd op_holds].
  unfold reaches_threshold in Rt. rewrite El in Rt. specialize (Rt th Lt). destruct (x ?= th)%Qc eqn:Q; auto. destruct (Qcle_not_lt _ _ Rt Q).
Qed.
End Samples.

(** ** Programs that may not return *)
Section After.
Variable inode : string -> nat.
Variables (i : nat) (d : ds).
Local Notation fine := (fine inode i d).
Local Notation runs := (RecDbFacts2.runs inode i d).
(** [Q] if it returns, [E] if it raises *)
Definition after {A} (b : book) (p : RecDbModel7.T A) (Q : book -> A -> Prop) (E : Prop) : Prop :=
  forall s s' o, fine (snd s) b -> p s = (s', Some o) ->
    match o with Ok a => exists b', fine (snd s') b' /\ extends b b' /\ Q b' a | Err _ => E end.
Lemma after_bind {A B} b (p : RecDbModel7.T A) (f : A -> RecDbModel7.T B) Q R E : after b p Q E ->
  (forall b' a, Q b' a -> after b' (f a) R E) -> after b (tbind p f) R E.
Proof.
  intros H K s s' o F Er. unfold tbind in Er. destruct (p s) as [s1 [[a|e]|]] eqn:E1; [| |discriminate].
  - destruct (H _ _ _ F E1) as (b1 & F1 & X1 & Q1). specialize (K b1 a Q1 s1 s' o F1 Er). destruct o as [c|e]; [|exact K].
    destruct K as (b2 & F2 & X2 & R2). exists b2. split; [exact F2|]. split; [eapply extends_trans; eauto|exact R2].
  - injection Er as <- <-. exact (H _ _ _ F E1).
Qed.
Lemma after_ret {A} b (a : A) (Q : book -> A -> Prop) E : Q b a -> after b (tret (Ok a)) Q E.
Proof. intros H s s' o F Er. injection Er as <- <-. exists b. split; [exact F|]. split; [apply extends_refl|exact H]. Qed.
Lemma after_res {A} b (r : res A) (Q : book -> A -> Prop) (E : Prop) : match r with Ok a => Q b a | Err _ => E end -> after b (tret r) Q E.
Proof. intro H. destruct r as [a|e]; [apply after_ret; exact H|]. intros s s' o F Er. injection Er as <- <-. exact H. Qed.
Lemma after_step {A} b (p : P A) (Q : book -> A -> Prop) (E : Prop) :
  runs b p (fun b' r => extends b b' /\ match r with Ok a => Q b' a | Err _ => E end) -> after b (step p) Q E.
Proof.
  intros H s s' o F Er. destruct (H s F) as (s1 & r & b1 & E1 & F1 & X1 & Q1). unfold step in Er. rewrite E1 in Er. injection Er as <- <-.
  destruct r as [a|e]; [exists b1; auto|exact Q1].
Qed.
End After.

Lemma seq_map_nth {A} (f : nat -> A) k n j : (j < n)%nat -> nth_error (map f (seq k n)) j = Some (f (k + j)%nat).
Proof. intro L. rewrite nth_error_map, (nth_error_nth' _ 0%nat) by (rewrite seq_length; exact L). rewrite seq_nth by exact L. reflexivity. Qed.
Lemma corrupted_at q rnd v : forall k,
  match corrupted q (map rnd (seq k (length v))) v with
  | Ok l => length l = length v /\ forall j x, nth_error v j = Some x -> nth_error l j = Some (if Qcltb (rnd (k + j)%nat) q then 0 else Qc_of_Z x / (1 - q))%Qc
  | Err _ => q = 1%Qc /\ exists j, (1 <= rnd j)%Qc
  end.
Proof.
  induction v as [|x v IH]; intro k; [split; [auto|intros [|j] y Y; discriminate]|].
  cbn [length seq map corrupted]. specialize (IH (Datatypes.S k)).
  destruct (Qcltb (rnd k) q) eqn:W; cbn [bind].
  2:destruct (Qc_eq_bool (1 - q) 0) eqn:Z0; cbn [bind].
  2:{ apply Qc_eq_bool_correct in Z0. assert (q = 1%Qc) by (apply (f_equal (fun z => z + q)%Qc) in Z0; ring_simplify in Z0; auto).
      split; [auto|]. exists k. subst q. apply Qcnot_lt_le. intro L. apply SplitFacts3.Qcltb_iff in L. congruence. }
  all: destruct (corrupted q (map rnd (seq (Datatypes.S k) (length v))) v) as [l|e]; cbn [bind]; [|exact IH]; destruct IH as [L H];
    (split; [cbn [length]; congruence|]); intros [|j] y Y; cbn [nth_error] in *;
    [injection Y as <-; rewrite Nat.add_0_r, W; reflexivity|rewrite (H j y Y); replace (k + Datatypes.S j)%nat with (Datatypes.S k + j)%nat by lia; reflexivity].
Qed.

(** ** Training *)
Section Fit.
Variable inode : string -> nat.
Variable ords : nat -> list trow -> list trow.
Hypothesis Po : forall k, permuting (ords k).
Variables (w0 : world) (b0 : book) (i : nat) (d0 : ds) (m0 m : mem) (tu ti : dtype).
Hypothesis R0 : reaches inode w0 b0.
Hypothesis S0 : safe inode w0 b0 (OAssign i).
Hypothesis H0 : b0 i = Some d0.
Hypothesis Tw0 : twin d0 m0.
Hypothesis T : trained_on m0 m tu ti.
Hypothesis Nm : KnnSpec.numeric m0.
Hypothesis Cd0 : complete d0.
Variable t : option slit.
Hypothesis Tk : SampSpec.thr_ok t.
Variables (fuel : nat) (neg : Qc) (dr : dbdraws) (lu li : nat).
Local Notation d := (assigned d0).
Local Notation fine := (fine inode i d).
Local Notation runs := (RecDbFacts2.runs inode i d).
Local Notation after := (after inode i d).
Local Notation Tw := (RecDbFacts6.Tw inode w0 b0 i d0 m0 m tu ti S0 H0 Tw0 T).
Local Notation Cd := (RecDbFacts6.Cd inode d0 Cd0).
Local Notation nu := (n_distinct "user" m0).
Local Notation np := (n_distinct "item" m0).
Local Notation es := (obs m).
Local Notation uvec := (RecDbFacts7.uvec m0 m).
Local Notation ivec := (RecDbFacts7.ivec m0 m).
Local Notation Ub := (user_back inode w0 b0 i d0 m0 m tu ti R0 S0 H0 Tw0 T).
Local Notation Ib := (item_back inode w0 b0 i d0 m0 m tu ti R0 S0 H0 Tw0 T).
Local Notation right := (read_right inode w0 b0 i d0 m0 m tu ti S0 H0 Tw0 T Nm).

Definition caches_ok (c : vec_caches) : Prop := holds_vecs uvec (fst c) /\ holds_vecs ivec (snd c).
Lemma user_one b u c : 0 <= u < Z.of_nat nu -> caches_ok c ->
  runs b (db_user_cached inode ords lu i u c) (fun b' r => extends b b' /\ exists v c', r = Ok (v, c') /\ user_vec_spec (rows_of m) np u v /\ caches_ok c').
Proof.
  intros Hu [Ku Ki]. eapply runs_weaken; [exact (read_runs inode ords Po i d m0 m tu ti T Nm Tw Cd Ub Ib lu li b (VUser u) c Ku Ki)|].
  intros b' r (X & Hr). split; [exact X|]. destruct (right (VUser u)) as [Rv _]. destruct (Rv Hu) as (vec & E & Sv). rewrite E in Hr.
  destruct Hr as (c' & -> & K1 & K2). exists vec, c'. split; [auto|]. split; [exact Sv|]. split; auto.
Qed.
Lemma item_one b k c : 0 <= k < Z.of_nat np -> caches_ok c ->
  runs b (db_item_cached inode ords li i k c) (fun b' r => extends b b' /\ exists v c', r = Ok (v, c') /\ item_vec_spec (rows_of m) nu k v /\ caches_ok c').
Proof.
  intros Hu [Ku Ki]. eapply runs_weaken; [exact (read_runs inode ords Po i d m0 m tu ti T Nm Tw Cd Ub Ib lu li b (VItem k) c Ku Ki)|].
  intros b' r (X & Hr). split; [exact X|]. destruct (right (VItem k)) as [Rv _]. destruct (Rv Hu) as (vec & E & Sv). rewrite E in Hr.
  destruct Hr as (c' & -> & K1 & K2). exists vec, c'. split; [auto|]. split; [exact Sv|]. split; auto.
Qed.

Definition ids_ok (y : Z * Z * Qc) : Prop := 0 <= fst (fst y) < Z.of_nat nu /\ 0 <= snd (fst y) < Z.of_nat np.
Lemma user_vecs xs ys : Forall2 as_numbers xs ys -> Forall ids_ok ys -> forall b c, caches_ok c ->
  runs b (db_user_vecs inode ords lu i (map (fun t => fst (fst t)) xs) c) (fun b' r => extends b b' /\ exists vs c', r = Ok (vs, c') /\
    Forall2 (user_row (rows_of m) np) ys vs /\ caches_ok c').
Proof.
  induction 1 as [|x y xs ys Hx _ IH]; intros Hy b c Kc.
  - apply runs_ret. split; [apply extends_refl|]. exists [], c. auto.
  - inversion Hy as [|? ? [Hu _] Hys]; subst. destruct Hx as (v & -> & _). cbn [map fst db_user_vecs cell_id].
    eapply runs_bind; [apply (runs_ret inode i d b (Ok (fst (fst y))) (fun b' r => b' = b /\ r = Ok (fst (fst y)))); auto| |intros b' e (_ & X); discriminate].
    cbn beta. intros b1 z (-> & E). apply ok_same in E. subst z.
    eapply runs_bind; [apply (user_one b _ c Hu Kc)| |intros b' e (_ & v' & c' & X & _); discriminate].
    cbn beta. intros b2 r (X2 & vec & c' & E & Sv & K2). apply ok_same in E. subst r. cbn [fst snd].
    eapply runs_bind; [apply (IH Hys b2 c' K2)| |intros b' e (_ & v' & c1 & X & _); discriminate].
    cbn beta. intros b3 r (X3 & vs & c1 & E & Sv3 & K3). apply ok_same in E. subst r. cbn [fst snd].
    apply runs_ret. split; [eapply extends_trans; eauto|]. exists (vec :: vs), c1. split; [auto|]. split; [constructor; auto|exact K3].
Qed.
Lemma item_vecs xs ys : Forall2 as_numbers xs ys -> Forall ids_ok ys -> forall b c, caches_ok c ->
  runs b (db_item_vecs inode ords li i (map (fun t => snd (fst t)) xs) c) (fun b' r => extends b b' /\ exists vs c', r = Ok (vs, c') /\
    Forall2 (item_row (rows_of m) nu) ys vs /\ caches_ok c').
Proof.
  induction 1 as [|x y xs ys Hx _ IH]; intros Hy b c Kc.
  - apply runs_ret. split; [apply extends_refl|]. exists [], c. auto.
  - inversion Hy as [|? ? [_ Hu] Hys]; subst. destruct Hx as (v & -> & _). cbn [map fst snd db_item_vecs cell_id].
    eapply runs_bind; [apply (runs_ret inode i d b (Ok (snd (fst y))) (fun b' r => b' = b /\ r = Ok (snd (fst y)))); auto| |intros b' e (_ & X); discriminate].
    cbn beta. intros b1 z (-> & E). apply ok_same in E. subst z.
    eapply runs_bind; [apply (item_one b _ c Hu Kc)| |intros b' e (_ & v' & c' & X & _); discriminate].
    cbn beta. intros b2 r (X2 & vec & c' & E & Sv & K2). apply ok_same in E. subst r. cbn [fst snd].
    eapply runs_bind; [apply (IH Hys b2 c' K2)| |intros b' e (_ & v' & c1 & X & _); discriminate].
    cbn beta. intros b3 r (X3 & vs & c1 & E & Sv3 & K3). apply ok_same in E. subst r. cbn [fst snd].
    apply runs_ret. split; [eapply extends_trans; eauto|]. exists (vec :: vs), c1. split; [auto|]. split; [constructor; auto|exact K3].
Qed.

Section Full.
Hypothesis Ne : rows_of m0 <> [].
Local Notation contig := (trained_contig d m0 m tu ti T Nm Tw Ne).
Lemma sample_ids t' draw y : right_sample es nu np t' neg draw y -> ids_ok y.
Proof.
  destruct y as [[u k] x]. intros [Hn Hp]. unfold ids_ok. cbn [fst snd]. destruct (Qclt_le_dec 1 ((neg + 1) * draw)%Qc) as [L|G].
  - destruct (Hn L) as (_ & A & B & _). auto.
  - destruct (Hp (Qcle_not_lt _ _ G)) as [H _]. exact (obs_range d m0 m tu ti T Nm Tw Ne u k x H).
Qed.
(** no sample can be drawn *)
Definition nothing_positive : Prop := forall u k x, In (u, k, x) es -> ~ reaches_threshold t x.
Lemma points_right n p b : sampler_ok b d t p ->
  after b (db_points inode ords fuel neg dr n p) (fun b' r => exists ys, Forall2 as_numbers (fst r) ys /\
    samples_for es nu np t neg (map (dd_label dr) (seq (dp_k p) n)) ys /\ Forall ids_ok ys /\ dp_k (snd r) = (dp_k p + n)%nat /\ sampler_ok b' d t (snd r)) nothing_positive.
Proof.
  intros Sk s s' o F E.
  destruct (tw_types _ _ Tw0) as (ts & Ts & _).
  assert (Nd : numbered d) by (apply assigned_numbered; congruence).
  pose proof (points_fine inode i d t Nd Cd eq_refl ords Po fuel neg dr n p s b s' o F Sk E) as H.
  destruct o as [[l p']|e].
  - destruct H as (L & Sl & K & b' & F' & X' & Sk'). exists b'. split; [exact F'|]. split; [exact X'|]. cbn [fst snd].
    assert (G : forall k0 l n, length l = n -> (forall k x, nth_error l k = Some x -> sampled d t neg (dd_label dr (k0 + k)) x) ->
      exists ys, Forall2 as_numbers l ys /\ samples_for es nu np t neg (map (dd_label dr) (seq k0 n)) ys /\ Forall ids_ok ys).
    { intros k0 xl. revert k0. induction xl as [|x xl IH]; intros k0 nn <- H.
      - exists []. cbn. repeat constructor.
      - destruct (sampled_right d m0 m tu ti T Nm Tw Ne t Tk neg _ x (H 0%nat x eq_refl)) as (y & Ey & Ry).
        destruct (IH (Datatypes.S k0) (length xl) eq_refl) as (ys & A & B & C).
        + intros k z Z0. replace (Datatypes.S k0 + k)%nat with (k0 + Datatypes.S k)%nat by lia. apply H. exact Z0.
        + rewrite Nat.add_0_r in Ry. exists (y :: ys). cbn [length seq map]. split; [constructor; auto|]. split; [constructor; auto|]. constructor; [exact (sample_ids _ _ _ Ry)|exact C]. }
    destruct (G _ _ _ L Sl) as (ys & A & B & C). exists ys. auto.
  - exact (no_positive d m0 m tu ti T Nm Tw Ne t Tk H).
Qed.

(** *** the values DMF is trained towards *)
Lemma range_right f f' : statistics m = Ok f' -> same_info f f' -> exists lo hi, info_range f = Ok (lo, hi) /\ right_range es lo hi.
Proof.
  intros Es (Sl & Sh & _). destruct (trained_rows m0 m tu ti T Ne) as [r Hr].
  destruct (number_type d m0 m tu ti T Nm Tw r Hr) as (tx & Ht & Nx). pose proof (has_interaction m0 m tu ti T Nm) as Ix.
  assert (NA : rows_of m <> []) by (intro X; rewrite X in Hr; destruct Hr).
  destruct (MemFacts4.min_spec _ _ tx (tw_wf _ _ Tw) Ix Ht Nx NA) as (a & ra & A1 & A2 & A3 & A4).
  destruct (MemFacts4.max_spec _ _ tx (tw_wf _ _ Tw) Ix Ht Nx NA) as (c & rc & B1 & B2 & B3 & B4).
  assert (Rv : forall r v, In r (rows_of m) -> row_val r "interaction" = Some v -> num_of v = Some (snd (tri r)) /\ num v = snd (tri r)).
  { intros r' v H E. destruct (KnnFacts.good m0 m tu ti T Nm r' H) as (_ & _ & v' & Ev & Q). unfold row_val in E. cbn [String.eqb Ascii.eqb Bool.eqb] in E.
    rewrite Ev in E. injection E as <-. split; [exact Q|]. unfold num. rewrite Q. reflexivity. }
  assert (Sp : forall x, In x (map snd es) -> exists r v, In r (rows_of m) /\ row_val r "interaction" = Some v /\ num v = x).
  { intros x Hx. apply in_map_iff in Hx. destruct Hx as (e & <- & He). destruct (row_obs m0 m tu ti T Nm e He) as (r' & H & <-).
    destruct (KnnFacts.good m0 m tu ti T Nm r' H) as (_ & _ & v & Ev & Q). exists r', v. split; [auto|].
    assert (E : row_val r' "interaction" = Some v) by exact Ev. split; [exact E|]. apply (Rv r' v H E). }
  assert (Is : forall r v, In r (rows_of m) -> row_val r "interaction" = Some v -> In (num v) (map snd es)).
  { intros r' v H E. rewrite (proj2 (Rv r' v H E)). apply in_map. exact (obs_row m0 m tu ti T Nm r' H). }
  unfold statistics in Es. rewrite A1 in Es. cbn [bind] in Es. rewrite B1 in Es. cbn [bind] in Es.
  destruct (MemModel.count_unique m (Some ["uid"])); [|discriminate]. destruct (MemModel.count_unique m (Some ["iid"])); [|discriminate]. cbn [bind] in Es. apply ok_same in Es. subst f'.
  cbn [fi_min fi_max] in Sl, Sh. pose proof (proj1 (Rv ra a A2 A3)) as Na. pose proof (proj1 (Rv rc c B2 B3)) as Nc.
  rewrite <- (proj2 (Rv ra a A2 A3)) in Na. rewrite <- (proj2 (Rv rc c B2 B3)) in Nc.
  assert (Sm : forall o v q, same_cell o (Some v) -> num_of v = Some q -> exists v', o = Some v' /\ num_of v' = Some q).
  { intros o v q S Q. destruct o as [v'|]; [|destruct S]. exists v'. split; [auto|]. destruct v', v; cbn in *; auto; try contradiction; congruence. }
  assert (Lo : exists lo l, lowered (Some a) = Some l /\ num_of l = Some lo /\ (num a = 1%Qc -> lo = 0%Qc) /\ (num a <> 1%Qc -> lo = num a)).
  { cbn [lowered]. rewrite Na. destruct (Qc_eq_bool (num a) 1) eqn:E1.
    - apply Qc_eq_bool_correct in E1. exists 0%Qc, (VInt 0). split; [auto|]. split; [reflexivity|]. split; [auto|]. intro X. contradiction.
    - exists (num a), a. split; [auto|]. split; [exact Na|]. split; [|auto]. intro X. rewrite X in E1. discriminate. }
  destruct Lo as (lo & l & El & Ql & L1 & L2). rewrite El in Sl. destruct (Sm _ _ _ Sl Ql) as (l' & Fl & Nl). destruct (Sm _ _ _ Sh Nc) as (c' & Fc & Nc').
  exists lo, (num c). split; [unfold info_range; rewrite Fl, Fc, Nl, Nc'; reflexivity|]. split.
  - exists (num a). split; [exact (Is ra a A2 A3)|]. split; [|auto]. intros x Hx. destruct (Sp x Hx) as (r' & v & H & E & <-). eapply A4; eauto.
  - split; [exact (Is rc c B2 B3)|]. intros x Hx. destruct (Sp x Hx) as (r' & v & H & E & <-). eapply B4; eauto.
Qed.
(** the interactions cannot be scaled *)
Definition flat (use_nce : bool) : Prop := use_nce = true /\ exists lo, right_range es lo lo.
Lemma targets_right f f' use_nce xs ys : statistics m = Ok f' -> same_info f f' -> Forall2 as_numbers xs ys ->
  match mapM (db_target f use_nce) xs with
  | Ok l => Forall2 (fun x y => right_target es use_nce (snd x) y) ys l
  | Err _ => flat use_nce
  end.
Proof.
  intros Es Sf. destruct (range_right f f' Es Sf) as (lo & hi & Er & Rr). induction 1 as [|x y xs ys (v & -> & Q) _ IH]; [constructor|].
  cbn [mapM]. unfold db_target at 1. cbn [snd]. unfold num_value. rewrite Q. cbn [bind]. rewrite Er. cbn [bind].
  assert (One : match (if use_nce then standardize (lo, hi) (snd y) else Ok (snd y)) with Ok q => right_target es use_nce (snd y) q | Err _ => flat use_nce end).
  { destruct use_nce; [|reflexivity]. unfold standardize. cbn [fst snd]. destruct (Qc_eq_bool hi lo) eqn:B.
    - apply Qc_eq_bool_correct in B. subst hi. split; [auto|]. exists lo. exact Rr.
    - exists lo, hi. split; [exact Rr|]. split; [|reflexivity]. intros ->. unfold Qc_eq_bool in B. destruct (Qc_eq_dec hi hi); congruence. }
  destruct (if use_nce then standardize (lo, hi) (snd y) else Ok (snd y)) as [q|e]; cbn [bind]; [|exact One].
  destruct (mapM (db_target f use_nce) xs) as [l|e]; cbn [bind]; [|exact IH]. constructor; [exact One|exact IH].
Qed.

(** *** DMF *)
Lemma dmf_batch_right f f' use_nce bs p c b : statistics m = Ok f' -> same_info f f' -> sampler_ok b d t p -> caches_ok c ->
  after b (db_dmf_batch inode ords fuel neg dr lu li f use_nce bs i (p, c)) (fun b' r =>
    right_batch m nu np t neg use_nce (map (dd_label dr) (seq (dp_k p) bs)) (fst r) /\
    dp_k (fst (snd r)) = (dp_k p + bs)%nat /\ sampler_ok b' d t (fst (snd r)) /\ caches_ok (snd (snd r))) (nothing_positive \/ flat use_nce).
Proof.
  intros Es Sf Sk Kc. unfold db_dmf_batch. cbn [fst snd].
  eapply after_bind; [intros s s' o F E; pose proof (points_right bs p b Sk s s' o F E) as H; destruct o; [exact H|left; exact H]|].
  cbn beta. intros b1 [xs p'] (ys & An & Ss & Ok1 & K & Sk1). cbn [fst snd] in *.
  eapply (after_bind inode i d b1 _ _ (fun b' l => b' = b1 /\ Forall2 (fun x y => right_target es use_nce (snd x) y) ys l)).
  { apply after_res. pose proof (targets_right f f' use_nce xs ys Es Sf An) as H. destruct (mapM (db_target f use_nce) xs); auto. }
  intros b2 l (-> & Hl).
  eapply (after_bind inode i d b1 _ _ (fun b' r => sampler_ok b' d t p' /\ Forall2 (user_row (rows_of m) np) ys (fst r) /\ caches_ok (snd r))).
  { apply after_step. eapply runs_weaken; [apply (user_vecs xs ys An Ok1 b1 c Kc)|]. intros b' r (X & vs & c' & -> & A & B). split; [exact X|]. cbn [fst snd].
    split; [|auto]. eapply sampler_sub; [|exact Sk1]. intros j e H. rewrite X by congruence. exact H. }
  intros b2 [us c2] (Sk2 & Hu & K2). cbn [fst snd] in *.
  eapply (after_bind inode i d b2 _ _ (fun b' r => sampler_ok b' d t p' /\ Forall2 (item_row (rows_of m) nu) ys (fst r) /\ caches_ok (snd r))).
  { apply after_step. eapply runs_weaken; [apply (item_vecs xs ys An Ok1 b2 c2 K2)|]. intros b' r (X & vs & c' & -> & A & B). split; [exact X|]. cbn [fst snd].
    split; [|auto]. eapply sampler_sub; [|exact Sk2]. intros j e H. rewrite X by congruence. exact H. }
  intros b3 [vs c3] (Sk3 & Hv & K3). cbn [fst snd] in *. apply after_ret. cbn [fst snd]. split; [|auto].
  exists ys. cbn [bt_users bt_items bt_desired]. auto.
Qed.
Lemma dmf_batches_right f f' use_nce bs epochs : statistics m = Ok f' -> same_info f f' -> forall p c b, sampler_ok b d t p -> caches_ok c ->
  after b (db_dmf_batches inode ords fuel neg dr lu li epochs f use_nce bs i (p, c)) (fun b' l =>
    length l = epochs /\ forall e x, nth_error l e = Some x -> right_batch m nu np t neg use_nce (map (dd_label dr) (seq (dp_k p + e * bs) bs)) x) (nothing_positive \/ flat use_nce).
Proof.
  intros Es Sf. induction epochs as [|epochs IH]; intros p c b Sk Kc; cbn [db_dmf_batches].
  - apply after_ret. split; [auto|]. intros [|e] x X; discriminate.
  - eapply after_bind; [apply (dmf_batch_right f f' use_nce bs p c b Es Sf Sk Kc)|]. cbn beta. intros b1 [x [p1 c1]] (Rx & K1 & Sk1 & Kc1). cbn [fst snd] in *.
    eapply after_bind; [apply (IH p1 c1 b1 Sk1 Kc1)|]. cbn beta. intros b2 l (L & Hl). apply after_ret. split; [cbn [length]; congruence|].
    intros [|e] y Y; cbn [nth_error] in Y; [injection Y as <-; rewrite Nat.add_0_r; exact Rx|].
    specialize (Hl e y Y). rewrite K1 in Hl. replace (dp_k p + Datatypes.S e * bs)%nat with (dp_k p + bs + e * bs)%nat by lia. exact Hl.
Qed.

(** *** CDAE *)
Lemma inputs_right th q rnd k u vec : user_vec_spec (rows_of m) np u vec ->
  match cdae_inputs (Some th) q rnd k u vec with
  | Ok c => right_inputs (rows_of m) np th q (fun j => rnd (k + j)%nat) u c
  | Err _ => q = 1%Qc /\ exists j, (1 <= rnd j)%Qc
  end.
Proof.
  intro Sv. pose proof Sv as [L _]. cbn [cdae_inputs]. pose proof (corrupted_at q rnd (desired_vector th vec) k) as H.
  assert (Ld : length (desired_vector th vec) = np) by (unfold desired_vector; rewrite map_length; exact L).
  destruct (corrupted q (map rnd (seq k (length (desired_vector th vec)))) (desired_vector th vec)) as [l|e]; cbn [bind]; [|exact H]. destruct H as [Ll Hl].
  unfold right_inputs. cbn [cs_user cs_desired cs_input]. split; [auto|]. split; [exact Ld|]. split; [congruence|].
  intros j Hj. destruct (desired_sum th (rows_of m) np u vec (Z.of_nat j) Sv ltac:(lia)) as (y & Ey & Cy). rewrite Nat2Z.id in Ey.
  exists y. split; [exact Ey|]. rewrite (Hl j y Ey). split; [|split; [|reflexivity]]; intro G; destruct Cy as [[-> A]|[-> A]]; auto.
  - destruct (Qcle_not_lt _ _ G A).
  - contradiction.
Qed.
(** the draw of an input is no draw from [0, 1) *)
Definition bad_draw (q : Qc) (rnd : nat -> Qc) : Prop := q = 1%Qc /\ exists j, (1 <= rnd j)%Qc.
Lemma cdae_samples_right th q rnd xs ys : Forall2 as_numbers xs ys -> Forall ids_ok ys -> forall b c k, caches_ok c ->
  runs b (db_cdae_samples inode ords lu (Some th) q rnd i (map (fun t => fst (fst t)) xs) c k) (fun b' r => extends b b' /\
    match r with
    | Ok (cs, (c', k')) => length cs = length ys /\ (forall j x y, nth_error ys j = Some x -> nth_error cs j = Some y ->
        right_inputs (rows_of m) np th q (fun a => rnd (k + j * np + a)%nat) (fst (fst x)) y) /\ caches_ok c' /\ k' = (k + length ys * np)%nat
    | Err _ => bad_draw q rnd
    end).
Proof.
  induction 1 as [|x y xs ys Hx _ IH]; intros Hy b c k Kc.
  - apply runs_ret. split; [apply extends_refl|]. split; [auto|]. split; [intros [|j] x y X; discriminate|]. split; [exact Kc|]. cbn [length]. lia.
  - inversion Hy as [|? ? [Hu _] Hys]; subst. destruct Hx as (v & -> & _). cbn [map fst db_cdae_samples cell_id].
    eapply runs_bind; [apply (runs_ret inode i d b (Ok (fst (fst y))) (fun b' r => b' = b /\ r = Ok (fst (fst y)))); auto| |intros b' e (_ & X); discriminate].
    cbn beta. intros b1 z (-> & E). apply ok_same in E. subst z.
    eapply runs_bind; [apply (user_one b _ c Hu Kc)| |intros b' e (_ & v' & c' & X & _); discriminate].
    cbn beta. intros b2 r (X2 & vec & c' & E & Sv & K2). apply ok_same in E. subst r. cbn [fst snd].
    pose proof (inputs_right th q rnd k (fst (fst y)) vec Sv) as Hi. destruct (cdae_inputs (Some th) q rnd k (fst (fst y)) vec) as [cx|e].
    + eapply runs_bind; [apply (runs_ret inode i d b2 (Ok cx) (fun b' r => b' = b2 /\ r = Ok cx)); auto| |intros b' e (_ & X); discriminate].
      cbn beta. intros b3 z (-> & E). apply ok_same in E. subst z.
      eapply runs_bind; [apply (IH Hys b2 c' (k + length vec)%nat K2)| |].
      * cbn beta. intros b3 [cs [c1 k1]] (X3 & L & Hc & K3 & Ek). cbn [fst snd]. apply runs_ret. split; [eapply extends_trans; eauto|].
        destruct Sv as [Lv _]. split; [cbn [length]; congruence|]. split.
        -- intros [|j] x0 y0 A B; cbn [nth_error] in A, B.
           ++ injection A as <-. injection B as <-. cbn [Nat.mul]. rewrite Nat.add_0_r. exact Hi.
           ++ specialize (Hc j x0 y0 A B). rewrite Lv in Hc. replace (k + Datatypes.S j * np)%nat with (k + np + j * np)%nat by lia. exact Hc.
        -- split; [exact K3|]. cbn [length]. rewrite Ek, Lv. lia.
      * cbn beta. intros b3 e (X3 & B). split; [eapply extends_trans; eauto|exact B].
    + eapply runs_bind; [apply (runs_ret inode i d b2 (Err e) (fun b' r => b' = b2 /\ r = Err e)); auto|intros b' a (_ & X); discriminate|].
      cbn beta. intros b' e' (-> & _). split; [exact X2|exact Hi].
Qed.
Lemma cdae_batches_right l th q rnd bs epochs : t = Some l -> forall p c k b, sampler_ok b d t p -> caches_ok c ->
  after b (db_cdae_batches inode ords fuel neg dr lu epochs (Some th) q rnd bs i p c k) (fun b' r =>
    length r = epochs /\ forall e x, nth_error r e = Some x ->
      right_cdae m nu np l th neg q rnd (k + e * bs * np) (map (dd_label dr) (seq (dp_k p + e * bs) bs)) x) (nothing_positive \/ bad_draw q rnd).
Proof.
  intro El. induction epochs as [|epochs IH]; intros p c k b Sk Kc; cbn [db_cdae_batches].
  - apply after_ret. split; [auto|]. intros [|e] x X; discriminate.
  - eapply after_bind; [intros s s' o F E; pose proof (points_right bs p b Sk s s' o F E) as H; destruct o; [exact H|left; exact H]|].
    cbn beta. intros b1 [xs p'] (ys & An & Ss & Ok1 & K & Sk1). cbn [fst snd] in *.
    assert (Ly : length ys = bs). { pose proof (RankFacts2.Forall2_len _ _ _ Ss) as L. rewrite map_length, seq_length in L. auto. }
    eapply (after_bind inode i d b1 _ _ (fun b' r => sampler_ok b' d t p' /\ length (fst r) = length ys /\ (forall j x y, nth_error ys j = Some x -> nth_error (fst r) j = Some y ->
        right_inputs (rows_of m) np th q (fun a => rnd (k + j * np + a)%nat) (fst (fst x)) y) /\ caches_ok (fst (snd r)) /\ snd (snd r) = (k + bs * np)%nat)).
    { apply after_step. eapply runs_weaken; [apply (cdae_samples_right th q rnd xs ys An Ok1 b1 c k Kc)|]. intros b' r (X & Hr). split; [exact X|].
      destruct r as [[cs [c' k']]|e]; [|right; exact Hr]. cbn [fst snd]. destruct Hr as (A & B & C & D). split; [|split; [exact A|split; [exact B|split; [exact C|rewrite D, Ly; reflexivity]]]].
      eapply sampler_sub; [|exact Sk1]. intros j e H. rewrite X by congruence. exact H. }
    intros b2 [cs [c2 k2]] (Sk2 & Lc & Hc & K2 & Ek). cbn [fst snd] in *. subst k2.
    eapply after_bind; [apply (IH p' c2 (k + bs * np)%nat b2 Sk2 K2)|]. cbn beta. intros b3 r (L & Hr). apply after_ret. split; [cbn [length]; congruence|].
    intros [|e] y Y; cbn [nth_error] in Y.
    + injection Y as <-. cbn [Nat.mul]. rewrite !Nat.add_0_r. exists ys. rewrite <- El. auto.
    + specialize (Hr e y Y). rewrite K in Hr. replace (dp_k p + Datatypes.S e * bs)%nat with (dp_k p + bs + e * bs)%nat by lia.
      replace (k + Datatypes.S e * bs * np)%nat with (k + bs * np + e * bs * np)%nat by lia. exact Hr.
Qed.
Lemma np_pos : (0 < np)%nat.
Proof. exact (cg_p _ _ _ contig). Qed.
(** None cannot be compared *)
Lemma cdae_none q rnd bs epochs p c k b : (0 < bs)%nat -> sampler_ok b d t p -> caches_ok c ->
  after b (db_cdae_batches inode ords fuel neg dr lu (Datatypes.S epochs) None q rnd bs i p c k) (fun _ _ => False) True.
Proof.
  intros B Sk Kc. cbn [db_cdae_batches].
  eapply after_bind; [intros s s' o F E; pose proof (points_right bs p b Sk s s' o F E) as H; destruct o; [exact H|exact Logic.I]|].
  cbn beta. intros b1 [xs p'] (ys & An & Ss & Ok1 & K & Sk1). cbn [fst snd] in *.
  assert (Ly : length ys = bs). { pose proof (RankFacts2.Forall2_len _ _ _ Ss) as L. rewrite map_length, seq_length in L. auto. }
  eapply (after_bind inode i d b1 _ _ (fun _ _ => False)); [|intros b' a []].
  apply after_step. destruct An as [|x y xs ys Hx _]; [cbn in Ly; lia|]. inversion Ok1 as [|? ? [Hu _] Hys]; subst. destruct Hx as (v & -> & _). cbn [map fst db_cdae_samples cell_id].
  eapply runs_bind; [apply (runs_ret inode i d b1 (Ok (fst (fst y))) (fun b' r => b' = b1 /\ r = Ok (fst (fst y)))); auto| |intros b' e (_ & X); discriminate].
  cbn beta. intros b2 z (-> & E). apply ok_same in E. subst z.
  eapply runs_bind; [apply (user_one b1 _ c Hu Kc)| |intros b' e (_ & v' & c' & X & _); discriminate].
  cbn beta. intros b2 r (X2 & vec & c' & E & [Lv _] & K2). apply ok_same in E. subst r. cbn [fst snd].
  pose proof np_pos as Np. destruct vec as [|x vec]; [cbn in Lv; lia|]. cbn [cdae_inputs].
  eapply runs_bind; [apply (runs_ret inode i d b2 (Err TypeError) (fun b' r => b' = b2 /\ r = Err TypeError)); auto|intros b' a (_ & X); discriminate|].
  cbn beta. intros b' e' (-> & _). split; [exact X2|exact Logic.I].
Qed.
End Full.

(** ** Whole runs *)
Definition kept (s' : nat * world) : Prop := exists b', reaches inode (snd s') b' /\ b' i = Some d /\ forall j, j <> i -> b0 j <> None -> b' j = b0 j.
Lemma fit_run {A} (rest : fit_info -> dbpoint -> RecDbModel7.T A) (Q : A -> Prop) (E : Prop) n s' o :
  (forall f f' p b, rows_of m0 <> [] -> statistics m = Ok f' -> same_info f f' -> sampler_ok b d t p -> dp_k p = 0%nat -> after b (rest f p) (fun _ => Q) (nothing_positive \/ E)) ->
  tbind (step (db_begin_fit inode i false)) (fun f => tbind (step (db (db_point_init inode i (DbGenSpec.thr_text t)))) (rest f)) (n, w0) = (s', Some o) ->
  match o with Ok a => Q a /\ kept s' | Err _ => nothing_positive \/ E end.
Proof.
  intros Hr Er. destruct (begin_runs inode w0 b0 i d0 m0 m tu ti R0 S0 H0 Tw0 T Nm Cd0 n) as (s1 & b1 & r & E1 & F1 & X1 & r' & Eb & Sr & St).
  unfold tbind at 1, step at 1 in Er. rewrite E1 in Er. destruct r as [f|e].
  2:{ injection Er as <- <-. left. intros u k x Hx. exfalso.
      destruct (row_obs m0 m tu ti T Nm _ Hx) as (r0 & Hr0 & _). unfold begin_fit in Eb. rewrite (tr_assign _ _ _ _ T) in Eb.
      assert (Ne : rows_of m0 <> []). { intro X. rewrite (RecDbFacts6.Em m0 m tu ti T), assigned_rows, X in Hr0. destruct Hr0. }
      pose proof (trained_contig d m0 m tu ti T Nm Tw Ne) as C.
      destruct (number_type d m0 m tu ti T Nm Tw r0 Hr0) as (tx & Ht & Nx). pose proof (has_interaction m0 m tu ti T Nm) as Ix.
      assert (NA : rows_of m <> []) by (intro X; rewrite X in Hr0; destruct Hr0).
      destruct (MemFacts4.min_spec _ _ tx (tw_wf _ _ Tw) Ix Ht Nx NA) as (a & ra & A1 & _). destruct (MemFacts4.max_spec _ _ tx (tw_wf _ _ Tw) Ix Ht Nx NA) as (c & rc & B1 & _).
      unfold statistics in Eb. rewrite A1, B1, (contig_count_u _ _ _ C), (contig_count_i _ _ _ C) in Eb. cbn [bind] in Eb.
      unfold log_initial_info in Eb. cbn [fi_users fi_items] in Eb. pose proof (cg_n _ _ _ C). pose proof (cg_p _ _ _ C).
      destruct (Nat.eqb_spec (nu * np) 0) as [Z0|_]; [nia|]. cbn [bind] in Eb. injection Eb as <-. destruct Sr. }
  specialize (St f eq_refl). destruct r' as [f'|e']; [|destruct Sr]. cbn [same_start] in Sr.
  assert (Ne : rows_of m0 <> []).
  { intro X. destruct (stats_counts m0 m tu ti T Nm f' St) as [Cu Ci]. unfold begin_fit in Eb. rewrite (tr_assign _ _ _ _ T), St in Eb. cbn [bind] in Eb.
    unfold log_initial_info in Eb. rewrite Cu, Ci in Eb. rewrite !n_distinct_length, X in Eb. cbn in Eb. discriminate. }
  unfold tbind at 1, step at 1 in Er. unfold db at 1 in Er. destruct s1 as [n1 w1]. cbn [snd fst] in *.
  destruct (point_init_fine inode i d t) with (w := w1) (b := b1) as (w2 & p & b2 & E2 & F2 & X2 & Sk & Kp); auto.
  { exact Cd. }
  { exact (thr_fits d m0 m tu ti T Nm Tw Ne t Tk). }
  rewrite E2 in Er. specialize (Hr f f' p b2 Ne St Sr Sk Kp (n1, w2) s' o F2 Er). destruct o as [a|e]; [|exact Hr].
  destruct Hr as (b3 & F3 & X3 & Qa). split; [exact Qa|]. destruct F3 as ((b4 & E4 & R4) & Hb & _). exists b4. split; [exact R4|]. split; [rewrite E4; exact Hb|].
  intros j Nj Hj. rewrite E4. rewrite (extends_note b0 i d0 b3); [reflexivity| |exact Nj|exact Hj]. eapply extends_trans; [exact X1|]. eapply extends_trans; eauto.
Qed.
Lemma caches_start : caches_ok ([], []).
Proof. split; intros k x Y; discriminate. Qed.
Lemma dmf_fit_right use_nce epochs bs n s' o : db_dmf_fit inode ords fuel neg dr lu li false use_nce (DbGenSpec.thr_text t) epochs bs i (n, w0) = (s', Some o) ->
  match o with
  | Ok l => (length l = epochs /\ forall e x, nth_error l e = Some x -> right_batch m nu np t neg use_nce (map (dd_label dr) (seq (e * bs) bs)) x) /\ kept s'
  | Err _ => nothing_positive \/ flat use_nce
  end.
Proof.
  unfold db_dmf_fit.
  apply (fit_run (fun f p => db_dmf_batches inode ords fuel neg dr lu li epochs f use_nce bs i (p, ([], [])))
    (fun l => length l = epochs /\ forall e x, nth_error l e = Some x -> right_batch m nu np t neg use_nce (map (dd_label dr) (seq (e * bs) bs)) x)).
  intros f f' p b Ne St Sf Sk Kp. pose proof (dmf_batches_right Ne f f' use_nce bs epochs St Sf p ([], []) b Sk caches_start) as H. rewrite Kp in H. exact H.
Qed.
Lemma cdae_fit_right l th q rnd epochs bs n s' o : t = Some l -> db_cdae_fit inode ords fuel neg dr lu false (Some (lit_text l, th)) q rnd epochs bs i (n, w0) = (s', Some o) ->
  match o with
  | Ok r => (length r = epochs /\ forall e x, nth_error r e = Some x -> right_cdae m nu np l th neg q rnd (e * bs * np) (map (dd_label dr) (seq (e * bs) bs)) x) /\ kept s'
  | Err _ => nothing_positive \/ bad_draw q rnd
  end.
Proof.
  intro El. unfold db_cdae_fit. cbn [option_map fst snd]. replace (Some (lit_text l)) with (DbGenSpec.thr_text t) by (rewrite El; reflexivity).
  apply (fit_run (fun f p => db_cdae_batches inode ords fuel neg dr lu epochs (Some th) q rnd bs i p ([], []) 0)
    (fun r => length r = epochs /\ forall e x, nth_error r e = Some x -> right_cdae m nu np l th neg q rnd (e * bs * np) (map (dd_label dr) (seq (e * bs) bs)) x)).
  intros f f' p b Ne St Sf Sk Kp. pose proof (cdae_batches_right Ne l th q rnd bs epochs El p ([], []) 0%nat b Sk caches_start) as H. rewrite Kp in H. exact H.
Qed.
Lemma cdae_fit_none q rnd epochs bs n s' r : t = None -> (0 < epochs)%nat -> (0 < bs)%nat -> db_cdae_fit inode ords fuel neg dr lu false None q rnd epochs bs i (n, w0) <> (s', Some (Ok r)).
Proof.
  intros El He Hb Er. unfold db_cdae_fit in Er. cbn [option_map] in Er. replace (@None string) with (DbGenSpec.thr_text t) in Er by (rewrite El; reflexivity).
  destruct epochs as [|epochs]; [lia|].
  apply (fit_run (fun f p => db_cdae_batches inode ords fuel neg dr lu (Datatypes.S epochs) None q rnd bs i p ([], []) 0) (fun _ => False) True) in Er; [destruct Er as [[] _]|].
  intros f f' p b Ne St Sf Sk Kp s1 s2 o F E. pose proof (cdae_none Ne q rnd bs epochs p ([], []) 0%nat b Hb Sk caches_start s1 s2 o F E) as H. destruct o; [exact H|right; exact Logic.I].
Qed.
End Fit.
