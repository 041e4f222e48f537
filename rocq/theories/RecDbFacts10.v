(** Predictive evaluation on data sets in a database and in memory. *)
From Coq Require Import String Ascii.
From Coq Require Import List ZArith QArith Qcanon Reals Bool Permutation Sorted Lia.
From Verif Require Import Py PyFacts MemModel MemSpec MemFacts MemFacts2 MemFacts4 MemFacts5 MemFacts7 RankModel RankSpec RankFacts RankFacts2 KnnModel KnnSpec KnnFacts FitModel
  MetricModel EvalModel EvalSpec EvalFacts5 DbModel DbFacts DbSpec DbFacts3 DbFacts7 DbGenFacts2 DbFacts13 DbFacts15 DbGenModel DbGenSpec DbGenFacts
  DbSplitModel DbSplitSpec DbSplitFacts DbSplitFacts3 TwinSpec TwinFacts TwinFacts5 TwinFacts6 RecDbModel RecDbModel2 RecDbModel4
  RecDbFacts RecDbFacts2 RecDbFacts3 RecDbFacts4 RecDbFacts5 RecDbFacts6 RecDbFacts7 RecDbFacts8 RecDbFacts9 RecDbSpec RecDbSpec2 RecDbSpec4.
Import ListNotations.
Open Scope string_scope.
Open Scope Z_scope.
Open Scope list_scope.
Notation interaction_of := MemSpec.interaction_of.

(** a row of test data *)
Definition raw_trip (r : row) : value * value * Qc := (at_cell "user" r, at_cell "item" r, interaction_of r).
Definition db_row (cs : list string) (r : row) : list (option value) := cells ["user"; "item"; "interaction"] (as_trow cs r).

Section Test.
Variables (m0 mt : mem).
Hypothesis W : wf_mem mt.
Hypothesis D : test_data m0 mt.
Lemma td_in c : In c ["user"; "item"; "interaction"] -> In c (m_columns mt) /\ small_col mt c.
Proof.
  destruct D as [(Ii & _ & Si) H]. intros [<-|[<-|[<-|[]]]]; [destruct (H "user") as (A & _ & B)|destruct (H "item") as (A & _ & B)|]; cbn; auto.
Qed.
Lemma td_cell c r : In c ["user"; "item"; "interaction"] -> In r (rows_of mt) -> cell r c = Some (at_cell c r) /\ exists t, col_type mt c = Ok t /\ type_of (at_cell c r) = t.
Proof.
  intros Hc Hr. destruct (td_in c Hc) as [I _]. destruct (col_type_ok mt c W I) as [t Ht].
  assert (N : c <> "rid") by (intros ->; cbn in Hc; intuition discriminate).
  destruct (wf_cell mt r c t W Hr (col_type_assoc mt c t N Ht)) as (v & Ev & Tv). unfold at_cell. rewrite Ev. eauto.
Qed.
Lemma td_num r : In r (rows_of mt) -> num_of (at_cell "interaction" r) = Some (interaction_of r).
Proof.
  intro Hr. destruct D as [(_ & H & _) _]. destruct (H r Hr) as (v & q & Ev & Q). unfold at_cell, interaction_of. rewrite Ev. destruct v; [reflexivity|reflexivity|discriminate].
Qed.
Lemma td_triple r : In r (rows_of mt) -> triple_of (db_row (m_columns mt) r) = Ok (raw_trip r).
Proof.
  intro Hr. unfold triple_of, db_row, cells. cbn [map].
  assert (X : forall c, In c ["user"; "item"; "interaction"] -> tcell (as_trow (m_columns mt) r) c = Some (at_cell c r)).
  { intros c Hc. rewrite tcell_as by (apply td_in; exact Hc).
    assert (N : String.eqb c "rid" = false) by (destruct Hc as [<-|[<-|[<-|[]]]]; reflexivity). unfold row_val. rewrite N. apply td_cell; auto. }
  rewrite !X by (cbn; auto). cbn [mapM filled bind]. rewrite (td_num r Hr). reflexivity.
Qed.
(** in memory *)
Definition reads_as (r : row) (p : value * value * Qc) : Prop :=
  same_value (fst (fst p)) (at_cell "user" r) /\ same_value (snd (fst p)) (at_cell "item" r) /\ snd p = interaction_of r.
Lemma td_triples : exists ts, triples mt = Ok ts /\ Forall2 reads_as (rows_of mt) ts.
Proof.
  destruct (values_ok mt ["user"; "item"; "interaction"] W (fun c H => proj1 (td_in c H)) (fun c H => proj2 (td_in c H))) as (vs & E & _ & F).
  unfold triples. rewrite E. cbn [bind].
  assert (G : forall r, In r (rows_of mt) -> In r (rows_of mt)) by auto. revert G F. generalize (rows_of mt) at 1 3 4. clear E. revert vs.
  intros vs rs G F. induction F as [|r v rs vs H _ IH]; [exists []; auto|].
  destruct IH as (ts & E & Ft); [intros; apply G; right; auto|].
  assert (Hr : In r (rows_of mt)) by (apply G; left; auto).
  inversion H as [|? u ? ? (yu & Eu & Su) H1]; subst. inversion H1 as [|? i ? ? (yi & Ei & Si) H2]; subst. inversion H2 as [|? x ? ? (yx & Ex & Sx) H3]; subst. inversion H3; subst.
  change (cell r "user" = Some yu) in Eu. change (cell r "item" = Some yi) in Ei. change (cell r "interaction" = Some yx) in Ex.
  rewrite (proj1 (td_cell "user" r ltac:(cbn; auto) Hr)) in Eu. rewrite (proj1 (td_cell "item" r ltac:(cbn; auto) Hr)) in Ei. rewrite (proj1 (td_cell "interaction" r ltac:(cbn; auto) Hr)) in Ex.
  injection Eu as <-. injection Ei as <-. injection Ex as <-.
  assert (Nx : num_of x = Some (interaction_of r)).
  { rewrite <- (td_num r Hr). pose proof (td_num r Hr) as Q. destruct x, (at_cell "interaction" r); cbn in *; auto; try contradiction; discriminate. }
  exists ((u, i, interaction_of r) :: ts). cbn [mapM]. rewrite Nx. cbn [bind]. rewrite E. cbn [bind]. split; [auto|]. constructor; [|exact Ft]. split; [exact Su|]. split; [exact Si|reflexivity].
Qed.
Lemma loop_reads P cn : (forall r u i, In r (rows_of mt) -> same_value u (at_cell "user" r) -> same_value i (at_cell "item" r) -> P u i = P (at_cell "user" r) (at_cell "item" r)) ->
  forall rs ts, Forall2 reads_as rs ts -> (forall r, In r rs -> In r (rows_of mt)) -> forall n made, pe_loop P cn n made ts = pe_loop P cn n made (map raw_trip rs).
Proof.
  intro B. induction 1 as [|r p rs ts H _ IH]; intros G n made; [auto|]. destruct p as [[u i] x]. destruct H as (Su & Si & Ex). cbn [fst snd] in *. subst x.
  cbn [map pe_loop raw_trip]. unfold raw_trip at 1. destruct (n <=? made); [auto|]. rewrite (B r u i (G r (or_introl eq_refl)) Su Si).
  destruct (P _ _) as [[q|]|e]; cbn [bind]; [| |auto].
  - rewrite IH by (intros; apply G; right; auto). auto.
  - destruct cn; rewrite IH by (intros; apply G; right; auto); auto.
Qed.
End Test.

(** what both programs compute, from the rows in some order *)
Definition evaluated (predict : value -> value -> bool -> res (option Qc)) (a : pe_args) (rs : list row) : res (list (string * R)) :=
  let len := Z.of_nat (length rs) in
  let n := match p_n a with Some n => n | None => len end in
  if negb (0 <? n) then Err AssertionError else
  l <- pe_loop (fun u i => predict u i (p_skip a)) (p_count_none a) (Z.min n len) 0 (map raw_trip rs) ;;
  metric_dict (p_metrics a) l.

Lemma mem_evaluated m0 mt m f impl ni a : wf_mem mt -> test_data m0 mt -> (forall c, In c ["user"; "item"] -> col_type m c = col_type m0 c /\ col_type m0 c <> Ok DFloat) ->
  predictive_evaluation (recommender impl f m ni) mt a = evaluated (fun u i sk => predict f true m u i sk) a (rows_of mt).
Proof.
  intros W D Ty. unfold predictive_evaluation, evaluated, mem_len. destruct (negb _); [auto|].
  destruct (td_triples m0 mt W D) as (ts & -> & F). cbn [bind recommender md_predict].
  assert (Mt : forall c, In c ["user"; "item"] -> id_match m mt c).
  { intros c Hc. destruct (proj2 D c Hc) as (I & E & _). destruct (Ty c Hc) as [Em Nf]. destruct (col_type_ok mt c W I) as [t Ht]. unfold id_match. rewrite Em, <- E, Ht in *.
    destruct t; auto. destruct (Nf eq_refl). }
  rewrite (loop_reads mt (fun u i => predict f true m u i (p_skip a)) (p_count_none a)) with (rs := rows_of mt); [reflexivity| |exact F|auto].
  intros r u i Hr Su Si.
  apply (recommender_blind impl f m ni (p_skip a) mt W (proj1 (td_in m0 mt D "user" ltac:(cbn; auto))) (proj1 (td_in m0 mt D "item" ltac:(cbn; auto)))
           (Mt "user" ltac:(cbn; auto)) (Mt "item" ltac:(cbn; auto)) r _ _ u i Hr); auto; apply (td_cell m0 mt W D); cbn; auto.
Qed.

Section Db.
Variable inode : string -> nat.
Variable ords : nat -> list trow -> list trow.
Hypothesis Po : forall k, permuting (ords k).
Variables (i : nat) (d : ds).
Local Notation runs := (runs inode i d).
Local Notation gives := (gives inode i d).

Lemma loop_gives m0 mt (predict : value -> value -> P (option Qc)) predict' cn n : wf_mem mt -> test_data m0 mt ->
  (forall b r, In r (rows_of mt) -> gives b (predict (at_cell "user" r) (at_cell "item" r)) (predict' (at_cell "user" r) (at_cell "item" r))) ->
  forall rs, (forall r, In r rs -> In r (rows_of mt)) -> forall b made,
  gives b (db_pe_loop predict cn n made (map (db_row (m_columns mt)) rs)) (pe_loop predict' cn n made (map raw_trip rs)).
Proof.
  intros W D Hp. induction rs as [|r rs IH]; intros G b made; cbn [map db_pe_loop pe_loop]; [apply gives_ret|].
  rewrite (td_triple m0 mt W D r (G r (or_introl eq_refl))).
  change (gives b (if n <=? made then pret (Ok []) else pbind (predict (at_cell "user" r) (at_cell "item" r)) (fun p => match p with
     | Some q => pbind (db_pe_loop predict cn n (made + 1) (map (db_row (m_columns mt)) rs)) (fun l => pret (Ok ((q, interaction_of r) :: l)))
     | None => if cn then pbind (db_pe_loop predict cn n (made + 1) (map (db_row (m_columns mt)) rs)) (fun l => pret (Ok ((0%Qc, interaction_of r) :: l))) else db_pe_loop predict cn n made (map (db_row (m_columns mt)) rs) end))
   (let '(u, i, x) := raw_trip r in if n <=? made then Ok [] else p <- predict' u i ;; match p with
     | None => if cn then l <- pe_loop predict' cn n (made + 1) (map raw_trip rs) ;; Ok ((0%Qc, x) :: l) else pe_loop predict' cn n made (map raw_trip rs)
     | Some q => l <- pe_loop predict' cn n (made + 1) (map raw_trip rs) ;; Ok ((q, x) :: l) end)).
  unfold raw_trip at 1. destruct (n <=? made); [apply gives_ret|]. apply gives_bind; [apply Hp, G; left; auto|]. intros b1 p _ _.
  assert (IH' : forall b made, gives b (db_pe_loop predict cn n made (map (db_row (m_columns mt)) rs)) (pe_loop predict' cn n made (map raw_trip rs))) by (apply IH; intros; apply G; right; auto).
  destruct p as [q|]; [apply gives_bind; [apply IH'|intros; apply gives_ret]|]. destruct cn; [apply gives_bind; [apply IH'|intros; apply gives_ret]|apply IH'].
Qed.

(** the generator of the test rows *)
Lemma rows_run b j dt mt cs : b j = Some dt -> complete dt -> twin dt mt -> incl cs (m_columns mt) ->
  runs b (dbo ords (fun ord => values inode ord j (Some cs) true)) (fun b' r => extends b b' /\ exists rs, Permutation rs (rows_of mt) /\
    ((forall k, sorting (ords k)) -> rs = rows_of mt) /\ r = Ok (map (fun r => cells cs (as_trow (m_columns mt) r)) rs)).
Proof.
  intros Hb C Tw I s F. assert (I' : incl cs (d_cols dt)) by (rewrite (tw_cols _ _ Tw); exact I).
  destruct (values_fine inode i d (ords (fst s)) j dt cs true (snd s) b (Po _) Hb C I' F) as (w' & vs & E & F' & _).
  destruct F as ((b0 & Eb & R) & _). assert (Hb0 : b0 j = Some dt) by (rewrite Eb; exact Hb).
  destruct (values_read inode (ords (fst s)) (snd s) b0 j dt (Some cs) true w' vs (Po _) (reaches_inv _ _ _ R) Hb0 E) as (l & Pl & -> & Sl). cbn [asked] in *.
  eexists. eexists. exists b. split; [unfold dbo; rewrite E; reflexivity|]. split; [exact F'|]. split; [apply extends_refl|].
  pose proof (Permutation_trans Pl (tw_rows _ _ Tw)) as Q. destruct (Permutation_map_inv _ _ Q) as (rs & -> & Prs).
  set (q := as_trow (m_columns mt)) in *.
  assert (Rid : forall r, rid_of (q r) = r_rid r) by (intro r; apply rid_as, (twin_rid dt mt Tw)).
  exists rs. split; [apply Permutation_sym; exact Prs|]. split; [|rewrite map_map; reflexivity].
  intro So. specialize (Sl (So _)). apply (sorted_same (fun a b => r_rid a <= r_rid b)).
  - clear - Sl Rid. induction rs as [|r rs IH]; [constructor|]. cbn [map] in Sl. inversion Sl as [|? ? S1 S2]; subst. constructor; [auto|].
    rewrite Forall_forall in *. intros x Hx. specialize (S2 _ (in_map q _ _ Hx)). rewrite !Rid in S2. exact S2.
  - pose proof (tw_order _ _ Tw) as O. clear - O. induction (rows_of mt) as [|r l IH]; [constructor|]. cbn [map] in O. inversion O as [|? ? S1 S2]; subst. constructor; [auto|].
    rewrite Forall_forall in *. intros x Hx. specialize (S2 _ (in_map r_rid _ _ Hx)). lia.
  - apply Permutation_sym; exact Prs.
  - intros x y Hx Hy L1 L2. apply (Permutation_in _ (Permutation_sym Prs)) in Hx, Hy. assert (Er : r_rid x = r_rid y) by lia.
    pose proof (sorted_nodup _ (tw_order _ _ Tw)) as N. clear - N Er Hx Hy. induction (rows_of mt) as [|a l IH]; [contradiction|].
    cbn [map] in N. inversion N as [|? ? Na Nl]; subst. destruct Hx as [->|Hx], Hy as [->|Hy]; auto.
    + destruct Na. rewrite Er. apply in_map. exact Hy.
    + destruct Na. rewrite <- Er. apply in_map. exact Hx.
Qed.
Lemma shut_gives b : gives b (db close_generator) (Ok tt).
Proof.
  intros s F. destruct (generator_fine inode i d (snd s) b F) as (w' & E & F'). exists (fst s, w'), (Ok tt), b.
  split; [unfold db; rewrite E; reflexivity|]. split; [exact F'|]. split; [apply extends_refl|auto].
Qed.

Lemma predictive_runs m0 mt dt j b (p : value -> value -> bool -> P (option Qc)) p' a : b j = Some dt -> complete dt -> twin dt mt -> test_data m0 mt ->
  (forall b r, In r (rows_of mt) -> gives b (p (at_cell "user" r) (at_cell "item" r) (p_skip a)) (p' (at_cell "user" r) (at_cell "item" r) (p_skip a))) ->
  runs b (db_predictive inode ords p j a) (fun b' r => extends b b' /\ exists rs, Permutation rs (rows_of mt) /\ ((forall k, sorting (ords k)) -> rs = rows_of mt) /\ r = evaluated p' a rs).
Proof.
  intros Hb C Tw D Hp. pose proof (tw_wf _ _ Tw) as W.
  assert (Ln : length (d_rows dt) = length (rows_of mt)) by (rewrite (Permutation_length (tw_rows _ _ Tw)), map_length; reflexivity).
  unfold db_predictive.
  set (n := match p_n a with Some n => n | None => Z.of_nat (length (rows_of mt)) end).
  assert (G : gives b (match p_n a with Some n => pret (Ok n) | None => pbind (db (ds_len j)) (fun len => pret (Ok (Z.of_nat len))) end) (Ok n)).
  { unfold n. destruct (p_n a); [apply gives_ret|]. rewrite <- Ln.
    apply (gives_bind inode i d b _ _ (Ok (length (d_rows dt))) (fun len => Ok (Z.of_nat len))); [apply len_runs; exact Hb|intros; apply gives_ret]. }
  eapply runs_bind; [exact G| |intros b' e (_ & X); discriminate]. cbn beta. intros b1 n' (X1 & E). apply ok_same in E. subst n'.
  destruct (negb (0 <? n)) eqn:En.
  { apply runs_ret. split; [exact X1|]. exists (rows_of mt). split; [auto|]. split; [auto|]. unfold evaluated. fold n. rewrite En. auto. }
  assert (Hb1 : b1 j = Some dt) by (rewrite X1; [exact Hb|congruence]).
  eapply runs_bind; [apply (len_runs inode i d b1 j dt Hb1)| |intros b' e (_ & X); discriminate]. cbn beta. intros b2 len (X2 & E). apply ok_same in E. subst len. rewrite Ln.
  assert (Hb2 : b2 j = Some dt) by (rewrite X2; [exact Hb1|congruence]).
  eapply runs_bind; [apply (rows_run b2 j dt mt ["user"; "item"; "interaction"] Hb2 C Tw)| |intros b' e (_ & rs & _ & _ & X); discriminate].
  { intros c Hc. apply (td_in m0 mt D c Hc). }
  cbn beta. intros b3 rows (X3 & rs & Pr & So & E). apply ok_same in E. subst rows.
  eapply runs_weaken with (Q := fun b' r => extends b3 b' /\ r = evaluated p' a rs).
  - unfold evaluated. rewrite (Permutation_length Pr). fold n. rewrite En.
    apply gives_bind.
    + apply (loop_gives m0 mt (fun u i => p u i (p_skip a)) (fun u i => p' u i (p_skip a)) (p_count_none a) _ W D Hp). intros r Hr. eapply Permutation_in; eauto.
    + intros b4 l _ _. apply (gives_bind inode i d b4 _ _ (Ok tt) (fun _ => metric_dict (p_metrics a) l)); [apply shut_gives|]. intros; apply gives_ret.
  - intros b' r (X4 & ->). split; [eapply extends_trans; [exact X1|]; eapply extends_trans; [exact X2|]; eapply extends_trans; eauto|]. exists rs. auto.
Qed.
End Db.

Lemma skip_ok {A} (f : option Z -> option Z -> res (option A)) m u i : exists p, predict f true m u i true = Ok p.
Proof. unfold predict. cbn [negb bind]. destruct (uid <- user_to_uid m u ;; _) as [x|e]; eauto. Qed.

Section Start.
Variable inode : string -> nat.
Variable ords : nat -> list trow -> list trow.
Hypothesis Po : forall k, permuting (ords k).
Variables (w0 : world) (b0 : book) (i : nat) (d0 : ds) (m0 m : mem) (tu ti : dtype).
Hypothesis R0 : reaches inode w0 b0.
Hypothesis S0 : safe inode w0 b0 (OAssign i).
Hypothesis H0 : b0 i = Some d0.
Hypothesis Tw0 : twin d0 m0.
Hypothesis T : trained_on m0 m tu ti.
Hypothesis Nm : numeric m0.
Hypothesis Cd0 : complete d0.
Local Notation d := (assigned d0).
Local Notation fine := (fine inode i d).
Local Notation gives := (gives inode i d).
Local Notation Em := (RecDbFacts6.Em m0 m tu ti T).
Local Notation Tw := (RecDbFacts6.Tw inode w0 b0 i d0 m0 m tu ti S0 H0 Tw0 T).
Local Notation Cd := (RecDbFacts6.Cd inode d0 Cd0).
Variables (j : option nat) (mt : option mem) (dt : ds).
Local Notation tj := (match j with Some j => j | None => i end).
Hypothesis Hj : note b0 i (Some d) tj = Some dt.
Hypothesis Ct : complete dt.
Hypothesis Tt : twin dt (tested m mt).
Hypothesis Dt : test_data m0 (tested m mt).
Variables (a : pe_args) (L : learner).
Hypothesis HL : learns m0 m L.

Lemma kept_types c : In c ["user"; "item"] -> col_type m c = col_type m0 c /\ col_type m0 c <> Ok DFloat.
Proof.
  intro Hc. rewrite Em. split; [destruct Hc as [<-|[<-|[]]]; apply MemFacts3.col_type_assigned; discriminate|].
  destruct Hc as [<-|[<-|[]]]; [rewrite (tr_user _ _ _ _ T)|rewrite (tr_item _ _ _ _ T)]; intro X; injection X as X; [exact (tr_unf _ _ _ _ T X)|exact (tr_inf _ _ _ _ T X)].
Qed.
Lemma test_raw c r : In c ["user"; "item"] -> In r (rows_of (tested m mt)) -> raw_id m0 c (at_cell c r).
Proof.
  intros Hc Hr. destruct (proj2 Dt c Hc) as (I & E & _). destruct (kept_types c Hc) as [_ Nf].
  destruct (td_cell m0 (tested m mt) (tw_wf _ _ Tt) Dt c r ltac:(destruct Hc as [<-|[<-|[]]]; cbn; auto) Hr) as (_ & t & Ht & Tv).
  exists t. rewrite <- E. split; [exact Ht|]. split; [|exact Tv]. intros ->. apply Nf. congruence.
Qed.

Lemma evaluate_runs lu li n : exists s' b' r, db_evaluate inode ords lu li L i j a (n, w0) = (s', r) /\ fine (snd s') b' /\ extends (note b0 i (Some d)) b' /\
  (r = mem_evaluate L m0 mt a \/ exists p' rs, (forall u it, exists p, p' u it true = Ok p) /\ Permutation rs (rows_of (tested m mt)) /\ ((forall k, sorting (ords k)) -> rs = rows_of (tested m mt)) /\
     r = evaluated p' a rs /\ mem_evaluate L m0 mt a = evaluated p' a (rows_of (tested m mt))).
Proof.
  destruct (begin_runs inode w0 b0 i d0 m0 m tu ti R0 S0 H0 Tw0 T Nm Cd0 n) as (s1 & b1 & r & E1 & F1 & X1 & r' & Em0 & Sr & Rst).
  unfold db_evaluate, mem_evaluate. rewrite Em0. unfold pbind at 1. rewrite E1. destruct r as [f|e], r' as [f'|e']; cbn [same_start] in Sr; try contradiction.
  2:{ subst e'. exists s1, b1, (Err e). cbn [bind]. auto. }
  cbn [bind].
  assert (Go : forall b s (p : option Z -> option Z -> P (option Qc)) p' impl, fine (snd s) b -> extends b1 b -> (forall b x y, gives b (p x y) (p' x y)) ->
    exists s' b' r, db_predictive inode ords (db_predict inode p true i) tj a s = (s', r) /\ fine (snd s') b' /\ extends (note b0 i (Some d)) b' /\
     exists rs, Permutation rs (rows_of (tested m mt)) /\ ((forall k, sorting (ords k)) -> rs = rows_of (tested m mt)) /\
     r = evaluated (fun u it sk => predict p' true m u it sk) a rs /\
     predictive_evaluation (recommender impl p' m (fi_items f')) (tested m mt) a = evaluated (fun u it sk => predict p' true m u it sk) a (rows_of (tested m mt))).
  { intros b s p p' impl F X G. pose proof (extends_trans _ _ _ X1 X) as XX.
    assert (Hb : b tj = Some dt) by (rewrite XX; [exact Hj|congruence]).
    destruct (predictive_runs inode ords Po i d m0 (tested m mt) dt tj b (db_predict inode p true i) (fun u it sk => predict p' true m u it sk) a Hb Ct Tt Dt) with (s := s) as (s' & r & b' & E & F' & X' & rs & Pr & So & Er).
    - intros b2 r Hr. rewrite Em. apply (predict_gives inode w0 b0 i d0 m0 (reaches_inv _ _ _ R0) S0 H0 Tw0); auto; apply test_raw; cbn; auto.
    - exact F.
    - exists s', b', r. split; [exact E|]. split; [exact F'|]. split; [eapply extends_trans; eauto|]. exists rs. split; [auto|]. split; [auto|]. split; [exact Er|].
      apply (mem_evaluated m0); [exact (tw_wf _ _ Tt)|exact Dt|exact kept_types]. }
  destruct L as [c simf|net reads]; cbn [learns] in HL.
  - destruct HL as [Nr Ps]. specialize (Rst f eq_refl). destruct (stats_counts m0 m tu ti T Nm f' Rst) as [Cu Ci]. destruct Sr as (_ & _ & Su & Si & _).
    assert (Hf : (if kn_user c then fi_users f else fi_items f) = n_entities c m0) by (unfold n_distinct in *; unfold n_entities; destruct (kn_user c); congruence).
    destruct (fit_runs inode ords Po i d m0 m tu ti T Nm Tw Cd c simf f ([], []) b1 Ps Hf s1 F1) as (s2 & r2 & b2 & E2 & F2 & X2 & Sf).
    unfold pbind at 1. rewrite E2. destruct r2 as [[t nb]|e], (knn_fit c simf m ([], [])) as [[t' nb']|e']; cbn [same_fit] in Sf; try contradiction.
    2:{ subst e'. exists s2, b2, (Err e). cbn [bind]. split; [auto|]. split; [auto|]. split; [eapply extends_trans; eauto|auto]. }
    destruct Sf as [-> Nb]. cbn [bind snd].
    destruct (Go b2 s2 (db_knn_predict inode ords c i nb) (knn_predict c m nb') (knn_rank c m nb') F2 X2) as (s3 & b3 & r3 & E3 & F3 & X3 & rs & Pr & So & Er & Ee).
    { intros b x y. rewrite <- (knn_predict_ext m c nb nb' x y Nb). apply (predict_runs inode ords Po i d m0 m tu ti T Nm Tw Cd Nr). }
    exists s3, b3, r3. split; [exact E3|]. split; [exact F3|]. split; [exact X3|]. right. exists (fun u it sk => predict (knn_predict c m nb') true m u it sk), rs.
    split; [intros; apply skip_ok|]. auto.
  - destruct (start_reads inode ords Po w0 b0 i d0 m0 m tu ti R0 S0 H0 Tw0 T Nm Cd0 HL lu li reads b1 s1 F1) as (s2 & r2 & b2 & E2 & F2 & X2 & ->).
    unfold pbind at 1. rewrite E2.
    set (v := snd (mem_reads m reads)).
    destruct (Go b2 s2 (db_dmf_predict inode ords net i) (dmf_predict net v) (rank_abc (dmf_predict net v) m) F2 X2) as (s3 & b3 & r3 & E3 & F3 & X3 & rs & Pr & So & Er & Ee).
    { intros b x y. apply (dmf_gives inode ords Po i d m0 m tu ti T Nm Tw Cd HL); [apply (user_back inode w0 b0 i d0 m0 m tu ti R0 S0 H0 Tw0 T)|apply (item_back inode w0 b0 i d0 m0 m tu ti R0 S0 H0 Tw0 T)|].
      apply (reads_mem d m0 m tu ti T Nm Tw HL reads m (read_start d m0 m tu ti T Tw)). }
    exists s3, b3, r3. split; [exact E3|]. split; [exact F3|]. split; [exact X3|]. right. exists (fun u it sk => predict (dmf_predict net v) true m u it sk), rs.
    split; [intros; apply skip_ok|]. auto.
Qed.
End Start.

(** ** The order of the rows *)
Definition one_pair (P : value -> value -> res (option Qc)) (cn : bool) (t : value * value * Qc) : res (list (Qc * Qc)) :=
  p <- P (fst (fst t)) (snd (fst t)) ;;
  Ok (match p with Some q => [(q, snd t)] | None => if cn then [(0%Qc, snd t)] else [] end).
Lemma loop_all P cn ts : forall n made, made + Z.of_nat (length ts) <= n ->
  pe_loop P cn n made ts = (ls <- mapM (one_pair P cn) ts ;; Ok (concat ls)).
Proof.
  induction ts as [|[[u it] x] ts IH]; intros n made H; [auto|]. cbn [pe_loop mapM one_pair fst snd]. cbn [length] in H.
  replace (n <=? made) with false by (symmetry; apply Z.leb_gt; lia). unfold one_pair at 1. cbn [fst snd]. destruct (P u it) as [[q|]|e]; cbn [bind]; [| |auto].
  - rewrite IH by lia. destruct (mapM (one_pair P cn) ts); reflexivity.
  - destruct cn; rewrite IH by lia; destruct (mapM _ ts); reflexivity.
Qed.
Lemma mapM_perm {A B} (f : A -> res B) l l' : Permutation l l' -> forall r, mapM f l = Ok r -> exists r', mapM f l' = Ok r' /\ Permutation r r'.
Proof.
  induction 1 as [|x l l' P IH|x y l|l1 l2 l3 P1 IH1 P2 IH2]; intros r E.
  - exists r. auto.
  - cbn [mapM] in *. destruct (f x) as [b|]; cbn [bind] in *; [|discriminate]. destruct (mapM f l) as [bs|]; cbn [bind] in *; [|discriminate]. injection E as <-.
    destruct (IH bs eq_refl) as (bs' & -> & P'). cbn [bind]. eauto.
  - cbn [mapM] in *. destruct (f y) as [b|]; cbn [bind] in *; [|discriminate]. destruct (f x) as [c|]; cbn [bind] in *; [|discriminate].
    destruct (mapM f l) as [bs|]; cbn [bind] in *; [|discriminate]. injection E as <-. exists (c :: b :: bs). split; [auto|constructor].
  - destruct (IH1 r E) as (r2 & E2 & Q2). destruct (IH2 r2 E2) as (r3 & E3 & Q3). exists r3. split; [auto|eapply Permutation_trans; eauto].
Qed.
Lemma concat_perm {A} (l l' : list (list A)) : Permutation l l' -> Permutation (concat l) (concat l').
Proof.
  induction 1 as [|x l l' P IH|x y l|l1 l2 l3 P1 IH1 P2 IH2]; cbn [concat]; auto.
  - apply Permutation_app_head. auto.
  - rewrite !app_assoc. apply Permutation_app_tail, Permutation_app_comm.
  - eapply Permutation_trans; eauto.
Qed.
Lemma dict_perm ms l l' : Forall orderless ms -> Permutation l l' -> metric_dict ms l = metric_dict ms l'.
Proof.
  intros F P. unfold metric_dict.
  assert (E : mapM (fun m => x <- pm_call m (map (fun p => R_of (snd p)) l) (map (fun p => R_of (fst p)) l) ;; Ok (pm_name m, round4 x)) ms =
              mapM (fun m => x <- pm_call m (map (fun p => R_of (snd p)) l') (map (fun p => R_of (fst p)) l') ;; Ok (pm_name m, round4 x)) ms).
  { induction F as [|pm ms H _ IH]; [auto|]. cbn [mapM]. rewrite IH.
    specialize (H (map (fun p => (R_of (snd p), R_of (fst p))) l) (map (fun p => (R_of (snd p), R_of (fst p))) l') (Permutation_map _ P)).
    rewrite !map_map in H. cbn [fst snd] in H. rewrite H. reflexivity. }
  rewrite E. reflexivity.
Qed.
Lemma evaluated_perm p a mt rs rs' : all_rows mt a -> length rs = mem_len mt -> Forall orderless (p_metrics a) -> Permutation rs rs' ->
  forall x, evaluated p a rs = Ok x -> evaluated p a rs' = Ok x.
Proof.
  intros A Ln F P x. unfold evaluated. rewrite <- (Permutation_length P).
  set (n := match p_n a with Some n => n | None => Z.of_nat (length rs) end).
  assert (Hn : Z.min n (Z.of_nat (length rs)) = Z.of_nat (length rs)).
  { unfold n, all_rows in *. rewrite <- Ln in A. destruct (p_n a); lia. }
  rewrite Hn. destruct (negb (0 <? n)); [auto|]. rewrite !loop_all by (rewrite map_length, ?(Permutation_length P); lia).
  destruct (mapM _ (map raw_trip rs)) as [ls|] eqn:E; cbn [bind]; [|discriminate].
  destruct (mapM_perm _ _ _ (Permutation_map raw_trip P) ls E) as (ls' & -> & Pl). cbn [bind].
  rewrite (dict_perm _ _ _ F (concat_perm _ _ Pl)). auto.
Qed.
Lemma evaluated_skip p a mt rs rs' : all_rows mt a -> length rs = mem_len mt -> Forall orderless (p_metrics a) -> Permutation rs rs' -> p_skip a = true ->
  (forall u it, exists q, p u it true = Ok q) -> evaluated p a rs = evaluated p a rs'.
Proof.
  intros A Ln F P Sk Hp. unfold evaluated. rewrite <- (Permutation_length P).
  set (n := match p_n a with Some n => n | None => Z.of_nat (length rs) end).
  assert (Hn : Z.min n (Z.of_nat (length rs)) = Z.of_nat (length rs)).
  { unfold n, all_rows in *. rewrite <- Ln in A. destruct (p_n a); lia. }
  rewrite Hn. destruct (negb (0 <? n)); [auto|]. rewrite !loop_all by (rewrite map_length, ?(Permutation_length P); lia).
  rewrite Sk. assert (X : exists ls, mapM (one_pair (fun u it => p u it true) (p_count_none a)) (map raw_trip rs) = Ok ls).
  { induction (map raw_trip rs) as [|t ts IH]; [exists []; auto|]. cbn [mapM]. unfold one_pair at 1. destruct (Hp (fst (fst t)) (snd (fst t))) as [q ->]. cbn [bind]. destruct IH as [ls ->]. cbn [bind]. eauto. }
  destruct X as [ls E]. rewrite E. destruct (mapM_perm _ _ _ (Permutation_map raw_trip P) ls E) as (ls' & -> & Pl). cbn [bind].
  apply dict_perm; [exact F|]. apply concat_perm; auto.
Qed.

(** ** Metrics *)
Lemma combine_fst_snd {A B} (l : list (A * B)) : combine (map fst l) (map snd l) = l.
Proof. induction l as [|[x y] l IH]; cbn; congruence. Qed.
Lemma checked_orderless f l l' : Permutation l l' -> checked f (map fst l) (map snd l) = checked f (map fst l') (map snd l').
Proof.
  intro P. unfold checked. rewrite !map_length, (Permutation_length P), !combine_fst_snd. destruct (negb _); [auto|]. destruct (Nat.eqb _ 0); [auto|].
  f_equal. unfold mean. rewrite !map_length, (Permutation_length P). f_equal.
  assert (X : forall a b : list R, Permutation a b -> fold_right Rplus 0%R a = fold_right Rplus 0%R b).
  { induction 1; cbn [fold_right]; auto; try congruence. rewrite <- !Rplus_assoc, (Rplus_comm y x). auto. }
  rewrite (X _ _ (Permutation_map f P)). reflexivity.
Qed.
