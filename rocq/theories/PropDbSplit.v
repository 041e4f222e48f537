(** C100-C105: the splits of database data sets.

    [reaches inode w b] (DbGenSpec.v): some program that creates, copies, selects,
    changes, saves and closes data sets and pulls generators, in any order, leads
    to the state [w] and, in the specification, to the data sets [b].
    [leaves inode w b w' tr te train test] (DbSplitSpec.v): the call added the two
    data sets [tr] and [te], which hold [train] and [test], and nothing else
    differs.  The statements hold for every schedule of the threads, every order in
    which SQLite may return rows, and every random generator that draws distinct
    elements. *)
From Coq Require Import String Ascii.
From Coq Require Import List ZArith QArith Qcanon Qround Bool Permutation Sorted Lia.
From Verif Require Import Py PyFacts MemModel MemSpec SplitModel SplitSpec SplitFacts4 PropSplit
  DbModel DbSpec DbFacts7 DbFacts13 DbFacts15 DbCheck DbExamples SampModel DbGenModel DbGenSpec DbGenFacts2 PropDbGen
  DbSplitModel DbSplitSpec DbSplitFacts3 DbSplitFacts4 DbSplitFacts6 DbSplitFacts7 DbSplitFacts8 DbSplitFacts9 DbSplitFacts10 DbSplitFacts11.
Import ListNotations.
Open Scope string_scope.
Open Scope Z_scope.
Open Scope list_scope.

(** ** A concrete data set, and a schedule in which every thread runs again and again *)
Definition cols5 : list string := ["user"; "item"; "interaction"; "timestamp"; "rid"].
Definition types5 : list (string * dtype) := [("rid", DInt); ("user", DInt); ("item", DInt); ("interaction", DInt); ("timestamp", DInt)].
Definition row5 (rid u i t : Z) : trow :=
  [("user", Some (VInt u)); ("item", Some (VInt i)); ("interaction", Some (VInt 1)); ("timestamp", Some (VInt t)); ("rid", Some (VInt rid))].
(** user 7 has four rows, user 5 two, user 9 one *)
Definition rows5 : list trow := [row5 0 7 1 10; row5 1 5 1 10; row5 2 7 2 20; row5 3 9 2 5; row5 4 7 3 30; row5 5 5 3 40; row5 6 7 4 30].
Definition new5 : op := OCreate "db.tmp.sqlite" cols5 types5 rows5.
Definition ds5 : ds := mkDs cols5 (Some types5) false rows5.
Definition w5 : world := world_of [new5].
Definition b5 : book := snd (run [new5]).
Lemma w5_reached : reaches disk w5 b5.
Proof. apply reached. used. Qed.
Lemma b5_ds : b5 0%nat = Some ds5.
Proof. vm_compute. reflexivity. Qed.
Definition completeb (d : ds) : bool :=
  match d_types d with
  | Some ts => (inclb ["rid"; "user"; "item"; "interaction"] (d_cols d) &&
      forallb (fun c => (existsb (String.eqb c) ["rid"; "uid"; "iid"] || match assoc String.eqb c ts with Some _ => true | None => false end)%bool) (d_cols d))%bool
  | None => false
  end.
Lemma completeb_ok d : completeb d = true -> complete d.
Proof.
  unfold completeb, complete. destruct (d_types d) as [ts|]; [|discriminate]. intro H. apply andb_true_iff in H. destruct H as [H1 H2].
  split; [apply inclb_ok; auto|]. exists ts. split; [auto|]. intros c Hc Nc. rewrite forallb_forall in H2. specialize (H2 c Hc).
  apply orb_true_iff in H2. destruct H2 as [H2|H2].
  - exfalso. apply Nc. apply existsb_exists in H2. destruct H2 as (x & Hx & E). apply String.eqb_eq in E. congruence.
  - destruct (assoc String.eqb c ts); [eauto|discriminate].
Qed.
Lemma ints_ok d ts : d_types d = Some ts -> assoc String.eqb "user" ts = Some DInt -> completeb d = true ->
  forallb (fun row => match tcell row "user" with Some (VInt _) => true | _ => false end) (d_rows d) = true -> user_ints d.
Proof.
  intros T A C F. constructor; [apply completeb_ok; auto|eauto|]. rewrite forallb_forall in F. intros row Hr. specialize (F row Hr).
  destruct (tcell row "user") as [[z| |]|]; try discriminate. eauto.
Qed.
Lemma ds5_ints : user_ints ds5.
Proof. eapply ints_ok; [reflexivity|reflexivity|vm_compute; reflexivity|vm_compute; reflexivity]. Qed.

Definition spiral (t : nat) : option nat := match (t - Nat.sqrt t * Nat.sqrt t)%nat with 0%nat => None | S k => Some k end.
Lemma spiral_fair : fair_threads spiral.
Proof.
  intros e n. set (k := match e with None => 0%nat | Some k => S k end). set (r := (n + k)%nat).
  assert (Q : Nat.sqrt (r * r + k) = r) by (apply Nat.sqrt_unique; subst r; nia).
  exists (r * r + k)%nat. split; [subst r; nia|]. unfold spiral. rewrite Q. replace (r * r + k - r * r)%nat with k by lia.
  subst k. destruct e; auto.
Qed.
(** SQLite may return rows in a different order each time *)
Definition mixed (t : nat) : list trow -> list trow := if Nat.even t then asis else backwards.
Lemma mixed_ok : fair_orders mixed.
Proof. intros t l. unfold mixed. destruct (Nat.even t); [apply asis_ok|apply backwards_ok]. Qed.
(** by record id *)
Definition by_id : list trow -> list trow := sort_by (fun a b => rid_of a <=? rid_of b).
Lemma by_id_ok : forall l, Permutation (by_id l) l.
Proof. intro l. apply Permutation_sym, sort_by_perm. Qed.
Lemma by_id_sorts : sorting by_id.
Proof.
  intro l. unfold by_id.
  assert (S : StronglySorted (le_rel (fun a b => rid_of a <=? rid_of b)) (sort_by (fun a b => rid_of a <=? rid_of b) l)).
  { apply sort_by_sorted.
    - intros x y. rewrite !Z.leb_le. lia.
    - intros x y z. rewrite !Z.leb_le. lia. }
  induction S as [|x k S IH F]; constructor; [auto|]. rewrite Forall_forall in *. intros y Hy. specialize (F y Hy).
  unfold le_rel in F. apply Z.leb_le in F. exact F.
Qed.
(** the record ids of a data set *)
Definition rids_in (w : world) (j : nat) : list (list (option value)) :=
  match values disk asis j (Some ["rid"]) false w with (_, Ok l) => l | _ => [] end.
Definition ids (l : list Z) : list (list (option value)) := map (fun z => [Some (VInt z)]) l.
Definition result (x : world * dboutcome) : option (list (list (option value)) * list (list (option value))) :=
  match x with (w, DbDone tr te) => Some (rids_in w tr, rids_in w te) | _ => None end.

(** ** C100 random_split *)

Theorem C100_random_split inode fmul sample_idx w b i d ratio seed ord : fmul_ok fmul -> sample_range_ok sample_idx ->
  reaches inode w b -> b i = Some d -> complete d -> (forall l, Permutation (ord l) l) ->
  Z.of_nat (length (d_rows d)) <= 2 ^ 53 -> (0 < ratio)%Qc -> (ratio < 1)%Qc ->
  let k := Qfloor (this (fmul (Z.of_nat (length (d_rows d))) ratio)) in
  (0 < k -> exists w' tr te train test, db_random_split inode fmul sample_idx ratio seed i ord w = (w', Ok (tr, te)) /\
     leaves inode w b w' tr te train test /\ parted d train test /\ Z.of_nat (length (d_rows test)) = k) /\
  (k = 0 -> db_random_split inode fmul sample_idx ratio seed i ord w = (w, Err AssertionError)).
Proof. intros Hf Hs R Hb Cm Po Hn R0 R1. exact (random_result inode fmul sample_idx Hf Hs w b i d R Hb Cm ratio seed ord Po Hn R0 R1). Qed.
Print Assumptions C100_random_split.

(** With the rows in record id order, the seed decides the result. *)
Theorem C100_seed inode fmul sample_idx w b i d ratio seed ord ord' w1 w2 tr1 te1 tr2 te2 : fmul_ok fmul -> sample_range_ok sample_idx ->
  reaches inode w b -> b i = Some d -> complete d -> (forall l, Permutation (ord l) l) -> (forall l, Permutation (ord' l) l) ->
  sorting ord -> sorting ord' -> Z.of_nat (length (d_rows d)) <= 2 ^ 53 ->
  db_random_split inode fmul sample_idx ratio seed i ord w = (w1, Ok (tr1, te1)) ->
  db_random_split inode fmul sample_idx ratio seed i ord' w = (w2, Ok (tr2, te2)) ->
  exists train test, leaves inode w b w1 tr1 te1 train test /\ leaves inode w b w2 tr2 te2 train test.
Proof. intros Hf Hs R Hb Cm P P' S S' Hn. exact (random_same inode fmul sample_idx Hf Hs w b i d R Hb Cm ratio seed ord ord' w1 w2 tr1 te1 tr2 te2 P P' S S' Hn). Qed.
Print Assumptions C100_seed.

Example C100_example : fmul_ok exact_mul /\ sample_range_ok first_idx /\ reaches disk w5 b5 /\ b5 0%nat = Some ds5 /\ complete ds5 /\
  (forall l, Permutation (by_id l) l) /\ sorting by_id /\
  Qfloor (this (exact_mul (Z.of_nat (length (d_rows ds5))) (Q2Qc (1 # 2)))) = 3 /\
  match db_random_split disk exact_mul first_idx (Q2Qc (1 # 2)) 0 0 by_id w5 with
  | (w, Ok (tr, te)) => Some (rids_in w tr, rids_in w te) | _ => None end = Some (ids [3; 4; 5; 6], ids [0; 1; 2]) /\
  snd (db_random_split disk exact_mul first_idx (Q2Qc (1 # 10)) 0 0 by_id w5) = Err AssertionError.
Proof.
  split; [exact exact_mul_ok|]. split; [exact first_idx_ok|]. split; [exact w5_reached|]. split; [exact b5_ds|].
  split; [apply ui_complete, ds5_ints|]. split; [exact by_id_ok|]. split; [exact by_id_sorts|]. repeat split; vm_compute; reflexivity.
Qed.

(** ** C101 leave_k_out *)

(** what may be held out by time *)
Definition stamped (a : lko_args) (d : ds) : Prop := a_last a = true -> In (a_label a) (d_cols d) /\ no_null (a_label a) (d_rows d).
Theorem C101_leave_k_out inode fmul sample a w b i d ord0 sched ords t w' tr te : sample_ok sample ->
  reaches inode w b -> b i = Some d -> user_ints d -> stamped a d ->
  (forall l, Permutation (ord0 l) l) -> fair_orders ords ->
  db_leave_k_out inode fmul sample a i ord0 sched ords t w = (w', DbDone tr te) ->
  exists train test, leaves inode w b w' tr te train test /\ apart d train test /\
    lko_counts (lko_count fmul (a_k a)) (a_min a) d train test.
Proof. intros Hs R Hb U Hl P0 Po. exact (lko_result inode fmul sample Hs w b i d R Hb U a ord0 sched ords t w' tr te Hl P0 Po). Qed.
Print Assumptions C101_leave_k_out.

(** Users of the test set are in the train set. *)
Theorem C101_users inode fmul sample a w b i d ord0 sched ords t w' tr te : sample_ok sample ->
  reaches inode w b -> b i = Some d -> user_ints d -> stamped a d ->
  (forall l, Permutation (ord0 l) l) -> fair_orders ords ->
  db_leave_k_out inode fmul sample a i ord0 sched ords t w = (w', DbDone tr te) ->
  exists train test, leaves inode w b w' tr te train test /\
    forall row, In row (d_rows test) -> exists row', In row' (d_rows train) /\ tcell row' "user" = tcell row "user".
Proof.
  intros Hs R Hb U Hl P0 Po E.
  destruct (C101_leave_k_out inode fmul sample a w b i d ord0 sched ords t w' tr te Hs R Hb U Hl P0 Po E) as (train & test & Lv & Ap & Lc).
  exists train, test. split; [exact Lv|]. intros row Hr. destruct Ap as (p & q & -> & -> & _).
  cbn [part d_rows] in Hr. apply filter_In in Hr. destruct Hr as [Hr Hq]. destruct (ui_rows d U row Hr) as [z Hz].
  assert (Ho : of_user z row = true) by (unfold of_user; rewrite Hz; apply Z.eqb_refl).
  destruct (Lc z) as [L1 L2].
  assert (Pt : 0 < count_of z (part d q)).
  { unfold count_of. destruct (filter (of_user z) (d_rows (part d q))) as [|x l] eqn:F; [|cbn; lia]. exfalso.
    assert (K : In row (filter (of_user z) (d_rows (part d q)))) by (apply filter_In; split; [apply filter_In; auto|auto]). rewrite F in K. destruct K. }
  assert (Pn : 0 < count_of z (part d p)).
  { rewrite L2. rewrite L1 in Pt |- *. unfold held_out in *.
    destruct (count_of z d <? a_min a) eqn:E1.
    - apply Z.ltb_lt in E1. rewrite (proj2 (Z.leb_gt _ _) E1) in Pt. cbn in Pt. lia.
    - destruct ((a_min a <=? count_of z d) && (0 <? lko_count fmul (a_k a) (count_of z d)) && (lko_count fmul (a_k a) (count_of z d) <? count_of z d))%bool eqn:E2; [|lia].
      apply andb_true_iff in E2. destruct E2 as [_ E2]. apply Z.ltb_lt in E2. lia. }
  unfold count_of in Pn. destruct (filter (of_user z) (d_rows (part d p))) as [|x l] eqn:F; [cbn in Pn; lia|].
  assert (K : In x (filter (of_user z) (d_rows (part d p)))) by (rewrite F; left; auto). apply filter_In in K. destruct K as [K1 K2].
  exists x. split; [auto|]. unfold of_user in K2. destruct (tcell x "user") as [[y| |]|]; try discriminate. apply Z.eqb_eq in K2. congruence.
Qed.
Print Assumptions C101_users.

Example C101_example : sample_ok (@first_n Z) /\ reaches disk w5 b5 /\ b5 0%nat = Some ds5 /\ user_ints ds5 /\ stamped lko_ex ds5 /\ fair_orders mixed /\
  result (db_leave_k_out disk exact_mul first_n lko_ex 0 asis spiral mixed 200 w5) = Some (ids [0; 2; 4; 5], ids [1; 6]) /\
  snd (db_leave_k_out disk exact_mul first_n lko_ex 0 asis spiral mixed 30 w5) = DbRunning /\
  count_of 9 ds5 = 1 /\ a_min lko_ex = 2.
Proof.
  split; [apply first_n_ok|]. split; [exact w5_reached|]. split; [exact b5_ds|]. split; [exact ds5_ints|].
  split; [intro H; discriminate H|]. split; [exact mixed_ok|]. repeat split; vm_compute; reflexivity.
Qed.

(** ** C102 the latest interactions *)

(** Missing for the full statement: rows that are not listed by time.  As in
    memory, a later row always replaces the oldest one kept. *)
Theorem C102_latest_partial inode fmul sample a w b i d ord0 sched ords t w' tr te : sample_ok sample ->
  reaches inode w b -> b i = Some d -> user_ints d -> a_last a = true -> In (a_label a) (d_cols d) -> by_time (a_label a) d ->
  (forall l, Permutation (ord0 l) l) -> fair_orders ords -> sorting ord0 -> (forall t, sorting (ords t)) ->
  db_leave_k_out inode fmul sample a i ord0 sched ords t w = (w', DbDone tr te) ->
  exists train test, leaves inode w b w' tr te train test /\ latest_kept (a_label a) train test.
Proof. intros Hs R Hb U La Hc Bt P0 Po S0 So. exact (lko_latest inode fmul sample Hs w b i d R Hb U a ord0 sched ords t w' tr te La Hc Bt P0 Po S0 So). Qed.
Print Assumptions C102_latest_partial.

Lemma by_time_ok label d : forallb (fun row => match tcell row label with Some (VInt _) | Some (VFlt _) => true | _ => false end) (d_rows d) = true ->
  forallb (fun r => forallb (fun r' => (negb (if opt_value_dec (tcell r "user") (tcell r' "user") then true else false) || negb (rid_of r <? rid_of r') ||
    match Qccompare (stamp_of label r) (stamp_of label r') with Datatypes.Gt => false | _ => true end)%bool) (d_rows d)) (d_rows d) = true -> by_time label d.
Proof.
  intros F G. rewrite forallb_forall in F, G. split.
  - intros row Hr. specialize (F row Hr). destruct (tcell row label) as [[z|q|]|]; try discriminate; eauto.
  - intros r r' Hr Hr' E L. specialize (G r Hr). rewrite forallb_forall in G. specialize (G r' Hr').
    destruct (opt_value_dec _ _) as [_|N]; [|congruence]. apply Z.ltb_lt in L. rewrite L in G. cbn [negb orb] in G.
    unfold Qcle. rewrite Qle_alt. unfold Qccompare in G. destruct (Qcompare _ _); try discriminate.
Qed.
Example C102_example : by_time "timestamp" ds5 /\ In "timestamp" (d_cols ds5) /\ user_ints ds5 /\ sorting by_id /\
  result (db_leave_k_out disk exact_mul first_n last_ex 0 by_id spiral (fun _ => by_id) 200 w5) = Some (ids [0; 1; 2; 3; 4], ids [5; 6]).
Proof.
  split; [apply by_time_ok; vm_compute; reflexivity|]. split; [cbn; auto 10|]. split; [exact ds5_ints|]. split; [exact by_id_sorts|].
  vm_compute. reflexivity.
Qed.

Definition down5 : list trow := [row5 0 7 1 30; row5 1 7 2 20; row5 2 7 3 10].
Definition ds_down : ds := mkDs cols5 (Some types5) false down5.
Definition wd : world := world_of [OCreate "db.tmp.sqlite" cols5 types5 down5].
Definition bd : book := snd (run [OCreate "db.tmp.sqlite" cols5 types5 down5]).
Lemma wd_reached : reaches disk wd bd.
Proof. apply reached. used. Qed.
Lemma down_run : result (db_leave_k_out disk exact_mul first_n last_ex 0 by_id spiral (fun _ => by_id) 100 wd) = Some (ids [0; 1], ids [2]).
Proof. vm_compute. reflexivity. Qed.
Theorem C102_latest_refuted :
  reaches disk wd bd /\ bd 0%nat = Some ds_down /\ user_ints ds_down /\
  result (db_leave_k_out disk exact_mul first_n last_ex 0 by_id spiral (fun _ => by_id) 100 wd) = Some (ids [0; 1], ids [2]) /\
  ~ latest_kept "timestamp" (part ds_down (fun row => negb (rid_of row =? 2))) (part ds_down (fun row => rid_of row =? 2)).
Proof.
  split; [exact wd_reached|]. split; [vm_compute; reflexivity|]. split.
  { eapply ints_ok; [reflexivity|reflexivity|vm_compute; reflexivity|vm_compute; reflexivity]. }
  split; [exact down_run|].
  intro L. specialize (L (row5 2 7 3 10) (row5 0 7 1 30)). assert (Y : (stamp_of "timestamp" (row5 0 7 1 30) <= stamp_of "timestamp" (row5 2 7 3 10))%Qc).
  { apply L; [cbn; auto|cbn; auto|reflexivity]. }
  vm_compute in Y. apply Y. reflexivity.
Qed.
Print Assumptions C102_latest_refuted.

(** ** C103 matrix_split *)
Theorem C103_matrix_split inode fmul su si a w b i d ord0 ord1 sched ords t w' tr te : sample_ok su -> sample_ok si ->
  reaches inode w b -> b i = Some d -> user_ints d ->
  (forall l, Permutation (ord0 l) l) -> (forall l, Permutation (ord1 l) l) -> fair_orders ords ->
  db_matrix_split inode fmul su si a i ord0 ord1 sched ords t w = (w', DbDone tr te) ->
  exists users items train test, leaves inode w b w' tr te train test /\
    drawn_from "user" d (Qfloor (this (fmul (distinct "user" d) (b_uratio a)))) users /\
    drawn_from "item" d (Qfloor (this (fmul (distinct "item" d) (b_iratio a)))) items /\
    matrix_parts (b_min a) users items d train test.
Proof.
  intros Hu Hi R Hb U P0 P1 Po E.
  destruct (ms_result inode fmul su si Hu Hi w b i d R Hb U a ord0 ord1 sched ords t w' tr te P0 P1 Po E) as (us & is & train & test & H1 & H2 & H3 & H4 & _).
  exists us, is, train, test. auto.
Qed.
Print Assumptions C103_matrix_split.

(** A user with rows in the test set has a row in the train set. *)
Theorem C103_trainable minimum users items d train test : user_ints d -> matrix_parts minimum users items d train test ->
  forall row, In row (d_rows test) -> exists row', In row' (d_rows train) /\ tcell row' "user" = tcell row "user".
Proof.
  intros U [-> ->] row Hr. cbn [part d_rows] in *. apply filter_In in Hr. destruct Hr as [Hr T].
  unfold to_test in T. rewrite !andb_true_iff in T. destruct T as [[[T1 T2] T3] T4]. apply existsb_exists in T4.
  destruct T4 as (r & Ir & T4). apply andb_true_iff in T4. destruct T4 as [T4 T5].
  destruct (ui_rows d U row Hr) as [z Hz]. destruct (ui_rows d U r Ir) as [z' Hz'].
  assert (Eu : user_no r = user_no row).
  { unfold of_user in T4. rewrite Hz' in T4. apply Z.eqb_eq in T4. unfold user_no at 1. rewrite Hz'. auto. }
  exists r. split.
  - apply filter_In. split; [auto|]. rewrite Eu, T1. cbn [andb]. apply negb_true_iff. unfold to_test.
    apply negb_true_iff in T5. rewrite T5. rewrite andb_false_r. auto.
  - unfold user_no in Eu. rewrite Hz, Hz' in Eu. rewrite Hz, Hz'. congruence.
Qed.
Print Assumptions C103_trainable.

Example C103_example : sample_ok (@first_n (option value)) /\ reaches disk w5 b5 /\ b5 0%nat = Some ds5 /\ user_ints ds5 /\ fair_orders mixed /\
  result (db_matrix_split disk exact_mul first_n first_n ms_ex 0 asis asis spiral mixed 200 w5) = Some (ids [3; 4; 5; 6], ids [0; 1; 2]) /\
  distinct "user" ds5 = 3 /\ distinct "item" ds5 = 4.
Proof.
  split; [apply first_n_ok|]. split; [exact w5_reached|]. split; [exact b5_ds|]. split; [exact ds5_ints|]. split; [exact mixed_ok|].
  repeat split; vm_compute; reflexivity.
Qed.

(** ** C104 schedules *)

(** SQLite returns rows by record id here. *)
Theorem C104_leave_k_out inode fmul sample a a' w b i d ord0 ord0' sched sched' ords ords' t t' w1 w2 tr1 te1 tr2 te2 : sample_ok sample ->
  reaches inode w b -> b i = Some d -> user_ints d -> stamped a d -> same_lko a a' ->
  (forall l, Permutation (ord0 l) l) -> (forall l, Permutation (ord0' l) l) -> fair_orders ords -> fair_orders ords' ->
  sorting ord0 -> sorting ord0' -> (forall t, sorting (ords t)) -> (forall t, sorting (ords' t)) ->
  db_leave_k_out inode fmul sample a i ord0 sched ords t w = (w1, DbDone tr1 te1) ->
  db_leave_k_out inode fmul sample a' i ord0' sched' ords' t' w = (w2, DbDone tr2 te2) ->
  exists train test, leaves inode w b w1 tr1 te1 train test /\ leaves inode w b w2 tr2 te2 train test.
Proof.
  intros Hs R Hb U Hl Sm P0 P0' Po Po' S0 S0' So So'.
  exact (lko_same inode fmul sample Hs w b i d R Hb U a a' ord0 ord0' sched sched' ords ords' t t' w1 w2 tr1 te1 tr2 te2 Hl Sm P0 P0' Po Po' S0 S0' So So').
Qed.
Print Assumptions C104_leave_k_out.

(** For matrix_split only the reads of the main thread matter. *)
Theorem C104_matrix_split inode fmul su si a a' w b i d ord0 ord1 ord0' ord1' sched sched' ords ords' t t' w1 w2 tr1 te1 tr2 te2 :
  sample_ok su -> sample_ok si -> reaches inode w b -> b i = Some d -> user_ints d -> same_ms a a' ->
  (forall l, Permutation (ord0 l) l) -> (forall l, Permutation (ord0' l) l) -> (forall l, Permutation (ord1 l) l) -> (forall l, Permutation (ord1' l) l) ->
  fair_orders ords -> fair_orders ords' -> sorting ord0 -> sorting ord0' -> sorting ord1 -> sorting ord1' ->
  db_matrix_split inode fmul su si a i ord0 ord1 sched ords t w = (w1, DbDone tr1 te1) ->
  db_matrix_split inode fmul su si a' i ord0' ord1' sched' ords' t' w = (w2, DbDone tr2 te2) ->
  exists train test, leaves inode w b w1 tr1 te1 train test /\ leaves inode w b w2 tr2 te2 train test.
Proof.
  intros Hu Hi R Hb U Sm P0 P0' P1 P1' Po Po' S0 S0' S1 S1'.
  exact (ms_same inode fmul su si Hu Hi w b i d R Hb U a a' ord0 ord1 ord0' ord1' sched sched' ords ords' t t' w1 w2 tr1 te1 tr2 te2 Sm P0 P0' P1 P1' Po Po' S0 S0' S1 S1').
Qed.
Print Assumptions C104_matrix_split.

(** one thread after the other, from the last to the first *)
Definition sequential (t : nat) : option nat := match (t / 10)%nat with 0%nat => Some 2%nat | 1%nat => Some 1%nat | 2%nat => Some 0%nat | _ => None end.
Example C104_example : reaches disk w5 b5 /\ b5 0%nat = Some ds5 /\ user_ints ds5 /\ stamped lko_ex ds5 /\
  same_lko lko_ex (mkLko (KInt 1) 2 false "timestamp" 0 1 false) /\ same_ms ms_ex (mkMs (Q2Qc (2 # 3)) (Q2Qc (1 # 2)) 0 0 1 false) /\
  result (db_leave_k_out disk exact_mul first_n lko_ex 0 by_id spiral (fun _ => by_id) 200 w5) = Some (ids [2; 4; 5; 6], ids [0; 1]) /\
  result (db_leave_k_out disk exact_mul first_n (mkLko (KInt 1) 2 false "timestamp" 0 1 false) 0 by_id sequential (fun _ => by_id) 50 w5) = Some (ids [2; 4; 5; 6], ids [0; 1]) /\
  result (db_matrix_split disk exact_mul first_n first_n ms_ex 0 by_id by_id spiral mixed 200 w5) =
  result (db_matrix_split disk exact_mul first_n first_n (mkMs (Q2Qc (2 # 3)) (Q2Qc (1 # 2)) 0 0 1 false) 0 by_id by_id sequential (fun _ => asis) 50 w5).
Proof.
  split; [exact w5_reached|]. split; [exact b5_ds|]. split; [exact ds5_ints|]. split; [intro H; discriminate H|].
  split; [repeat split|]. split; [repeat split|]. split; [vm_compute; reflexivity|]. split; vm_compute; reflexivity.
Qed.

(** ** C105 the splits return *)

(** Missing for the full statement: users that are not integers, and data sets
    for which update_state would give the data set of the distinct users or
    items a table of its own ([stays_query] fails). *)
Theorem C105_leave_k_out_returns_partial inode fmul sample a w b i d ord0 sched ords : sample_ok sample ->
  reaches inode w b -> b i = Some d -> user_ints d -> stamped a d -> lko_args_ok a = true -> stays_query w i "user" d ->
  (forall l, Permutation (ord0 l) l) -> fair_orders ords -> fair_threads sched ->
  (exists n, forall t, (n <= t)%nat -> exists w' tr te, db_leave_k_out inode fmul sample a i ord0 sched ords t w = (w', DbDone tr te)) /\
  forall t w' e, db_leave_k_out inode fmul sample a i ord0 sched ords t w <> (w', DbRaised e).
Proof.
  intros Hs R Hb U Hl Ha Sq P0 Po Fs. split.
  - exact (lko_returns inode fmul sample Hs w b i d R Hb U a ord0 sched ords Hl Ha Sq P0 Po Fs).
  - intro t. exact (lko_no_raise inode fmul sample Hs w b i d R Hb U a ord0 sched ords t Hl Ha Sq P0 Po).
Qed.
Print Assumptions C105_leave_k_out_returns_partial.

Theorem C105_matrix_split_returns_partial inode fmul su si a w b i d ord0 ord1 sched ords : sample_ok su -> sample_ok si -> fmul_ok fmul ->
  reaches inode w b -> b i = Some d -> user_ints d -> ms_args_ok a = true -> stays_query w i "user" d -> stays_query w i "item" d ->
  Z.of_nat (length (d_rows d)) <= 2 ^ 53 ->
  (forall l, Permutation (ord0 l) l) -> (forall l, Permutation (ord1 l) l) -> fair_orders ords -> fair_threads sched ->
  (exists n, forall t, (n <= t)%nat -> exists w' tr te, db_matrix_split inode fmul su si a i ord0 ord1 sched ords t w = (w', DbDone tr te)) /\
  forall t w' e, db_matrix_split inode fmul su si a i ord0 ord1 sched ords t w <> (w', DbRaised e).
Proof.
  intros Hu Hi Hf R Hb U Ha Su Si Hn P0 P1 Po Fs. split.
  - exact (ms_returns inode fmul su si Hu Hi w b i d R Hb U a ord0 ord1 sched ords Hf Ha Su Si Hn P0 P1 Po Fs).
  - intro t. exact (ms_no_raise inode fmul su si Hu Hi w b i d R Hb U a ord0 ord1 sched ords t Hf Ha Su Si Hn P0 P1 Po).
Qed.
Print Assumptions C105_matrix_split_returns_partial.

(** A sufficient condition: at most 5000 rows. *)
Theorem C105_small w i c d : (forall x, w_inst w i = Some x -> (i_before x <= 5000)%nat) -> stays_query w i c d.
Proof.
  intros H x Hx. specialize (H x Hx). unfold worth_it.
  destruct (Nat.ltb 0 (length (firsts_of c d))) eqn:L; [|rewrite andb_false_r; auto]. apply Nat.ltb_lt in L.
  rewrite (proj2 (Z.leb_gt 5000 _)) by lia. rewrite andb_false_r. auto.
Qed.
Print Assumptions C105_small.

Example C105_example : fair_threads spiral /\ fair_orders mixed /\ lko_args_ok lko_ex = true /\ ms_args_ok ms_ex = true /\
  reaches disk w5 b5 /\ b5 0%nat = Some ds5 /\ user_ints ds5 /\ stays_query w5 0 "user" ds5 /\ stays_query w5 0 "item" ds5.
Proof.
  assert (K : forall x, w_inst w5 0%nat = Some x -> (i_before x <= 5000)%nat).
  { assert (C : match w_inst w5 0%nat with Some x => Nat.leb (i_before x) 5000 | None => true end = true) by (vm_compute; reflexivity).
    intros x Hx. rewrite Hx in C. apply Nat.leb_le. auto. }
  split; [exact spiral_fair|]. split; [exact mixed_ok|]. split; [vm_compute; reflexivity|]. split; [vm_compute; reflexivity|].
  split; [exact w5_reached|]. split; [exact b5_ds|]. split; [exact ds5_ints|]. split; apply C105_small; auto.
Qed.

(** Text user ids: the query "user == a" is not accepted, every task fails, and
    with verbose=True the loop over n_tasks_done never ends. *)
Definition text_rows : list trow := [
  [("user", Some (VStr "a")); ("item", Some (VInt 1)); ("interaction", Some (VInt 1)); ("rid", Some (VInt 0))];
  [("user", Some (VStr "b")); ("item", Some (VInt 2)); ("interaction", Some (VInt 1)); ("rid", Some (VInt 1))]].
Definition text_new : op := OCreate "db.tmp.sqlite" cols3 [("rid", DInt); ("user", DObj); ("item", DInt); ("interaction", DInt)] text_rows.
Lemma text_no_query s : (s = "a" \/ s = "b")%string -> no_query (Some (VStr s)).
Proof.
  intros H y. unfold parse_query.
  assert (K : exists e, parse_cond y ("user == " ++ s)%string = Err e).
  { destruct H as [->| ->]; unfold parse_cond.
    - change (split_on " " (strip ("user == " ++ "a")%string)) with ["user"; "=="; "a"]. cbv iota. destruct (negb _); [eauto|].
      change (cmp_of_str "==") with (Some MemModel.Eq). cbv iota. change (eval_lit "a") with (@Err value (match eval_lit "a" with Err e => e | Ok _ => TypeError end)). eexists. reflexivity.
    - change (split_on " " (strip ("user == " ++ "b")%string)) with ["user"; "=="; "b"]. cbv iota. destruct (negb _); [eauto|].
      change (cmp_of_str "==") with (Some MemModel.Eq). cbv iota. change (eval_lit "b") with (@Err value (match eval_lit "b" with Err e => e | Ok _ => TypeError end)). eexists. reflexivity. }
  destruct K as [e K]. exists e.
  assert (S : split_on "," (String.append "user == " (user_text (Some (VStr s)))) = [("user == " ++ s)%string]) by (destruct H as [->| ->]; reflexivity).
  rewrite S. cbn [mapM]. rewrite K. reflexivity.
Qed.
Theorem C105_text_ids_refuted : exists bk d, reaches disk (world_of [text_new]) bk /\ bk 0%nat = Some d /\ complete d /\
  no_null "user" (d_rows d) /\ stays_query (world_of [text_new]) 0 "user" d /\
  (forall sched ords t, exists w', db_leave_k_out disk exact_mul first_n (mkLko (KInt 1) 0 false "timestamp" 0 4 true) 0 asis sched ords t (world_of [text_new]) = (w', DbRunning)) /\
  (forall sched ords t, exists w', db_matrix_split disk exact_mul first_n first_n (mkMs (Q2Qc (1 # 2)) (Q2Qc (1 # 2)) 0 0 4 true) 0 asis asis sched ords t (world_of [text_new]) = (w', DbRunning)).
Proof.
  exists (snd (run [text_new])). eexists. split; [apply reached; used|]. split; [vm_compute; reflexivity|].
  split; [apply completeb_ok; vm_compute; reflexivity|].
  split; [intros row [<-|[<-|[]]]; discriminate|].
  split.
  { apply C105_small. assert (C : match w_inst (world_of [text_new]) 0%nat with Some x => Nat.leb (i_before x) 5000 | None => true end = true) by (vm_compute; reflexivity).
    intros x Hx. rewrite Hx in C. apply Nat.leb_le. auto. }
  assert (F : Forall no_query [Some (VStr "a"); Some (VStr "b")]) by (constructor; [apply text_no_query; auto|constructor; [apply text_no_query; auto|constructor]]).
  split.
  - destruct (user_prelude disk asis 0 (world_of [text_new])) as [w1 r] eqn:E.
    assert (X : match r with Ok (uj, us) => Some us | Err _ => None end = Some [Some (VStr "a"); Some (VStr "b")]).
    { change r with (snd (w1, r)). rewrite <- E. vm_compute. reflexivity. }
    destruct r as [[uj us]|e]; [|discriminate]. injection X as ->.
    apply (lko_hangs disk exact_mul first_n (mkLko (KInt 1) 0 false "timestamp" 0 4 true) 0 asis _ w1 uj [Some (VStr "a"); Some (VStr "b")]);
      [vm_compute; reflexivity|reflexivity|exact E|discriminate|exact F].
  - destruct (ms_prelude disk exact_mul first_n first_n (mkMs (Q2Qc (1 # 2)) (Q2Qc (1 # 2)) 0 0 4 true) 0 asis asis (world_of [text_new])) as [w1 r] eqn:E.
    assert (X : match r with Ok (uj, ij, us, tu, ti) => Some us | Err _ => None end = Some [Some (VStr "a"); Some (VStr "b")]).
    { change r with (snd (w1, r)). rewrite <- E. vm_compute. reflexivity. }
    destruct r as [[[[[uj ij] us] tu] ti]|e]; [|discriminate]. injection X as ->.
    apply (ms_hangs disk exact_mul first_n first_n (mkMs (Q2Qc (1 # 2)) (Q2Qc (1 # 2)) 0 0 4 true) 0 asis asis _ w1 uj ij [Some (VStr "a"); Some (VStr "b")] tu ti);
      [vm_compute; reflexivity|reflexivity|exact E|discriminate|exact F].
Qed.
Print Assumptions C105_text_ids_refuted.

(** The third selection in a row on a large data set: the data set of its users
    should get a table of its own, and that needs all the columns. *)
Theorem C105_large inode fmul sample su si a a' w b i d ord0 ord1 sched ords t : reaches inode w b -> b i = Some d -> complete d -> too_large w i "user" d ->
  (lko_args_ok a = true -> exists w', db_leave_k_out inode fmul sample a i ord0 sched ords t w = (w', DbRaised AssertionError)) /\
  (ms_args_ok a' = true -> exists w', db_matrix_split inode fmul su si a' i ord0 ord1 sched ords t w = (w', DbRaised AssertionError)).
Proof.
  intros R Hb Cm Tl. split; intro Ha.
  - eapply lko_raises; eauto.
  - eapply ms_raises; eauto.
Qed.
Print Assumptions C105_large.

Definition big_rows : list trow := map (fun k => row4 (Z.of_nat k) (Z.of_nat (k mod 2)) "a" 1) (seq 0 5002).
(** ds.select('interaction == 1', copy=False), twice *)
Definition big_history : list op :=
  [OCreate "db.tmp.sqlite" cols3 types3 big_rows;
   OSelect 0 [cond_eq "interaction" (LInt 1)] false; OSelect 0 [cond_eq "interaction" (LInt 1)] false].
(** a data set with at most two users, 5002 rows at the last change of its state, and two selections since *)
Definition two_users (d : ds) : bool :=
  (completeb d && match d_types d with Some ts => match assoc String.eqb "user" ts with Some DInt => true | _ => false end | None => false end &&
   forallb (fun row => match tcell row "user" with Some (VInt z) => (z =? 0) || (z =? 1) | _ => false end) (d_rows d) && negb (Nat.eqb (length (d_rows d)) 0))%bool.
Definition third (w : world) : bool :=
  match w_inst w 0%nat with
  | Some x => (Nat.eqb (i_before x) 5002 && Nat.eqb (i_queries x) 2 && Nat.ltb (i_direct x) 3 && Nat.eqb (w_open w) 0)%bool
  | None => false
  end.
Lemma third_too_large w bk d : reaches disk w bk -> bk 0%nat = Some d -> two_users d = true -> third w = true ->
  user_ints d /\ too_large w 0 "user" d.
Proof.
  intros R Hb C I. unfold two_users in C. rewrite !andb_true_iff in C. destruct C as [[[C1 C2] C3] C4].
  split.
  { destruct (d_types d) as [ts|] eqn:Ty; [|discriminate]. destruct (assoc String.eqb "user" ts) as [[]|] eqn:As; try discriminate.
    apply (ints_ok d ts); auto. rewrite forallb_forall in *. intros row Hr. specialize (C3 row Hr). destruct (tcell row "user") as [[z| |]|]; auto. }
  unfold third in I.
  destruct (w_inst w 0%nat) as [x|] eqn:Hx; [|discriminate]. rewrite !andb_true_iff in I. destruct I as [[[I1 I2] I3] I4].
  exists x. split; [auto|]. apply Nat.eqb_eq in I1, I2, I4. apply Nat.ltb_lt in I3. split; [auto|]. rewrite I1, I2, I4.
  destruct (book_rows disk _ _ _ _ R Hb) as (N & _). destruct (firsts_cells disk d "user" N) as [F1 F2]. fold (firsts_of "user" d) in F1, F2.
  assert (L2 : (length (firsts_of "user" d) <= 2)%nat).
  { rewrite <- (map_length (fun r => tcell r "user")). change 2%nat with (length [Some (VInt 0); Some (VInt 1)]). apply NoDup_incl_length; [auto|].
    intros v Hv. apply F2 in Hv. destruct Hv as (row & Hr & <-). rewrite forallb_forall in C3. specialize (C3 row Hr).
    destruct (tcell row "user") as [[z| |]|]; try discriminate. apply orb_true_iff in C3. rewrite !Z.eqb_eq in C3. destruct C3 as [->| ->]; cbn; auto. }
  assert (L1 : (1 <= length (firsts_of "user" d))%nat).
  { destruct (d_rows d) as [|r l] eqn:Er; [discriminate|]. rewrite <- (map_length (fun r => tcell r "user")).
    assert (Hv : In (tcell r "user") (map (fun r => tcell r "user") (firsts_of "user" d))) by (apply F2; exists r; split; [left; auto|auto]).
    revert Hv. generalize (map (fun r => tcell r "user") (firsts_of "user" d)). intros [|y k] Hv; [destruct Hv|cbn; lia]. }
  destruct (length (firsts_of "user" d)) as [|[|[|n]]]; try lia; vm_compute; reflexivity.
Qed.
Definition w_big : world := world_of big_history.
Definition b_big : book := snd (run big_history).
Lemma big_reached : reaches disk w_big b_big.
Proof. apply reached. used. Qed.
Lemma big_users : match b_big 0%nat with Some d => two_users d | None => false end = true.
Proof. vm_compute. reflexivity. Qed.
Lemma big_third : third w_big = true.
Proof. vm_compute. reflexivity. Qed.
Theorem C105_large_refuted : exists d, reaches disk w_big b_big /\ b_big 0%nat = Some d /\ user_ints d /\
  forall ord0 ord1 sched ords t,
    (exists w', db_leave_k_out disk exact_mul first_n lko_ex 0 ord0 sched ords t w_big = (w', DbRaised AssertionError)) /\
    (exists w', db_matrix_split disk exact_mul first_n first_n ms_ex 0 ord0 ord1 sched ords t w_big = (w', DbRaised AssertionError)).
Proof.
  pose proof big_reached as R. pose proof big_third as T. pose proof big_users as U.
  generalize dependent b_big. generalize dependent w_big. intros w T bk R U. destruct (bk 0%nat) as [d|] eqn:Hb; [|discriminate].
  destruct (third_too_large w bk d R Hb U T) as [Ui Tl].
  exists d. split; [exact R|]. split; [reflexivity|]. split; [exact Ui|]. intros ord0 ord1 sched ords t.
  destruct (C105_large disk exact_mul first_n first_n first_n lko_ex ms_ex w bk 0%nat d ord0 ord1 sched ords t R Hb (ui_complete d Ui) Tl) as [H1 H2].
  split; [apply H1|apply H2]; vm_compute; reflexivity.
Qed.
Print Assumptions C105_large_refuted.

(** ** C106 text user ids *)

(** Without the progress bar the calls do return, and hold nothing out. *)
Definition text_many : list trow :=
  map (fun p => [("user", Some (VStr (fst p))); ("item", Some (VInt (snd p mod 2))); ("interaction", Some (VInt 1)); ("rid", Some (VInt (snd p)))])
    [("a", 0); ("a", 1); ("b", 2); ("b", 3)].
Definition text_history : list op := [OCreate "db.tmp.sqlite" cols3 [("rid", DInt); ("user", DObj); ("item", DInt); ("interaction", DInt)] text_many].
Theorem C106_text_ids_refuted : reaches disk (world_of text_history) (snd (run text_history)) /\
  snd (run text_history) 0%nat = Some (mkDs cols3 (Some [("rid", DInt); ("user", DObj); ("item", DInt); ("interaction", DInt)]) false text_many) /\
  result (db_leave_k_out disk exact_mul first_n (mkLko (KInt 1) 0 false "timestamp" 0 4 false) 0 asis spiral mixed 200 (world_of text_history)) =
    Some (ids [0; 1; 2; 3], []) /\
  held_out (lko_count exact_mul (KInt 1)) 0 2 = 1 /\
  result (db_matrix_split disk exact_mul first_n first_n (mkMs (Q2Qc 1) (Q2Qc (1 # 2)) 0 0 4 false) 0 asis asis spiral mixed 200 (world_of text_history)) =
    Some (ids [0; 1; 2; 3], []).
Proof.
  split; [apply reached; used|]. split; [vm_compute; reflexivity|]. split; [vm_compute; reflexivity|]. split; [vm_compute; reflexivity|].
  vm_compute. reflexivity.
Qed.
Print Assumptions C106_text_ids_refuted.
