(** Splits on database data sets: leave_k_out. *)
From Coq Require Import String Ascii.
From Coq Require Import List ZArith QArith Qcanon Qround Bool Permutation Sorted Lia.
From Verif Require Import Py PyFacts MemModel MemSpec SplitModel SplitSpec SplitFacts3 SplitFacts4
  DbModel DbFacts DbFacts7 DbFacts12 DbFacts13 DbSpec SampModel DbGenModel DbGenSpec DbGenFacts2
  DbSplitModel DbSplitSpec DbSplitFacts DbSplitFacts2 DbSplitFacts3 DbSplitFacts4 DbSplitFacts5 DbSplitFacts6.
Import ListNotations.
Open Scope string_scope.
Open Scope Z_scope.
Open Scope list_scope.

Lemma sorted_unique (l l' : list trow) : NoDup (map rid_of l) -> Permutation l l' -> by_rid_order l -> by_rid_order l' -> l = l'.
Proof.
  revert l'. induction l as [|r l IH]; intros l' N P S S'; [symmetry; apply Permutation_nil; auto|].
  destruct l' as [|r' l']; [apply Permutation_sym, Permutation_nil in P; discriminate|].
  unfold by_rid_order in *. inversion S as [|? ? S1 F1]; subst. inversion S' as [|? ? S2 F2]; subst. cbn [map] in N. inversion N as [|? ? Ni N']; subst.
  rewrite Forall_forall in F1, F2.
  assert (E : rid_of r = rid_of r').
  { assert (A : In r (r' :: l')) by (apply (Permutation_in _ P); left; auto).
    assert (A' : In r' (r :: l)) by (apply (Permutation_in _ (Permutation_sym P)); left; auto).
    destruct A as [->|A]; [auto|]. destruct A' as [->|A']; [auto|]. specialize (F1 _ A'). specialize (F2 _ A). lia. }
  assert (Er : r = r').
  { assert (A' : In r' (r :: l)) by (apply (Permutation_in _ (Permutation_sym P)); left; auto).
    destruct A' as [->|A']; [auto|]. exfalso. apply Ni. rewrite E. apply in_map. auto. }
  subst r'. f_equal. apply IH; auto. eapply Permutation_cons_inv; eauto.
Qed.
Lemma nodup_sub {A B} (f : A -> B) (p : A -> bool) l : NoDup (map f l) -> NoDup (map f (filter p l)).
Proof.
  induction l as [|a l IH]; [auto|]. cbn [map filter]. intro N. inversion N as [|? ? Ni N']; subst. destruct (p a); [|auto].
  cbn [map]. constructor; [|auto]. intro H. apply Ni. apply in_map_iff in H. destruct H as (x & Ex & Hx). apply filter_In in Hx.
  rewrite <- Ex. apply in_map. tauto.
Qed.
Lemma part_ext d p q : (forall row, In row (d_rows d) -> p row = q row) -> part d p = part d q.
Proof. intro H. unfold part. f_equal. apply filter_ext_in. auto. Qed.

Section Lko.
Variable inode : string -> nat.
Notation reaches := (reaches inode).
Variable fmul : Z -> Qc -> Qc.
Variable sample : Z -> list Z -> nat -> list Z.
Hypothesis Hs : sample_ok sample.
Variables (w : world) (b : book) (i : nat) (d : ds).
Hypothesis R : reaches w b.
Hypothesis Hb : b i = Some d.
Hypothesis U : user_ints d.
Definition label_ok (a : lko_args) : Prop := a_last a = true -> In (a_label a) (d_cols d) /\ no_null (a_label a) (d_rows d).

(** everything known about a call that has returned *)
Definition numbered_users (seed : Z) (l : list trow) : list (Z * Z) :=
  combine (map (fun k => seed + 1 + Z.of_nat k) (seq 0 (length l))) (map user_no l).
Lemma lko_end a srt ord0 sched ords t w' tr te : label_ok a -> permuting ord0 -> fair_orders ords ->
  (srt = true -> sorting ord0 /\ forall t, sorting (ords t)) ->
  db_leave_k_out inode fmul sample a i ord0 sched ords t w = (w', DbDone tr te) ->
  exists l sl R T, Permutation l (firsts_of "user" d) /\ (srt = true -> by_rid_order l) /\
    map (fun s => (s_seed s, s_user s)) sl = numbered_users (a_seed a) l /\
    Forall (fun s => lko_contrib fmul sample a d srt (s_seed s) (s_user s) (fst (s_out s)) (snd (s_out s))) sl /\
    Permutation R (rems sl) /\ Permutation T (tests sl) /\
    leaves inode w b w' tr te (part d (fun row => negb (listed (R ++ T) row))) (part d (listed T)).
Proof.
  intros Hl P0 Po So E. rewrite lko_unfold in E. destruct (lko_args_ok a) eqn:Ea; [|discriminate].
  destruct (user_prelude inode ord0 i w) as [w1 [[uj us]|e]] eqn:Ep; [|discriminate].
  destruct (lko_good inode fmul sample a i d ord0 sched ords srt w b w1 uj us R Hb U Hs Hl P0 Po So Ep) as (l & Pl & Sl & G).
  exists l. cbv zeta in G. specialize (G t). unfold outcome_of in E.
  set (g := prog_run inode (lko_plan fmul sample a) i [uj] (a_verbose a) sched ords t _) in *.
  destruct (g_main g) as [| | |[[tr0 te0]|e]] eqn:Em; try discriminate. injection E as <- <- <-.
  destruct G as (tr1 & te1 & sl & R0 & T & X & F1 & F2 & F3 & F4 & Lv). injection X as <- <-.
  exists sl, R0, T. split; [exact Pl|]. split; [auto|]. split; [exact F1|]. auto 10.
Qed.
Lemma users_of_slots seed l (sl : list slot) : map (fun s => (s_seed s, s_user s)) sl = numbered_users seed l -> map s_user sl = map user_no l.
Proof.
  intro E. apply (f_equal (map snd)) in E. rewrite map_map in E. change (map s_user sl = map snd (numbered_users seed l)) in E. rewrite E. unfold numbered_users. apply snd_combine.
  rewrite !map_length, seq_length. auto.
Qed.

Theorem lko_result a ord0 sched ords t w' tr te : label_ok a -> permuting ord0 -> fair_orders ords ->
  db_leave_k_out inode fmul sample a i ord0 sched ords t w = (w', DbDone tr te) ->
  exists train test, leaves inode w b w' tr te train test /\ apart d train test /\
    lko_counts (lko_count fmul (a_k a)) (a_min a) d train test.
Proof.
  intros Hl P0 Po E.
  destruct (lko_end a false ord0 sched ords t w' tr te Hl P0 Po) as (l & sl & R0 & T & Pl & _ & F1 & F2 & F3 & F4 & Lv); [discriminate|auto|].
  destruct (book_rows inode _ _ _ _ R Hb) as (N & _).
  destruct (users_facts inode d l U N Pl) as [Nu Hu]. pose proof (users_of_slots _ _ _ F1) as Eu.
  exists (part d (fun row => negb (listed (R0 ++ T) row))), (part d (listed T)). split; [exact Lv|]. split.
  - exists (fun row => negb (listed (R0 ++ T) row)), (listed T). split; [auto|]. split; [auto|]. intros row _.
    destruct (listed T row) eqn:Et; [|apply andb_false_r]. rewrite andb_true_r. apply negb_false_iff. apply listed_in.
    apply in_app_iff. right. apply listed_in. auto.
  - apply (lko_sums fmul sample a d Hs Hl N false sl R0 T (numbered_users (a_seed a) l)); auto.
    + unfold numbered_users. rewrite snd_combine by (rewrite !map_length, seq_length; auto). auto.
    + unfold numbered_users. rewrite snd_combine by (rewrite !map_length, seq_length; auto). auto.
Qed.

(** ** Schedules *)
Lemma contrib_same a a' seed z rem test rem' test' : same_lko a a' -> lko_contrib fmul sample a d true seed z rem test ->
  lko_contrib fmul sample a' d true seed z rem' test' -> Permutation rem rem' /\ test = test'.
Proof.
  intros (E1 & E2 & E3 & E4 & E5). destruct (book_rows inode _ _ _ _ R Hb) as (N & _).
  unfold lko_contrib. rewrite <- E1, <- E2. destruct (_ <? _).
  - intros [P ->] [P' ->]. split; [|auto]. eapply Permutation_trans; [exact P|apply Permutation_sym; exact P'].
  - destruct ((_ <? _) && (0 <? _))%bool; [|intros [-> ->] [-> ->]; auto].
    intros (-> & l & P & S & ->) (-> & l' & P' & S' & ->). split; [auto|].
    assert (l = l').
    { apply sorted_unique; auto.
      - eapply Permutation_NoDup; [apply Permutation_map, Permutation_sym; exact P|]. apply nodup_sub. auto.
      - eapply Permutation_trans; [exact P|apply Permutation_sym; exact P']. }
    subst l'. unfold chosen. rewrite <- E3. rewrite <- E4. auto.
Qed.
Lemma slots_same a a' us0 : same_lko a a' -> forall sl sl',
  map (fun s => (s_seed s, s_user s)) sl = us0 -> map (fun s => (s_seed s, s_user s)) sl' = us0 ->
  Forall (fun s => lko_contrib fmul sample a d true (s_seed s) (s_user s) (fst (s_out s)) (snd (s_out s))) sl ->
  Forall (fun s => lko_contrib fmul sample a' d true (s_seed s) (s_user s) (fst (s_out s)) (snd (s_out s))) sl' ->
  Permutation (rems sl) (rems sl') /\ Permutation (tests sl) (tests sl').
Proof.
  intros Sm sl. revert us0. induction sl as [|s sl IH]; intros us0 [|s' sl'] E E' F F'; subst; try discriminate; [cbn; auto|].
  cbn [map] in E'. injection E' as E1 E2 E3. inversion F as [|? ? F1 F2]; subst. inversion F' as [|? ? F1' F2']; subst.
  rewrite E1, E2 in F1'.
  destruct (contrib_same a a' _ _ _ _ _ _ Sm F1 F1') as [P1 P2]. destruct (IH _ sl' eq_refl E3 F2 F2') as [Q1 Q2].
  unfold rems, tests in *. cbn [flat_map]. rewrite P2. split; [apply Permutation_app; auto|apply Permutation_app; auto].
Qed.
Theorem lko_same a a' ord0 ord0' sched sched' ords ords' t t' w1 w2 tr1 te1 tr2 te2 : label_ok a -> same_lko a a' ->
  permuting ord0 -> permuting ord0' -> fair_orders ords -> fair_orders ords' ->
  sorting ord0 -> sorting ord0' -> (forall t, sorting (ords t)) -> (forall t, sorting (ords' t)) ->
  db_leave_k_out inode fmul sample a i ord0 sched ords t w = (w1, DbDone tr1 te1) ->
  db_leave_k_out inode fmul sample a' i ord0' sched' ords' t' w = (w2, DbDone tr2 te2) ->
  exists train test, leaves inode w b w1 tr1 te1 train test /\ leaves inode w b w2 tr2 te2 train test.
Proof.
  intros Hl Sm P0 P0' Po Po' S0 S0' So So' E E'.
  assert (Hl' : label_ok a').
  { destruct Sm as (E1 & E2 & E3 & E4 & E5). intro La. rewrite <- E4. apply Hl. congruence. }
  destruct (lko_end a true ord0 sched ords t w1 tr1 te1 Hl P0 Po) as (l & sl & R0 & T & Pl & Sl & F1 & F2 & F3 & F4 & Lv); [auto|auto|].
  destruct (lko_end a' true ord0' sched' ords' t' w2 tr2 te2 Hl' P0' Po') as (l' & sl' & R0' & T' & Pl' & Sl' & F1' & F2' & F3' & F4' & Lv'); [auto|auto|].
  destruct (book_rows inode _ _ _ _ R Hb) as (N & _).
  assert (l = l').
  { apply sorted_unique; auto.
    - eapply Permutation_NoDup; [apply Permutation_map, Permutation_sym; exact Pl|]. apply nodup_sub. auto.
    - eapply Permutation_trans; [exact Pl|apply Permutation_sym; exact Pl']. }
  subst l'. assert (Es : a_seed a' = a_seed a) by (destruct Sm as (_ & _ & _ & _ & E5); congruence). rewrite Es in F1'.
  destruct (slots_same a a' _ Sm sl sl' F1 F1' F2 F2') as [Q1 Q2].
  assert (PR : Permutation R0 R0') by (eapply Permutation_trans; [exact F3|]; eapply Permutation_trans; [exact Q1|apply Permutation_sym; auto]).
  assert (PT : Permutation T T') by (eapply Permutation_trans; [exact F4|]; eapply Permutation_trans; [exact Q2|apply Permutation_sym; auto]).
  exists (part d (fun row => negb (listed (R0 ++ T) row))), (part d (listed T)). split; [exact Lv|].
  rewrite (part_ext d (listed T) (listed T')).
  2:{ intros row _. apply listed_same. intro x. split; apply Permutation_in; [auto|apply Permutation_sym; auto]. }
  rewrite (part_ext d (fun row => negb (listed (R0 ++ T) row)) (fun row => negb (listed (R0' ++ T') row))); [auto|].
  intros row _. f_equal. apply listed_same. assert (P : Permutation (R0 ++ T) (R0' ++ T')) by (apply Permutation_app; auto).
  intro x. split; apply Permutation_in; [auto|apply Permutation_sym; auto].
Qed.

(** ** The latest interactions *)
Lemma num_stamp label row v : tcell row label = Some v -> num_of v <> None -> num v = stamp_of label row.
Proof. unfold stamp_of, num, number. intros -> H. destruct v; cbn in *; auto. Qed.
Theorem lko_latest a ord0 sched ords t w' tr te : a_last a = true -> In (a_label a) (d_cols d) -> by_time (a_label a) d ->
  permuting ord0 -> fair_orders ords -> sorting ord0 -> (forall t, sorting (ords t)) ->
  db_leave_k_out inode fmul sample a i ord0 sched ords t w = (w', DbDone tr te) ->
  exists train test, leaves inode w b w' tr te train test /\ latest_kept (a_label a) train test.
Proof.
  intros La Hc [Bn Bt] P0 Po S0 So E. destruct (book_rows inode _ _ _ _ R Hb) as (N & _).
  assert (Hl : label_ok a).
  { intros _. split; [auto|]. intros row Hr X. destruct (Bn row Hr) as [[z Hz]|[q Hq]]; congruence. }
  destruct (lko_end a true ord0 sched ords t w' tr te Hl P0 Po) as (l & sl & R0 & T & Pl & Sl & F1 & F2 & F3 & F4 & Lv); [auto|auto|].
  destruct (users_facts inode d l U N Pl) as [Nu Hu]. pose proof (users_of_slots _ _ _ F1) as Eu.
  exists (part d (fun row => negb (listed (R0 ++ T) row))), (part d (listed T)). split; [exact Lv|].
  intros r r' Hr Hr' Er. cbn [part d_rows] in Hr, Hr'. apply filter_In in Hr, Hr'. destruct Hr as [Hr Tr]. destruct Hr' as [Hr' Tr'].
  apply negb_true_iff in Tr'. destruct (ui_rows d U r Hr) as [z Hz].
  assert (Hzl : In z (map s_user sl)).
  { rewrite Eu. apply Hu. exists r. split; [auto|]. unfold of_user. rewrite Hz. apply Z.eqb_refl. }
  apply in_map_iff in Hzl. destruct Hzl as (s & <- & Hin).
  assert (Or : of_user (s_user s) r = true) by (unfold of_user; rewrite Hz; apply Z.eqb_refl).
  assert (Or' : of_user (s_user s) r' = true) by (unfold of_user; rewrite <- Er, Hz; apply Z.eqb_refl).
  assert (Sm : forall row, In row (d_rows d) -> of_user (s_user s) row = true ->
      listed T row = listed (snd (s_out s)) row /\ listed (R0 ++ T) row = listed (fst (s_out s) ++ snd (s_out s)) row).
  { intros row Hrow Ho. apply (slots_sum d N sl R0 T); auto; [rewrite Eu; auto|]. apply Forall_forall. intros s' Hs'.
    rewrite Forall_forall in F2. destruct (contrib_counts fmul sample a d Hs Hl N true _ _ _ _ (F2 s' Hs')) as (_ & X1 & X2 & _). auto. }
  rewrite (proj1 (Sm r Hr Or)) in Tr. rewrite (proj2 (Sm r' Hr' Or')) in Tr'.
  rewrite Forall_forall in F2. specialize (F2 s Hin). unfold lko_contrib in F2.
  destruct (count_of (s_user s) d <? a_min a). { destruct F2 as [_ F2]. rewrite F2 in Tr. discriminate. }
  destruct ((_ <? _) && (0 <? _))%bool eqn:Ek; [|destruct F2 as [_ F2]; rewrite F2 in Tr; discriminate].
  destruct F2 as (Er0 & lr & Plr & Slr & Et). rewrite Er0 in Tr'. cbn [app] in Tr'. rewrite Et in Tr, Tr'. unfold chosen in Tr, Tr'.
  rewrite La in Tr, Tr'. apply andb_true_iff in Ek. destruct Ek as [_ K2]. apply Z.ltb_lt in K2.
  set (f := fun row => (match tcell row (a_label a) with Some v => v | None => VInt 0 end, rid_of row)) in *.
  assert (Inl : forall row, In row lr -> In row (d_rows d) /\ of_user (s_user s) row = true).
  { intros row Hrow. apply (Permutation_in _ Plr) in Hrow. apply filter_In in Hrow. auto. }
  assert (Kf : forall row, In row (d_rows d) -> SplitFacts3.key (f row) = stamp_of (a_label a) row /\ SplitFacts3.numeric (f row)).
  { intros row Hrow. unfold SplitFacts3.key, SplitFacts3.numeric, f. cbn [fst]. destruct (Bn row Hrow) as [[y Hy]|[q Hq]].
    - rewrite Hy. split; [apply (num_stamp (a_label a) row); [auto|discriminate]|discriminate].
    - rewrite Hq. split; [apply (num_stamp (a_label a) row); [auto|discriminate]|discriminate]. }
  destruct (last_latest (lko_count fmul (a_k a) (count_of (s_user s) d)) (map f lr) K2) as (kept & out & El & Pm & Le).
  { apply Forall_forall. intros x Hx. apply in_map_iff in Hx. destruct Hx as (row & <- & Hrow). apply Kf. apply Inl. auto. }
  { assert (Nl : NoDup (map rid_of lr)).
    { eapply Permutation_NoDup; [apply Permutation_map, Permutation_sym; exact Plr|]. apply nodup_sub. auto. }
    specialize (Slr eq_refl). unfold by_rid_order in Slr. clear - Slr Inl Kf Bt U Nl. induction Slr as [|x lx S IH F]; [constructor|].
    cbn [map] in *. inversion Nl as [|? ? Ni Nl']; subst. constructor; [apply IH; [intros; apply Inl; right; auto|auto]|].
    apply Forall_forall. intros y Hy. apply in_map_iff in Hy. destruct Hy as (y0 & <- & Hy). rewrite Forall_forall in F.
    destruct (Inl x (or_introl eq_refl)) as [I1 O1]. destruct (Inl y0 (or_intror Hy)) as [I2 O2].
    unfold key_le. rewrite (proj1 (Kf x I1)), (proj1 (Kf y0 I2)). apply Bt; auto.
    - unfold of_user in O1, O2. destruct (ui_rows d U x I1) as [z1 Z1]. destruct (ui_rows d U y0 I2) as [z2 Z2]. rewrite Z1 in O1. rewrite Z2 in O2.
      apply Z.eqb_eq in O1, O2. congruence.
    - specialize (F y0 Hy). assert (rid_of x <> rid_of y0); [|lia]. intro Q. apply Ni. rewrite Q. apply in_map. auto. }
  rewrite El in Tr, Tr'. apply listed_in in Tr.
  assert (Tn : ~ In (rid_of r') (map snd kept)) by (intro Q; apply listed_in in Q; congruence).
  assert (Inr : In r lr /\ In r' lr) by (split; apply (Permutation_in _ (Permutation_sym Plr)), filter_In; auto). destruct Inr as [Ir Ir'].
  assert (Hk : In (f r) kept).
  { apply in_map_iff in Tr. destruct Tr as (x & Ex & Hx).
    assert (Hx2 : In x (map f lr)) by (apply (Permutation_in _ (Permutation_sym Pm)), in_app_iff; auto).
    apply in_map_iff in Hx2. destruct Hx2 as (r1 & <- & Hr1). cbn [f snd] in Ex. assert (r1 = r) by (apply (rid_inj (d_rows d)); auto; apply Inl; auto). subst; auto. }
  assert (Ho : In (f r') out).
  { assert (Hx2 : In (f r') (kept ++ out)) by (apply (Permutation_in _ Pm), in_map; auto).
    apply in_app_iff in Hx2. destruct Hx2 as [Hx2|]; [|auto]. exfalso. apply Tn. apply (in_map snd) in Hx2. exact Hx2. }
  specialize (Le _ _ Ho Hk). unfold key_le in Le. rewrite (proj1 (Kf r Hr)), (proj1 (Kf r' Hr')) in Le. exact Le.
Qed.

(** ** The call returns *)
Theorem lko_returns a ord0 sched ords : label_ok a -> lko_args_ok a = true -> stays_query w i "user" d ->
  permuting ord0 -> fair_orders ords -> fair_threads sched ->
  exists n, forall t, (n <= t)%nat -> exists w' tr te, db_leave_k_out inode fmul sample a i ord0 sched ords t w = (w', DbDone tr te).
Proof.
  intros Hl Ea Sq P0 Po Fs.
  assert (Cu : In "user" (d_cols d)) by (apply (ui_complete d U); cbn; auto).
  destruct (column_ready inode ord0 true w b i d "user" R Hb (ui_complete d U) Cu) as (w1 & uj & us & Ep); [discriminate|auto|auto|].
  fold (user_prelude inode ord0 i) in Ep.
  destruct (lko_good inode fmul sample a i d ord0 sched ords false w b w1 uj us R Hb U Hs Hl P0 Po) as (l & _ & _ & G); [discriminate|auto|].
  cbv zeta in G.
  destruct (run_returns inode (lko_plan fmul sample a) i [uj] (a_verbose a) sched ords
              (mkProg w1 (numbered_from (a_seed a) us) [] [] 0 Submitting) Fs) as [n Hn].
  { intros t Nr Ov. specialize (G t). set (g := prog_run _ _ _ _ _ _ _ _ _) in *.
    destruct (g_main g) eqn:Em; [| | |exfalso; eapply Nr; eauto]; destruct G as (sl & bt & G); eapply good_count; eauto. }
  exists n. intros t L. specialize (Hn t L). specialize (G t). rewrite lko_unfold, Ea, Ep. unfold outcome_of.
  set (g := prog_run _ _ _ _ _ _ _ _ _) in *. destruct Hn as [r Hr]. rewrite Hr in *.
  destruct G as (tr & te & sl & R0 & T & -> & _). eauto.
Qed.
Theorem lko_no_raise a ord0 sched ords t : label_ok a -> lko_args_ok a = true -> stays_query w i "user" d ->
  permuting ord0 -> fair_orders ords -> forall w' e, db_leave_k_out inode fmul sample a i ord0 sched ords t w <> (w', DbRaised e).
Proof.
  intros Hl Ea Sq P0 Po w' e.
  assert (Cu : In "user" (d_cols d)) by (apply (ui_complete d U); cbn; auto).
  destruct (column_ready inode ord0 true w b i d "user" R Hb (ui_complete d U) Cu) as (w1 & uj & us & Ep); [discriminate|auto|auto|].
  fold (user_prelude inode ord0 i) in Ep.
  destruct (lko_good inode fmul sample a i d ord0 sched ords false w b w1 uj us R Hb U Hs Hl P0 Po) as (l & _ & _ & G); [discriminate|auto|].
  cbv zeta in G. specialize (G t). rewrite lko_unfold, Ea, Ep. unfold outcome_of.
  set (g := prog_run _ _ _ _ _ _ _ _ _) in *. destruct (g_main g); try discriminate.
  destruct G as (tr & te & sl & R0 & T & -> & _). discriminate.
Qed.
End Lko.
