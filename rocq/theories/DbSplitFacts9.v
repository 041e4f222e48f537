(** Splits on database data sets: the runs of matrix_split, and random_split. *)
From Coq Require Import String Ascii.
From Coq Require Import List ZArith QArith Qcanon Qround Bool Permutation Sorted Lia.
From Verif Require Import Py PyFacts MemModel MemSpec SplitModel SplitSpec SplitFacts3 SplitFacts4
  DbModel DbFacts DbFacts2 DbFacts3 DbFacts4 DbFacts5 DbFacts7 DbFacts12 DbFacts13 DbFacts14 DbFacts17 DbSpec SampModel DbGenModel DbGenSpec DbGenFacts2
  DbSplitModel DbSplitSpec DbSplitFacts DbSplitFacts2 DbSplitFacts3 DbSplitFacts4 DbSplitFacts5 DbSplitFacts6 DbSplitFacts7 DbSplitFacts8.
Import ListNotations.
Open Scope string_scope.
Open Scope Z_scope.
Open Scope list_scope.

Definition ms_args_ok (a : ms_args) : bool :=
  ((Qcltb 0 (b_uratio a) && negb (Qcltb 1 (b_uratio a))) && (Qcltb 0 (b_iratio a) && negb (Qcltb 1 (b_iratio a))) &&
   negb (Nat.eqb (b_threads a) 0))%bool.

Section Matrix.
Variable inode : string -> nat.
Notation reaches := (reaches inode).
Variable fmul : Z -> Qc -> Qc.
Variables su si : Z -> list (option value) -> nat -> list (option value).

(** how many are drawn *)
Definition ms_count (ratio : Qc) (n : Z) : Z := Qfloor (this (fmul n ratio)).
Definition ms_prelude (a : ms_args) (i : nat) (ord0 ord1 : list trow -> list trow)
  : M (nat * nat * list (option value) * list (option value) * list (option value)) :=
  u <~ col_prelude inode "user" ord0 false i ;;
  tu <~ lift (odraw su (b_seed a) (snd u) (ms_count (b_uratio a) (Z.of_nat (length (snd u))))) ;;
  v <~ col_prelude inode "item" ord1 false i ;;
  n <~ ds_len (fst v) ;;
  ti <~ lift (odraw si (b_seed a) (snd v) (ms_count (b_iratio a) (Z.of_nat n))) ;;
  ret (fst u, fst v, snd u, tu, ti).
Lemma ms_unfold a i ord0 ord1 sched ords t w : db_matrix_split inode fmul su si a i ord0 ord1 sched ords t w =
  if ms_args_ok a then
    match ms_prelude a i ord0 ord1 w with
    | (w', Err e) => (w', DbRaised e)
    | (w', Ok (uds, ids, us, tu, ti)) =>
        outcome_of (prog_run inode (ms_plan (b_min a) tu ti) i [uds; ids] (b_verbose a) sched ords t
                      (mkProg w' (map (Waiting 0) us) [] [] 0 (if b_verbose a then Polling else Joining)))
    end
  else (w, DbRaised AssertionError).
Proof.
  unfold db_matrix_split, ms_args_ok.
  destruct (Qcltb 0 (b_uratio a) && negb (Qcltb 1 (b_uratio a)))%bool; cbn [negb andb]; [|auto].
  destruct (Qcltb 0 (b_iratio a) && negb (Qcltb 1 (b_iratio a)))%bool; cbn [negb andb]; [|auto].
  destruct (Nat.eqb (b_threads a) 0); cbn [negb andb]; [auto|].
  match goal with |- match ?p with _ => _ end = match ?q with _ => _ end => cut (p = q); [intros ->; auto|] end.
  unfold ms_prelude, col_prelude, ms_count, andthen, lift, ret.
  destruct (unique inode i (Some ["user"]) true w) as [w1 [u|e]]; [|auto].
  destruct (values inode ord0 (fst u) (Some ["user"]) false w1) as [w2 [rows|e]]; [|auto].
  destruct (mapM one_cell rows) as [us|e]; [|auto]. cbn [fst snd].
  destruct (odraw su _ us _) as [tu|e]; [|auto].
  destruct (unique inode i (Some ["item"]) true w2) as [w3 [v|e]]; [|auto].
  destruct (values inode ord1 (fst v) (Some ["item"]) false w3) as [w4 [irows|e]]; [|auto].
  destruct (mapM one_cell irows) as [is|e]; auto.
Qed.

Hypothesis Hsu : sample_ok su.
Hypothesis Hsi : sample_ok si.
Variables (w : world) (b : book) (i : nat) (d : ds).
Hypothesis R : reaches w b.
Hypothesis Hb : b i = Some d.
Hypothesis U : user_ints d.

(** The start of the call. *)
Lemma ms_start a ord0 ord1 w1 uj ij us tu ti : permuting ord0 -> permuting ord1 ->
  ms_prelude a i ord0 ord1 w = (w1, Ok (uj, ij, us, tu, ti)) ->
  exists lu li, Permutation lu (firsts_of "user" d) /\ Permutation li (firsts_of "item" d) /\
    (sorting ord0 -> by_rid_order lu) /\ (sorting ord1 -> by_rid_order li) /\
    us = map (fun z => Some (VInt z)) (map user_no lu) /\
    odraw su (b_seed a) us (ms_count (b_uratio a) (distinct "user" d)) = Ok tu /\
    odraw si (b_seed a) (map (fun r => tcell r "item") li) (ms_count (b_iratio a) (distinct "item" d)) = Ok ti /\
    drawn_from "user" d (ms_count (b_uratio a) (distinct "user" d)) tu /\
    drawn_from "item" d (ms_count (b_iratio a) (distinct "item" d)) ti /\
    b uj = None /\ b ij = None /\ uj <> ij /\
    reaches w1 (note (note b uj (Some (col_ds d "user"))) ij (Some (col_ds d "item"))) /\
    w_open w1 = w_open w /\ (forall j, j <> uj -> j <> ij -> w_inst w j = None -> w_inst w1 j = None).
Proof.
  intros P0 P1 E. destruct (book_rows inode _ _ _ _ R Hb) as (N & _).
  apply andthen_val in E. destruct E as (w2 & [uj' us'] & E1 & E). cbn [fst snd] in E.
  destruct (read_col inode _ _ _ _ _ _ _ _ _ _ R Hb (user_col d U) ltac:(discriminate) P0 E1) as (lu & Pu & Eu & Su & Fu & Ru & Ou & Iu).
  apply andthen_val in E. destruct E as (w3 & tu' & E2 & E). injection E2 as <- E2.
  apply andthen_val in E. destruct E as (w4 & [ij' is] & E3 & E). cbn [fst snd] in E.
  assert (Ni : i <> uj') by (intros ->; congruence).
  assert (Hb2 : note b uj' (Some (col_ds d "user")) i = Some d) by (rewrite note_other; auto).
  destruct (read_col inode _ _ _ _ _ _ _ _ _ _ Ru Hb2 (item_col d U) ltac:(discriminate) P1 E3) as (li & Pi & Ei & Si & Fi & Ri & Oi & Ii).
  assert (Nij : ij' <> uj') by (intros ->; rewrite note_same in Fi; discriminate). rewrite note_other in Fi by auto.
  apply andthen_val in E. destruct E as (w5 & n & E4 & E).
  rewrite (len_call inode _ _ _ _ Ri (note_same _ _ _)) in E4. injection E4 as <- <-.
  apply andthen_val in E. destruct E as (w6 & ti' & E5 & E). injection E5 as <- E5. injection E as <- <- <- <- <- <-.
  cbn [col_ds d_rows] in E5. rewrite map_length in E5. fold (firsts_of "item" d) in E5. rewrite <- (distinct_firsts inode d "item" N) in E5.
  assert (Lu : Z.of_nat (length us') = distinct "user" d).
  { rewrite (distinct_firsts inode d "user" N), Eu, map_length, (Permutation_length Pu). auto. }
  rewrite Lu in E2. exists lu, li. split; [auto|]. split; [auto|]. split; [auto|]. split; [auto|].
  split.
  { rewrite Eu, map_map. apply map_ext_in. intros row Hr. apply (Permutation_in _ Pu) in Hr. apply filter_In in Hr.
    destruct (ui_rows d U row (proj1 Hr)) as [z Hz]. unfold user_no. rewrite Hz. auto. }
  split; [auto|]. split; [rewrite <- Ei; auto|].
  split; [eapply (drawn_spec inode su); [exact Hsu|exact N|exact Pu|rewrite <- Eu; exact E2]|].
  split; [eapply (drawn_spec inode si); [exact Hsi|exact N|exact Pi|rewrite <- Ei; exact E5]|].
  split; [auto|]. split; [auto|]. split; [auto|]. split; [auto|]. split; [rewrite Oi, Ou; lia|].
  intros j N1 N2 Hj. apply Ii; auto.
Qed.
Lemma waiting_zero zs : map (Waiting 0) (map (fun z => Some (VInt z)) zs) = map waiting_for (map (fun z => (0, z)) zs).
Proof. rewrite !map_map. apply map_ext. intro z. reflexivity. Qed.

Lemma ms_good a ord0 ord1 sched ords w1 uj ij us tu ti : permuting ord0 -> permuting ord1 -> fair_orders ords ->
  ms_prelude a i ord0 ord1 w = (w1, Ok (uj, ij, us, tu, ti)) ->
  exists lu, Permutation lu (firsts_of "user" d) /\
   forall t, let g := prog_run inode (ms_plan (b_min a) tu ti) i [uj; ij] (b_verbose a) sched ords t
      (mkProg w1 (map (Waiting 0) us) [] [] 0 (if b_verbose a then Polling else Joining)) in
   match g_main g with
   | Returned r => finished inode w b d (ms_contrib d (b_min a) tu ti) (map (fun z => (0, z)) (map user_no lu)) (g_world g) r
   | _ => exists sl bt, Good inode w b d [uj; ij] (ms_contrib d (b_min a) tu ti) (map (fun z => (0, z)) (map user_no lu)) g sl bt
   end.
Proof.
  intros P0 P1 Po E. destruct (book_rows inode _ _ _ _ R Hb) as (N & Rc & Rr & Ty).
  destruct (ms_start a ord0 ord1 w1 uj ij us tu ti P0 P1 E)
    as (lu & li & Pu & Pi & Su & Si & -> & D1 & D2 & (L1 & N1 & In1) & (L2 & N2 & In2) & Fu & Fi & Nui & R1 & O1 & I1).
  exists lu. split; [auto|]. intro t. rewrite waiting_zero.
  apply (run_good inode w b i d [uj; ij] (b_verbose a) (ms_plan (b_min a) tu ti) false (ms_contrib d (b_min a) tu ti)); auto.
  - apply ms_plan_ok; auto.
  - apply (start_good inode w b d _ w1 _ [uj; ij] _ _ R1).
    + constructor; [intros [?|[]]; congruence|]. constructor; [auto|constructor].
    + intros j [<-|[<-|[]]].
      * rewrite note_other, note_same by auto. split; [auto|discriminate].
      * rewrite note_same. split; [auto|discriminate].
    + intros j Hj. rewrite !note_other; auto; intros ->; apply Hj; cbn; auto.
    + intros j Hj. apply I1; intros ->; apply Hj; cbn; auto.
    + rewrite O1. destruct (b_verbose a); cbn; lia.
  - destruct (b_verbose a); discriminate.
  - discriminate.
Qed.

Theorem ms_result a ord0 ord1 sched ords t w' tr te : permuting ord0 -> permuting ord1 -> fair_orders ords ->
  db_matrix_split inode fmul su si a i ord0 ord1 sched ords t w = (w', DbDone tr te) ->
  exists users items train test, leaves inode w b w' tr te train test /\
    drawn_from "user" d (ms_count (b_uratio a) (distinct "user" d)) users /\
    drawn_from "item" d (ms_count (b_iratio a) (distinct "item" d)) items /\
    matrix_parts (b_min a) users items d train test /\
    (exists lu li, Permutation lu (firsts_of "user" d) /\ Permutation li (firsts_of "item" d) /\
      (sorting ord0 -> by_rid_order lu) /\ (sorting ord1 -> by_rid_order li) /\
      odraw su (b_seed a) (map (fun z => Some (VInt z)) (map user_no lu)) (ms_count (b_uratio a) (distinct "user" d)) = Ok users /\
      odraw si (b_seed a) (map (fun r => tcell r "item") li) (ms_count (b_iratio a) (distinct "item" d)) = Ok items).
Proof.
  intros P0 P1 Po E. rewrite ms_unfold in E. destruct (ms_args_ok a); [|discriminate].
  destruct (ms_prelude a i ord0 ord1 w) as [w1 [[[[[uj ij] us] tu] ti]|e]] eqn:Ep; [|discriminate].
  destruct (book_rows inode _ _ _ _ R Hb) as (N & Rc & Rr & Ty).
  destruct (ms_start a ord0 ord1 w1 uj ij us tu ti P0 P1 Ep)
    as (lu & li & Pu & Pi & Su & Si & Eus & D1 & D2 & Du & Di & _).
  destruct (ms_good a ord0 ord1 sched ords w1 uj ij us tu ti P0 P1 Po Ep) as (lu' & Pu' & G).
  cbv zeta in G. specialize (G t). unfold outcome_of in E.
  set (g := prog_run _ _ _ _ _ _ _ _ _) in *.
  destruct (g_main g) as [| | |[[tr0 te0]|e]] eqn:Em; try discriminate. injection E as <- <- <-.
  destruct G as (tr1 & te1 & sl & R0 & T & X & F1 & F2 & F3 & F4 & Lv). injection X as <- <-.
  destruct (users_facts inode d lu' U N Pu') as [Nu Hu].
  exists tu, ti. do 2 eexists. split; [exact Lv|]. split; [auto|]. split; [auto|]. split.
  - assert (Es : map snd (map (fun z => (0, z)) (map user_no lu')) = map user_no lu') by (rewrite map_map; apply map_id).
    apply (ms_sums d (b_min a) tu ti U N Ty) with (l := sl) (us0 := map (fun z => (0, z)) (map user_no lu')); auto.
    + intros v Hv. destruct Du as (_ & _ & Du). auto.
    + rewrite Es. auto.
    + rewrite Es. auto.
  - exists lu, li. rewrite <- Eus. auto 10.
Qed.

Theorem ms_same a a' ord0 ord1 ord0' ord1' sched sched' ords ords' t t' w1 w2 tr1 te1 tr2 te2 : same_ms a a' ->
  permuting ord0 -> permuting ord0' -> permuting ord1 -> permuting ord1' -> fair_orders ords -> fair_orders ords' ->
  sorting ord0 -> sorting ord0' -> sorting ord1 -> sorting ord1' ->
  db_matrix_split inode fmul su si a i ord0 ord1 sched ords t w = (w1, DbDone tr1 te1) ->
  db_matrix_split inode fmul su si a' i ord0' ord1' sched' ords' t' w = (w2, DbDone tr2 te2) ->
  exists train test, leaves inode w b w1 tr1 te1 train test /\ leaves inode w b w2 tr2 te2 train test.
Proof.
  intros (A1 & A2 & A3 & A4) P0 P0' P1 P1' Po Po' S0 S0' S1 S1' E E'. destruct (book_rows inode _ _ _ _ R Hb) as (N & _).
  destruct (ms_result a ord0 ord1 sched ords t w1 tr1 te1 P0 P1 Po E) as (us & is & tn & ts & Lv & _ & _ & (M1 & M2) & lu & li & Pu & Pi & Su & Si & D1 & D2).
  destruct (ms_result a' ord0' ord1' sched' ords' t' w2 tr2 te2 P0' P1' Po' E') as (us' & is' & tn' & ts' & Lv' & _ & _ & (M1' & M2') & lu' & li' & Pu' & Pi' & Su' & Si' & D1' & D2').
  assert (K : forall c l l', Permutation l (firsts_of c d) -> Permutation l' (firsts_of c d) -> by_rid_order l -> by_rid_order l' -> l = l').
  { intros c l l' Q Q' B B'. apply sorted_unique; auto.
    - eapply Permutation_NoDup; [apply Permutation_map, Permutation_sym; exact Q|]. apply nodup_sub. auto.
    - eapply Permutation_trans; [exact Q|apply Permutation_sym; exact Q']. }
  assert (lu = lu') by (eapply K; eauto). assert (li = li') by (eapply K; eauto). subst lu' li'.
  rewrite A1, A4 in D1. rewrite A2, A4 in D2. rewrite D1 in D1'. rewrite D2 in D2'. injection D1' as <-. injection D2' as <-.
  rewrite <- A3 in M1', M2'. exists tn, ts. split; [auto|]. rewrite M1, M2. rewrite M1', M2' in Lv'. auto.
Qed.


(** ** The call returns *)
Lemma worth_fewer n before q q' o : (q' <= q)%nat -> worth_it n before q o = false -> worth_it n before q' o = false.
Proof.
  intros L. unfold worth_it. intro H. destruct (Nat.leb 3 q') eqn:E; [|rewrite andb_false_r; auto].
  apply Nat.leb_le in E. rewrite (proj2 (Nat.leb_le 3 q)) in H by lia. auto.
Qed.
Definition from (k : nat) (x : inst) (w : world) : Prop :=
  exists y, w_inst w k = Some y /\ i_before y = i_before x /\ (i_queries y <= i_queries x)%nat.
Definition keeps {A} (k : nat) (x : inst) (m : M A) : Prop := forall w w' r, from k x w -> m w = (w', r) -> from k x w'.
Lemma keeps_bind {A B} k x (m : M A) (f : A -> M B) : keeps k x m -> (forall a, keeps k x (f a)) -> keeps k x (andthen m f).
Proof.
  intros P Q w0 w' r F E. unfold andthen in E. destruct (m w0) as [w1 [a|e]] eqn:Em.
  - eapply Q; [|exact E]. eapply P; eauto.
  - injection E as <- <-. eapply P; eauto.
Qed.
Lemma keeps_self {B} k x (f : inst -> M B) :
  (forall y, i_before y = i_before x -> (i_queries y <= i_queries x)%nat -> keeps k x (f y)) -> keeps k x (andthen (self k) f).
Proof.
  intros H w0 w' r F E. pose proof F as (y & Hy & By & Qy). rewrite (andthen_ok _ _ _ _ _ (self_ok k w0 y Hy)) in E.
  eapply (H y By Qy); eauto.
Qed.
Lemma keeps_mild {A} k x l (m : M A) : mild l m -> ~ In k l -> keeps k x m.
Proof. intros H N w0 w' r (y & Hy & P) E. destruct (H _ _ _ E) as (_ & _ & G). exists y. rewrite G; auto. Qed.
Lemma keeps_put k x y : i_before y = i_before x -> (i_queries y <= i_queries x)%nat -> keeps k x (put k y).
Proof. intros P Q w0 w' r F E. injection E as <- <-. exists y. split; [cbn; apply upd_nat_same|auto]. Qed.
Ltac still := eapply keeps_mild with (l := []); [|intros []].
Lemma keeps_move k x y name tb : i_before y = i_before x -> (i_queries y <= i_queries x)%nat -> keeps k x (move_to inode k y name tb).
Proof.
  intros P Q. unfold move_to. apply keeps_bind; [still; apply mild_modify; auto|]. intros _.
  apply keeps_bind; [still; apply mild_read|]. intro l. apply keeps_bind; [still; apply mild_modify; auto|]. intros _.
  apply keeps_put; auto.
Qed.
Lemma keeps_optimize k x b0 : keeps k x (optimize inode k b0).
Proof.
  unfold optimize. apply keeps_self. intros y B Q. cbv zeta. set (z := set_counts _ _ _ _ _).
  assert (Bz : i_before z = i_before x) by (exact B). assert (Qz : (i_queries z <= i_queries x)%nat) by (unfold z; cbn; lia).
  apply keeps_bind; [apply keeps_put; auto|]. intros _. apply keeps_bind; [still; apply mild_read|]. intro n.
  assert (K : forall st, keeps k x (if Nat.ltb 0 n then ret tt else
    users <~ (fun w => (w, match w_tabs w (i_path z) (i_table z) with Some l => Ok l | None => Err KeyError end)) ;;
    if Nat.eqb (length users) 1 then
      _ <~ match st with
           | Some q =>
               keep <~ query inode z (SSub ["rid"] (src_of q) []) ;;
               let rids := map rid_of (snd keep) in
               modify (fun w => match tables inode w (i_path z) (i_table z) with
                                | Some tb => set_tables inode w (i_path z)
                                    (upd_str (tables inode w (i_path z)) (i_table z)
                                       (Some (mkTable (tb_types tb)
                                                (filter (fun r => mem_b Z.eqb (rid_of r) rids) (tb_rows tb)))))
                                | None => w
                                end)
           | None => ret tt
           end ;;
      put k (set_state z None)
    else
      name <~ fresh_name ;;
      types <~ lift (build_types z) ;;
      rows <~ query inode z (SSub (i_cols z) (curr_source z) []) ;;
      tb <~ lift (fill types (snd rows)) ;;
      move_to inode k z name tb)).
  { intro st. destruct (Nat.ltb 0 n); [still; apply mild_ret|]. apply keeps_bind; [still; apply mild_read|]. intro us.
    destruct (Nat.eqb (length us) 1).
    - apply keeps_bind; [|intros _; apply keeps_put; auto]. destruct st as [q|]; [|still; apply mild_ret].
      apply keeps_bind; [still; apply mild_query|]. intro kp. cbv zeta. still. apply mild_modify. intro w0.
      destruct (tables inode w0 _ _); auto.
    - apply keeps_bind; [still; apply mild_fresh|]. intro nm. apply keeps_bind; [still; apply mild_lift|]. intro ts.
      apply keeps_bind; [still; apply mild_query|]. intro rows. apply keeps_bind; [still; apply mild_lift|]. intro tb.
      apply keeps_move; auto. }
  destruct (i_state z) as [q|]; [exact (K (Some q))|]. destruct b0; [still; apply mild_ret|exact (K None)].
Qed.
Lemma keeps_record k x : keeps k x (record_interaction inode k).
Proof.
  unfold record_interaction. apply keeps_self. intros y B Q. apply keeps_bind; [apply keeps_put; auto|]. intros _.
  apply keeps_bind; [still; apply mild_read|]. intro n. destruct (_ && _)%bool; [apply keeps_optimize|still; apply mild_ret].
Qed.
(** unique does not count as a query of the data set itself *)
Lemma unique_keeps w0 b0 k d0 c w' r x : reaches w0 b0 -> b0 k = Some d0 -> w_inst w0 k = Some x ->
  unique inode k (Some [c]) true w0 = (w', Ok r) -> from k x w'.
Proof.
  intros R0 Hk Hx E. unfold unique, target, touched in E. apply andthen_val in E. destruct E as (w1 & y & Es & E).
  rewrite (self_ok k w0 x Hx) in Es. injection Es as <- <-.
  apply andthen_val in E. destruct E as (w2 & cs & Hc & E). injection Hc as <- _.
  apply andthen_val in E. destruct E as (w3 & j & Cj & E).
  destruct (copy_frame inode _ _ _ _ Cj) as (Ej & C1 & C2 & C3).
  assert (Nj : k <> j).
  { intros ->. rewrite Ej in Hx. rewrite (fresh_inst inode _ _ _ R0 (le_n _)) in Hx. discriminate. }
  assert (F3 : from k x w3) by (exists x; rewrite C3; auto).
  revert F3 E. cbv zeta. match goal with |- _ -> ?m _ = _ -> _ => intros F3 E; refine ((_ : keeps k x m) _ _ _ F3 E) end.
  assert (Off : ~ In k [j]) by (intros [?|[]]; congruence).
  assert (Pj : forall y, keeps k x (put j y)) by (intro y; apply (keeps_mild k x [j] (put j y)); [apply mild_put; left; reflexivity|exact Off]).
  apply keeps_bind; [still; apply mild_self|]. intro y. apply keeps_bind; [apply Pj|]. intros _.
  apply keeps_bind; [apply keeps_record|]. intros _. apply keeps_bind; [still; apply mild_self|]. intro y'.
  apply keeps_bind; [apply Pj|]. intros _. apply keeps_bind; [apply (keeps_mild k x [j]); [apply mild_update; left; reflexivity|exact Off]|].
  intros _. still. apply mild_ret.
Qed.
Lemma col_prelude_keeps w0 b0 k d0 c ord lo w' uj us x : reaches w0 b0 -> b0 k = Some d0 -> In c (d_cols d0) -> c <> "rid" -> w_inst w0 k = Some x ->
  col_prelude inode c ord lo k w0 = (w', Ok (uj, us)) -> from k x w'.
Proof.
  intros R0 Hk Hc Nc Hx E. apply andthen_val in E. destruct E as (w2 & u & E1 & E).
  apply andthen_val in E. destruct E as (w3 & rows & E2 & E). apply andthen_val in E. destruct E as (w4 & us' & E3 & E).
  injection E as <- <- <-. injection E3 as <- E3.
  destruct (unique_call inode _ _ _ _ _ _ _ R0 Hk Hc Nc E1) as (Fr & _ & _).
  destruct (unique_keeps _ _ _ _ _ _ _ _ R0 Hk Hx E1) as (y & Hy & P).
  destruct (values_frame inode _ _ _ _ _ _ _ E2) as (_ & V2 & _). exists y. rewrite V2; [auto|]. intros ->. congruence.
Qed.
Lemma stays_later w0 b0 k d0 c c' ord w' uj us : reaches w0 b0 -> b0 k = Some d0 -> In c (d_cols d0) -> c <> "rid" -> permuting ord ->
  stays_query w0 k c' d0 -> col_prelude inode c ord false k w0 = (w', Ok (uj, us)) -> stays_query w' k c' d0.
Proof.
  intros R0 Hk Hc Nc Po S E y Hy. destruct (w_inst w0 k) as [x|] eqn:Hx; [|exfalso; exact (book_inst inode _ _ _ _ R0 Hk Hx)].
  destruct (col_prelude_keeps _ _ _ _ _ _ _ _ _ _ x R0 Hk Hc Nc Hx E) as (y' & Hy' & B & Q). assert (y' = y) by congruence. subst y'.
  destruct (read_col inode _ _ _ _ _ _ _ _ _ _ R0 Hk Hc Nc Po E) as (_ & _ & _ & _ & _ & _ & O & _).
  rewrite O, Nat.add_0_r, B. apply (worth_fewer _ _ (Datatypes.S (i_queries x))); [lia|]. apply S. auto.
Qed.

Lemma draw_ready (f : Z -> list (option value) -> nat -> list (option value)) seed ratio l : fmul_ok fmul -> (0 < ratio)%Qc -> (ratio <= 1)%Qc -> Z.of_nat (length l) <= 2 ^ 53 ->
  exists vs, odraw f seed l (ms_count ratio (Z.of_nat (length l))) = Ok vs.
Proof.
  intros Hf R0 R1 Hl. destruct (Hf (Z.of_nat (length l)) ratio (conj (Nat2Z.is_nonneg _) Hl) R0 R1) as [F0 F1].
  pose proof (Qfloor_between _ _ F0 F1) as B. unfold odraw, ms_count.
  rewrite (proj2 (Z.leb_le 0 _)) by lia. rewrite (proj2 (Z.leb_le _ (Z.of_nat (length l)))) by lia. cbn [andb]. eauto.
Qed.
Lemma ms_ratios a : ms_args_ok a = true -> (0 < b_uratio a)%Qc /\ (b_uratio a <= 1)%Qc /\ (0 < b_iratio a)%Qc /\ (b_iratio a <= 1)%Qc.
Proof.
  unfold ms_args_ok. rewrite !andb_true_iff, !negb_true_iff. intros [[[A1 A2] [A3 A4]] _].
  assert (K : forall q, Qcltb 1 q = false -> (q <= 1)%Qc).
  { intros q H. apply Qcnot_lt_le. intro L. apply Qcltb_iff in L. congruence. }
  apply Qcltb_iff in A1, A3. auto.
Qed.
Lemma ms_ready a ord0 ord1 : fmul_ok fmul -> ms_args_ok a = true -> stays_query w i "user" d -> stays_query w i "item" d ->
  Z.of_nat (length (d_rows d)) <= 2 ^ 53 -> permuting ord0 -> permuting ord1 ->
  exists w1 x, ms_prelude a i ord0 ord1 w = (w1, Ok x).
Proof.
  intros Hf Ha Su Si Hn P0 P1. destruct (ms_ratios a Ha) as (U0 & U1 & I0 & I1).
  assert (Lf : forall c, (length (firsts_of c d) <= length (d_rows d))%nat) by (intro c; apply filter_shorter).
  destruct (column_ready inode ord0 false w b i d "user" R Hb (ui_complete d U) (user_col d U)) as (w1 & uj & us & E1); [discriminate|auto|auto|].
  fold (col_prelude inode "user" ord0 false i) in E1.
  destruct (read_col inode _ _ _ _ _ _ _ _ _ _ R Hb (user_col d U) ltac:(discriminate) P0 E1) as (lu & Pu & Eu & _ & Fu & Ru & _).
  assert (Ni : i <> uj) by (intros ->; congruence).
  assert (Hb2 : note b uj (Some (col_ds d "user")) i = Some d) by (rewrite note_other; auto).
  assert (Si2 : stays_query w1 i "item" d).
  { exact (stays_later w b i d "user" "item" ord0 w1 uj us R Hb (user_col d U) ltac:(discriminate) P0 Si E1). }
  destruct (column_ready inode ord1 false w1 _ i d "item" Ru Hb2 (ui_complete d U) (item_col d U)) as (w2 & ij & is & E2); [discriminate|auto|auto|].
  fold (col_prelude inode "item" ord1 false i) in E2.
  destruct (read_col inode _ _ _ _ _ _ _ _ _ _ Ru Hb2 (item_col d U) ltac:(discriminate) P1 E2) as (li & Pi & Ei & _ & Fi & Ri & _).
  destruct (draw_ready su (b_seed a) (b_uratio a) us Hf U0 U1) as [tu Etu].
  { rewrite Eu, map_length, (Permutation_length Pu). specialize (Lf "user"). lia. }
  destruct (draw_ready si (b_seed a) (b_iratio a) is Hf I0 I1) as [ti Eti].
  { rewrite Ei, map_length, (Permutation_length Pi). specialize (Lf "item"). lia. }
  exists w2, (uj, ij, us, tu, ti). unfold ms_prelude. rewrite (andthen_ok _ _ _ _ _ E1). cbn [fst snd].
  rewrite (andthen_ok _ _ w1 w1 tu) by (unfold lift; rewrite Etu; auto).
  rewrite (andthen_ok _ _ _ _ _ E2). cbn [fst snd].
  rewrite (andthen_ok _ _ _ _ _ (len_call inode _ _ _ _ Ri (note_same _ _ _))).
  cbn [col_ds d_rows]. rewrite map_length. fold (firsts_of "item" d).
  replace (length (firsts_of "item" d)) with (length is) by (rewrite Ei, map_length; apply Permutation_length; auto).
  rewrite (andthen_ok _ _ w2 w2 ti) by (unfold lift; rewrite Eti; auto). reflexivity.
Qed.
Theorem ms_returns a ord0 ord1 sched ords : fmul_ok fmul -> ms_args_ok a = true -> stays_query w i "user" d -> stays_query w i "item" d ->
  Z.of_nat (length (d_rows d)) <= 2 ^ 53 -> permuting ord0 -> permuting ord1 -> fair_orders ords -> fair_threads sched ->
  exists n, forall t, (n <= t)%nat -> exists w' tr te, db_matrix_split inode fmul su si a i ord0 ord1 sched ords t w = (w', DbDone tr te).
Proof.
  intros Hf Ha Su Si Hn P0 P1 Po Fs. destruct (ms_ready a ord0 ord1 Hf Ha Su Si Hn P0 P1) as (w1 & [[[[uj ij] us] tu] ti] & Ep).
  destruct (ms_good a ord0 ord1 sched ords w1 uj ij us tu ti P0 P1 Po Ep) as (lu & _ & G). cbv zeta in G.
  destruct (run_returns inode (ms_plan (b_min a) tu ti) i [uj; ij] (b_verbose a) sched ords
              (mkProg w1 (map (Waiting 0) us) [] [] 0 (if b_verbose a then Polling else Joining)) Fs) as [n Hn2].
  { intros t Nr Ov. specialize (G t). set (g := prog_run _ _ _ _ _ _ _ _ _) in *.
    destruct (g_main g) eqn:Em; [| | |exfalso; eapply Nr; eauto]; destruct G as (sl & bt & G); eapply good_count; eauto. }
  exists n. intros t L. specialize (Hn2 t L). specialize (G t). rewrite ms_unfold, Ha, Ep. unfold outcome_of.
  set (g := prog_run _ _ _ _ _ _ _ _ _) in *. destruct Hn2 as [r Hr]. rewrite Hr in *.
  destruct G as (tr & te & sl & R0 & T & -> & _). eauto.
Qed.
Theorem ms_no_raise a ord0 ord1 sched ords t : fmul_ok fmul -> ms_args_ok a = true -> stays_query w i "user" d -> stays_query w i "item" d ->
  Z.of_nat (length (d_rows d)) <= 2 ^ 53 -> permuting ord0 -> permuting ord1 -> fair_orders ords ->
  forall w' e, db_matrix_split inode fmul su si a i ord0 ord1 sched ords t w <> (w', DbRaised e).
Proof.
  intros Hf Ha Su Si Hn P0 P1 Po w' e. destruct (ms_ready a ord0 ord1 Hf Ha Su Si Hn P0 P1) as (w1 & [[[[uj ij] us] tu] ti] & Ep).
  destruct (ms_good a ord0 ord1 sched ords w1 uj ij us tu ti P0 P1 Po Ep) as (lu & _ & G). cbv zeta in G. specialize (G t).
  rewrite ms_unfold, Ha, Ep. unfold outcome_of.
  set (g := prog_run _ _ _ _ _ _ _ _ _) in *. destruct (g_main g); try discriminate.
  destruct G as (tr & te & sl & R0 & T & -> & _). discriminate.
Qed.
End Matrix.
