(** Splits on database data sets: random_split. *)
From Coq Require Import String Ascii.
From Coq Require Import List ZArith QArith Qcanon Qround Bool Permutation Sorted Lia.
From Verif Require Import Py PyFacts MemModel MemSpec SplitModel SplitSpec SplitFacts3 SplitFacts4
  DbModel DbFacts DbFacts2 DbFacts3 DbFacts4 DbFacts5 DbFacts7 DbFacts12 DbFacts13 DbFacts14 DbFacts17 DbSpec SampModel DbGenModel DbGenSpec DbGenFacts2
  DbSplitModel DbSplitSpec DbSplitFacts DbSplitFacts2 DbSplitFacts3 DbSplitFacts4 DbSplitFacts5 DbSplitFacts6 DbSplitFacts7 DbSplitFacts8.
Import ListNotations.
Open Scope string_scope.
Open Scope Z_scope.
Open Scope list_scope.

Lemma sub_nodup {A} (l x rest : list A) : NoDup l -> Permutation l (x ++ rest) -> NoDup x.
Proof.
  intros N P. apply (Permutation_NoDup P) in N. clear P. induction x as [|a x IH]; [constructor|].
  cbn in N. inversion N as [|? ? K1 K2]; subst. constructor; [|auto]. intro X. apply K1. apply in_app_iff. auto.
Qed.
Section Random.
Variable inode : string -> nat.
Notation reaches := (reaches inode).
Variable fmul : Z -> Qc -> Qc.
Variable sidx : Z -> Z -> nat -> list Z.
Hypothesis Hf : fmul_ok fmul.
Hypothesis Hs : sample_range_ok sidx.
Variables (w : world) (b : book) (i : nat) (d : ds).
Hypothesis R : reaches w b.
Hypothesis Hb : b i = Some d.
Hypothesis Cm : complete d.

(** the test records, when the rows come in the order [l] *)
Definition random_rids (ratio : Qc) (seed : Z) (l : list trow) : list Z :=
  pick 0 (map rid_of l) (sort_by Z.leb (sidx seed (Z.of_nat (length (d_rows d))) (Z.to_nat (Qfloor (this (fmul (Z.of_nat (length (d_rows d))) ratio)))))).
Lemma random_run ratio seed ord : permuting ord -> Z.of_nat (length (d_rows d)) <= 2 ^ 53 -> (0 < ratio)%Qc -> (ratio < 1)%Qc ->
  let k := Qfloor (this (fmul (Z.of_nat (length (d_rows d))) ratio)) in
  (0 < k -> exists w' tr te l, db_random_split inode fmul sidx ratio seed i ord w = (w', Ok (tr, te)) /\
     Permutation l (d_rows d) /\ (sorting ord -> by_rid_order l) /\
     (let T := random_rids ratio seed l in NoDup T /\ Z.of_nat (length T) = k /\ incl T (map rid_of (d_rows d)) /\
      leaves inode w b w' tr te (part d (fun row => negb (listed T row))) (part d (listed T)))) /\
  (k = 0 -> db_random_split inode fmul sidx ratio seed i ord w = (w, Err AssertionError)).
Proof.
  intros Po Hn R0 R1 k. set (n := Z.of_nat (length (d_rows d))) in *.
  destruct (Hf n ratio (conj (Nat2Z.is_nonneg _) Hn) R0 (Qclt_le_weak _ _ R1)) as [F0 F1].
  pose proof (Qfloor_between _ _ F0 F1) as B. fold k in B.
  assert (E0 : db_random_split inode fmul sidx ratio seed i ord w =
    (if Nat.eqb (length (sort_by Z.leb (sidx seed n (Z.to_nat k)))) 0 then raise AssertionError else
     rows <~ values inode ord i (Some ["rid"]) true ;;
     rids <~ lift (mapM one_rid rows) ;;
     let test_rids := pick 0 rids (sort_by Z.leb (sidx seed n (Z.to_nat k))) in
     te <~ drop inode i test_rids true true ;;
     tr <~ drop inode i test_rids true false ;;
     _ <~ close_generator ;;
     ret (tr, te)) w).
  { unfold db_random_split. rewrite (proj2 (Qcltb_iff _ _) R0), (proj2 (Qcltb_iff _ _) R1). cbn [negb andb].
    rewrite (andthen_ok _ _ _ _ _ (len_call inode _ _ _ _ R Hb)). fold n. cbv zeta. fold k.
    rewrite (proj2 (Z.leb_le 0 k)) by lia. rewrite (proj2 (Z.leb_le k n)) by lia. reflexivity. }
  rewrite E0. clear E0. destruct (Hs seed n (Z.to_nat k) ltac:(lia)) as (L & ND & In01).
  unfold random_rids. fold n. fold k. set (idx := sidx seed n (Z.to_nat k)) in *.
  pose proof (sort_by_perm Z.leb idx) as P. pose proof (Permutation_length P) as LL. split.
  2:{ intro K0. assert (Z0 : length (sort_by Z.leb idx) = 0%nat) by lia. rewrite Z0. reflexivity. }
  intro Hk. rewrite (proj2 (Nat.eqb_neq (length (sort_by Z.leb idx)) 0)) by lia.
  destruct (book_rows inode _ _ _ _ R Hb) as (N & Rc & Rr & _).
  destruct (values inode ord i (Some ["rid"]) true w) as [w1 r1] eqn:Ev.
  destruct (values_call inode _ _ _ _ _ _ _ _ _ R Po Hb Ev) as [Rv Vok].
  destruct Vok as [vs ->]; [auto|intros c [<-|[]]; auto|].
  destruct (values_read inode _ _ _ _ _ _ _ _ _ Po (reaches_inv _ _ _ R) Hb Ev) as (l & Pl & Evs & So).
  destruct (values_frame inode _ _ _ _ _ _ _ Ev) as (V1 & V2 & V3 & _). specialize (V3 _ eq_refl). cbn in V3.
  rewrite (andthen_ok _ _ _ _ _ Ev).
  assert (Em : mapM one_rid vs = Ok (map rid_of l)).
  { rewrite Evs. cbn [asked]. apply mapM_one_rid. intros row Hr. apply Rr. eapply Permutation_in; [exact Pl|auto]. }
  rewrite (andthen_ok _ _ w1 w1 (map rid_of l)) by (unfold lift; rewrite Em; auto). cbv zeta.
  set (T := pick 0 (map rid_of l) (sort_by Z.leb idx)).
  assert (Lr : length (map rid_of l) = length (d_rows d)) by (rewrite map_length; apply Permutation_length; auto).
  destruct (pick_sub (map rid_of l) 0 (sort_by Z.leb idx)) as (PL & rest & PP).
  { apply sorted_indices; auto. }
  { apply Forall_forall. intros x Hx. apply (Permutation_in _ (Permutation_sym P)) in Hx. rewrite Lr. apply In01 in Hx. exact Hx. }
  fold T in PL, PP.
  assert (NT : NoDup T).
  { eapply sub_nodup; [|exact PP]. eapply Permutation_NoDup; [apply Permutation_map, Permutation_sym; exact Pl|exact N]. }
  destruct (drop inode i T true true w1) as [w2 r2] eqn:E2.
  destruct (drop_call inode _ _ _ _ _ _ _ _ Rv Hb Cm E2) as (te & -> & Fe & Fr2 & R2). cbn [listed] in R2.
  rewrite (andthen_ok _ _ _ _ _ E2).
  assert (Nie : i <> te) by (intros ->; congruence).
  assert (Hb2 : note b te (Some (part d (fun row => if true then listed T row else negb (listed T row)))) i = Some d) by (rewrite note_other; auto).
  destruct (drop inode i T true false w2) as [w3 r3] eqn:E3.
  destruct (drop_call inode _ _ _ _ _ _ _ _ R2 Hb2 Cm E3) as (tr & -> & Ft & Fr3 & R3).
  rewrite (andthen_ok _ _ _ _ _ E3).
  assert (Nte : tr <> te) by (intros ->; rewrite note_same in Ft; discriminate). rewrite note_other in Ft by auto.
  exists (fst (close_generator w3)), tr, te, l. split; [reflexivity|]. split; [auto|]. split; [exact So|].
  split; [auto|]. split; [fold T; rewrite PL; lia|].
  split.
  { intros x Hx. apply (Permutation_in _ (Permutation_map rid_of Pl)). apply (Permutation_in _ (Permutation_sym PP)). apply in_app_iff. auto. }
  apply (close_gen_call inode) in R3.
  exists (note (note b te (Some (part d (listed T)))) tr (Some (part d (fun row => negb (listed T row))))).
  split; [exact R3|]. split; [auto|]. split; [auto|]. split; [auto|]. split; [apply note_same|].
  split; [rewrite note_other by auto; apply note_same|]. split; [intros j J1 J2; rewrite !note_other; auto|].
  destruct Fr2 as (X1 & X2 & X3 & X4). destruct Fr3 as (Y1 & Y2 & Y3 & Y4). split.
  - intros j J1 J2 Hj. change (w_inst (fst (close_generator w3)) j) with (w_inst w3 j).
    destruct (Nat.eq_dec j i) as [->|Ji]; [exfalso; exact (book_inst inode _ _ _ _ R Hb Hj)|].
    rewrite Y4, X4, V2; auto.
  - change (w_open (fst (close_generator w3))) with (pred (w_open w3)). rewrite Y2, X2, V3. reflexivity.
Qed.
Theorem random_result ratio seed ord : permuting ord -> Z.of_nat (length (d_rows d)) <= 2 ^ 53 -> (0 < ratio)%Qc -> (ratio < 1)%Qc ->
  let k := Qfloor (this (fmul (Z.of_nat (length (d_rows d))) ratio)) in
  (0 < k -> exists w' tr te train test, db_random_split inode fmul sidx ratio seed i ord w = (w', Ok (tr, te)) /\
     leaves inode w b w' tr te train test /\ parted d train test /\ Z.of_nat (length (d_rows test)) = k) /\
  (k = 0 -> db_random_split inode fmul sidx ratio seed i ord w = (w, Err AssertionError)).
Proof.
  intros Po Hn R0 R1 k. destruct (random_run ratio seed ord Po Hn R0 R1) as [G1 G2]. split; [|auto]. intro Hk.
  destruct (G1 Hk) as (w' & tr & te & l & E & Pl & _ & NT & LT & IT & Lv). set (T := random_rids ratio seed l) in *.
  exists w', tr, te. do 2 eexists. split; [exact E|]. split; [exact Lv|]. split; [exists (listed T); auto|].
  cbn [part d_rows]. fold k in LT. rewrite <- LT. f_equal.
  destruct (book_rows inode _ _ _ _ R Hb) as (N & _).
  rewrite <- (map_length rid_of (filter (listed T) (d_rows d))). apply Permutation_length, NoDup_Permutation; auto.
  - apply nodup_sub. auto.
  - intro x. rewrite in_map_iff. split.
    + intros (row & <- & Hr). apply filter_In in Hr. apply listed_in. tauto.
    + intro Hx. pose proof (IT x Hx) as Hi. apply in_map_iff in Hi. destruct Hi as (row & <- & Hr). exists row. split; [auto|].
      apply filter_In. split; [auto|]. apply listed_in. auto.
Qed.
(** the rows in record id order: the seed decides the result *)
Theorem random_same ratio seed ord ord' w1 w2 tr1 te1 tr2 te2 : permuting ord -> permuting ord' -> sorting ord -> sorting ord' ->
  Z.of_nat (length (d_rows d)) <= 2 ^ 53 ->
  db_random_split inode fmul sidx ratio seed i ord w = (w1, Ok (tr1, te1)) ->
  db_random_split inode fmul sidx ratio seed i ord' w = (w2, Ok (tr2, te2)) ->
  exists train test, leaves inode w b w1 tr1 te1 train test /\ leaves inode w b w2 tr2 te2 train test.
Proof.
  intros Po Po' So So' Hn E E'. destruct (book_rows inode _ _ _ _ R Hb) as (N & _).
  assert (Ra : (0 < ratio)%Qc /\ (ratio < 1)%Qc).
  { unfold db_random_split in E. destruct (Qcltb 0 ratio) eqn:A; [|discriminate]. destruct (Qcltb ratio 1) eqn:A'; [|discriminate].
    split; apply Qcltb_iff; auto. }
  destruct Ra as [R0 R1]. destruct (random_run ratio seed ord Po Hn R0 R1) as [G1 G2].
  destruct (random_run ratio seed ord' Po' Hn R0 R1) as [G1' G2'].
  set (k := Qfloor (this (fmul (Z.of_nat (length (d_rows d))) ratio))) in *.
  assert (Hk : 0 < k).
  { destruct (Hf (Z.of_nat (length (d_rows d))) ratio (conj (Nat2Z.is_nonneg _) Hn) R0 (Qclt_le_weak _ _ R1)) as [F0 F1].
    pose proof (Qfloor_between _ _ F0 F1) as B. fold k in B. destruct (Z.eq_dec k 0) as [K0|]; [|lia]. rewrite (G2 K0) in E. discriminate. }
  destruct (G1 Hk) as (v & a & c & l & X & Pl & Sl & _ & _ & _ & Lv). rewrite E in X. injection X as <- <- <-.
  destruct (G1' Hk) as (v & a & c & l' & X & Pl' & Sl' & _ & _ & _ & Lv'). rewrite E' in X. injection X as <- <- <-.
  assert (l = l').
  { apply sorted_unique; auto.
    - eapply Permutation_NoDup; [apply Permutation_map, Permutation_sym; exact Pl|auto].
    - eapply Permutation_trans; [exact Pl|apply Permutation_sym; exact Pl']. }
  subst l'. eauto.
Qed.
End Random.
