(** leave_k_out on database data sets *)
From Coq Require Import String Ascii.
From Coq Require Import List ZArith QArith Qcanon Qround Bool Permutation Sorted Lia.
From Verif Require Import Py PyFacts MemModel MemSpec SplitModel SplitSpec SplitFacts SplitFacts2 SplitFacts3
  DbModel DbFacts DbSpec DbFacts2 DbFacts3 DbFacts4 DbFacts5 DbFacts6 DbFacts7 DbFacts12 DbFacts13 DbFacts14 DbFacts15 DbFacts17
  SampModel DbGenModel DbGenSpec DbGenFacts DbGenFacts2 DbSplitModel DbSplitSpec DbSplitFacts DbSplitFacts2 DbSplitFacts3.
Import ListNotations.
Open Scope string_scope.
Open Scope Z_scope.
Open Scope list_scope.

Lemma framed_inst inode i w w' j b d : reaches inode w b -> b i = Some d -> framed i w w' j ->
  forall k, k <> j -> w_inst w k = None -> w_inst w' k = None.
Proof.
  intros R Hb (F1 & F2 & F3 & F4) k N Hk. destruct (Nat.eq_dec k i) as [->|Ni].
  - exfalso. exact (book_inst inode _ _ _ _ R Hb Hk).
  - rewrite F4; auto.
Qed.
Lemma mapM_one_rid (l : list trow) : (forall row, In row l -> tcell row "rid" = Some (VInt (rid_of row))) ->
  mapM one_rid (map (cells ["rid"]) l) = Ok (map rid_of l).
Proof.
  intro H. rewrite (mapM_all _ (fun r => match r with [Some (VInt z)] => z | _ => 0 end)).
  - rewrite map_map. reflexivity.
  - intros a Ha. apply in_map_iff in Ha. destruct Ha as (row & <- & Hr). cbn [cells map one_rid]. rewrite H by auto. auto.
Qed.

(** ** The sums over the tasks *)
Section Slots.
Variable d : ds.
Hypothesis Nd : NoDup (map rid_of (d_rows d)).
Lemma slots_sum l R T : NoDup (map s_user l) ->
  Forall (fun s => within d (s_user s) (fst (s_out s)) /\ within d (s_user s) (snd (s_out s))) l ->
  Permutation R (rems l) -> Permutation T (tests l) ->
  forall s row, In s l -> In row (d_rows d) -> of_user (s_user s) row = true ->
    listed T row = listed (snd (s_out s)) row /\ listed (R ++ T) row = listed (fst (s_out s) ++ snd (s_out s)) row.
Proof.
  intros N F PR PT s row Hs Hr Ho.
  assert (X1 : In (rid_of row) (rems l) <-> In (rid_of row) (fst (s_out s))).
  { replace (rems l) with (flat_map snd (map (fun s => (s_user s, fst (s_out s))) l))
      by (unfold rems; rewrite !flat_map_concat_map, map_map; auto).
    apply (own_part d Nd _ (s_user s)); auto.
    - rewrite map_map. auto.
    - apply Forall_forall. intros p Hp. apply in_map_iff in Hp. destruct Hp as (s' & <- & Hs'). rewrite Forall_forall in F. apply F. auto.
    - apply in_map_iff. exists s. auto. }
  assert (X2 : In (rid_of row) (tests l) <-> In (rid_of row) (snd (s_out s))).
  { replace (tests l) with (flat_map snd (map (fun s => (s_user s, snd (s_out s))) l))
      by (unfold tests; rewrite !flat_map_concat_map, map_map; auto).
    apply (own_part d Nd _ (s_user s)); auto.
    - rewrite map_map. auto.
    - apply Forall_forall. intros p Hp. apply in_map_iff in Hp. destruct Hp as (s' & <- & Hs'). rewrite Forall_forall in F. apply F. auto.
    - apply in_map_iff. exists s. auto. }
  assert (PT' : forall x, In x T <-> In x (tests l)) by (intro; split; apply Permutation_in; [auto|apply Permutation_sym; auto]).
  assert (PR' : forall x, In x R <-> In x (rems l)) by (intro; split; apply Permutation_in; [auto|apply Permutation_sym; auto]).
  split; apply eq_true_iff_eq; rewrite !listed_in, ?in_app_iff, ?PT', ?PR'; tauto.
Qed.
Lemma count_negb z p : count_of z (part d (fun row => negb (p row))) = count_of z d - count_of z (part d p).
Proof.
  rewrite !count_part. unfold count_of. generalize (d_rows d). intro l. induction l as [|r l IH]; [auto|]. cbn [filter length].
  destruct (p r); cbn [negb andb]; destruct (of_user z r); cbn [length]; lia.
Qed.
Lemma count_out z p x : (forall row, In row (d_rows d) -> of_user z row = true -> p row = listed x row) ->
  NoDup x -> within d z x -> count_of z (part d p) = Z.of_nat (length x).
Proof.
  intros H N W. rewrite count_part. f_equal. rewrite <- (count_listed d Nd z x N W). f_equal. apply filter_ext_in.
  intros row Hr. destruct (of_user z row) eqn:E; [|rewrite !andb_false_r; auto]. rewrite !andb_true_r. auto.
Qed.
Lemma within_perm z l x rest : Permutation l (user_rows_of d z) -> Permutation (map rid_of l) (x ++ rest) -> NoDup x /\ within d z x.
Proof.
  intros P Q. split.
  - assert (K : NoDup (map rid_of (user_rows_of d z))).
    { unfold user_rows_of. revert Nd. generalize (d_rows d). intro rows. induction rows as [|r rows IH]; intro K; [constructor|].
      cbn in K |- *. inversion K as [|? ? K1 K2]; subst. destruct (of_user z r); [|auto]. cbn. constructor; [|auto].
      intro X. apply K1. apply in_map_iff in X. destruct X as (q & E & Hq). apply filter_In in Hq. rewrite <- E. apply in_map. tauto. }
    apply (Permutation_NoDup (Permutation_map rid_of (Permutation_sym P))) in K. apply (Permutation_NoDup Q) in K.
    clear - K. induction x as [|a x IH]; [constructor|]. cbn in K. inversion K as [|? ? K1 K2]; subst. constructor; [|auto].
    intro X. apply K1. apply in_app_iff. auto.
  - intros r Hr. apply (Permutation_in _ (Permutation_map rid_of P)). apply (Permutation_in _ (Permutation_sym Q)).
    apply in_app_iff. auto.
Qed.
End Slots.

(** ** The start *)
Section Start.
Variable inode : string -> nat.
Notation reaches := (reaches inode).

Definition waiting_for (p : Z * Z) : task := Waiting (fst p) (Some (VInt (snd p))).
Lemma start_good w0 b0 d contrib w1 b1 temps us0 m : reaches w1 b1 -> NoDup temps ->
  (forall j, In j temps -> b0 j = None /\ b1 j <> None) -> (forall j, ~ In j temps -> b1 j = b0 j) ->
  (forall j, ~ In j temps -> w_inst w0 j = None -> w_inst w1 j = None) ->
  w_open w1 = (w_open w0 + sub1 m)%nat ->
  exists l bt, Good inode w0 b0 d temps contrib us0 (mkProg w1 (map waiting_for us0) [] [] 0 m) l bt.
Proof.
  intros R N H1 H2 H3 H4. set (l := map (fun p => mkSlot (fst p) (snd p) (waiting_for p) ([], [])) us0).
  assert (Hh : held l = []) by (unfold l, held; clear; induction us0; auto).
  exists l, b1. constructor; cbn [g_world g_tasks g_rem g_test g_done g_main]; rewrite ?Hh, ?app_nil_r; auto.
  - unfold l. rewrite map_map. auto.
  - unfold l. rewrite map_map. cbn [s_seed s_user]. rewrite <- (map_id us0) at 2. apply map_ext. intros []; auto.
  - unfold l. apply Forall_forall. intros s Hs. apply in_map_iff in Hs. destruct Hs as (p & <- & _). unfold slot_ok. cbn. auto.
  - replace (rems l) with (@nil Z) by (unfold l, rems; clear; induction us0; auto). auto.
  - replace (tests l) with (@nil Z) by (unfold l, tests; clear; induction us0; auto). auto.
  - replace (list_sum (map (fun s => reading1 (s_task s)) l)) with 0%nat; [lia|]. unfold l. clear. induction us0; auto.
  - unfold l. clear. induction us0; auto.
Qed.

(** Reading the users. *)
Lemma read_users ord lo w b i d w1 uj us : reaches w b -> b i = Some d -> user_ints d -> permuting ord ->
  (u <~ unique inode i (Some ["user"]) true ;;
   rows <~ values inode ord (fst u) (Some ["user"]) lo ;;
   us <~ lift (mapM one_cell rows) ;; ret (fst u, us)) w = (w1, Ok (uj, us)) ->
  exists l, Permutation l (filter (first_of_group ["user"] (d_rows d)) (d_rows d)) /\
    us = map (fun z => Some (VInt z)) (map user_no l) /\
    (sorting ord -> StronglySorted (fun a b => rid_of a <= rid_of b) l) /\
    b uj = None /\ reaches w1 (note b uj (Some (col_ds d "user"))) /\
    w_open w1 = (w_open w + if lo then 1 else 0)%nat /\
    (forall j, j <> uj -> w_inst w j = None -> w_inst w1 j = None).
Proof.
  intros R Hb U Po E. apply andthen_val in E. destruct E as (w2 & u & E1 & E).
  assert (Cu : In "user" (d_cols d)) by (apply (ui_complete d U); cbn; auto).
  destruct (unique_call inode _ _ _ _ _ _ _ R Hb Cu ltac:(discriminate) E1) as (Fr & R1 & F1).
  apply andthen_val in E. destruct E as (w3 & rows & E2 & E). apply andthen_val in E. destruct E as (w4 & us' & E3 & E).
  injection E as <- <- <-. injection E3 as <- E3.
  destruct (book_rows inode _ _ _ _ R Hb) as (N & _ & _ & _).
  destruct (read_column inode _ _ _ _ _ _ _ _ _ Po R1 (note_same _ _ _) N E2) as (l & P & El & So).
  exists l. split; [auto|]. split.
  { rewrite El in E3. injection E3 as <-. rewrite map_map. apply map_ext_in. intros row Hr.
    apply (Permutation_in _ P) in Hr. apply filter_In in Hr. destruct (ui_rows d U row (proj1 Hr)) as [z Hz].
    unfold user_no. rewrite Hz. auto. }
  split; [auto|]. split; [auto|].
  destruct (values_call inode _ _ _ _ _ _ _ _ _ R1 Po (note_same _ _ _) E2) as [R2 _].
  destruct (values_frame inode _ _ _ _ _ _ _ E2) as (V1 & V2 & V3 & _). specialize (V3 _ eq_refl).
  split; [auto|]. pose proof F1 as (_ & O1 & _). split; [rewrite V3, O1; destruct lo; lia|].
  intros j Nj Hj. rewrite V2 by auto. exact (framed_inst inode _ _ _ _ _ _ R Hb F1 j Nj Hj).
Qed.
Lemma users_facts d l : user_ints d -> NoDup (map rid_of (d_rows d)) ->
  Permutation l (filter (first_of_group ["user"] (d_rows d)) (d_rows d)) ->
  NoDup (map user_no l) /\ forall z, In z (map user_no l) <-> exists row, In row (d_rows d) /\ of_user z row = true.
Proof.
  intros U N P. destruct (firsts_cells inode d "user" N) as [F1 F2].
  assert (E : map (fun r => tcell r "user") l = map (fun z => Some (VInt z)) (map user_no l)).
  { rewrite map_map. apply map_ext_in. intros row Hr. apply (Permutation_in _ P) in Hr. apply filter_In in Hr.
    destruct (ui_rows d U row (proj1 Hr)) as [z Hz]. unfold user_no. rewrite Hz. auto. }
  assert (P2 : Permutation (map (fun r => tcell r "user") l) (map (fun r => tcell r "user") (filter (first_of_group ["user"] (d_rows d)) (d_rows d))))
    by (apply Permutation_map; auto).
  rewrite E in P2. split.
  - apply (Permutation_NoDup (Permutation_sym P2)) in F1. apply NoDup_map_inv in F1. auto.
  - intro z. transitivity (In (Some (VInt z)) (map (fun z => Some (VInt z)) (map user_no l))).
    + split; [apply (in_map (fun z => Some (VInt z)))|]. intro K. apply in_map_iff in K. destruct K as (z' & K & Hz). injection K as ->. auto.
    + transitivity (In (Some (VInt z)) (map (fun r => tcell r "user") (filter (first_of_group ["user"] (d_rows d)) (d_rows d)))).
      * split; apply Permutation_in; [auto|apply Permutation_sym; auto].
      * rewrite F2. split; intros (row & Hr & Ev); exists row; (split; [auto|]).
        -- unfold of_user. rewrite Ev. apply Z.eqb_refl.
        -- unfold of_user in Ev. destruct (tcell row "user") as [[u| |]|]; try discriminate. apply Z.eqb_eq in Ev. congruence.
Qed.
Lemma numbered_tasks seed zs : numbered_from seed (map (fun z => Some (VInt z)) zs) =
  map waiting_for (combine (map (fun k => seed + 1 + Z.of_nat k) (seq 0 (length zs))) zs).
Proof.
  unfold numbered_from. rewrite map_length. generalize 0%nat as n. induction zs as [|z zs IH]; intro n; [auto|].
  cbn [length seq combine map]. f_equal. apply IH.
Qed.
Lemma snd_combine {A B} (l : list A) (l' : list B) : length l = length l' -> map snd (combine l l') = l'.
Proof. revert l'. induction l as [|a l IH]; intros [|b l'] H; cbn in *; try discriminate; auto. f_equal. apply IH. lia. Qed.
End Start.

(** ** leave_k_out *)
Section Lko.
Variable inode : string -> nat.
Notation reaches := (reaches inode).
Variable fmul : Z -> Qc -> Qc.
Variable sample : Z -> list Z -> nat -> list Z.
Variable a : lko_args.
Variable d : ds.
Hypothesis Hs : sample_ok sample.
Hypothesis U : user_ints d.
Hypothesis Hl : a_last a = true -> In (a_label a) (d_cols d) /\ no_null (a_label a) (d_rows d).
Hypothesis Nd : NoDup (map rid_of (d_rows d)).
Hypothesis Rc : In "rid" (d_cols d).
Hypothesis Rr : forall row, In row (d_rows d) -> tcell row "rid" = Some (VInt (rid_of row)).
Variable srt : bool.
Let n_of (z : Z) : Z := count_of z d.
Let k_of (n : Z) : Z := lko_count fmul (a_k a) n.

Definition by_rid_order (l : list trow) : Prop := StronglySorted (fun a b => rid_of a <= rid_of b) l.
(** the records chosen for the test set from the rows of a user, read in the order [l] *)
Definition chosen (seed : Z) (k : Z) (l : list trow) : list Z :=
  if a_last a then last_rids k (map (fun row => (match tcell row (a_label a) with Some v => v | None => VInt 0 end, rid_of row)) l)
  else sample seed (map rid_of l) (Z.to_nat k).
Definition lko_contrib (seed z : Z) (rem test : list Z) : Prop :=
  if n_of z <? a_min a then Permutation rem (map rid_of (user_rows_of d z)) /\ test = []
  else if ((k_of (n_of z) <? n_of z) && (0 <? k_of (n_of z)))%bool then
    rem = [] /\ exists l, Permutation l (user_rows_of d z) /\ (srt = true -> by_rid_order l) /\ test = chosen seed (k_of (n_of z)) l
  else rem = [] /\ test = [].

Lemma one_stamps l : a_last a = true -> (forall row, In row l -> In row (d_rows d)) ->
  mapM one_stamp (map (cells ["rid"; a_label a]) l) =
  Ok (map (fun row => (match tcell row (a_label a) with Some v => v | None => VInt 0 end, rid_of row)) l).
Proof.
  intros La H. rewrite (mapM_all _ (fun r => match r with [Some (VInt z); Some t] => (t, z) | _ => (VInt 0, 0) end)).
  - rewrite map_map. f_equal. apply map_ext_in. intros row Hr. cbn [cells map]. rewrite Rr by auto.
    destruct (Hl La) as [_ Nn]. specialize (Nn row (H row Hr)). destruct (tcell row (a_label a)); [auto|congruence].
  - intros x Hx. apply in_map_iff in Hx. destruct Hx as (row & <- & Hr). cbn [cells map one_stamp]. rewrite Rr by auto.
    destruct (Hl La) as [_ Nn]. specialize (Nn row (H row Hr)). destruct (tcell row (a_label a)); [auto|congruence].
Qed.
Lemma lko_plan_ok us0 : plan_ok d (lko_plan fmul sample a) srt lko_contrib us0.
Proof.
  intros seed z _. rewrite uds_rows by auto. unfold lko_plan, lko_contrib, n_of, k_of, count_of.
  set (n := Z.of_nat (length (filter (of_user z) (d_rows d)))). set (k := lko_count fmul (a_k a) n).
  assert (Rl : forall l, Permutation l (filter (of_user z) (d_rows d)) -> forall row, In row l -> In row (d_rows d)).
  { intros l P row Hr. apply (Permutation_in _ P) in Hr. apply filter_In in Hr. tauto. }
  destruct (n <? a_min a).
  - split; [intros c [<-|[]]; auto|]. intros l P _. exists (map rid_of l), []. unfold remove_rids.
    rewrite mapM_one_rid by (intros row Hr; apply Rr; eapply Rl; eauto). split; [auto|]. split; [|auto].
    apply Permutation_map. exact P.
  - destruct ((k <? n) && (0 <? k))%bool; [|auto]. assert (Cl : a_last a = true \/ a_last a = false) by (destruct (a_last a); auto). destruct Cl as [La|La]; rewrite La.
    + split; [intros c [<-|[<-|[]]]; [auto|apply Hl; auto]|]. intros l P So. do 2 eexists. unfold latest_rids.
      rewrite (one_stamps l La) by (eapply Rl; eauto). cbn [bind]. split; [reflexivity|]. split; [auto|].
      exists l. split; [exact P|]. split; [auto|]. unfold chosen. rewrite La. auto.
    + split; [intros c [<-|[]]; auto|]. intros l P So. do 2 eexists. unfold sample_rids.
      rewrite mapM_one_rid by (intros row Hr; apply Rr; eapply Rl; eauto). cbn [bind]. split; [reflexivity|]. split; [auto|].
      exists l. split; [exact P|]. split; [auto|]. unfold chosen. rewrite La. auto.
Qed.
Lemma chosen_perm seed k l : 0 < k -> k <= Z.of_nat (length l) ->
  exists rest, Permutation (map rid_of l) (chosen seed k l ++ rest) /\ Z.of_nat (length (chosen seed k l)) = k.
Proof.
  intros K1 K2. unfold chosen. destruct (a_last a).
  - destruct (last_rids_perm k (map (fun row => (match tcell row (a_label a) with Some v => v | None => VInt 0 end, rid_of row)) l) K1)
      as (rest & P & L). rewrite map_map in P. cbn [snd] in P. exists rest. split; [auto|]. rewrite L, map_length. lia.
  - destruct (Hs seed (map rid_of l) (Z.to_nat k)) as [L [rest P]]; [rewrite map_length; lia|]. exists rest. split; [auto|]. rewrite L. lia.
Qed.
Lemma contrib_counts seed z rem test : lko_contrib seed z rem test ->
  NoDup (rem ++ test) /\ within d z rem /\ within d z test /\
  Z.of_nat (length test) = held_out k_of (a_min a) (n_of z) /\
  n_of z - Z.of_nat (length (rem ++ test)) = (if n_of z <? a_min a then 0 else n_of z - Z.of_nat (length test)).
Proof.
  unfold lko_contrib, held_out. intro C. assert (Hn : n_of z = Z.of_nat (length (user_rows_of d z))) by reflexivity.
  destruct (n_of z <? a_min a) eqn:E1.
  - destruct C as [P ->]. rewrite app_nil_r. apply Z.ltb_lt in E1. rewrite (proj2 (Z.leb_gt _ _) E1). cbn [andb].
    destruct (within_perm d Nd z (user_rows_of d z) rem [] (Permutation_refl _)) as [N W]; [rewrite app_nil_r; apply Permutation_sym; auto|].
    split; [auto|]. split; [auto|]. split; [intros ? []|]. split; [auto|].
    rewrite (Permutation_length P), map_length, Hn. lia.
  - apply Z.ltb_ge in E1. rewrite (proj2 (Z.leb_le _ _) E1). cbn [andb]. rewrite (andb_comm (0 <? _)).
    destruct ((k_of (n_of z) <? n_of z) && (0 <? k_of (n_of z)))%bool eqn:E2.
    + destruct C as (-> & l & P & _ & ->). apply andb_true_iff in E2. destruct E2 as [K1 K2]. apply Z.ltb_lt in K1, K2.
      destruct (chosen_perm seed (k_of (n_of z)) l K2) as (rest & Q & L); [rewrite (Permutation_length P); lia|].
      destruct (within_perm d Nd z l _ rest P Q) as [N W]. cbn [app]. split; [auto|]. split; [intros ? []|]. split; [auto|].
      split; [auto|]. auto.
    + destruct C as [-> ->]. cbn. split; [constructor|]. split; [intros ? []|]. split; [intros ? []|]. split; [auto|]. lia.
Qed.
Lemma lko_sums l R T us0 : NoDup (map snd us0) -> (forall z, In z (map snd us0) <-> exists row, In row (d_rows d) /\ of_user z row = true) ->
  map (fun s => (s_seed s, s_user s)) l = us0 ->
  Forall (fun s => lko_contrib (s_seed s) (s_user s) (fst (s_out s)) (snd (s_out s))) l ->
  Permutation R (rems l) -> Permutation T (tests l) ->
  lko_counts k_of (a_min a) d (part d (fun row => negb (listed (R ++ T) row))) (part d (listed T)).
Proof.
  intros N Hz Eu F PR PT z. assert (Em : map s_user l = map snd us0) by (rewrite <- Eu, map_map; auto).
  destruct (in_dec Z.eq_dec z (map snd us0)) as [Hin|Hn].
  - rewrite <- Em in Hin. apply in_map_iff in Hin. destruct Hin as (s & <- & Hin). rewrite Forall_forall in F.
    destruct (contrib_counts _ _ _ _ (F s Hin)) as (N1 & W1 & W2 & L1 & L2).
    assert (Sm : forall row, In row (d_rows d) -> of_user (s_user s) row = true ->
      listed T row = listed (snd (s_out s)) row /\ listed (R ++ T) row = listed (fst (s_out s) ++ snd (s_out s)) row).
    { intros row Hr Ho. apply (slots_sum d Nd l R T); auto; [rewrite Em; auto|]. apply Forall_forall. intros s' Hs'.
      destruct (contrib_counts _ _ _ _ (F s' Hs')) as (_ & X1 & X2 & _). auto. }
    rewrite count_negb.
    rewrite (count_out d Nd (s_user s) (listed T) (snd (s_out s))); [|intros; apply Sm; auto| |auto].
    2:{ apply nodup_right in N1. auto. }
    rewrite (count_out d Nd (s_user s) (listed (R ++ T)) (fst (s_out s) ++ snd (s_out s))); [|intros; apply Sm; auto|auto|].
    2:{ intros x Hx. apply in_app_iff in Hx. destruct Hx; auto. }
    split; [exact L1|exact L2].
  - assert (Z0 : count_of z d = 0).
    { unfold count_of. assert (E : filter (of_user z) (d_rows d) = []); [|rewrite E; auto].
      apply incl_l_nil. intros row Hr. apply filter_In in Hr. exfalso. apply Hn. apply Hz. eauto. }
    assert (Zp : forall p, count_of z (part d p) = 0).
    { intro p. rewrite count_part. assert (E : filter (fun row => (p row && of_user z row)%bool) (d_rows d) = []); [|rewrite E; auto].
      apply incl_l_nil. intros row Hr. apply filter_In in Hr. destruct Hr as [Hr Ho]. apply andb_true_iff in Ho.
      exfalso. apply Hn. apply Hz. exists row. tauto. }
    rewrite !Zp, Z0. unfold held_out. split; [|destruct (0 <? a_min a); auto].
    destruct (0 <? k_of 0) eqn:E1; [|rewrite andb_false_r; auto]. apply Z.ltb_lt in E1.
    rewrite (proj2 (Z.ltb_ge (k_of 0) 0)) by lia. rewrite andb_false_r. auto.
Qed.
End Lko.

(** The state after the prelude of leave_k_out. *)
Section LkoRun.
Variable inode : string -> nat.
Variable fmul : Z -> Qc -> Qc.
Variable sample : Z -> list Z -> nat -> list Z.

Definition lko_args_ok (a : lko_args) : bool :=
  ((match a_k a with KInt z => 0 <? z | KRatio q => (Qcltb 0 q && Qcltb q 1)%bool end) && negb (Nat.eqb (a_threads a) 0))%bool.
Definition user_prelude (ord0 : list trow -> list trow) (i : nat) : M (nat * list (option value)) :=
  u <~ unique inode i (Some ["user"]) true ;;
  rows <~ values inode ord0 (fst u) (Some ["user"]) true ;;
  us <~ lift (mapM one_cell rows) ;; ret (fst u, us).
Lemma lko_unfold a i ord0 sched ords t w : db_leave_k_out inode fmul sample a i ord0 sched ords t w =
  if lko_args_ok a then
    match user_prelude ord0 i w with
    | (w', Err e) => (w', DbRaised e)
    | (w', Ok (uds, us)) =>
        outcome_of (prog_run inode (lko_plan fmul sample a) i [uds] (a_verbose a) sched ords t
                      (mkProg w' (numbered_from (a_seed a) us) [] [] 0 Submitting))
    end
  else (w, DbRaised (match a_k a with
                     | KInt z => AssertionError
                     | KRatio q => if (Qcltb 0 q && negb (Nat.eqb (a_threads a) 0))%bool then GenericException else AssertionError
                     end)).
Proof.
  unfold db_leave_k_out, lko_args_ok, user_prelude. destruct (a_k a) as [z|q].
  - destruct (0 <? z); cbn [negb andb]; [|auto]. destruct (Nat.eqb (a_threads a) 0); cbn [negb]; auto.
  - destruct (Qcltb 0 q); cbn [negb andb]; [|auto]. destruct (Nat.eqb (a_threads a) 0); cbn [negb andb].
    + rewrite andb_false_r. auto.
    + rewrite andb_true_r. destruct (Qcltb q 1); cbn [negb]; auto.
Qed.

Theorem lko_good a i d ord0 sched ords srt w b w1 uj us : reaches inode w b -> b i = Some d -> user_ints d -> sample_ok sample ->
  (a_last a = true -> In (a_label a) (d_cols d) /\ no_null (a_label a) (d_rows d)) ->
  permuting ord0 -> fair_orders ords -> (srt = true -> sorting ord0 /\ forall t, sorting (ords t)) ->
  user_prelude ord0 i w = (w1, Ok (uj, us)) ->
  exists l, Permutation l (filter (first_of_group ["user"] (d_rows d)) (d_rows d)) /\ (srt = true -> by_rid_order l) /\
   let us0 := combine (map (fun k => a_seed a + 1 + Z.of_nat k) (seq 0 (length l))) (map user_no l) in
   forall t, let g := prog_run inode (lko_plan fmul sample a) i [uj] (a_verbose a) sched ords t (mkProg w1 (numbered_from (a_seed a) us) [] [] 0 Submitting) in
   match g_main g with
   | Returned r => finished inode w b d (lko_contrib fmul sample a d srt) us0 (g_world g) r
   | _ => exists sl bt, Good inode w b d [uj] (lko_contrib fmul sample a d srt) us0 g sl bt
   end.
Proof.
  intros R Hb U Hs Hl P0 Po So E. destruct (book_rows inode _ _ _ _ R Hb) as (N & Rc & Rr & _).
  destruct (read_users inode _ _ _ _ _ _ _ _ _ R Hb U P0 E) as (l & Pl & -> & Sl & Fr & R1 & O1 & I1).
  exists l. split; [auto|]. split; [intro H; apply Sl; apply So; auto|]. cbv zeta. intro t.
  rewrite numbered_tasks, map_length.
  apply (run_good inode w b i d [uj] (a_verbose a) (lko_plan fmul sample a) srt (lko_contrib fmul sample a d srt)); auto.
  - apply lko_plan_ok; auto.
  - apply (start_good inode w b d _ w1 _ [uj] _ Submitting R1).
    + constructor; [auto|constructor].
    + intros j [<-|[]]. rewrite note_same. split; [auto|discriminate].
    + intros j Hj. apply note_other. apply not_in1. auto.
    + intros j Hj. apply I1. apply not_in1. auto.
    + rewrite O1. auto.
  - discriminate.
  - intros H. apply So; auto.
Qed.
End LkoRun.
