(** leave_k_out *)
From Coq Require Import String Ascii.
From Coq Require Import List ZArith QArith Qcanon Qround Bool Lia Permutation Sorted.
From Verif Require Import Py PyFacts MemModel MemSpec MemFacts MemFacts2 MemFacts3 MemFacts4 MemFacts5 MemFacts6 MemFacts7
  Conc ConcFacts SplitModel SplitSpec SplitFacts.
Import ListNotations.
Open Scope string_scope.
Open Scope Z_scope.

(** the int users of the rows *)
Lemma int_user m r : int_users m -> In r (rows_of m) -> exists z, cell r "user" = Some (VInt z) /\ Z.abs z <= 2 ^ 53.
Proof.
  intros U Hr. destruct (wf_cell m r "user" DInt (iu_wf _ U) Hr) as [v [E T]].
  { apply col_type_assoc; [discriminate|]. apply iu_type; auto. }
  destruct v; try discriminate. exists z. split; auto. apply (iu_small _ U r z Hr E).
Qed.

Lemma user_is_iff z r : user_is z r = true <-> cell r "user" = Some (VInt z).
Proof.
  unfold user_is. destruct (cell r "user") as [[x| |]|]; split; intros H; try discriminate.
  - apply Z.eqb_eq in H. congruence.
  - injection H as ->. apply Z.eqb_refl.
Qed.

Definition part (m : mem) (z : Z) : mem := set_rows (mem_copy m) (filter (user_is z) (rows_of m)).

Lemma user_rows_int m z : int_users m -> Z.abs z <= 2 ^ 53 -> user_rows m (VInt z) = Ok (part m z).
Proof. intros U Hz. unfold user_rows. destruct U. apply select_user_exact; auto. Qed.

Lemma part_wf m z : wf_mem m -> wf_mem (part m z).
Proof.
  intros [[A1 A2 A3 A4] B C]. constructor; auto. constructor; auto.
  - intros r H. apply filter_In in H. apply A3. tauto.
  - intros r c t H. apply filter_In in H. apply A4. tauto.
Qed.

Lemma NoDup_map_filter {A B} (f : A -> B) p l : NoDup (map f l) -> NoDup (map f (filter p l)).
Proof.
  induction l as [|x l IH]; simpl; auto. intros N. inversion N; subst. destruct (p x); simpl; auto.
  constructor; auto. intros I. apply H1. apply in_map_iff in I. destruct I as (y & E & I).
  apply filter_In in I. apply in_map_iff. exists y. tauto.
Qed.

Lemma NoDup_map_inj {A B} (f : A -> B) l x y : NoDup (map f l) -> In x l -> In y l -> f x = f y -> x = y.
Proof.
  induction l as [|z l IH]; simpl; [tauto|]. intros N. inversion N; subst. intros [->|Hx] [->|Hy] E; auto.
  - exfalso. apply H1. rewrite E. apply in_map; auto.
  - exfalso. apply H1. rewrite <- E. apply in_map; auto.
Qed.

(** selecting rows by a list of their own distinct ids *)
Lemma filter_listed_length (rs : list row) ids : NoDup (map r_rid rs) -> NoDup ids ->
  (forall x, In x ids -> In x (map r_rid rs)) -> length (filter (listed ids) rs) = length ids.
Proof.
  intros N1 N2 I. rewrite <- (map_length r_rid). apply Permutation_length. apply NoDup_Permutation; auto.
  - apply NoDup_map_filter; auto.
  - intros x. rewrite in_map_iff. split.
    + intros (r & <- & H). apply filter_In in H. destruct H as [_ H]. unfold listed in H.
      destruct (in_dec Z.eq_dec (r_rid r) ids); auto. discriminate.
    + intros H. destruct (in_map_iff r_rid rs x) as [G _]. destruct (G (I x H)) as (r & E & Hr).
      exists r. split; auto. apply filter_In. split; auto. unfold listed. rewrite E.
      destruct (in_dec Z.eq_dec x ids); auto.
Qed.

Lemma listed_iff ids r : listed ids r = true <-> In (r_rid r) ids.
Proof. unfold listed. destruct (in_dec Z.eq_dec (r_rid r) ids); split; auto; discriminate. Qed.

Lemma filter_nil {A} (p : A -> bool) l : (forall x, In x l -> p x = false) -> filter p l = [].
Proof. induction l; simpl; auto. intros H. rewrite H by auto. auto. Qed.

(** ** Sets of records per user *)
Section PerUser.
Context {X : Type}.
Variables (m : mem) (ps : list X) (key : X -> Z).
Hypothesis U : int_users m.
Hypothesis Nk : NoDup (map key ps).
Hypothesis Kin : forall z, In z (map key ps) <-> exists r, In r (rows_of m) /\ cell r "user" = Some (VInt z).

Definition own (x : X) (l : list Z) : Prop := forall i, In i l -> In i (map r_rid (rows_of (part m (key x)))).

Lemma own_only (T : X -> list Z) l : (forall x, In x ps -> own x (T x)) ->
  (forall i, In i l <-> exists x, In x ps /\ In i (T x)) ->
  forall x r, In x ps -> In r (rows_of m) -> user_is (key x) r = true ->
    (In (r_rid r) l <-> In (r_rid r) (T x)).
Proof.
  intros O L x r Hx Hr Hu. rewrite L. split; [|eauto].
  intros (y & Hy & I). assert (J := O y Hy _ I). apply in_map_iff in J. destruct J as (r' & E & Hr').
  simpl in Hr'. apply filter_In in Hr'. destruct Hr' as [Hr' Hu'].
  assert (r' = r) by (eapply NoDup_map_inj; eauto; apply U). subst r'.
  apply user_is_iff in Hu, Hu'. assert (key y = key x) by congruence.
  assert (y = x) by (eapply NoDup_map_inj; eauto). subst. exact I.
Qed.

Lemma user_or_none z : (exists x, In x ps /\ key x = z) \/ user_count z m = 0.
Proof.
  destruct (in_dec Z.eq_dec z (map key ps)) as [I|N].
  - left. apply in_map_iff in I. destruct I as (x & E & I). eauto.
  - right. unfold user_count. rewrite filter_nil; auto. intros r Hr.
    destruct (user_is z r) eqn:E; auto. exfalso. apply N. apply Kin. exists r. split; auto. apply user_is_iff; auto.
Qed.

Lemma count_part (T : X -> list Z) l : (forall x, In x ps -> own x (T x)) -> (forall x, In x ps -> NoDup (T x)) ->
  (forall i, In i l <-> exists x, In x ps /\ In i (T x)) ->
  forall x, In x ps -> length (filter (user_is (key x)) (filter (listed l) (rows_of m))) = length (T x).
Proof.
  intros O ND L x Hx. rewrite filter_filter.
  transitivity (length (filter (listed (T x)) (filter (user_is (key x)) (rows_of m)))).
  - rewrite filter_filter. f_equal. apply filter_ext_in. intros r Hr.
    destruct (user_is (key x) r) eqn:E; [|rewrite andb_false_r; reflexivity].
    rewrite andb_true_r. simpl. apply eq_true_iff_eq. rewrite !listed_iff.
    apply (own_only T l O L x r Hx Hr E).
  - apply filter_listed_length; auto.
    + apply NoDup_map_filter. apply U.
    + apply O; auto.
Qed.
End PerUser.

(** ** Tasks of leave_k_out *)
Section Lko.
Variable fmul : Z -> Qc -> Qc.
Variable sample : Z -> list Z -> nat -> list Z.
Hypothesis Hs : sample_ok sample.
Variables (a : lko_args) (m : mem).
Hypothesis U : int_users m.
Hypothesis Hl : a_last a = true -> In (a_label a) (m_columns m).

Definition zkey (p : Z * value) : Z := match snd p with VInt z => z | _ => 0 end.
Definition kk (p : Z * value) : Z := lko_count fmul (a_k a) (user_count (zkey p) m).

(** record ids removed, and moved to the test set, for one user *)
Definition rem_of (p : Z * value) : list Z :=
  if user_count (zkey p) m <? a_min a then map r_rid (rows_of (part m (zkey p))) else [].
Definition test_of (p : Z * value) : list Z :=
  if user_count (zkey p) m <? a_min a then [] else
  if (kk p <? user_count (zkey p) m) && (0 <? kk p) then
    if a_last a then match stamps (part m (zkey p)) (a_label a) with Ok xs => last_rids (kk p) xs | Err _ => [] end
    else sample (fst p) (map r_rid (rows_of (part m (zkey p)))) (Z.to_nat (kk p))
  else [].

Lemma heap_perm k xs : forall h, 0 < k -> exists rest,
  Permutation (map snd h ++ map snd xs) (map snd (fold_left (heap_step k) xs h) ++ rest) /\
  (Z.of_nat (length h) <= k ->
   Z.of_nat (length (fold_left (heap_step k) xs h)) = Z.min k (Z.of_nat (length h) + Z.of_nat (length xs))).
Proof.
  induction xs as [|x xs IH]; intros h Hk; simpl.
  - exists []. rewrite !app_nil_r. split; [auto|]. intros. lia.
  - destruct (Z.of_nat (length h) <? k) eqn:E.
    + destruct (IH (insert_by stamp_leb x h) Hk) as (rest & P & L).
      assert (S1 : heap_step k h x = insert_by stamp_leb x h) by (unfold heap_step; rewrite E; reflexivity). rewrite S1.
      exists rest. split.
      * rewrite <- P. rewrite <- (Permutation_map snd (insert_by_perm stamp_leb x h)). simpl.
        symmetry. apply Permutation_middle.
      * intros Hh. rewrite L.
        -- rewrite <- (Permutation_length (insert_by_perm stamp_leb x h)). simpl length. apply Z.ltb_lt in E. lia.
        -- rewrite <- (Permutation_length (insert_by_perm stamp_leb x h)). simpl length. apply Z.ltb_lt in E. lia.
    + apply Z.ltb_ge in E. destruct h as [|y h]; [simpl in E; lia|].
      destruct (IH (insert_by stamp_leb x h) Hk) as (rest & P & L).
      assert (E' := E). apply Z.ltb_ge in E'.
      assert (S1 : heap_step k (y :: h) x = insert_by stamp_leb x h) by (unfold heap_step; rewrite E'; reflexivity). rewrite S1.
      exists (snd y :: rest). split.
      * eapply perm_trans; [|apply Permutation_middle]. simpl. apply perm_skip. rewrite <- P.
        rewrite <- (Permutation_map snd (insert_by_perm stamp_leb x h)). simpl.
        symmetry. apply Permutation_middle.
      * intros Hh. rewrite L.
        -- rewrite <- (Permutation_length (insert_by_perm stamp_leb x h)). simpl length in *. lia.
        -- rewrite <- (Permutation_length (insert_by_perm stamp_leb x h)). simpl length in *. lia.
Qed.

Lemma last_rids_perm k xs : 0 < k -> exists rest, Permutation (map snd xs) (last_rids k xs ++ rest) /\
  Z.of_nat (length (last_rids k xs)) = Z.min k (Z.of_nat (length xs)).
Proof.
  intros Hk. destruct (heap_perm k xs [] Hk) as (rest & P & L). exists rest. split; [exact P|].
  unfold last_rids. rewrite map_length. apply L. simpl. lia.
Qed.

Lemma user_count_part z : user_count z m = Z.of_nat (mem_len (part m z)).
Proof. reflexivity. Qed.

Lemma stamps_part z : a_last a = true -> exists xs, stamps (part m z) (a_label a) = Ok xs /\ map snd xs = map r_rid (rows_of (part m z)).
Proof.
  intros H. destruct (stamps_ok (part m z) (a_label a)) as [t E].
  - apply part_wf, U.
  - apply Hl; auto.
  - rewrite E. eexists. split; [reflexivity|]. rewrite map_map. reflexivity.
Qed.

(** the test records of a user are a sample of the right size of the user's records *)
Lemma test_of_spec p : exists rest,
  Permutation (map r_rid (rows_of (part m (zkey p)))) (test_of p ++ rest) /\
  Z.of_nat (length (test_of p)) = held_out (lko_count fmul (a_k a)) (a_min a) (user_count (zkey p) m).
Proof.
  unfold test_of, held_out. fold (kk p). set (n := user_count (zkey p) m).
  assert (En : Z.of_nat (length (map r_rid (rows_of (part m (zkey p))))) = n).
  { rewrite map_length. reflexivity. }
  destruct (n <? a_min a) eqn:E1.
  - apply Z.ltb_lt in E1. assert (E : a_min a <=? n = false) by (apply Z.leb_gt; lia). rewrite E.
    exists (map r_rid (rows_of (part m (zkey p)))); split; reflexivity.
  - apply Z.ltb_ge in E1. apply Z.leb_le in E1. rewrite E1. simpl andb.
    rewrite (andb_comm (0 <? kk p)). destruct ((kk p <? n) && (0 <? kk p)) eqn:E2.
    + apply andb_true_iff in E2. destruct E2 as [K1 K2]. apply Z.ltb_lt in K1, K2.
      case_eq (a_last a); intros La.
      * destruct (stamps_part (zkey p) La) as (xs & -> & Ex).
        destruct (last_rids_perm (kk p) xs K2) as (rest & P & L). exists rest. rewrite <- Ex. split; auto.
        rewrite L. rewrite <- Ex, map_length in En. lia.
      * destruct (Hs (fst p) (map r_rid (rows_of (part m (zkey p)))) (Z.to_nat (kk p))) as [L [rest P]]; [lia|].
        exists rest. split; auto. rewrite L. lia.
    + exists (map r_rid (rows_of (part m (zkey p)))); split; reflexivity.
Qed.

Lemma lko_task_blocks p z : snd p = VInt z -> Z.abs z <= 2 ^ 53 ->
  updates cellv 0 (lko_task fmul sample a m p) = map extend (match rem_of p with [] => match user_count z m <? a_min a with true => [[]] | false => [] end | l => [l] end) /\
  updates cellv 1 (lko_task fmul sample a m p) =
    map extend (if user_count z m <? a_min a then [] else if (kk p <? user_count z m) && (0 <? kk p) then [test_of p] else []) /\
  updates cellv 2 (lko_task fmul sample a m p) = [incr].
Proof.
  intros Hz Hb. unfold lko_task. rewrite Hz, (user_rows_int m z U Hb). unfold lko_user.
  assert (K : zkey p = z) by (unfold zkey; rewrite Hz; reflexivity).
  rewrite <- (user_count_part z). unfold rem_of, test_of, kk. rewrite K. fold (user_count z m).
  destruct (user_count z m <? a_min a) eqn:E1.
  - rewrite rid_list_ok by (apply part_wf, U). repeat split.
    destruct (map r_rid (rows_of (part m z))); reflexivity.
  - destruct ((lko_count fmul (a_k a) (user_count z m) <? user_count z m) && (0 <? lko_count fmul (a_k a) (user_count z m))).
    + case_eq (a_last a); intros La.
      * destruct (stamps_part z La) as (xs & -> & Ex). repeat split.
      * rewrite rid_list_ok by (apply part_wf, U). repeat split.
    + repeat split.
Qed.

Lemma seeded_snd us : map snd (seeded (a_seed a) us) = us.
Proof.
  unfold seeded.
  assert (G : forall (xs : list Z) (ys : list value), length xs = length ys -> map snd (combine xs ys) = ys).
  { induction xs; intros [|y ys]; simpl; intros; try discriminate; f_equal; auto. }
  apply G. rewrite map_length, seq_length. reflexivity.
Qed.

Lemma lko_tasks_ok ts : lko_tasks fmul sample a m = Ok ts -> exists us,
  distinct_values m "user" = Ok us /\ ts = map (lko_task fmul sample a m) (seeded (a_seed a) us).
Proof.
  unfold lko_tasks. destruct (negb _); [discriminate|]. destruct (Nat.eqb _ _); [discriminate|].
  destruct (match a_k a with KInt _ => false | KRatio q => negb (Qcltb q 1) end); [discriminate|].
  destruct (distinct_values m "user") as [us|]; cbn [bind]; [|discriminate].
  intros H. injection H as <-. eauto.
Qed.

Lemma lko_users us : distinct_values m "user" = Ok us ->
  let ps := seeded (a_seed a) us in
  NoDup (map zkey ps) /\
  (forall z, In z (map zkey ps) <-> exists r, In r (rows_of m) /\ cell r "user" = Some (VInt z)) /\
  (forall p, In p ps -> exists z, snd p = VInt z /\ Z.abs z <= 2 ^ 53).
Proof.
  intros D ps. destruct (distinct_values_ok m "user" DInt (iu_wf _ U) ltac:(discriminate) (iu_col _ U) (iu_type _ U))
    as (vs & E & N & I & T). rewrite D in E. injection E as <-.
  assert (S : map snd ps = us) by apply seeded_snd.
  assert (V : forall v, In v us -> exists z, v = VInt z /\ Z.abs z <= 2 ^ 53).
  { intros v Hv. apply I in Hv. destruct Hv as (r & Hr & Ec). destruct (int_user m r U Hr) as (z & Ez & Hz).
    exists z. split; auto. congruence. }
  assert (MK : map zkey ps = map (fun v => match v with VInt z => z | _ => 0 end) us).
  { rewrite <- S, map_map. reflexivity. }
  split; [|split].
  - rewrite MK. clear - N V. induction us as [|v us IH]; simpl; [constructor|]. inversion N; subst. constructor.
    + intros J. apply in_map_iff in J. destruct J as (w & Ew & Iw). apply H1.
      destruct (V v (or_introl eq_refl)) as (z & -> & _). destruct (V w (or_intror Iw)) as (z' & -> & _). congruence.
    + apply IH; auto. intros; apply V; simpl; auto.
  - intros z. rewrite MK, in_map_iff. split.
    + intros (v & Ev & Iv). destruct (V v Iv) as (z' & -> & _). simpl in Ev. rewrite <- Ev. apply I; auto.
    + intros H. apply I in H. exists (VInt z). auto.
  - intros p Hp. apply V. rewrite <- S. apply in_map. exact Hp.
Qed.

Lemma sample_own p rest : Permutation (map r_rid (rows_of (part m (zkey p)))) (test_of p ++ rest) ->
  NoDup (test_of p) /\ forall i, In i (test_of p) -> In i (map r_rid (rows_of (part m (zkey p)))).
Proof.
  intros P. split.
  - assert (N : NoDup (test_of p ++ rest)).
    { eapply Permutation_NoDup; [exact P|]. apply NoDup_map_filter. apply U. }
    clear P. revert N. generalize (test_of p). induction l as [|x l IH]; simpl; [constructor|]. intros N.
    inversion N; subst. constructor; auto. intros I. apply H1. apply in_or_app; auto.
  - intros i Hi. eapply Permutation_in; [apply Permutation_sym; exact P|]. apply in_or_app; auto.
Qed.

(** removed and test records, for any finished schedule *)
Lemma lko_done sched t train test : leave_k_out fmul sample a m sched t = Done train test ->
  exists ps l0 l1, NoDup (map zkey ps) /\
    (forall z, In z (map zkey ps) <-> exists r, In r (rows_of m) /\ cell r "user" = Some (VInt z)) /\
    (exists us, distinct_values m "user" = Ok us /\ ps = seeded (a_seed a) us) /\
    train = drop m (l0 ++ l1) false /\ test = drop m l1 true /\
    (forall i, In i l0 <-> exists p, In p ps /\ In i (rem_of p)) /\
    (forall i, In i l1 <-> exists p, In p ps /\ In i (test_of p)).
Proof.
  unfold leave_k_out. destruct (lko_tasks fmul sample a m) as [ts|e] eqn:E; [|discriminate].
  destruct (lko_tasks_ok ts E) as (us & D & ->). intros H.
  destruct (lko_users us D) as (N & K & V). set (ps := seeded (a_seed a) us) in *.
  pose (rm := fun p => match rem_of p with [] => match user_count (zkey p) m <? a_min a with true => [[]] | false => [] end | l => [l] end).
  pose (tst := fun p => if user_count (zkey p) m <? a_min a then [] else if (kk p <? user_count (zkey p) m) && (0 <? kk p) then [test_of p] else []).
  assert (B : forall p, In p ps -> updates cellv 0 (lko_task fmul sample a m p) = map extend (rm p) /\
                                    updates cellv 1 (lko_task fmul sample a m p) = map extend (tst p)).
  { intros p Hp. destruct (V p Hp) as (z & Ez & Hz). destruct (lko_task_blocks p z Ez Hz) as (B0 & B1 & _).
    assert (Kz : zkey p = z) by (unfold zkey; rewrite Ez; reflexivity). unfold rm, tst. rewrite Kz. auto. }
  destruct (split_done ps (lko_task fmul sample a m) rm tst (fun p Hp => proj1 (B p Hp)) (fun p Hp => proj2 (B p Hp)) _ _ _ _ _ _ _ H)
    as (l0 & l1 & E1 & E2 & L0 & L1).
  exists ps, l0, l1. repeat (split; [eauto; fail|]). split.
  - intros i. rewrite L0. split.
    + intros (p & xs & Hp & Hx & Hi). exists p. split; auto. unfold rm in Hx. destruct (rem_of p) as [|x l] eqn:R.
      * destruct (user_count (zkey p) m <? a_min a); [destruct Hx as [<-|[]]; destruct Hi|destruct Hx].
      * destruct Hx as [<-|[]]. exact Hi.
    + intros (p & Hp & Hi). exists p, (rem_of p). split; auto. split; auto. unfold rm.
      destruct (rem_of p); [destruct Hi|left; reflexivity].
  - intros i. rewrite L1. split.
    + intros (p & xs & Hp & Hx & Hi). exists p. split; auto. unfold tst in Hx.
      destruct (user_count (zkey p) m <? a_min a); [destruct Hx|].
      destruct ((kk p <? user_count (zkey p) m) && (0 <? kk p)); [|destruct Hx]. destruct Hx as [<-|[]]. exact Hi.
    + intros (p & Hp & Hi). exists p, (test_of p). split; auto. split; auto. unfold tst.
      unfold test_of in Hi.
      destruct (user_count (zkey p) m <? a_min a); [destruct Hi|].
      destruct ((kk p <? user_count (zkey p) m) && (0 <? kk p)); [|destruct Hi]. left; reflexivity.
Qed.

Lemma drop_parts l0 l1 : disjoint_parts m (drop m (l0 ++ l1) false) (drop m l1 true).
Proof.
  exists (fun r => negb (listed (l0 ++ l1) r)), (listed l1).
  destruct (drop_spec m (l0 ++ l1)) as (_ & E & _). destruct (drop_spec m l1) as (E' & _).
  split; [exact E|]. split; [exact E'|]. intros r _. apply andb_false_iff.
  destruct (listed l1 r) eqn:L; auto. left. apply negb_false_iff. apply listed_iff. apply listed_iff in L.
  apply in_or_app; auto.
Qed.

Lemma lko_correct sched t train test : leave_k_out fmul sample a m sched t = Done train test ->
  lko_spec (lko_count fmul (a_k a)) (a_min a) m train test.
Proof.
  intros H. destruct (lko_done _ _ _ _ H) as (ps & l0 & l1 & N & K & _ & E1 & E2 & L0 & L1). subst.
  split; [apply drop_parts|]. intros u.
  destruct (drop_spec m (l0 ++ l1)) as (_ & Ed & _). destruct (drop_spec m l1) as (Ed' & _).
  assert (CT : user_count u (drop m l1 true) = Z.of_nat (length (filter (user_is u) (filter (listed l1) (rows_of m)))))
    by (rewrite Ed'; reflexivity).
  assert (CR : user_count u (drop m (l0 ++ l1) false) =
    Z.of_nat (length (filter (user_is u) (filter (fun r => negb (listed (l0 ++ l1) r)) (rows_of m)))))
    by (rewrite Ed; reflexivity).
  rewrite CT, CR. clear CT CR.
  destruct (user_or_none m ps zkey K u) as [(p & Hp & <-)|Z0].
  - assert (O : forall x, In x ps -> own m zkey x (test_of x)).
    { intros x _. destruct (test_of_spec x) as (rest & P & _). exact (proj2 (sample_own x rest P)). }
    assert (ND : forall x, In x ps -> NoDup (test_of x)).
    { intros x _. destruct (test_of_spec x) as (rest & P & _). exact (proj1 (sample_own x rest P)). }
    assert (C : length (filter (user_is (zkey p)) (filter (listed l1) (rows_of m))) = length (test_of p)).
    { apply (count_part m ps zkey U N test_of l1 O ND L1 p Hp). }
    destruct (test_of_spec p) as (rest & P & L). rewrite C. split; [exact L|].
    (* rows left for training *)
    assert (O0 : forall x, In x ps -> own m zkey x (rem_of x)).
    { intros x _ i. unfold rem_of. destruct (_ <? _); [auto|intros []]. }
    rewrite filter_filter.
    assert (M0 := own_only m ps zkey U N rem_of l0 O0 L0 p).
    assert (M1 := own_only m ps zkey U N test_of l1 O L1 p).
    destruct (user_count (zkey p) m <? a_min a) eqn:Em.
    + rewrite filter_nil; auto. intros r Hr. destruct (user_is (zkey p) r) eqn:Eu; [|apply andb_false_r].
      rewrite andb_true_r. apply negb_false_iff. apply listed_iff. apply in_or_app. left.
      apply (M0 r Hp Hr Eu). unfold rem_of. rewrite Em. apply in_map. simpl. apply filter_In; auto.
    + assert (S : length (filter (user_is (zkey p)) (rows_of m)) =
                  (length (filter (fun r => negb (listed (l0 ++ l1) r) && user_is (zkey p) r) (rows_of m)) + length (test_of p))%nat).
      { rewrite <- C, filter_filter.
        assert (G : forall rs, (forall r, In r rs -> In r (rows_of m)) -> length (filter (user_is (zkey p)) rs) =
          (length (filter (fun r => negb (listed (l0 ++ l1) r) && user_is (zkey p) r) rs) +
           length (filter (fun r => listed l1 r && user_is (zkey p) r) rs))%nat).
        { induction rs as [|r rs IH]; simpl; auto. intros Hin. specialize (IH (fun r' H' => Hin r' (or_intror H'))).
          destruct (user_is (zkey p) r) eqn:Eu; [|rewrite !andb_false_r; exact IH]. rewrite !andb_true_r.
          assert (Q : listed (l0 ++ l1) r = listed l1 r).
          { apply eq_true_iff_eq. rewrite !listed_iff, in_app_iff. split; [|auto]. intros [I0|I1]; auto.
            apply (M0 r Hp (Hin r (or_introl eq_refl)) Eu) in I0. unfold rem_of in I0. rewrite Em in I0. destruct I0. }
          rewrite Q. destruct (listed l1 r); simpl; rewrite IH; lia. }
        apply G; auto. }
      unfold user_count. lia.
  - rewrite Z0. unfold held_out.
    assert (F : forall q, length (filter (user_is u) (filter q (rows_of m))) = 0%nat).
    { intros q. unfold user_count in Z0.
      assert (E0 : filter (user_is u) (rows_of m) = []) by (apply length_zero_iff_nil; lia).
      rewrite filter_filter. rewrite filter_nil; auto. intros r Hr.
      destruct (user_is u r) eqn:Eu; [|apply andb_false_r]. exfalso.
      assert (I : In r (filter (user_is u) (rows_of m))) by (apply filter_In; auto). rewrite E0 in I. destruct I. }
    rewrite !F. simpl Z.of_nat. split; [|destruct (_ <? _); reflexivity].
    destruct (0 <? lko_count fmul (a_k a) 0) eqn:E; [|rewrite andb_false_r; reflexivity].
    apply Z.ltb_lt in E. replace (lko_count fmul (a_k a) 0 <? 0) with false by (symmetry; apply Z.ltb_ge; lia).
    rewrite andb_false_r. reflexivity.
Qed.

(** every fair schedule returns *)
Lemma lko_returns ts sched : lko_tasks fmul sample a m = Ok ts -> fair (a_threads a) sched ->
  exists t train test, leave_k_out fmul sample a m sched t = Done train test.
Proof.
  intros E Hf. unfold leave_k_out. rewrite E. destruct (lko_tasks_ok ts E) as (us & D & ->).
  destruct (lko_users us D) as (N & K & V).
  apply split_returns; auto.
  - intros p Hp. destruct (V p Hp) as (z & Ez & Hz). apply (lko_task_blocks p z Ez Hz).
  - unfold lko_tasks in E. destruct (negb _); [discriminate|]. destruct (Nat.eqb (a_threads a) 0) eqn:E0; [discriminate|].
    apply Nat.eqb_neq in E0. exact E0.
Qed.

(** users in the test set are in the train set *)
Lemma lko_test_users k_of minimum train test u : lko_spec k_of minimum m train test ->
  0 < user_count u test -> 0 < user_count u train.
Proof.
  intros [_ S] H. destruct (S u) as [S1 S2]. rewrite S2. rewrite S1 in *. unfold held_out in *.
  destruct (minimum <=? user_count u m) eqn:E1; simpl in *; [|lia].
  destruct (0 <? k_of (user_count u m)) eqn:E2; simpl in *; [|lia].
  destruct (k_of (user_count u m) <? user_count u m) eqn:E3; simpl in *; [|lia].
  apply Z.leb_le in E1. apply Z.ltb_lt in E3. replace (user_count u m <? minimum) with false by (symmetry; apply Z.ltb_ge; lia).
  lia.
Qed.
End Lko.
