(** Proofs about the evaluation processes: negatives and the task of one user. *)
From Coq Require Import String Ascii.
From Coq Require Import List ZArith QArith Qcanon Qround Reals Bool Lia Permutation.
From Verif Require Import Py PyFacts MemModel MemSpec MemFacts MemFacts2 MemFacts4 MemFacts5 MemFacts7 SplitModel SplitFacts
  SampModel EvalModel EvalSpec EvalFacts EvalFacts2 EvalFacts3.
From Verif Require RankFacts SplitFacts2.
Import ListNotations.
Open Scope string_scope.
Open Scope Z_scope.

(** ** generated ids *)
Lemma randint_ok s k n z : randint s k 0 (Z.of_nat n - 1) = Ok z ->
  0 <= z < Z.of_nat n /\ z = Z.of_nat (s k) mod Z.of_nat n.
Proof.
  unfold randint. destruct (Z.of_nat n - 1 <? 0) eqn:E; [discriminate|]. apply Z.ltb_ge in E. intros H. injection H as <-.
  replace (Z.of_nat n - 1 - 0 + 1) with (Z.of_nat n) by lia.
  assert (B := Z.mod_pos_bound (Z.of_nat (s k)) (Z.of_nat n) ltac:(lia)). lia.
Qed.
Lemma randint_err s k n e : randint s k 0 (Z.of_nat n - 1) = Err e -> n = 0%nat.
Proof. unfold randint. destruct (Z.of_nat n - 1 <? 0) eqn:E; [|discriminate]. apply Z.ltb_lt in E. lia. Qed.

Lemma gen_sound n black need s : forall fuel k have l, Z.of_nat (length have) <= need ->
  gen_negs fuel n black need s k have = Some (Ok l) ->
  exists G, l = (have ++ G)%list /\ Z.of_nat (length l) = need /\ NoDup G /\
    forall g, In g G -> (exists z, g = VInt z /\ 0 <= z < Z.of_nat n) /\ mem_b val_eqb g black = false /\ mem_b val_eqb g have = false.
Proof.
  induction fuel as [|fuel IH]; intros k have l Le; cbn [gen_negs].
  - destruct (need <=? Z.of_nat (length have)) eqn:E; [|discriminate]. apply Z.leb_le in E. intros H. injection H as <-.
    exists []. rewrite app_nil_r. split; [reflexivity|]. split; [lia|]. split; [constructor|]. intros ? [].
  - destruct (need <=? Z.of_nat (length have)) eqn:E.
    + apply Z.leb_le in E. intros H. injection H as <-.
      exists []. rewrite app_nil_r. split; [reflexivity|]. split; [lia|]. split; [constructor|]. intros ? [].
    + apply Z.leb_gt in E. destruct (randint s k 0 (Z.of_nat n - 1)) as [x|e] eqn:R; [|discriminate].
      apply randint_ok in R. destruct R as [R _].
      destruct (mem_b val_eqb (VInt x) black) eqn:B; cbn [orb]; [apply IH; auto|].
      destruct (mem_b val_eqb (VInt x) have) eqn:Hv; [apply IH; auto|]. intros H.
      apply IH in H; [|rewrite app_length; cbn [length]; lia].
      destruct H as (G & -> & L & N & C). exists (VInt x :: G). rewrite <- app_assoc. split; [reflexivity|].
      split; [rewrite <- L, <- app_assoc; reflexivity|]. split.
      * constructor; auto. intros I. destruct (C _ I) as [_ [_ M]]. rewrite mem_b_app in M. cbn [mem_b] in M.
        rewrite val_eqb_refl in M. apply orb_false_iff in M. destruct M as [_ M]. discriminate.
      * intros g [<-|I].
        -- split; [eauto|auto].
        -- destruct (C g I) as [C1 [C2 C3]]. rewrite mem_b_app in C3. apply orb_false_iff in C3. tauto.
Qed.
Lemma gen_err n black need s : forall fuel k have e, gen_negs fuel n black need s k have = Some (Err e) -> n = 0%nat.
Proof.
  induction fuel as [|fuel IH]; intros k have e; cbn [gen_negs].
  - destruct (need <=? _); discriminate.
  - destruct (need <=? _); [discriminate|]. destruct (randint s k 0 (Z.of_nat n - 1)) as [x|e'] eqn:R.
    + destruct (_ || _); apply IH.
    + intros _. eapply randint_err; eauto.
Qed.
Lemma gen_more n black need s : forall fuel fuel' k have x, (fuel <= fuel')%nat ->
  gen_negs fuel n black need s k have = Some x -> gen_negs fuel' n black need s k have = Some x.
Proof.
  induction fuel as [|fuel IH]; intros [|fuel'] k have x Le; try lia; cbn [gen_negs]; auto;
    destruct (need <=? _); auto; try discriminate.
  destruct (randint s k 0 (Z.of_nat n - 1)) as [y|e]; auto. destruct (_ || _); apply IH; lia.
Qed.

(** there is always an id left *)
Lemma candidate n black have : Z.of_nat (length black + length have) < Z.of_nat n ->
  exists z, 0 <= z < Z.of_nat n /\ mem_b val_eqb (VInt z) black = false /\ mem_b val_eqb (VInt z) have = false.
Proof.
  intros L. set (zs := map Z.of_nat (seq 0 n)).
  destruct (existsb (fun z => negb (mem_b val_eqb (VInt z) (black ++ have))) zs) eqn:E.
  - apply existsb_exists in E. destruct E as (z & Hz & M). apply negb_true_iff in M. rewrite mem_b_app in M.
    apply orb_false_iff in M. apply in_map_iff in Hz. destruct Hz as (i & <- & Hi). apply in_seq in Hi.
    exists (Z.of_nat i). split; [lia|tauto].
  - exfalso. assert (A : forall z, In z zs -> mem_b val_eqb (VInt z) (black ++ have) = true).
    { intros z Hz. destruct (mem_b val_eqb (VInt z) (black ++ have)) eqn:M; auto.
      assert (T : existsb (fun z => negb (mem_b val_eqb (VInt z) (black ++ have))) zs = true)
        by (apply existsb_exists; exists z; rewrite M; auto). congruence. }
    assert (I : incl (map (fun z => val_norm (VInt z)) zs) (map val_norm (black ++ have))).
    { intros x Hx. apply in_map_iff in Hx. destruct Hx as (z & <- & Hz). specialize (A z Hz).
      apply RankFacts.mem_b_exists in A. destruct A as (y & Hy & A). apply val_eqb_norm in A. rewrite A. apply in_map. auto. }
    assert (N : NoDup (map (fun z => val_norm (VInt z)) zs)).
    { unfold zs. rewrite map_map. apply FinFun.Injective_map_NoDup; [|apply seq_NoDup].
      intros i j H. cbn [val_norm] in H. assert (K : Qc_of_Z (Z.of_nat i) = Qc_of_Z (Z.of_nat j)) by congruence.
      apply Qc_of_Z_inj in K. lia. }
    apply (NoDup_incl_length N) in I. unfold zs in I. rewrite !map_length, seq_length, app_length in I. lia.
Qed.

Lemma gen_stops n black need s :
  (forall k z, 0 <= z < Z.of_nat n -> exists k', (k <= k')%nat /\ Z.of_nat (s k') mod Z.of_nat n = z) ->
  need <= Z.of_nat n - Z.of_nat (length black) ->
  forall k have, exists fuel x, gen_negs fuel n black need s k have = Some x.
Proof.
  intros Dr En. assert (G : forall d k have, need - Z.of_nat (length have) <= Z.of_nat d ->
     exists fuel x, gen_negs fuel n black need s k have = Some x).
  { induction d as [|d IH]; intros k have Hd.
    - exists 0%nat, (Ok have). cbn [gen_negs]. assert (E : (need <=? Z.of_nat (length have)) = true) by (apply Z.leb_le; lia).
      rewrite E. reflexivity.
    - destruct (Z.leb_spec need (Z.of_nat (length have))) as [Le|Gt'].
      { exists 0%nat, (Ok have). cbn [gen_negs]. apply Z.leb_le in Le. rewrite Le. reflexivity. }
      destruct (candidate n black have) as (z & Hz & B & H); [lia|].
      destruct (Dr k z Hz) as (k' & Lk & Ek). remember (k' - k)%nat as j eqn:Ej. revert k Lk Ej.
      induction j as [|j IHj]; intros k Lk Ej.
      + assert (k = k') by lia. subst k. 
        destruct (IH (S k') (have ++ [VInt z])%list) as (fuel & x & F); [rewrite app_length; cbn [length]; lia|].
        exists (S fuel), x. cbn [gen_negs]. apply Z.leb_gt in Gt'. rewrite Gt'. unfold randint.
        destruct (Z.of_nat n - 1 <? 0) eqn:E0; [apply Z.ltb_lt in E0; lia|].
        replace (0 + Z.of_nat (s k') mod (Z.of_nat n - 1 - 0 + 1)) with z by (replace (Z.of_nat n - 1 - 0 + 1) with (Z.of_nat n) by lia; lia).
        rewrite B, H. exact F.
      + destruct (randint s k 0 (Z.of_nat n - 1)) as [x|e] eqn:R.
        * destruct (mem_b val_eqb (VInt x) black || mem_b val_eqb (VInt x) have) eqn:C.
          -- destruct (IHj (S k)) as (fuel & y & F); [lia|lia|]. exists (S fuel), y. cbn [gen_negs].
             apply Z.leb_gt in Gt'. rewrite Gt', R, C. exact F.
          -- destruct (IH (S k) (have ++ [VInt x])%list) as (fuel & y & F); [rewrite app_length; cbn [length]; lia|].
             exists (S fuel), y. cbn [gen_negs]. apply Z.leb_gt in Gt'. rewrite Gt', R, C. exact F.
        * apply randint_err in R. lia. }
  intros k have. apply (G (Z.to_nat (need - Z.of_nat (length have)))). lia.
Qed.

(** ** ids without repetitions *)
Lemma val_eqb_int x y : val_eqb (VInt x) (VInt y) = Z.eqb x y.
Proof. reflexivity. Qed.
Lemma dedup_ints l : (forall v, In v l -> exists z, v = VInt z) ->
  NoDup (dedup val_eqb l) /\ forall v, In v (dedup val_eqb l) <-> In v l.
Proof.
  intros H. assert (E : exists zs, l = map VInt zs).
  { clear - H. induction l as [|v l IH]; [exists []; reflexivity|]. destruct IH as [zs ->]; [intros; apply H; simpl; auto|].
    destruct (H v (or_introl eq_refl)) as [z ->]. exists (z :: zs). reflexivity. }
  destruct E as [zs ->]. unfold dedup. change (@nil value) with (map VInt []).
  rewrite (dedup_acc_inj Z.eqb val_eqb VInt val_eqb_int). fold (dedup Z.eqb zs). split.
  - apply FinFun.Injective_map_NoDup; [intros a b X; congruence|]. apply dedup_NoDup, reflects_Z.
  - intros v. rewrite !in_map_iff. split; intros (z & <- & Hz); exists z; split; auto; revert Hz; apply (dedup_In Z.eqb reflects_Z).
Qed.
Lemma distinct_count l vs : NoDup vs -> (forall v, In v vs <-> In v l) -> Z.of_nat (length vs) = n_distinct_items l.
Proof.
  intros N I. unfold n_distinct_items. f_equal. apply Permutation_length. apply NoDup_Permutation; auto; [apply NoDup_nodup|].
  intros x. rewrite I, nodup_In. tauto.
Qed.

Lemma chosen_at {A} (l : list A) (pk : nat -> nat -> list nat) n :
  (forall n k, (k <= n)%nat -> length (pk n k) = k /\ NoDup (pk n k) /\ forall p, In p (pk n k) -> (p < n)%nat) ->
  0 <= n <= Z.of_nat (length l) -> chosen (Some n) l (at_positions l (pk (length l) (Z.to_nat n))).
Proof.
  intros P B. destruct (P (length l) (Z.to_nat n) ltac:(lia)) as (L & N & R).
  destruct (at_chosen l _ _ L N R) as [E R']. split; auto. lia.
Qed.
Lemma chosen_incl {A} n (l s : list A) x : chosen n l s -> In x s -> In x l.
Proof.
  destruct n as [n|]; cbn [chosen].
  - intros [_ [rest P]] H. eapply Permutation_in; [apply Permutation_sym; exact P|]. apply in_or_app. auto.
  - intros ->. auto.
Qed.

Section User.
Variables (fmul : Z -> Qc -> Qc) (md : model) (train_ev : bool) (mt : mem) (a : re_args) (t : slit) (u : Z) (g : rng).
Hypothesis D : int_data mt.
Hypothesis Dtr : e_gen a = true -> train_ev = false -> int_data (md_ds md).
Hypothesis T : threshold_ok t.
Hypothesis ET : e_thr a = lit_text t.
Hypothesis Hu : Z.abs u <= 2 ^ 53.
Hypothesis Hg : rng_ok g.
Hypothesis Hf : mul_nonneg fmul.
Hypothesis Hn : Z.of_nat (md_items md) <= 2 ^ 53.
Hypothesis Hc : re_check a = Ok tt.

Let mu := sub mt (user_is u).
Let mp := sub mu (liked t).
Let likes := filter (liked t) (rows_for u mt).
Let dislikes := filter (disliked t) (rows_for u mt).

Lemma Dmu : int_data mu. Proof using D. apply int_sub; auto. Qed.
Lemma Dmp : int_data mp. Proof using D. apply int_sub, Dmu. Qed.
Lemma rows_mp : rows_of mp = likes. Proof using Type. reflexivity. Qed.
Lemma likes_in r : In r likes -> In r (rows_of mt).
Proof using Type. intros H. apply filter_In in H. destruct H as [H _]. apply filter_In in H. tauto. Qed.
Lemma dislikes_in r : In r dislikes -> In r (rows_of mt).
Proof using Type. intros H. apply filter_In in H. destruct H as [H _]. apply filter_In in H. tauto. Qed.

Lemma check_pos n : e_npos a = Some n -> 0 < n.
Proof.
  intros E. unfold re_check in Hc. rewrite E in Hc. destruct (positive_opt (e_users a)); [|discriminate]. cbn [negb positive_opt] in Hc.
  destruct (0 <? n) eqn:L; [apply Z.ltb_lt; auto|discriminate].
Qed.
Lemma check_neg nn n_pos : e_nneg a = Some nn -> 0 <= neg_count fmul nn n_pos.
Proof.
  intros E. unfold re_check in Hc. rewrite E in Hc. destruct (positive_opt (e_users a)); [|discriminate]. cbn [negb] in Hc.
  destruct (positive_opt (e_npos a)); [|discriminate]. cbn [negb] in Hc. destruct nn as [z|q]; cbn [neg_count].
  - destruct (0 <? z) eqn:L; [apply Z.ltb_lt in L; lia|discriminate].
  - destruct (Qcltb 0 q) eqn:L; [|discriminate]. apply Qcltb_true in L.
    assert (H := Hf (Z.of_nat n_pos) q ltac:(lia) L). unfold Qcle in H. change 0 with (Qfloor 0%Q). apply Qfloor_resp_le. exact H.
Qed.

Lemma blacklist_ok : e_gen a = true -> exists black, blacklist md train_ev mp (VInt u) (e_thr a) = Ok black /\ NoDup black /\
  (forall v, In v black <-> In v (liked_items md train_ev mt t u)).
Proof.
  intros Eg. unfold blacklist, liked_items. destruct (distinct_items mp Dmp) as (vs & E & N & I & Ti). rewrite rows_mp in I. fold likes.
  destruct train_ev eqn:Et.
  - exists vs. rewrite app_nil_r. auto.
  - specialize (Dtr Eg eq_refl). rewrite ET. cbn [str_of_value]. rewrite (select_user_liked _ Dtr u t Hu T). cbn [bind].
    destruct (distinct_items _ (int_sub _ (fun r => user_is u r && liked t r) Dtr)) as (ws & E' & N' & I' & Ti'). rewrite E', E. cbn [bind].
    exists (dedup val_eqb (ws ++ vs)). split; [reflexivity|].
    destruct (dedup_ints (ws ++ vs)) as [Nd Id].
    { intros v Hv. apply in_app_iff in Hv. destruct Hv; auto. }
    split; auto. intros v. rewrite Id, in_app_iff, I, I', map_app, in_app_iff. unfold rows_for. rewrite sub_rows, filter_filter. tauto.
Qed.

Lemma same_items tt rs : (forall r, In r rs -> In r (rows_of mt)) -> Forall2 same_value (map (fun r => upcast tt (item_of r)) rs) (map item_of rs).
Proof using D.
  induction rs as [|r rs IH]; intros H; cbn [map]; constructor.
  - apply (item_same mt D). apply H. simpl; auto.
  - apply IH. intros; apply H; simpl; auto.
Qed.
Lemma not_in_up x tt rs : (forall r, In r rs -> In r (rows_of mt)) -> mem_b val_eqb (VInt x) (map (fun r => upcast tt (item_of r)) rs) = false ->
  ~ In (VInt x) (map item_of rs).
Proof using D.
  intros H M I. apply in_map_iff in I. destruct I as (r & E & Hr).
  assert (X : mem_b val_eqb (VInt x) (map (fun r => upcast tt (item_of r)) rs) = true); [|congruence].
  apply RankFacts.mem_b_exists. exists (upcast tt (item_of r)). split; [apply in_map_iff; eauto|].
  apply RankFacts.val_eqb_same. rewrite <- E. apply (item_same mt D). auto.
Qed.

Lemma negatives_spec n_pos fuel x : negatives fmul fuel md train_ev a mu mp (VInt u) n_pos g = Some x ->
  (exists N G ns, x = Ok (Some ns) /\ negatives_ok fmul md train_ev mt a t u n_pos N G /\
     Forall2 same_value ns (map item_of N ++ G) /\ (forall r, In r N -> In r (rows_of mt))) \/
  (x = Ok None /\ exists nn, e_nneg a = Some nn /\ e_gen a = true /\
     Z.of_nat (md_items md) - n_distinct_items (liked_items md train_ev mt t u) < neg_count fmul nn n_pos).
Proof.
  unfold negatives. rewrite ET, (select_disliked mu Dmu t T). cbn [bind].
  destruct (item_list_ok _ (int_sub mu (disliked t) Dmu)) as [tt E]. rewrite E. change (rows_of (sub mu (disliked t))) with dislikes.
  assert (Hdi := dislikes_in).
  destruct (e_nneg a) as [nn|] eqn:En.
  - assert (C0 := check_neg nn n_pos En). rewrite map_length.
    set (n := neg_count fmul nn n_pos) in *. set (k := Z.min n (Z.of_nat (length dislikes))).
    rewrite at_map. set (N := at_positions dislikes (rg_neg g (length dislikes) (Z.to_nat k))).
    assert (Ch : chosen (Some k) dislikes N) by (apply chosen_at; [apply Hg|subst k; lia]).
    assert (LN : Z.of_nat (length N) = k) by apply Ch.
    assert (HN : forall r, In r N -> In r (rows_of mt)) by (intros r Hr; apply dislikes_in; eapply chosen_incl; eauto).
    rewrite map_length. destruct ((Z.of_nat (length N) <? n) && e_gen a) eqn:Eg.
    + apply andb_true_iff in Eg. destruct Eg as [Lt Eg]. apply Z.ltb_lt in Lt.
      rewrite <- ET. destruct (blacklist_ok Eg) as (black & Eb & Nb & Ib). rewrite Eb.
      rewrite (distinct_count _ _ Nb Ib).
      destruct (_ <? n) eqn:Sk.
      * apply Z.ltb_lt in Sk. intros H. injection H as <-. right. split; auto. exists nn. auto.
      * destruct (gen_negs fuel (md_items md) black n (rg_draw g) 0 _) as [[l|e]|] eqn:Gn; [| |discriminate].
        -- intros H. injection H as <-. left.
           apply gen_sound in Gn; [|rewrite map_length; lia]. destruct Gn as (G & -> & L & Nd & C).
           rewrite app_length, map_length in L.
           exists N, G. eexists. split; [reflexivity|]. split; [|split; auto].
           ++ constructor.
              ** congruence.
              ** intros nn' E'. assert (nn' = nn) by congruence. subst nn'. exact Ch.
              ** congruence.
              ** intros nn' E' _. assert (nn' = nn) by congruence. subst nn'. fold n. rewrite Nat2Z.inj_add. lia.
              ** exact Nd.
              ** intros v Hv. destruct (C v Hv) as [[z [-> Hz]] [C1 C2]]. split; [eauto|]. split.
                 --- rewrite <- Ib. intros I. assert (X : mem_b val_eqb (VInt z) black = true); [|congruence].
                     apply RankFacts.mem_b_exists. exists (VInt z). split; auto. apply val_eqb_refl.
                 --- eapply not_in_up; eauto.
           ++ apply Forall2_app; [apply same_items; auto|]. clear - C. induction G as [|v G IH]; constructor.
              ** destruct (C v (or_introl eq_refl)) as [[z [-> _]] _]. reflexivity.
              ** apply IH. intros; apply C; simpl; auto.
        -- intros _. exfalso. apply gen_err in Gn. apply Z.ltb_ge in Sk. rewrite Gn in Sk.
           unfold n_distinct_items in Sk. lia.
    + intros H. injection H as <-. left. exists N, [], (map (fun r => upcast tt (item_of r)) N). split; [reflexivity|]. split; [|split; auto].
      * constructor.
        -- congruence.
        -- intros nn' E'. assert (nn' = nn) by congruence. subst nn'. exact Ch.
        -- reflexivity.
        -- intros nn' E' Eg'. assert (nn' = nn) by congruence. subst nn'. rewrite Eg', andb_true_r in Eg. apply Z.ltb_ge in Eg.
           cbn [length]. rewrite Nat.add_0_r. fold n. lia.
        -- constructor.
        -- intros v [].
      * rewrite app_nil_r. apply same_items; auto.
  - intros H. injection H as <-. left. exists dislikes, [], (map (fun r => upcast tt (item_of r)) dislikes). split; [reflexivity|]. split; [|split; auto].
    + constructor; [auto|congruence|auto|congruence|constructor|intros v []].
    + rewrite app_nil_r. apply same_items; auto.
Qed.

Lemma positives_ok npos : (forall n, npos = Some n -> 0 < n) ->
  (exists n, npos = Some n /\ Z.of_nat (length likes) < n /\ positives mu (lit_text t) npos g = Ok None) \/
  (exists tt P, positives mu (lit_text t) npos g = Ok (Some (map (fun r => (upcast tt (item_of r), interaction_of r)) P)) /\
     chosen npos likes P).
Proof using D T Hg.
  intros Hp. unfold positives. rewrite (select_liked mu Dmu t T). cbn [bind]. fold mp.
  destruct (item_pairs_ok mp Dmp) as [tt E]. rewrite E. cbn [bind]. rewrite rows_mp.
  destruct npos as [n|].
  - unfold mem_len. rewrite rows_mp. destruct (Z.of_nat (length likes) <? n) eqn:L.
    + apply Z.ltb_lt in L. left. exists n. auto.
    + apply Z.ltb_ge in L. right. exists tt, (at_positions likes (rg_pos g (length likes) (Z.to_nat n))).
      rewrite map_length, at_map. split; [reflexivity|]. apply chosen_at; [apply Hg|]. specialize (Hp n eq_refl). clear - L Hp. lia.
  - right. exists tt, likes. split; reflexivity.
Qed.

Lemma int_ids_same l l' : Forall2 same_value l l' -> Forall int_id l' -> Forall int_id l.
Proof using Type.
  induction 1 as [|x y l l' S _ IH]; intros F; constructor; inversion F as [|? ? H1 H2]; subst; auto.
  destruct H1 as [z [S' Hz]]. exists z. split; auto. clear - S S'.
  destruct x, y; cbn [same_value] in *; congruence || contradiction.
Qed.
Lemma rows_ids rs : (forall r, In r rs -> In r (rows_of mt)) -> Forall int_id (map item_of rs).
Proof using D.
  intros H. apply Forall_forall. intros v Hv. apply in_map_iff in Hv. destruct Hv as (r & <- & Hr).
  destruct (row_item mt D r (H r Hr)) as [z [E S]]. exists z. unfold item_of. rewrite E. split; auto. reflexivity.
Qed.

Theorem rank_user_spec fuel x : rank_user fmul fuel md train_ev mt a (VInt u) g = Some x ->
  user_outcome fmul md train_ev mt a t (VInt u) x.
Proof.
  unfold rank_user. rewrite (select_user_ok mt D u Hu). cbn [bind]. fold mu. rewrite ET, (select_liked mu Dmu t T). cbn [bind]. fold mp.
  destruct (positives_ok (e_npos a) check_pos) as [(n & En & L & ->)|(tt & P & -> & Ch)]; cbn [bind].
  - intros H. injection H as <-. exists u. split; auto. eapply sk_pos; eauto.
  - rewrite map_length. 
    assert (HP : forall r, In r P -> In r (rows_of mt)) by (intros r Hr; apply likes_in; eapply chosen_incl; eauto).
    destruct (negatives fmul fuel md train_ev a mu mp (VInt u) (length P) g) as [y|] eqn:En; [|discriminate].
    apply negatives_spec in En. destruct En as [(N & G & ns & -> & Ok' & F & HN)|(-> & nn & E1 & E2 & Lt)].
    + rewrite map_map. cbn [fst]. set (items := (map (fun r => upcast tt (item_of r)) P ++ ns)%list).
      assert (FI : Forall2 same_value items (map item_of P ++ map item_of N ++ G)) by (apply Forall2_app; [apply same_items|]; auto).
      assert (II : Forall int_id items).
      { eapply int_ids_same; [exact FI|]. rewrite !Forall_app. split; [apply rows_ids; auto|]. split; [apply rows_ids; auto|].
        apply Forall_forall. intros v Hv. destruct (no_new _ _ _ _ _ _ _ _ _ _ Ok' v Hv) as [[z [-> Hz]] _].
        exists z. split; [reflexivity|]. lia. }
      remember items as its eqn:Ei. destruct its as [|i0 its].
      * intros H. injection H as <-. exists u. split; auto.
        assert (EP : P = []) by (destruct P; auto; discriminate). subst P. cbn [map app] in FI.
        assert (EN : N = [] /\ G = []) by (destruct N; [destruct G; auto|]; inversion FI). destruct EN as [-> ->].
        assert (Enp : likes = []).
        { destruct (e_npos a) as [n|] eqn:E; cbn [chosen] in Ch; [|symmetry; exact Ch].
          destruct Ch as [Ch _]. assert (X := check_pos n E). cbn [length] in Ch. lia. }
        apply sk_empty; auto. destruct Ok' as [O1 O2 O3 O4 _ _]. destruct (e_nneg a) as [nn|].
        -- destruct (e_gen a) eqn:Eg.
           ++ left. specialize (O4 nn eq_refl eq_refl). cbn [length] in O4. cbn [length Nat.add] in O4. lia.
           ++ destruct (O2 nn eq_refl) as [O _]. cbn [length] in O. fold dislikes in O |- *. 
              destruct dislikes eqn:Ed; auto. left. cbn [length] in O. lia.
        -- symmetry. apply O1. reflexivity.
      * intros H. injection H as <-. change (S (length its)) with (length (i0 :: its)). set (all := i0 :: its) in *. set (shuffled := at_positions all (rg_shuffle g (length all))).
        assert (Pm : Permutation all shuffled) by (symmetry; apply at_perm; apply Hg).
        exists u. split; auto. destruct (md_rank md (VInt u) shuffled (e_novelty a)) as [recs|e] eqn:Er; cbn [bind]; [|exists shuffled; auto].
        destruct (relevancies_user mt u shuffled D) as [rels [Erel Rok]].
        { apply (Permutation_Forall Pm). auto. }
        fold mu in Erel. rewrite Erel. cbn [bind]. exists P, N, G, all, shuffled. cbn [c_recs c_rel c_best c_rels].
        split; auto. split; auto. split; auto. split; auto. split; [discriminate|]. split; auto.
        split; [apply same_items; auto|]. split; [eapply best_item_ok; eauto|auto].
    + intros H. injection H as <-. exists u. split; auto. eapply sk_neg; eauto.
      unfold n_positives. destruct (e_npos a) as [n|] eqn:E; cbn [chosen] in Ch.
      * destruct Ch as [Ch _]. replace (Z.to_nat n) with (length P) by lia. auto.
      * rewrite Ch in Lt. exact Lt.
Qed.
End User.

(** the recommendation evaluation *)
Section RecUser.
Variables (md : model) (mt : mem) (a : rc_args) (t : slit) (u : Z) (g : rng).
Hypothesis D : int_data mt.
Hypothesis T : threshold_ok t.
Hypothesis ET : r_thr a = lit_text t.
Hypothesis Hu : Z.abs u <= 2 ^ 53.
Hypothesis Hg : rng_ok g.
Hypothesis Hi : int_recs md.
Hypothesis Hc : rc_check a = Ok tt.

Lemma max_list_ok l n : max_list l = Ok n -> In n l /\ forall k, In k l -> k <= n.
Proof.
  destruct l as [|k l]; [discriminate|]. cbn [max_list]. intros H. injection H as <-. revert k.
  induction l as [|j l IH]; intros k; cbn [fold_left].
  - split; [simpl; auto|]. intros x [->|[]]. lia.
  - destruct (IH (Z.max k j)) as [A B]. split.
    + destruct A as [A|A]; [|simpl; auto]. rewrite <- A. destruct (Z.max_spec k j) as [[_ ->]|[_ ->]]; simpl; auto.
    + intros x [->|[->|Hx]]; [| |apply B; simpl; auto]; assert (X := B _ (or_introl eq_refl)); lia.
Qed.

Lemma rc_pos n : r_npos a = Some n -> 0 < n.
Proof.
  intros E. unfold rc_check in Hc. rewrite E in Hc. destruct (positive_opt (r_users a)); [|discriminate]. cbn [negb positive_opt] in Hc.
  destruct (0 <? n) eqn:L; [apply Z.ltb_lt; auto|discriminate].
Qed.

Theorem rec_user_spec : rec_outcome md mt a t (VInt u) (rec_user md mt a (VInt u) g).
Proof.
  exists u. split; auto. unfold rec_user. rewrite (select_user_ok mt D u Hu). cbn [bind]. rewrite ET.
  destruct (positives_ok mt t u g D T Hg (r_npos a) rc_pos) as [(n & En & L & E)|(tt & P & E & Ch)]; rewrite E; cbn [bind].
  - right. eauto.
  - assert (HP : forall r, In r P -> In r (rows_of mt)).
    { intros r Hr. apply (likes_in mt t u). eapply chosen_incl; eauto. }
    destruct P as [|r0 P0] eqn:EP.
    + cbn [map]. left. destruct (r_npos a) as [n|] eqn:En; cbn [chosen] in Ch; [|symmetry; exact Ch].
      destruct Ch as [Ch _]. assert (X := rc_pos n En). cbn [length] in Ch. lia.
    + rewrite <- EP in *. set (f := fun r => (upcast tt (item_of r), interaction_of r)).
      destruct (map f P) as [|p0 l0] eqn:EM; [rewrite EP in EM; discriminate|]. rewrite <- EM.
      destruct (max_list (r_k a)) as [n|e] eqn:Em; cbn [bind].
      * apply max_list_ok in Em. destruct (md_recommend md (VInt u) n (r_novelty a) (r_low a)) as [recs|e] eqn:Er; cbn [bind].
        -- rewrite map_map. cbn [f fst].
           assert (S := same_items mt D tt P HP).
           destruct (relevancies_user mt u (map (fun r => upcast tt (item_of r)) P ++ recs) D) as [rels [Erel Rok]].
           { apply Forall_app. split; [|eapply Hi; eauto]. eapply int_ids_same; [exact S|]. apply (rows_ids mt D); auto. }
           rewrite Erel. cbn [bind]. exists P, n. cbn [c_recs c_rel c_best c_rels]. split; auto. split; [rewrite EP; discriminate|].
           split; auto. split; auto. split; auto. split; [|auto]. eapply best_item_ok; eauto.
        -- right. exists n. tauto.
      * left. destruct (r_k a); [reflexivity|discriminate].
Qed.
End RecUser.
