(** Pairs that can come next. *)
From Coq Require Import String Ascii.
From Coq Require Import List ZArith QArith Qcanon Bool Permutation Lia.
From Verif Require Import Py PyFacts MemModel MemFacts MemSpec DbModel DbFacts DbFacts2 DbFacts3 DbFacts4 DbFacts5 DbFacts7 DbFacts10
  DbSpec DbFacts11 DbFacts12 DbFacts13 DbFacts14 DbFacts15 DbFacts17 SampModel DbGenModel DbGenSpec DbGenFacts DbGenFacts2 DbGenFacts3.
Import ListNotations.
Open Scope string_scope.
Open Scope Z_scope.

Section Facts.
Variable inode : string -> nat.
Notation tables := (tables inode).
Notation Inv := (Inv inode).

Lemma max_of_ok ord w b i d c : permuting ord -> Inv w b -> b i = Some d -> complete d -> In c (d_cols d) -> d_rows d <> [] -> numbers d c ->
  exists w' m, max_of inode i c w = (w', Ok m) /\ (forall b0, b0 i = Some d -> Inv w b0 -> Inv w' b0) /\ extreme Datatypes.Gt c (d_rows d) (Some (VInt m)).
Proof.
  intros Po I Hb Cm Ic Nr Nu. destruct (max_of inode i c w) as [w' r] eqn:E.
  destruct (max_of_spec inode ord w b i d c w' r Po I Hb E) as (_ & A & Ne). destruct r as [m|e].
  - exists w', m. split; [auto|]. split; [|auto]. intros b0 Hb0 I0. apply (max_of_spec inode ord w b0 i d c w' _ Po I0 Hb0 E).
  - exfalso. apply (Ne e eq_refl); auto.
Qed.

(** the start of a generator, with [neg] found by the first part *)
Lemma start_ok fuel ord s2 i w b d w1 neg txt : permuting ord -> Inv w b -> b i = Some d -> numbered d -> complete d -> d_ids d = true -> d_rows d <> [] ->
  (match txt with
   | None => runs (ret None)
   | Some t => attempt (j <~~ runs (filtered_copy inode i ("interaction < " ++ t)) ;; rg <~~ rand_pull inode fuel ord s2 (RNew j) ;; runs (ret (j, snd rg)))
   end) w = (w1, Some (Ok neg)) -> Inv w1 b ->
  exists w2 mu mi, null_start inode fuel ord s2 i txt w = (w2, Some (Ok (mu, mi, neg))) /\
    (max_of inode i "uid" w1 = (fst (max_of inode i "uid" w1), Ok mu) /\ max_of inode i "iid" (fst (max_of inode i "uid" w1)) = (w2, Ok mi)) /\
    (forall b0, b0 i = Some d -> Inv w1 b0 -> Inv w2 b0) /\
    extreme Datatypes.Gt "uid" (d_rows d) (Some (VInt mu)) /\ extreme Datatypes.Gt "iid" (d_rows d) (Some (VInt mi)).
Proof.
  intros Po I Hb Nd Cm Hi Nr E1 I1. destruct (inv_attributes inode w b i d I Hb) as (x & Hx & _ & Di & Nx & _).
  destruct (numbered_numbers d Nd) as [Nu Ni].
  destruct (max_of_ok ord w1 b i d "uid" Po I1 Hb Cm (proj1 (nb_uid _ Nd)) Nr Nu) as (w2 & mu & Eu & S2 & Xu).
  destruct (max_of_ok ord w2 b i d "iid" Po (S2 b Hb I1) Hb Cm (proj1 (nb_iid _ Nd)) Nr Ni) as (w3 & mi & Ei & S3 & Xi).
  exists w3, mu, mi. split; [|split; [rewrite Eu; auto|auto]].
  unfold null_start. rewrite (fthen_ok _ _ w w tt).
  2:{ apply runs_ok. rewrite (andthen_ok _ _ _ _ _ (self_ok i w x Hx)), (andthen_ok _ _ _ _ _ (len_is inode w b i d I Hb)), Di, Hi.
      cbn [negb orb]. destruct (Nat.eqb_spec (length (d_rows d)) 0) as [Z|_]; [|auto]. apply length_zero_iff_nil in Z. contradiction. }
  rewrite (fthen_ok _ _ w w1 neg) by exact E1. rewrite (fthen_ok _ _ w1 w2 mu) by (apply runs_ok; exact Eu).
  rewrite (fthen_ok _ _ w2 w3 mi) by (apply runs_ok; exact Ei). auto.
Qed.

(** the copy of the rows below the threshold *)
Lemma copy_ok ord i l w b d : permuting ord -> Inv w b -> b i = Some d -> complete d -> threshold_fits d (Some l) ->
  exists w1 j, filtered_copy inode i ("interaction < " ++ lit_text l) w = (w1, Ok j) /\ b j = None /\ Inv w1 b /\ Inv w1 (note b j (Some (restricted d (below l)))).
Proof.
  intros Po I Hb Cm [Nt Fc]. destruct (filtered_copy inode i ("interaction < " ++ lit_text l) w) as [w1 r1] eqn:E1.
  destruct (filtered_copy_spec inode ord w b i d (below l) w1 r1 Po I Hb) as (I1 & A & Ne); [discriminate|constructor; [auto|constructor]| |exact E1|].
  { constructor; [intros s; cbn; apply Nt|constructor]. }
  destruct r1 as [j|e]; [|exfalso; apply (Ne e eq_refl Cm)]. exists w1, j. destruct (A j eq_refl). auto.
Qed.

(** the first part of the start: without rows below the threshold there is no
    generator of existing pairs; otherwise it is suspended after its first draw *)
Lemma none_below ord i l w b d : permuting ord -> Inv w b -> b i = Some d -> complete d -> threshold_fits d (Some l) ->
  d_rows (restricted d (below l)) = [] ->
  exists w1, Inv w1 b /\ forall fuel s2, attempt (j <~~ runs (filtered_copy inode i ("interaction < " ++ lit_text l)) ;; rg <~~ rand_pull inode fuel ord s2 (RNew j) ;; runs (ret (j, snd rg))) w
    = (w1, Some (Ok None)).
Proof.
  intros Po I Hb Cm Tf Z. destruct (copy_ok ord i l w b d Po I Hb Cm Tf) as (w1 & j & E1 & Bj & I1 & I2). exists w1. split; [auto|].
  intros fuel s2. unfold attempt. rewrite (fthen_ok _ _ w w1 j) by (apply runs_ok; exact E1).
  assert (Es : rand_start inode (RNew j) w1 = (w1, Err AssertionError)).
  { cbn [rand_start]. rewrite (andthen_ok _ _ _ _ _ (len_is inode w1 _ j _ I2 (note_same _ _ _))), Z. auto. }
  unfold fthen at 1, rand_pull, rand_next. unfold fthen, runs. rewrite Es. auto.
Qed.
Lemma some_below ord i l w b d row : permuting ord -> Inv w b -> b i = Some d -> complete d -> numbered d -> threshold_fits d (Some l) ->
  In row (d_rows (restricted d (below l))) ->
  exists w1 j m a c, Inv w1 b /\ b j = None /\ Inv w1 (note b j (Some (restricted d (below l)))) /\
    extreme Datatypes.Gt "uid" (d_rows (restricted d (below l))) (Some (VInt m)) /\
    forall fuel s2, s2 0%nat = a -> s2 1%nat = c ->
    attempt (j <~~ runs (filtered_copy inode i ("interaction < " ++ lit_text l)) ;; rg <~~ rand_pull inode (Datatypes.S fuel) ord s2 (RNew j) ;; runs (ret (j, snd rg))) w
    = (w1, Some (Ok (Some (j, RAt j m 2)))).
Proof.
  intros Po I Hb Cm Nd Tf Hr. destruct (copy_ok ord i l w b d Po I Hb Cm Tf) as (w1 & j & E1 & Bj & I1 & I2).
  set (dj := restricted d (below l)) in *. pose proof (restricted_numbered d (below l) Nd) as Nj. fold dj in Nj.
  destruct (rand_start_new inode ord w1 _ j dj Po I2 (note_same _ _ _) Nj Cm) as (w2 & m & Es & I3 & Ex & Hm); [intro X; rewrite X in Hr; contradiction|].
  destruct (nb_rows _ Nj row Hr) as (u & v & Eu & _ & Hu & _).
  destruct (rand_loop_drawn inode ord j m w2 _ dj row u Po I3 (note_same _ _ _) (nb_uid _ Nj) Hr Eu) as (a & c & H).
  { split; [auto|]. apply (extreme_above dj "uid" m row u Ex Hr Eu). }
  exists w2, j, m, a, c. split; [|split; [auto|split; [auto|split; [auto|]]]].
  { eapply Inv_sub; [exact I3|]. intros k d0 Hk. rewrite note_other; [auto|congruence]. }
  intros fuel s2 H0 H1. unfold attempt. rewrite (fthen_ok _ _ w w1 j) by (apply runs_ok; exact E1).
  rewrite (fthen_ok _ _ w1 w2 (row, RAt j m 2)); [reflexivity|].
  unfold rand_pull, rand_next. rewrite (fthen_ok _ _ w1 w2 (j, m, 0%nat)) by (apply runs_ok; exact Es).
  rewrite (fthen_ok _ _ w2 w2 (row, 2%nat)); [reflexivity|]. apply (H s2 0%nat fuel H0 H1).
Qed.

Lemma draw_at s i mu mi k w b d u v : Inv w b -> b i = Some d -> id_column d "uid" -> id_column d "iid" ->
  0 <= u <= mu -> 0 <= v <= mi -> s k = Z.to_nat u -> s (Datatypes.S k) = Z.to_nat v ->
  (forall row, In row (d_rows d) -> (number_is u (tcell row "uid") && number_is v (tcell row "iid"))%bool = false) ->
  draw_pair inode s i mu mi k w = (w, Ok (u, v, [])).
Proof.
  intros I Hb Iu Ii Hu Hv S0 S1 Nob. destruct (draw_ok inode s i mu mi k w b d I Hb Iu Ii) as (u' & v' & rows & E & Eu & Ev & Hr); [lia|lia|].
  rewrite randint_at in Eu by (rewrite S0; lia). rewrite randint_at in Ev by (rewrite S1; lia). rewrite S0 in Eu. rewrite S1 in Ev.
  rewrite Z2Nat.id in Eu, Ev by lia. injection Eu as <-. injection Ev as <-. rewrite E. rewrite (proj2 Hr Nob). auto.
Qed.
Lemma unobserved_rows d u v : numbered d -> ~ observed d u v ->
  forall row, In row (d_rows d) -> (number_is u (tcell row "uid") && number_is v (tcell row "iid"))%bool = false.
Proof.
  intros Nd No row Hr. destruct (nb_rows _ Nd row Hr) as (a & c & Ea & Ec & _). rewrite Ea, Ec. cbn [number_is].
  destruct (Z.eqb_spec a u) as [->|]; [|auto]. destruct (Z.eqb_spec c v) as [->|]; [|auto]. exfalso. apply No. exists row. auto.
Qed.
Lemma range_bounds d mu mi u v : numbered d -> extreme Datatypes.Gt "uid" (d_rows d) (Some (VInt mu)) -> extreme Datatypes.Gt "iid" (d_rows d) (Some (VInt mi)) ->
  in_range d u v -> 0 <= u <= mu /\ 0 <= v <= mi.
Proof.
  intros Nd Xu Xi (Hu & Hv & (r1 & z1 & R1 & E1 & L1) & (r2 & z2 & R2 & E2 & L2)).
  pose proof (extreme_above _ _ _ _ _ Xu R1 E1). pose proof (extreme_above _ _ _ _ _ Xi R2 E2). lia.
Qed.

(** An unobserved pair of ids in range can come first. *)
Theorem null_draws ord i w b d t u v : permuting ord -> Inv w b -> b i = Some d -> threshold_fits d t ->
  numbered d -> complete d -> d_ids d = true -> in_range d u v -> ~ observed d u v ->
  (forall l row, t = Some l -> In row (d_rows d) -> forallb (holds row) (below l) = true ->
     (exists row z, In row (d_rows d) /\ tcell row "uid" = Some (VInt z) /\ 0 < z) /\
     (exists row z, In row (d_rows d) /\ tcell row "iid" = Some (VInt z) /\ 0 < z)) ->
  exists s s2 w' g', forall fuel,
    null_next inode (Datatypes.S fuel) ord s s2 (NNew i (thr_text t)) w = (w', Some (Ok (Some (Some (VInt u), Some (VInt v))), g')).
Proof.
  intros Po I Hb Tf Nd Cm Hi Rg No Big. pose proof (unobserved_rows d u v Nd No) as Nob.
  assert (Nr : d_rows d <> []). { destruct Rg as (_ & _ & (r & z & Hr & _) & _). intro X. rewrite X in Hr. contradiction. }
  assert (K : (exists w1, Inv w1 b /\ forall fuel s2, (match thr_text t with
     | None => runs (ret None)
     | Some t => attempt (j <~~ runs (filtered_copy inode i ("interaction < " ++ t)) ;; rg <~~ rand_pull inode fuel ord s2 (RNew j) ;; runs (ret (j, snd rg)))
     end) w = (w1, Some (Ok None))) \/
     exists l row, t = Some l /\ In row (d_rows (restricted d (below l)))).
  { destruct t as [l|]; cbn [thr_text option_map]; [|left; exists w; split; [auto|reflexivity]].
    destruct (d_rows (restricted d (below l))) as [|row rs] eqn:Er.
    - left. apply (none_below ord i l w b d); auto.
    - right. exists l, row. rewrite Er. cbn. auto. }
  destruct K as [(w1 & I1 & K)|(l & row & -> & Hr)].
  - destruct (start_ok 0 ord (fun _ => 0%nat) i w b d w1 None (thr_text t) Po I Hb Nd Cm Hi Nr (K _ _) I1) as (w2 & mu & mi & _ & Em & S2 & Xu & Xi).
    destruct (range_bounds d mu mi u v Nd Xu Xi Rg) as [Hu Hv].
    exists (two 0 (Z.to_nat u) (Z.to_nat v)), (fun _ => 0%nat), w2. eexists. intro fuel.
    destruct (start_ok (Datatypes.S fuel) ord (fun _ => 0%nat) i w b d w1 None (thr_text t) Po I Hb Nd Cm Hi Nr (K _ _) I1) as (w2' & mu' & mi' & Es & Em' & _).
    destruct Em as [Em1 Em2], Em' as [Em1' Em2']. assert (mu' = mu) by congruence. subst mu'. assert (X : (w2', Ok mi') = (w2, Ok mi)) by congruence. injection X as -> ->.
    unfold null_next. rewrite (fthen_ok _ _ w w2 (mu, mi, None)) by exact Es. cbn [pair_loop].
    assert (Ed : draw_pair inode (two 0 (Z.to_nat u) (Z.to_nat v)) i mu mi 0 w2 = (w2, Ok (u, v, []))).
    { apply (draw_at _ i mu mi 0 w2 b d u v (S2 b Hb I1) Hb (nb_uid _ Nd) (nb_iid _ Nd)); auto. }
    unfold fthen, runs, takes_existing, ret. cbn [fst snd]. rewrite Ed. reflexivity.
  - pose proof Hr as Hr'. cbn [restricted d_rows] in Hr'. apply filter_In in Hr'. destruct Hr' as [Hr1 Hr2].
    destruct (Big l row eq_refl Hr1 Hr2) as [(ru & zu & Ru & Eu & Lu) (ri & zi & Ri & Ei & Li)].
    destruct (some_below ord i l w b d row Po I Hb Cm Nd Tf Hr) as (w1 & j & m & a & c & I1 & Bj & I2 & Xm & K).
    set (s2 := two 0 a c).
    assert (K' : forall fuel, (match thr_text (Some l) with
     | None => runs (ret None)
     | Some t => attempt (j <~~ runs (filtered_copy inode i ("interaction < " ++ t)) ;; rg <~~ rand_pull inode (Datatypes.S fuel) ord s2 (RNew j) ;; runs (ret (j, snd rg)))
     end) w = (w1, Some (Ok (Some (j, RAt j m 2))))).
    { intro fuel. cbn [thr_text option_map]. apply K; reflexivity. }
    destruct (start_ok _ ord s2 i w b d w1 _ (thr_text (Some l)) Po I Hb Nd Cm Hi Nr (K' 0%nat) I1) as (w2 & mu & mi & _ & Em & S2 & Xu & Xi).
    destruct (range_bounds d mu mi u v Nd Xu Xi Rg) as [Hu Hv].
    pose proof (extreme_above _ _ _ _ _ Xu Ru Eu). pose proof (extreme_above _ _ _ _ _ Xi Ri Ei).
    set (s := fun n => match n with O => 0%nat | Datatypes.S n => two 0 (Z.to_nat u) (Z.to_nat v) n end).
    assert (Hj : note b j (Some (restricted d (below l))) i = Some d) by (rewrite note_other; [auto|congruence]).
    exists s, s2, w2. eexists. intro fuel.
    destruct (start_ok _ ord s2 i w b d w1 _ (thr_text (Some l)) Po I Hb Nd Cm Hi Nr (K' fuel) I1) as (w2' & mu' & mi' & Es & Em' & _).
    destruct Em as [Em1 Em2], Em' as [Em1' Em2']. assert (mu' = mu) by congruence. subst mu'. assert (X : (w2', Ok mi') = (w2, Ok mi)) by congruence. injection X as -> ->.
    unfold null_next. rewrite (fthen_ok _ _ w w2 (mu, mi, Some (j, RAt j m 2))) by exact Es. cbn [pair_loop].
    assert (Et : takes_existing s mu mi (Some (j, RAt j m 2)) 0 w2 = (w2, Ok (None, 1%nat))).
    { unfold takes_existing. rewrite (andthen_ok _ _ _ _ _ (len_is inode w2 _ j _ (S2 _ Hj I2) (note_same _ _ _))).
      unfold andthen, lift. rewrite randint_at by (cbn [s]; nia). cbn [s Z.of_nat]. destruct (Z.leb_spec (mu * mi) 0); [nia|auto]. }
    assert (Ed : draw_pair inode s i mu mi 1 w2 = (w2, Ok (u, v, []))).
    { apply (draw_at _ i mu mi 1 w2 b d u v (S2 b Hb I1) Hb (nb_uid _ Nd) (nb_iid _ Nd)); auto. }
    unfold fthen, runs. rewrite Et. cbn [fst snd]. rewrite Ed. reflexivity.
Qed.

(** Without existing pairs, a pull returns once an unobserved pair is drawn. *)
Lemma pair_loop_returns ord s s2 i mu mi w b d : Inv w b -> b i = Some d -> numbered d -> 0 <= mu -> 0 <= mi ->
  forall n k u v, randint s (k + 2 * n) 0 mu = Ok u -> randint s (Datatypes.S (k + 2 * n)) 0 mi = Ok v -> ~ observed d u v ->
  exists p k', pair_loop inode (Datatypes.S n) ord s s2 i mu mi None k w = (w, Some (Ok (p, None, k'))).
Proof.
  intros I Hb Nd Hu Hi. induction n as [|n IH]; intros k u v Eu Ev No; cbn [pair_loop];
    destruct (draw_ok inode s i mu mi k w b d I Hb (nb_uid _ Nd) (nb_iid _ Nd) Hu Hi) as (u0 & v0 & rows & Ed & Eu0 & Ev0 & Hr);
    rewrite (fthen_ok _ _ w w (None, k)) by reflexivity; cbn [fst snd]; rewrite (fthen_ok _ _ w w (u0, v0, rows)) by (apply runs_ok; exact Ed).
  - cbn [Nat.mul] in Eu, Ev. rewrite Nat.add_0_r in Eu, Ev. assert (u0 = u) by congruence. assert (v0 = v) by congruence. subst.
    rewrite (proj2 Hr (unobserved_rows d u v Nd No)). unfold runs, ret. eauto.
  - destruct rows; [unfold runs, ret; eauto|]. apply (IH (Datatypes.S (Datatypes.S k)) u v); auto;
    [rewrite <- Eu|rewrite <- Ev]; f_equal; lia.
Qed.
Theorem null_returns ord s s2 i w b d : permuting ord -> Inv w b -> b i = Some d -> numbered d -> complete d -> d_ids d = true -> d_rows d <> [] ->
  (forall mu mi, extreme Datatypes.Gt "uid" (d_rows d) (Some (VInt mu)) -> extreme Datatypes.Gt "iid" (d_rows d) (Some (VInt mi)) ->
     exists n u v, randint s (2 * n) 0 mu = Ok u /\ randint s (Datatypes.S (2 * n)) 0 mi = Ok v /\ ~ observed d u v) ->
  exists fuel w' p g', null_next inode fuel ord s s2 (NNew i None) w = (w', Some (Ok (Some p), g')).
Proof.
  intros Po I Hb Nd Cm Hi Nr Hs.
  destruct (start_ok 0 ord s2 i w b d w None None Po I Hb Nd Cm Hi Nr eq_refl I) as (w2 & mu & mi & _ & Em & S2 & Xu & Xi).
  destruct (Hs mu mi Xu Xi) as (n & u & v & Eu & Ev & No). destruct (numbered_numbers d Nd) as [Nu Ni].
  destruct (pair_loop_returns ord s s2 i mu mi w2 b d (S2 b Hb I) Hb Nd (extreme_nonneg _ _ _ Nu Xu) (extreme_nonneg _ _ _ Ni Xi) n 0%nat u v Eu Ev No) as (p & k' & El).
  destruct (start_ok (Datatypes.S n) ord s2 i w b d w None None Po I Hb Nd Cm Hi Nr eq_refl I) as (w2' & mu' & mi' & Es & Em' & _).
  destruct Em as [Em1 Em2], Em' as [Em1' Em2']. assert (mu' = mu) by congruence. subst mu'. assert (X : (w2', Ok mi') = (w2, Ok mi)) by congruence. injection X as -> ->.
  exists (Datatypes.S n), w2, p, (NAt i mu mi None k'). unfold null_next. rewrite (fthen_ok _ _ w w2 (mu, mi, None)) by exact Es.
  rewrite (fthen_ok _ _ w2 w2 (p, None, k')) by exact El. reflexivity.
Qed.

(** The pair of a row below the threshold can come first. *)
Theorem null_draws_below ord i w b d l row : permuting ord -> Inv w b -> b i = Some d -> threshold_fits d (Some l) ->
  numbered d -> complete d -> d_ids d = true -> In row (d_rows d) -> forallb (holds row) (below l) = true ->
  exists s s2 w' g', forall fuel,
    null_next inode (Datatypes.S (Datatypes.S fuel)) ord s s2 (NNew i (thr_text (Some l))) w = (w', Some (Ok (Some (pair_of row)), g')).
Proof.
  intros Po I Hb Tf Nd Cm Hi Hr1 Hr2. assert (Hr : In row (d_rows (restricted d (below l)))) by (apply filter_In; auto).
  assert (Nr : d_rows d <> []) by (intro X; rewrite X in Hr1; contradiction).
  destruct (some_below ord i l w b d row Po I Hb Cm Nd Tf Hr) as (w1 & j & m & a & c & I1 & Bj & I2 & Xm & K).
  pose proof (restricted_numbered d (below l) Nd) as Nj. set (dj := restricted d (below l)) in *.
  destruct (nb_rows _ Nj row Hr) as (u & v & Eu & _ & Hu & _).
  assert (Hj : note b j (Some dj) i = Some d) by (rewrite note_other; [auto|congruence]).
  assert (K0 : forall fuel s2, s2 0%nat = a -> s2 1%nat = c -> (match thr_text (Some l) with
     | None => runs (ret None)
     | Some t => attempt (j <~~ runs (filtered_copy inode i ("interaction < " ++ t)) ;; rg <~~ rand_pull inode (Datatypes.S fuel) ord s2 (RNew j) ;; runs (ret (j, snd rg)))
     end) w = (w1, Some (Ok (Some (j, RAt j m 2))))).
  { intros fuel s2 H0 H1. cbn [thr_text option_map]. apply K; auto. }
  destruct (start_ok _ ord (two 0 a c) i w b d w1 _ (thr_text (Some l)) Po I Hb Nd Cm Hi Nr (K0 0%nat (two 0 a c) eq_refl eq_refl) I1) as (w2 & mu & mi & _ & Em & S2 & Xu & Xi).
  destruct (rand_loop_drawn inode ord j m w2 _ dj row u Po (S2 _ Hj I2) (note_same _ _ _) (nb_uid _ Nj) Hr Eu) as (a' & c' & H').
  { split; [auto|]. apply (extreme_above dj "uid" m row u Xm Hr Eu). }
  destruct (numbered_numbers d Nd) as [Nu Ni]. pose proof (extreme_nonneg d "uid" mu Nu Xu). pose proof (extreme_nonneg d "iid" mi Ni Xi).
  set (s2 := fun n => match n with O => a | 1%nat => c | 2%nat => a' | _ => c' end).
  exists (fun _ => Z.to_nat (mu * mi)), s2, w2. eexists. intro fuel.
  destruct (start_ok _ ord s2 i w b d w1 _ (thr_text (Some l)) Po I Hb Nd Cm Hi Nr (K0 (Datatypes.S fuel) s2 eq_refl eq_refl) I1) as (w2' & mu' & mi' & Es & Em' & _).
  destruct Em as [Em1 Em2], Em' as [Em1' Em2']. assert (mu' = mu) by congruence. subst mu'. assert (X : (w2', Ok mi') = (w2, Ok mi)) by congruence. injection X as -> ->.
  unfold null_next. rewrite (fthen_ok _ _ w w2 (mu, mi, Some (j, RAt j m 2))) by exact Es. cbn [pair_loop].
  assert (Et : takes_existing (fun _ => Z.to_nat (mu * mi)) mu mi (Some (j, RAt j m 2)) 0 w2 = (w2, Ok (Some (j, RAt j m 2), 1%nat))).
  { unfold takes_existing. rewrite (andthen_ok _ _ _ _ _ (len_is inode w2 _ j _ (S2 _ Hj I2) (note_same _ _ _))).
    unfold andthen, lift. rewrite randint_at by nia. rewrite Z2Nat.id by nia. rewrite Z.leb_refl. auto. }
  assert (Ep : rand_pull inode (Datatypes.S fuel) ord s2 (RAt j m 2) w2 = (w2, Some (Ok (row, RAt j m 4)))).
  { unfold rand_pull, rand_next. cbn [rand_start]. rewrite (fthen_ok _ _ w2 w2 (j, m, 2%nat)) by reflexivity.
    rewrite (fthen_ok _ _ w2 w2 (row, 4%nat)); [reflexivity|]. apply (H' s2 2%nat fuel); reflexivity. }
  pose proof (row_keys inode w2 _ j dj row (S2 _ Hj I2) (note_same _ _ _) Hr) as Ks.
  assert (Er : record_pair row = Ok (pair_of row)).
  { unfold record_pair. rewrite !pick_key by (rewrite Ks; [apply (nb_uid _ Nj) || apply (nb_iid _ Nj)]). reflexivity. }
  unfold fthen, runs. rewrite Et. cbn [fst snd]. rewrite Ep. unfold lift. cbn [fst snd]. rewrite Er. reflexivity.
Qed.

(** One user or one item, and rows below the threshold: only these come. *)
Theorem null_take_short ord s s2 d t w b : permuting ord -> Inv w b -> id_column d "uid" -> id_column d "iid" ->
  forall n fuel g w' l, pulled b d t g -> short g -> null_take inode n fuel ord s s2 g w = (w', Some (Ok l)) -> forall p, In p l -> below_pair d t p.
Proof.
  intros Po I Iu Ii. induction n as [|n IH]; intros fuel g w' l Pg Sh E p Hp; cbn [null_take] in E.
  { unfold runs, ret in E. injection E as <- <-. contradiction. }
  destruct (null_next inode fuel ord s s2 g w) as [w1 o1] eqn:En.
  destruct (null_next_pulled inode fuel ord s s2 g w b d t w1 o1 Po I Pg En) as (-> & A).
  destruct o1 as [[x g']|]; [|discriminate]. specialize (A _ _ eq_refl). destruct x as [[q|]|e]; [|contradiction|discriminate].
  destruct A as (Pg' & Hq & Sh'). unfold fthen in E. destruct (null_take inode n fuel ord s s2 g' w) as [w2 o2] eqn:Et.
  destruct o2 as [[l0|e]|]; cbn [runs ret] in E; try discriminate. injection E as <- <-. destruct Hp as [<-|Hp].
  - apply Hq; auto.
  - apply (IH fuel g' w2 l0); auto.
Qed.
Theorem null_single ord s s2 i d t w b n fuel w' l : permuting ord -> Inv w b -> b i = Some d -> threshold_fits d t -> numbered d -> complete d ->
  (exists l row, t = Some l /\ In row (d_rows d) /\ forallb (holds row) (below l) = true) ->
  (forall row, In row (d_rows d) -> tcell row "uid" = Some (VInt 0)) \/ (forall row, In row (d_rows d) -> tcell row "iid" = Some (VInt 0)) ->
  null_take inode n fuel ord s s2 (NNew i (thr_text t)) w = (w', Some (Ok l)) -> forall p, In p l -> below_pair d t p.
Proof.
  intros Po I Hb Tf Nd Cm Bl Zr E p Hp. destruct n as [|n]; cbn [null_take] in E.
  { unfold runs, ret in E. injection E as <- <-. contradiction. }
  destruct (null_next inode fuel ord s s2 (NNew i (thr_text t)) w) as [w1 o1] eqn:En.
  destruct (null_next_new inode fuel ord s s2 i w b d t w1 o1 Po I Hb Tf En) as (I1 & A).
  destruct o1 as [[x g']|]; [|discriminate]. specialize (A _ _ eq_refl). destruct x as [[q|]|e]; [|contradiction|discriminate].
  destruct A as (In1 & Sub & Pg' & _ & _ & _ & Q).
  destruct (Q (nb_uid _ Nd) (nb_iid _ Nd) Cm (proj1 (numbered_numbers d Nd)) Bl Zr) as [Sh Hq].
  unfold fthen in E. destruct (null_take inode n fuel ord s s2 g' w1) as [w2 o2] eqn:Et.
  destruct o2 as [[l0|e]|]; cbn [runs ret] in E; try discriminate. injection E as <- <-. destruct Hp as [<-|Hp]; [auto|].
  eapply (null_take_short ord s s2 d t w1 _ Po In1 (nb_uid _ Nd) (nb_iid _ Nd)); eauto.
Qed.
End Facts.
