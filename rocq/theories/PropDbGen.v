(** C94-C99: the generators, the point sampler and the item vectors of database
    data sets.

    [reaches inode w b] (DbGenSpec.v): some program that creates, copies, selects,
    changes, saves and closes data sets and pulls generators, in any order, leads
    to the state [w] and, in the specification, to the data sets [b].  Every
    statement holds for every stream of random numbers, every order in which
    SQLite may return rows and every amount of fuel; [None] means that the call
    has not returned. *)
From Coq Require Import String Ascii.
From Coq Require Import List ZArith QArith Qcanon Bool Permutation Lia.
From Verif Require Import Py PyFacts MemModel MemSpec DbModel DbSpec DbFacts11 DbFacts12 DbFacts13 DbFacts14 DbFacts15 DbCheck DbExamples
  KnnModel SplitModel SampModel DbGenModel DbGenSpec DbGenFacts DbGenFacts2 DbGenFacts3 DbGenFacts4 DbGenFacts5.
Import ListNotations.
Open Scope string_scope.
Open Scope Z_scope.

(** ** Concrete programs *)
Definition ids3 : list op := [new3; OAssign 0].
(** the rows of [ids3], with ids: (0, 0, 3), (1, 1, 4), (0, 1, 5) *)
Lemma reached h : all_safe disk (start no_files) no_book (plainly h) -> reaches disk (world_of h) (snd (run h)).
Proof. intro S. apply (reaches_history disk no_files (plainly h) no_files_ok S). Qed.
Ltac id_checked := split; [apply inb_ok; vm_compute; reflexivity|eexists; split; vm_compute; reflexivity].
Ltac numbered_checked :=
  constructor; [id_checked|id_checked|];
  let row := fresh in let H := fresh in intros row H; cbn [d_rows In] in H;
  repeat (destruct H as [<-|H]; [do 2 eexists; split; [reflexivity|split; [reflexivity|split; discriminate]]|]); destruct H.
Definition at_stream (l : list nat) : nat -> nat := fun k => nth k l 0%nat.

(** ** C94 random records *)

(** A record that comes is a row the data set has at that time. *)
Theorem C94_records inode w b fuel ord s g j d w' row g' : reaches inode w b -> (forall l, Permutation (ord l) l) ->
  owner g = Some j -> b j = Some d -> id_column d "uid" ->
  rand_next inode fuel ord s g w = (w', Some (Ok (Some row), g')) ->
  In row (d_rows d) /\ owner g' = Some j /\ reaches inode w' b.
Proof.
  intros R Po Ow Hb Ic E. destruct (rand_next_spec inode fuel ord s g j w b d w' _ Po (reaches_inv inode w b R) Ow Hb E) as (_ & A & _).
  destruct (A _ _ eq_refl) as (Hr & mu & k & -> & _). split; [auto|]. split; [auto|]. eapply Draws; eauto. intros j0 X. congruence.
Qed.
Print Assumptions C94_records.

(** With a query, the records are rows that satisfy it. *)
Theorem C94_query inode w b i d cs w' g n fuel ord s w'' l : reaches inode w b -> (forall l, Permutation (ord l) l) -> b i = Some d ->
  query_fits inode w i d cs -> Forall (fun c => forall s, sc_lit c <> LText s) cs -> id_column d "uid" ->
  random_generator inode i (Some (query_text cs)) w = (w', Ok g) -> rand_take inode n fuel ord s g w' = (w'', Some (Ok l)) ->
  length l = n /\ forall row, In row l -> In row (d_rows d) /\ forall c, In c cs -> holds row c = true.
Proof.
  intros R Po Hb [Nc [Fc Nn]] Nt Ic E Et. 
  destruct (random_generator_spec inode ord w b i d cs w' _ Po (reaches_inv inode w b R) Hb Nc Fc Nt E) as (_ & A & _).
  destruct (A g eq_refl) as (j & -> & _ & _ & I').
  destruct (rand_take_spec inode ord s j _ w' _ n fuel w'' _ Po I' (note_same _ _ _) Ic Et) as (_ & B & _).
  destruct (B l eq_refl) as [L H]. split; [auto|]. intros row Hr. specialize (H row Hr). cbn [restricted d_rows] in H. apply filter_In in H.
  destruct H as [H1 H2]. split; [auto|]. rewrite forallb_forall in H2. auto.
Qed.
Print Assumptions C94_query.

(** A pull does not raise, returns when a user with rows is drawn, and every row
    can come. *)
Theorem C94_complete inode w b ord j d : reaches inode w b -> (forall l, Permutation (ord l) l) -> b j = Some d -> numbered d -> complete d ->
  d_rows d <> [] ->
  (forall n fuel s w' e, rand_take inode n fuel ord s (RNew j) w <> (w', Some (Err e))) /\
  (forall s, (forall m, extreme Datatypes.Gt "uid" (d_rows d) (Some (VInt m)) ->
                exists n row u, In row (d_rows d) /\ tcell row "uid" = Some (VInt u) /\ randint s n 0 m = Ok u) ->
     exists fuel w' row g', rand_next inode fuel ord s (RNew j) w = (w', Some (Ok (Some row), g'))) /\
  (forall row, In row (d_rows d) ->
     exists s w' g', forall fuel, rand_next inode (Datatypes.S fuel) ord s (RNew j) w = (w', Some (Ok (Some row), g'))).
Proof.
  intros R Po Hb Nd Cm Nr. pose proof (reaches_inv inode w b R) as I. split; [|split].
  - intros n fuel s w' e E. destruct (rand_take_spec inode ord s j d w b n fuel w' _ Po I Hb (nb_uid _ Nd) E) as (_ & _ & Ne). apply (Ne Nd Cm Nr e eq_refl).
  - intros s Hs. apply (rand_next_returns inode ord s j w b d Po I Hb Nd Cm Hs Nr).
  - intros row Hr. apply (rand_next_draws inode ord j w b d row Po I Hb Nd Cm Hr).
Qed.
Print Assumptions C94_complete.

(** assign_internal_ids() numbers every row. *)
Theorem C94_numbered inode w b ord i d w' : reaches inode w b -> (forall l, Permutation (ord l) l) -> safe inode w b (OAssign i) -> b i = Some d ->
  exec inode ord (OAssign i) w = (w', Ok AUnit) ->
  exists d', reaches inode w' (effect inode w b (OAssign i) (Ok AUnit)) /\ effect inode w b (OAssign i) (Ok AUnit) i = Some d' /\
    numbered d' /\ length (d_rows d') = length (d_rows d) /\ (complete d -> complete d').
Proof.
  intros R Po S Hb E. exists (assigned d). split; [apply (Calls inode w b ord (OAssign i) w' (Ok AUnit)); auto|]. cbn [effect]. rewrite Hb, note_same. split; [auto|].
  destruct S as (_ & _ & d0 & Hb0 & Nt & _). assert (d0 = d) by congruence. subst d0. split; [apply assigned_numbered; auto|].
  split; [unfold assigned; cbn [d_rows]; apply map_length|apply (assigned_complete inode)].
Qed.
Print Assumptions C94_numbered.

Example C94_example : reaches disk (world_of ids3) (snd (run ids3)) /\
  exists d, snd (run ids3) 0%nat = Some d /\ numbered d /\ complete d /\ length (d_rows d) = 3%nat /\
    match rand_take disk 2 5 asis (at_stream [1; 0; 0; 1]%nat) (RNew 0) (world_of ids3) with
    | (_, Some (Ok l)) => map (fun row => tcell row "interaction") l = [Some (VInt 4); Some (VInt 5)]
    | _ => False
    end.
Proof.
  split; [apply reached; used|]. eexists. split; [vm_compute; reflexivity|]. split; [numbered_checked|]. split.
  { split; [apply inclb_ok; vm_compute; reflexivity|]. eexists. split; [reflexivity|]. intros c Hc Nc. cbn [d_cols In] in Hc.
    repeat (destruct Hc as [<-|Hc]; [try (exfalso; apply Nc; cbn; tauto); eexists; reflexivity|]). destruct Hc. }
  split; vm_compute; reflexivity.
Qed.

(** ** C95 pairs of the generator of null pairs *)

(** Every pair is without a row or, with a threshold, the pair of a row below it;
    no pull raises. *)
Theorem C95_pairs inode w b i d t n fuel ord s s2 w' o : reaches inode w b -> (forall l, Permutation (ord l) l) -> b i = Some d ->
  threshold_fits d t -> id_column d "uid" -> id_column d "iid" ->
  null_take inode n fuel ord s s2 (NNew i (thr_text t)) w = (w', o) ->
  (forall l, o = Some (Ok l) -> length l = n /\ forall p, In p l -> null_pair d t p) /\
  (numbered d -> complete d -> d_ids d = true -> d_rows d <> [] -> forall e, o <> Some (Err e)).
Proof.
  intros R Po Hb Tf Iu Ii E. apply (null_take_spec inode ord s s2 i d t w b n fuel w' o Po (reaches_inv inode w b R) Hb Tf Iu Ii E).
Qed.
Print Assumptions C95_pairs.

(** Between two pulls the program may do anything.  A later pair is without a row
    in the data the data set has by then, or comes from the rows the generator
    copied at its first pull. *)
Theorem C95_later inode w b fuel ord s s2 i mu mi neg k t d w' p g' : reaches inode w b -> (forall l, Permutation (ord l) l) ->
  null_fits b (NAt i mu mi neg k) t -> b i = Some d -> id_column d "uid" -> id_column d "iid" ->
  (forall j g dj, neg = Some (j, g) -> b j = Some dj -> id_column dj "uid") ->
  null_next inode fuel ord s s2 (NAt i mu mi neg k) w = (w', Some (Ok (Some p), g')) ->
  (exists u v, p = (Some (VInt u), Some (VInt v)) /\ 0 <= u <= mu /\ 0 <= v <= mi /\ ~ observed d u v) \/
  (exists j g dj row, neg = Some (j, g) /\ b j = Some dj /\ In row (d_rows dj) /\ p = pair_of row).
Proof.
  intros R Po [_ No] Hb Iu Ii Ij E.
  apply (later_pair inode fuel ord s s2 i mu mi neg k w b d w' p g' Po (reaches_inv inode w b R) Hb Iu Ii No Ij E).
Qed.
Print Assumptions C95_later.

(** The existing pairs are successive draws of one generator of random records:
    a pull that gives one moves it on, any other pull leaves it where it is, and
    no number of the stream is used for two pairs. *)
Theorem C95_successive inode w b fuel ord s s2 i mu mi neg k t d w' p g' : reaches inode w b -> (forall l, Permutation (ord l) l) ->
  null_fits b (NAt i mu mi neg k) t -> b i = Some d -> id_column d "uid" -> id_column d "iid" ->
  null_next inode fuel ord s s2 (NAt i mu mi neg k) w = (w', Some (Ok (Some p), g')) ->
  exists neg' k', g' = NAt i mu mi neg' k' /\ (k < k')%nat /\
  ((exists u v, p = (Some (VInt u), Some (VInt v)) /\ ~ observed d u v /\ neg' = neg) \/
   (exists j g fuel' row g2, neg = Some (j, g) /\ rand_next inode fuel' ord s2 g w = (w, Some (Ok (Some row), g2)) /\
      p = pair_of row /\ neg' = Some (j, g2))).
Proof.
  intros R Po [_ No] Hb Iu Ii E.
  apply (later_next inode fuel ord s s2 i mu mi neg k w b d w' p g' Po (reaches_inv inode w b R) Hb Iu Ii No E).
Qed.
Print Assumptions C95_successive.

(** The copy has the rows below the threshold at the first pull. *)
Theorem C95_first inode w b fuel ord s s2 i t d w' p g' : reaches inode w b -> (forall l, Permutation (ord l) l) -> b i = Some d ->
  threshold_fits d t -> null_next inode fuel ord s s2 (NNew i (thr_text t)) w = (w', Some (Ok (Some p), g')) ->
  exists b' mu mi neg k, reaches inode w' b' /\ (forall j dj, b j = Some dj -> b' j = Some dj) /\ g' = NAt i mu mi neg k /\ null_fits b' g' t /\
    match neg with
    | Some (j, _) => exists l, t = Some l /\ b' j = Some (restricted d (below l))
    | None => b' i = Some d
    end.
Proof.
  intros R Po Hb Tf E.
  assert (Nf : null_fits b (NNew i (thr_text t)) t) by (split; eauto).
  destruct (null_next_new inode fuel ord s s2 i w b d t w' _ Po (reaches_inv inode w b R) Hb Tf E) as (_ & A).
  destruct (A _ _ eq_refl) as (_ & Sub & (i0 & mu & mi & neg & k & Eg & Hb' & _ & _ & Hn) & _).
  exists (noted b (NNew i (thr_text t)) g' t), mu, mi, neg, k.
  assert (Ei : i0 = i).
  { pose proof E as E0. unfold null_next in E0. match type of E0 with (match ?m with _ => _ end) = _ => destruct m as [w1 o1] eqn:El end.
    apply fthen_inv in El. destruct El as [(w2 & [[mu0 mi0] neg0] & _ & El)|[(e & _ & ->)|(_ & ->)]]; [|discriminate|discriminate].
    apply fthen_inv in El. destruct El as [(w3 & [[p0 n0] k0] & _ & El)|[(e & _ & ->)|(_ & ->)]]; [|discriminate|discriminate].
    unfold runs, ret in El. injection El as _ <-. injection E0 as _ _ <-. congruence. }
  subst i0. split; [eapply Pairs; eauto|]. split; [auto|]. split; [auto|]. split.
  - rewrite Eg. cbn [null_fits]. rewrite <- Eg. split; [congruence|]. destruct neg as [[j g]|]; [|auto].
    destruct Hn as (l & _ & Bj & m & k1 & -> & _). split; [congruence|eauto].
  - destruct neg as [[j g]|]; [|auto]. destruct Hn as (l & -> & Bj & _). eauto.
Qed.
Print Assumptions C95_first.

Example C95_example : exists d, snd (run ids3) 0%nat = Some d /\ threshold_fits d (Some (LInt 4)) /\ numbered d /\
  in_range d 1 0 /\ ~ observed d 1 0 /\
  match null_take disk 3 9 asis (at_stream [0; 1; 0; 1; 0; 1; 0]%nat) (at_stream [0; 0; 0; 0]%nat) (NNew 0 (Some "4")) (world_of ids3) with
  | (_, Some (Ok l)) => l = [(Some (VInt 1), Some (VInt 0)); (Some (VInt 0), Some (VInt 0)); (Some (VInt 1), Some (VInt 0))]
  | _ => False
  end.
Proof.
  eexists. split; [vm_compute; reflexivity|]. split; [split; [discriminate|apply cond_fitsb_ok; vm_compute; reflexivity]|].
  split; [numbered_checked|]. split.
  { split; [lia|]. split; [lia|]. split.
    - eexists. exists 1. split; [right; left; reflexivity|]. split; [reflexivity|lia].
    - eexists. exists 1. split; [right; left; reflexivity|]. split; [reflexivity|lia]. }
  split; [|vm_compute; reflexivity].
  intros (row & Hr & E1 & E2). cbn [d_rows In] in Hr.
  repeat (destruct Hr as [<-|Hr]; [cbn in E1, E2; discriminate|]). destruct Hr.
Qed.

(** ** C96 coverage and progress of the generator of null pairs *)

(** False: when every pair is observed, a pull never returns and never raises. *)
Definition one_row : list op := [OCreate "db.tmp.sqlite" cols3 types3 [row4 0 7 "a" 3]; OAssign 0].
Theorem C96_hangs_refuted : reaches disk (world_of one_row) (snd (run one_row)) /\
  exists d, snd (run one_row) 0%nat = Some d /\ numbered d /\ d_rows d <> [] /\
    forall fuel ord s s2, (forall l, Permutation (ord l) l) -> snd (null_next disk fuel ord s s2 (NNew 0 None) (world_of one_row)) = None.
Proof.
  assert (R : reaches disk (world_of one_row) (snd (run one_row))) by (apply reached; used). split; [exact R|].
  destruct (snd (run one_row) 0%nat) as [d|] eqn:Hd; [|vm_compute in Hd; discriminate]. exists d. split; [auto|].
  pose proof Hd as Hd'. vm_compute in Hd'. injection Hd' as Ed.
  assert (Nd : numbered d) by (rewrite <- Ed; numbered_checked).
  assert (Nr : d_rows d <> []) by (rewrite <- Ed; discriminate).
  split; [auto|]. split; [auto|]. intros fuel ord s s2 Po.
  apply (null_never_returns disk fuel ord s s2 0 (world_of one_row) (snd (run one_row)) d None Po (reaches_inv _ _ _ R) Hd Logic.I Nd); auto.
  - rewrite <- Ed. split; [apply inclb_ok; vm_compute; reflexivity|]. eexists. split; [reflexivity|]. intros c Hc Nc. cbn [d_cols In] in Hc.
    repeat (destruct Hc as [<-|Hc]; [try (exfalso; apply Nc; cbn; tauto); eexists; reflexivity|]). destruct Hc.
  - rewrite <- Ed. reflexivity.
  - rewrite <- Ed. intros u v (Hu & Hv & (r1 & z1 & R1 & E1 & L1) & (r2 & z2 & R2 & E2 & L2)). cbn [d_rows In] in R1, R2.
    destruct R1 as [<-|[]], R2 as [<-|[]]. cbn in E1, E2. injection E1 as <-. injection E2 as <-.
    assert (u = 0) by lia. assert (v = 0) by lia. subst. eexists. split; [left; reflexivity|]. split; reflexivity.
  - discriminate.
Qed.
Print Assumptions C96_hangs_refuted.

(** False: the rows of one user, with a threshold.  The pair (0, 1) has no row, but
    only pairs of rows below the threshold ever come. *)
Definition one_user : list op :=
  [OCreate "db.tmp.sqlite" cols3 types3 [row4 0 7 "a" 1; row4 1 8 "b" 2; row4 2 7 "c" 3]; OAssign 0; OSelect 0 [cond_eq "uid" (LInt 0)] true].
Theorem C96_single_refuted : reaches disk (world_of one_user) (snd (run one_user)) /\
  exists d, snd (run one_user) 1%nat = Some d /\ numbered d /\ threshold_fits d (Some (LInt 2)) /\ in_range d 0 1 /\ ~ observed d 0 1 /\
    forall n fuel ord s s2 w' l, (forall l, Permutation (ord l) l) ->
      null_take disk n fuel ord s s2 (NNew 1 (Some "2")) (world_of one_user) = (w', Some (Ok l)) -> ~ In (Some (VInt 0), Some (VInt 1)) l.
Proof.
  assert (R : reaches disk (world_of one_user) (snd (run one_user))) by (apply reached; used). split; [exact R|].
  destruct (snd (run one_user) 1%nat) as [d|] eqn:Hd; [|vm_compute in Hd; discriminate]. exists d. split; [auto|].
  pose proof Hd as Hd'. vm_compute in Hd'. injection Hd' as Ed.
  assert (Nd : numbered d) by (rewrite <- Ed; numbered_checked). split; [auto|].
  assert (Tf : threshold_fits d (Some (LInt 2))) by (rewrite <- Ed; split; [discriminate|apply cond_fitsb_ok; vm_compute; reflexivity]).
  split; [auto|].
  assert (No : ~ observed d 0 1).
  { rewrite <- Ed. intros (row & Hr & E1 & E2). cbn [d_rows In] in Hr. repeat (destruct Hr as [<-|Hr]; [cbn in E1, E2; discriminate|]). destruct Hr. }
  split; [|split; [exact No|]].
  { rewrite <- Ed. split; [lia|]. split; [lia|]. split.
    - eexists. exists 0. split; [left; reflexivity|]. split; [reflexivity|lia].
    - eexists. exists 2. split; [right; left; reflexivity|]. split; [reflexivity|lia]. }
  intros n fuel ord s s2 w' l Po E Hp.
  destruct (null_single disk ord s s2 1 d (Some (LInt 2)) (world_of one_user) (snd (run one_user)) n fuel w' l Po (reaches_inv _ _ _ R) Hd Tf Nd) with (p := (Some (VInt 0), Some (VInt 1)) : pair)
    as (l0 & row & _ & Hr & _ & Ep); auto.
  - rewrite <- Ed. split; [apply inclb_ok; vm_compute; reflexivity|]. eexists. split; [reflexivity|]. intros c Hc Nc. cbn [d_cols In] in Hc.
    repeat (destruct Hc as [<-|Hc]; [try (exfalso; apply Nc; cbn; tauto); eexists; reflexivity|]). destruct Hc.
  - rewrite <- Ed. eexists. eexists. split; [reflexivity|]. split; [left; reflexivity|]. vm_compute. reflexivity.
  - left. rewrite <- Ed. intros row Hr. cbn [d_rows In] in Hr. repeat (destruct Hr as [<-|Hr]; [reflexivity|]). destruct Hr.
  - apply No. exists row. unfold pair_of in Ep. injection Ep as E1 E2. auto.
Qed.
Print Assumptions C96_single_refuted.

(** Otherwise every pair of ids in range without a row can come, and so can the
    pair of every row below the threshold. *)
Theorem C96_coverage_partial inode w b ord i d t : reaches inode w b -> (forall l, Permutation (ord l) l) -> b i = Some d ->
  threshold_fits d t -> numbered d -> complete d -> d_ids d = true ->
  (forall u v, in_range d u v -> ~ observed d u v ->
     (forall l row, t = Some l -> In row (d_rows d) -> forallb (holds row) (below l) = true ->
        (exists row z, In row (d_rows d) /\ tcell row "uid" = Some (VInt z) /\ 0 < z) /\
        (exists row z, In row (d_rows d) /\ tcell row "iid" = Some (VInt z) /\ 0 < z)) ->
     exists s s2 w' g', forall fuel, null_next inode (Datatypes.S fuel) ord s s2 (NNew i (thr_text t)) w =
       (w', Some (Ok (Some (Some (VInt u), Some (VInt v))), g'))) /\
  (forall l row, t = Some l -> In row (d_rows d) -> forallb (holds row) (below l) = true ->
     exists s s2 w' g', forall fuel, null_next inode (Datatypes.S (Datatypes.S fuel)) ord s s2 (NNew i (thr_text t)) w =
       (w', Some (Ok (Some (pair_of row)), g'))).
Proof.
  intros R Po Hb Tf Nd Cm Hi. pose proof (reaches_inv inode w b R) as I. split.
  - intros u v Rg No Big. apply (null_draws inode ord i w b d t u v Po I Hb Tf Nd Cm Hi Rg No Big).
  - intros l row -> Hr Hh. apply (null_draws_below inode ord i w b d l row Po I Hb Tf Nd Cm Hi Hr Hh).
Qed.
Print Assumptions C96_coverage_partial.

(** Without a threshold, a pull returns when a pair without a row is drawn. *)
Theorem C96_returns_partial inode w b ord i d s s2 : reaches inode w b -> (forall l, Permutation (ord l) l) -> b i = Some d ->
  numbered d -> complete d -> d_ids d = true -> d_rows d <> [] ->
  (forall mu mi, extreme Datatypes.Gt "uid" (d_rows d) (Some (VInt mu)) -> extreme Datatypes.Gt "iid" (d_rows d) (Some (VInt mi)) ->
     exists n u v, randint s (2 * n) 0 mu = Ok u /\ randint s (Datatypes.S (2 * n)) 0 mi = Ok v /\ ~ observed d u v) ->
  exists fuel w' p g', null_next inode fuel ord s s2 (NNew i None) w = (w', Some (Ok (Some p), g')).
Proof.
  intros R Po Hb Nd Cm Hi Nr Hs. apply (null_returns inode ord s s2 i w b d Po (reaches_inv inode w b R) Hb Nd Cm Hi Nr Hs).
Qed.
Print Assumptions C96_returns_partial.

(** [ids3]: the rows (0, 0, 3), (1, 1, 4), (0, 1, 5) and the threshold 4 *)
Example C96_example : exists d, snd (run ids3) 0%nat = Some d /\ threshold_fits d (Some (LInt 4)) /\ numbered d /\ d_ids d = true /\
  in_range d 1 0 /\ ~ observed d 1 0 /\
  (exists row, In row (d_rows d) /\ forallb (holds row) (below (LInt 4)) = true) /\
  (exists row z, In row (d_rows d) /\ tcell row "uid" = Some (VInt z) /\ 0 < z) /\
  (exists row z, In row (d_rows d) /\ tcell row "iid" = Some (VInt z) /\ 0 < z).
Proof.
  destruct C95_example as (d & Hd & Tf & Nd & Rg & No & _). exists d. pose proof Hd as Hd'. vm_compute in Hd'. injection Hd' as Ed.
  repeat (split; [assumption|]). split; [rewrite <- Ed; reflexivity|]. repeat (split; [assumption|]). rewrite <- Ed. split.
  { eexists. split; [left; reflexivity|]. vm_compute. reflexivity. }
  split; eexists; exists 1; (split; [right; left; reflexivity|]); (split; [reflexivity|lia]).
Qed.

(** ** C97 a null pair has no row at or above the threshold *)

(** False: the user rated the item twice, once below the threshold. *)
Definition twice : list op :=
  [OCreate "db.tmp.sqlite" cols3 types3 [row4 0 7 "a" 1; row4 1 8 "b" 2; row4 2 7 "a" 5]; OAssign 0].
Theorem C97_refuted : reaches disk (world_of twice) (snd (run twice)) /\
  exists d p row, snd (run twice) 0%nat = Some d /\ threshold_fits d (Some (LInt 2)) /\ numbered d /\
    match null_take disk 1 9 asis (at_stream [1]%nat) (at_stream [0; 0; 0; 0]%nat) (NNew 0 (Some "2")) (world_of twice) with
    | (_, Some (Ok l)) => l = [p]
    | _ => False
    end /\ positive_row d (Some (LInt 2)) row /\ pair_of row = p.
Proof.
  split; [apply reached; used|].
  destruct (snd (run twice) 0%nat) as [d|] eqn:Hd; [|vm_compute in Hd; discriminate].
  vm_compute in Hd. injection Hd as Ed. exists d. rewrite <- Ed. exists (Some (VInt 0), Some (VInt 0)).
  eexists. split; [reflexivity|]. split; [split; [discriminate|apply cond_fitsb_ok; vm_compute; reflexivity]|]. split; [numbered_checked|].
  split; [vm_compute; reflexivity|]. split; [split; [right; right; left; reflexivity|vm_compute; reflexivity]|reflexivity].
Qed.
Print Assumptions C97_refuted.

(** True when no user has two rows for one item. *)
Theorem C97_partial inode w b i d t n fuel ord s s2 w' l : reaches inode w b -> (forall l, Permutation (ord l) l) -> b i = Some d ->
  threshold_fits d t -> id_column d "uid" -> id_column d "iid" -> NoDup (map pair_of (d_rows d)) ->
  null_take inode n fuel ord s s2 (NNew i (thr_text t)) w = (w', Some (Ok l)) ->
  forall p row, In p l -> positive_row d t row -> pair_of row <> p.
Proof.
  intros R Po Hb Tf Iu Ii Nd E p row Hp Hr. destruct (C95_pairs inode w b i d t n fuel ord s s2 w' _ R Po Hb Tf Iu Ii E) as [A _].
  destruct (A l eq_refl) as [_ H]. exact (null_not_positive d t p Nd (H p Hp) row Hr).
Qed.
Print Assumptions C97_partial.
Example C97_example : exists d, snd (run ids3) 0%nat = Some d /\ threshold_fits d (Some (LInt 4)) /\ NoDup (map pair_of (d_rows d)) /\
  (exists row, positive_row d (Some (LInt 4)) row) /\
  match null_take disk 2 9 asis (at_stream [1; 0; 1]%nat) (at_stream [0; 0; 0; 0]%nat) (NNew 0 (Some "4")) (world_of ids3) with
  | (_, Some (Ok l)) => l = [(Some (VInt 0), Some (VInt 0)); (Some (VInt 1), Some (VInt 0))]
  | _ => False
  end.
Proof.
  destruct C95_example as (d & Hd & Tf & _). exists d. split; [auto|]. split; [auto|].
  vm_compute in Hd. injection Hd as Ed. rewrite <- Ed. split.
  { vm_compute. repeat (constructor; [cbn [In]; intuition discriminate|]). constructor. }
  split; [eexists; split; [right; left; reflexivity|vm_compute; reflexivity]|vm_compute; reflexivity].
Qed.

(** ** C98 the point sampler *)

(** False: after a call that raised, the generator is finished and the sampler
    returns a triple of Nones. *)
Theorem C98_refuted : reaches disk (world_of ids3) (snd (run ids3)) /\
  exists d, snd (run ids3) 0%nat = Some d /\ numbered d /\ threshold_fits d (Some (LInt 10)) /\
    let dr := mkDbDraws (fun _ => 0%Qc) (at_stream []) (at_stream []) (at_stream []) in
    match db_point_init disk 0 (Some "10") (world_of ids3) with
    | (w1, Ok p1) =>
        match db_sample disk 1 9 asis 1 dr p1 w1 with
        | (w2, Some (Err e, p2)) => e = AssertionError /\
            match db_sample disk 2 9 asis 1 dr p2 w2 with
            | (_, Some (Ok l, _)) => l = [(None, None, None); (None, None, None)]
            | _ => False
            end
        | _ => False
        end
    | _ => False
    end.
Proof.
  split; [apply reached; used|].
  destruct (snd (run ids3) 0%nat) as [d|] eqn:Hd; [|vm_compute in Hd; discriminate].
  vm_compute in Hd. injection Hd as Ed. exists d. rewrite <- Ed. split; [reflexivity|]. split; [numbered_checked|].
  split; [split; [discriminate|apply cond_fitsb_ok; vm_compute; reflexivity]|]. vm_compute. split; reflexivity.
Qed.
Print Assumptions C98_refuted.

(** The triples of a call that returns, and of the calls after it, are as
    promised, in the proportion the label draws ask for; with a row at or above
    the threshold no call raises. *)
Theorem C98_partial inode w b i d t neg dr ord w1 p n fuel w2 x p2 : reaches inode w b -> (forall l, Permutation (ord l) l) -> b i = Some d ->
  threshold_fits d t -> numbered d -> db_point_init inode i (thr_text t) w = (w1, Ok p) ->
  db_sample inode n fuel ord neg dr p w1 = (w2, Some (x, p2)) ->
  match x with
  | Ok l => length l = n /\ (forall k tr, nth_error l k = Some tr -> sampled d t neg (dd_label dr k) tr) /\
      forall n' fuel' w3 x' p3, db_sample inode n' fuel' ord neg dr p2 w2 = (w3, Some (x', p3)) ->
        match x' with
        | Ok l' => length l' = n' /\ forall k tr, nth_error l' k = Some tr -> sampled d t neg (dd_label dr (n + k)) tr
        | Err _ => complete d -> ~ exists row, positive_row d t row
        end
  | Err _ => complete d -> ~ exists row, positive_row d t row
  end.
Proof.
  intros R Po Hb Tf Nd Ei Es.
  destruct (db_point_init_spec inode ord i d t w b w1 _ Po (reaches_inv inode w b R) Hb Tf Ei) as [A _].
  destruct (A p eq_refl) as (Hi & Ek & b1 & I1 & Sub1 & Ok1).
  pose proof (db_sample_spec inode neg dr ord d t Po Nd n fuel p w1 b1 w2 x p2 I1 Ok1 Es) as H.
  assert (Np : forall row, positive_row d t row -> d_rows (positives d t) <> []).
  { intros row Hr X. apply positives_rows in Hr. rewrite X in Hr. contradiction. }
  destruct x as [l|e].
  - destruct H as (L & Ek2 & H & b2 & I2 & Sub2 & Ok2). rewrite Ek in *. split; [auto|]. split; [exact H|].
    intros n' fuel' w3 x' p3 Es'. pose proof (db_sample_spec inode neg dr ord d t Po Nd n' fuel' p2 w2 b2 w3 x' p3 I2 Ok2 Es') as H'.
    destruct x' as [l'|e].
    + destruct H' as (L' & _ & H' & _). rewrite Ek2 in H'. split; [auto|exact H'].
    + intros Cm (row & Hr). apply (H' Cm Hi (Np row Hr)).
  - intros Cm (row & Hr). apply (H Cm Hi (Np row Hr)).
Qed.
Print Assumptions C98_partial.

(** neg_ratio 1, threshold 4: a null pair, then a positive row *)
Example C98_example : exists d, snd (run ids3) 0%nat = Some d /\ numbered d /\ threshold_fits d (Some (LInt 4)) /\ (exists row, positive_row d (Some (LInt 4)) row) /\
  let dr := mkDbDraws (fun k => if Nat.eqb k 0 then (Qc_of_Z 3 / Qc_of_Z 4)%Qc else 0%Qc) (at_stream [0; 1; 0]%nat) (at_stream []) (at_stream [1; 0]%nat) in
  match db_point_init disk 0 (Some "4") (world_of ids3) with
  | (w1, Ok p1) =>
      match db_sample disk 2 9 asis 1 dr p1 w1 with
      | (_, Some (Ok l, _)) => l = [(Some (VInt 1), Some (VInt 0), Some (VInt 0)); (Some (VInt 1), Some (VInt 1), Some (VInt 4))]
      | _ => False
      end
  | _ => False
  end.
Proof.
  destruct (snd (run ids3) 0%nat) as [d|] eqn:Hd; [|vm_compute in Hd; discriminate].
  vm_compute in Hd. injection Hd as Ed. exists d. rewrite <- Ed. split; [reflexivity|]. split; [numbered_checked|].
  split; [split; [discriminate|apply cond_fitsb_ok; vm_compute; reflexivity]|].
  split; [eexists; split; [right; left; reflexivity|vm_compute; reflexivity]|]. vm_compute. reflexivity.
Qed.

(** ** C99 item vectors *)

(** False: a vector is kept for ever. *)
Definition item_vector (i : nat) (iid : Z) (cache : list (Z * list Qc)) (w : world) : res (list Q) :=
  match snd (item_vec disk asis i iid cache w) with Ok (v, _) => Ok (map this v) | Err e => Err e end.
Theorem C99_refuted : reaches disk (world_of ids3) (snd (run ids3)) /\
  item_vector 0 1 [] (world_of ids3) = Ok [5%Q; 4%Q] /\
  match item_vec disk asis 0 1 [] (world_of ids3) with
  | (w1, Ok (_, cache)) =>
      match exec disk asis (OApply 0 "interaction" times10) w1 with
      | (w2, Ok AUnit) => item_vector 0 1 [] w2 = Ok [50%Q; 40%Q] /\ item_vector 0 1 cache w2 = Ok [5%Q; 4%Q]
      | _ => False
      end
  | _ => False
  end.
Proof. split; [apply reached; used|]. split; vm_compute; [reflexivity|]. split; reflexivity. Qed.
Print Assumptions C99_refuted.

(** A vector that is not in the cache has one place for every user and, at every
    place, the sum of the user's interactions with the item.  It is remembered. *)
Theorem C99_fresh_partial inode w b ord i d iid cache w' v cache' : reaches inode w b -> (forall l, Permutation (ord l) l) -> b i = Some d ->
  id_column d "iid" -> assoc Z.eqb iid cache = None -> item_vec inode ord i iid cache w = (w', Ok (v, cache')) ->
  (exists k, extreme Datatypes.Gt "uid" (d_rows d) (Some (VInt k)) /\ length v = Z.to_nat (k + 1) /\
     forall n, (n < length v)%nat -> nth n v 0%Qc = interaction_of (d_rows d) (Z.of_nat n) iid) /\
  assoc Z.eqb iid cache' = Some v.
Proof.
  intros R Po Hb Ii Nc E. destruct (fresh_item_vector inode ord w b i d iid cache w' v cache' Po (reaches_inv inode w b R) Hb Ii Nc E) as (A & B & _). auto.
Qed.
Print Assumptions C99_fresh_partial.
Example C99_example : exists d, snd (run ids3) 0%nat = Some d /\ id_column d "iid" /\
  map (fun n => this (interaction_of (d_rows d) n 1)) [0; 1] = [5%Q; 4%Q] /\ item_vector 0 1 [] (world_of ids3) = Ok [5%Q; 4%Q].
Proof.
  destruct (snd (run ids3) 0%nat) as [d|] eqn:Hd; [|vm_compute in Hd; discriminate].
  vm_compute in Hd. injection Hd as Ed. exists d. rewrite <- Ed. split; [reflexivity|]. split; [id_checked|]. split; vm_compute; reflexivity.
Qed.
