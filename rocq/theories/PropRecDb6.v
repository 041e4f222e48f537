(** C117: the list sampler on a data set in a database.  C118: training Caser there.

    [reaches] (DbGenSpec.v): a state a program gets to, and its data sets.
    [db_sampled], [mem_sampled] (RecDbSpec6.v): a ListSampler is made and asked for
    [n] samples.  [pick] and [rnd] are the generator of random numbers. *)
From Coq Require Import String Ascii.
From Coq Require Import List ZArith QArith Qcanon Bool Permutation Lia.
From Verif Require Import Py PyFacts MemModel MemSpec KnnModel KnnSpec FitModel SampModel SampSpec NetModel
  DbModel DbSpec DbFacts DbFacts7 DbFacts8 DbFacts13 DbFacts15 DbCheck DbExamples DbGenSpec DbGenFacts2 DbSplitSpec PropDbSplit TwinSpec TwinFacts5 TwinCheck PropTwin
  RecDbModel RecDbModel6 RecDbSpec RecDbSpec5 RecDbSpec6 RecDbFacts2 RecDbFacts6 RecDbFacts16 PropRecDb.
Import ListNotations.
Open Scope string_scope.
Open Scope Z_scope.
Open Scope list_scope.

Lemma sampled_does inode ords i d a t pick rnd n b : (forall k rows, Permutation (ords k rows) rows) -> int_groups d (l_groups a) -> thr_fits d a t ->
  b i = Some d -> does inode b (db_sampled inode ords pick rnd i a n)
    (fun b' r => extends b b' /\ forall l, r = Ok l -> length l = n /\ Forall (lone d a t) l).
Proof.
  intros Po G Th Hb. unfold db_sampled. eapply does_bind; [apply (init_does inode ords Po i d a G b Hb)| |intros b1 e [X _]; split; [exact X|discriminate]].
  intros b1 ls [X1 Hl]. specialize (Hl ls eq_refl).
  eapply does_bind; [apply (samples_does inode ords Po i d a t G Th pick rnd ls n Hl 0 b1); rewrite X1; [auto|congruence]| |].
  - intros b2 x [X2 Hx]. specialize (Hx x eq_refl). apply does_ret. split; [eapply extends_trans; eauto|]. intros l E. injection E as <-. exact Hx.
  - intros b2 e [X2 _]. split; [eapply extends_trans; eauto|discriminate].
Qed.

(** *** No sample has two records: what is taken for a group is a single record, at or
    above the threshold. *)
Theorem C117_one_record_partial : forall inode ords w b i d a t pick rnd n k s l,
  reaches inode w b -> b i = Some d -> (forall k rows, Permutation (ords k rows) rows) -> int_groups d (l_groups a) -> thr_fits d a t ->
  db_sampled inode ords pick rnd i a n (k, w) = (s, Ok l) ->
  length l = n /\
  Forall (fun g => records g = [] \/ exists row, In row (d_rows d) /\ reaches_thr t row = true /\ records g = [dict_of d row]) l.
Proof.
  intros inode ords w b i d a t pick rnd n k s l R Hb Po G Th E.
  assert (N : now inode b (snd (k, w))) by (exists b; auto).
  destruct (sampled_does inode ords i d a t pick rnd n b Po G Th Hb _ _ _ N E) as (b' & _ & _ & H). destruct (H l eq_refl) as [Ll F]. split; [exact Ll|].
  eapply Forall_impl; [|exact F]. intros g [_ K]. exact K.
Qed.
Print Assumptions C117_one_record_partial.

(** *** If two records are needed, counting targets, every call raises. *)
Theorem C117_raises_partial : forall inode ords w b i d a t pick rnd n k,
  reaches inode w b -> b i = Some d -> (forall k rows, Permutation (ords k rows) rows) -> int_groups d (l_groups a) -> thr_fits d a t ->
  needs_two a -> (0 < n)%nat ->
  exists e, snd (db_sampled inode ords pick rnd i a n (k, w)) = Err e.
Proof.
  intros inode ords w b i d a t pick rnd n k R Hb Po G Th Nt Hn. destruct (db_sampled inode ords pick rnd i a n (k, w)) as [s [l|e]] eqn:E; [|exists e; reflexivity].
  exfalso. assert (N : now inode b (snd (k, w))) by (exists b; auto).
  destruct (sampled_does inode ords i d a t pick rnd n b Po G Th Hb _ _ _ N E) as (b' & _ & _ & H). destruct (H l eq_refl) as [Ll F].
  destruct l as [|g l]; [cbn in Ll; lia|]. inversion F as [|? ? [No _] _]. contradiction.
Qed.
Print Assumptions C117_raises_partial.

(** *** A sampler that was made raises at any later time: the data sets may have been
    used in the meantime, if the one of the sampler is as it was. *)
Theorem C117_later_partial : forall inode ords w b i d a t pick rnd n k s ls w' b' p q,
  reaches inode w b -> b i = Some d -> (forall k rows, Permutation (ords k rows) rows) -> int_groups d (l_groups a) -> thr_fits d a t ->
  db_ls_init inode ords i a (k, w) = (s, Ok ls) -> reaches inode w' b' -> b' i = Some d ->
  needs_two a -> (0 < n)%nat ->
  exists e, snd (db_sample_groups inode ords pick rnd n ls p (q, w')) = Err e.
Proof.
  intros inode ords w b i d a t pick rnd n k s ls w' b' p q R Hb Po G Th Ei R' Hb' Nt Hn.
  assert (N : now inode b (snd (k, w))) by (exists b; auto). assert (N' : now inode b' (snd (q, w'))) by (exists b'; auto).
  destruct (init_does inode ords Po i d a G b Hb _ _ _ N Ei) as (b1 & _ & _ & L). specialize (L ls eq_refl).
  destruct (db_sample_groups inode ords pick rnd n ls p (q, w')) as [s' [[l p']|e]] eqn:E; [|exists e; reflexivity]. exfalso.
  destruct (samples_does inode ords Po i d a t G Th pick rnd ls n L p b' Hb' _ _ _ N' E) as (b2 & _ & _ & H). destruct (H _ eq_refl) as [Ll F]. cbn [fst] in *.
  destruct l as [|g l]; [cbn in Ll; lia|]. inversion F as [|? ? [No _] _]. contradiction.
Qed.
Print Assumptions C117_later_partial.

(** *** The list passed as group_columns has "rid" at its end afterwards. *)
Theorem C117_argument_partial : forall inode ords w b i d a k s ls,
  reaches inode w b -> b i = Some d -> (forall k rows, Permutation (ords k rows) rows) -> int_groups d (l_groups a) ->
  db_ls_init inode ords i a (k, w) = (s, Ok ls) -> ~ In "rid" (l_groups a) -> l_groups (dl_args ls) = l_groups a ++ ["rid"].
Proof.
  intros inode ords w b i d a k s ls R Hb Po G Ei Nr. assert (N : now inode b (snd (k, w))) by (exists b; auto).
  destruct (init_does inode ords Po i d a G b Hb _ _ _ N Ei) as (b1 & _ & _ & L). rewrite (li_args _ _ _ _ (L ls eq_refl)).
  cbn [with_groups l_groups]. unfold plus_rid. destruct (existsb (String.eqb "rid") (l_groups a)) eqn:E; [|reflexivity].
  apply existsb_exists in E. destruct E as (x & Hx & Ex). apply String.eqb_eq in Ex. subst x. contradiction.
Qed.
Print Assumptions C117_argument_partial.

(** *** Whether the call returns or raises, the data sets of the program are as they
    were. *)
Theorem C117_data_kept_partial : forall inode ords w b i d a t pick rnd n k s r,
  reaches inode w b -> b i = Some d -> (forall k rows, Permutation (ords k rows) rows) -> int_groups d (l_groups a) -> thr_fits d a t ->
  db_sampled inode ords pick rnd i a n (k, w) = (s, r) ->
  exists b', reaches inode (snd s) b' /\ forall j, b j <> None -> b' j = b j.
Proof.
  intros inode ords w b i d a t pick rnd n k s r R Hb Po G Th E. assert (N : now inode b (snd (k, w))) by (exists b; auto).
  destruct (sampled_does inode ords i d a t pick rnd n b Po G Th Hb _ _ _ N E) as (b' & (b1 & Eb & R') & X & _). exists b1. split; [exact R'|].
  intros j Hj. rewrite Eb. apply X. exact Hj.
Qed.
Print Assumptions C117_data_kept_partial.

(** *** The constructor raises AssertionError for arguments it does not take, and nothing
    has changed. *)
Lemma check_takes x d a : i_cols x = d_cols d -> i_ids x = d_ids d -> db_ls_check x a = true <-> takes d a.
Proof.
  intros Ec Ei. unfold db_ls_check. rewrite Ec, Ei. rewrite !andb_true_iff. split.
  - intros [[[H1 H2] H3] H4]. split.
    + exact H1.
    + intros t E. rewrite E in H2. apply andb_true_iff in H2. destruct H2 as [H2 H5]. split; [lia|]. apply in_cols_In. exact H5.
    + intros c E. rewrite E in H3. apply in_cols_In. exact H3.
    + intros m E. rewrite E in H4. lia.
  - intros [H1 H2 H3 H4]. repeat split.
    + exact H1.
    + destruct (l_targets a) as [t|]; [|reflexivity]. destruct (H2 t eq_refl) as [H5 H6]. apply andb_true_iff. split; [lia|]. apply in_cols_In. exact H6.
    + destruct (l_sort a) as [c|]; [|reflexivity]. apply in_cols_In. auto.
    + destruct (l_max a) as [m|]; [|reflexivity]. specialize (H4 m eq_refl). lia.
Qed.
Theorem C117_checks : forall inode ords w b i d a k,
  reaches inode w b -> b i = Some d -> ~ takes d a -> db_ls_init inode ords i a (k, w) = ((k, w), Err AssertionError).
Proof.
  intros inode ords w b i d a k R Hb Nt. destruct (shows_inst inode _ i d (inv_ds _ _ _ (reaches_inv _ _ _ R) i d Hb)) as (x & H & C & _ & I & _).
  unfold db_ls_init. unfold pbind at 1. unfold db at 1. unfold self, get. cbn [fst snd]. rewrite H.
  destruct (db_ls_check x a) eqn:E; [|reflexivity]. exfalso. apply Nt. apply (check_takes x d a C I). exact E.
Qed.
Print Assumptions C117_checks.

(** *** Negatives are values of their column that no record of the sample has, as many
    as asked for per target. *)
Theorem C117_negatives_partial : forall inode ords w b i d a pick rnd n k s l pos tg negs,
  reaches inode w b -> b i = Some d -> (forall k rows, Permutation (ords k rows) rows) -> int_groups d (l_groups a) -> picks pick ->
  db_sampled inode ords pick rnd i a n (k, w) = (s, Ok l) -> In (DTri pos tg negs) l ->
  Z.of_nat (length negs) = l_neg a * Z.of_nat (length tg) /\
  forall v, In v negs -> (exists row, In row (d_rows d) /\ v = tcell row (l_negcol a)) /\
    forall r, In r (pos ++ tg) -> cell_eqb v (tcell r (l_negcol a)) = false.
Proof.
  intros inode ords w b i d a pick rnd n k s l pos tg negs R Hb Po G Pk E Hg. assert (N : now inode b (snd (k, w))) by (exists b; auto).
  unfold db_sampled in E. apply pbind_ok in E. destruct E as (s1 & ls & Ei & E). apply pbind_ok in E. destruct E as (s2 & [l' k'] & El & E).
  injection E as _ <-. destruct (init_does inode ords Po i d a G b Hb _ _ _ N Ei) as (b1 & _ & _ & L). specialize (L ls eq_refl).
  destruct (samples_from _ _ _ _ _ _ _ _ _ _ _ El _ Hg) as (q & m & recs & Hw). destruct (window_negatives _ _ _ _ _ _ _ _ _ Pk Hw) as [Ln Hv].
  rewrite (li_args _ _ _ _ L) in Ln, Hv. cbn [with_groups l_neg l_negcol] in Ln, Hv. split; [exact Ln|]. intros v Iv. destruct (Hv v Iv) as [Nv Fv].
  split; [|exact Fv]. apply (li_negs _ _ _ _ L). exact Nv.
Qed.
Print Assumptions C117_negatives_partial.

(** *** A concrete session: three users, of which "b" and "a" have four records. *)
Definition rows17 : list trow :=
  [row6 0 "b" 7 3; row6 1 "a" 8 4; row6 2 "b" 8 5; row6 3 "c" 7 1; row6 5 "a" 7 2; row6 6 "c" 9 4; row6 7 "b" 9 4; row6 8 "a" 9 5; row6 9 "b" 10 3; row6 11 "a" 11 2].
Lemma facts7_rows17 : facts7 rows17. Proof. by_facts7. Qed.
Definition p17 : list op := [new7 rows17; OAssign 0].
Definition d17 : ds := match datas p17 0%nat with Some d => d | None => mkDs [] None false [] end.
Definition m17 : mem := trained7 rows17.
(** two positives, one target, one negative for the target; no targets; at least one
    record *)
Definition args17 : ls_args := mkLs ["uid"] 1 (Some 1) "iid" None None 2 (Some 2).
Definition args18 : ls_args := mkLs ["uid"] 1 None "iid" (Some "3") None 2 (Some 3).
Definition args19 : ls_args := mkLs ["uid"] 1 None "iid" (Some "3") None 1 None.
Definition rnd17 (k : nat) : nat := (k * k + k / 3 + 1)%nat.
Definition pick17 {A} (k : nat) (l : list A) (n : nat) : list A := firstn n l.
Definition facts17 : Prop :=
  reaches disk (dbs p17) (datas p17) /\ datas p17 0%nat = Some d17 /\ mems p17 0%nat = Some m17 /\ int_groups d17 ["uid"] /\
  thr_fits d17 args17 None /\ thr_fits d17 args18 (Some (LInt 3)) /\ thr_fits d17 args19 (Some (LInt 3)) /\ (forall k rows, Permutation (ords7 k rows) rows).
Lemma thr17 a : l_thr a = Some "3" -> thr_fits d17 a (Some (LInt 3)).
Proof.
  intro H. split; [exact H|]. split; [|discriminate]. split; [apply inb_ok; vm_compute; reflexivity|]. split.
  - split; [discriminate|]. cbn. unfold plain_char. repeat split; intro; discriminate.
  - eexists. exists DInt. split; [vm_compute; reflexivity|]. split; [reflexivity|exact Logic.I].
Qed.
Lemma facts17_ok : facts17.
Proof.
  split; [apply (both_reaches _ _ _ (mems p17)); apply done_ok; vm_compute; reflexivity|]. split; [vm_compute; reflexivity|]. split; [vm_compute; reflexivity|].
  split; [|split; [split; [reflexivity|exact Logic.I]|split; [apply thr17; reflexivity|split; [apply thr17; reflexivity|exact ords7_ok]]]].
  split.
  - discriminate.
  - constructor; [auto|constructor].
  - constructor; [apply plain_uid|constructor].
  - intros c [<-|[]]. apply inb_ok. vm_compute. reflexivity.
  - eexists. split; [vm_compute; reflexivity|]. intros c [<-|[<-|[]]]; reflexivity.
  - intros row c Hr [<-|[]]. assert (K : forallb (fun row => match tcell row "uid" with Some (VInt _) => true | _ => false end) (d_rows d17) = true) by (vm_compute; reflexivity).
    rewrite forallb_forall in K. specialize (K row Hr). destruct (tcell row "uid") as [[z|q|x]|]; try discriminate. eauto.
Qed.
Definition in17 : nat * world := (0%nat, dbs p17).
(** what is sampled: record ids of positives and targets *)
Definition ids17 (r : res (list db_gsample)) : res (list (list Z * list Z)) :=
  l <- r ;; Ok (map (fun g => match g with DSeq p => (map rid_of p, []) | DTri p q _ => (map rid_of p, map rid_of q) end) l).
Definition mids17 (r : res (list gsample)) : res (list (list (option value) * list (option value))) :=
  l <- r ;; Ok (map (fun g => let f := map (fun x => assoc String.eqb "rid" x) in match g with Seq p => (f p, []) | Tri p q _ => (f p, f q) end) l).
Definition out17 (r : res (list gsample)) : res (list (nat * nat)) :=
  l <- r ;; Ok (map (fun g => match g with Seq p => (length p, 0%nat) | Tri p q _ => (length p, length q) end) l).
Example C117_one_record_example : facts17 /\
  ids17 (snd (db_sampled disk ords7 pick17 rnd17 0 args19 4 in17)) = Ok [([1], []); ([0], []); ([1], []); ([0], [])].
Proof. split; [exact facts17_ok|]. vm_compute. reflexivity. Qed.
(** In memory a group is all records of a user, on the same rows. *)
Example C117_memory_example : mids17 (mem_sampled pick17 rnd17 m17 args19 3) =
  Ok [([Some (VInt 1); Some (VInt 8)], []); ([Some (VInt 6)], []); ([Some (VInt 0); Some (VInt 2); Some (VInt 7); Some (VInt 9)], [])].
Proof. vm_compute. reflexivity. Qed.
Example C117_raises_example : facts17 /\ needs_two args17 /\ needs_two args18 /\
  snd (db_sampled disk ords7 pick17 rnd17 0 args17 2 in17) = Err GenericException /\
  snd (db_sampled disk ords7 pick17 rnd17 0 args18 1 in17) = Err GenericException /\
  out17 (mem_sampled pick17 rnd17 m17 args17 2) = Ok [(2%nat, 1%nat); (2%nat, 1%nat)] /\
  out17 (mem_sampled pick17 rnd17 m17 args18 1) = Ok [(2%nat, 0%nat)].
Proof.
  split; [exact facts17_ok|]. split; [left; discriminate|]. split; [left; discriminate|]. repeat split; vm_compute; reflexivity.
Qed.
(** the sampler is made, then the data set is asked for its users, then it samples *)
Definition made17 := db_ls_init disk ords7 0 args17 in17.
Example C117_later_example : facts17 /\ needs_two args17 /\
  match made17 with
  | ((_, w), Ok ls) =>
      let (w', r) := unique disk 0 (Some ["user"]) true w in
      r = Ok (3%nat, Some ["user"; "rid"]) /\ snd (db_sample_groups disk ords7 pick17 rnd17 1 ls 7 (2%nat, w')) = Err GenericException
  | _ => False
  end.
Proof. split; [exact facts17_ok|]. split; [left; discriminate|]. vm_compute. split; reflexivity. Qed.
Example C117_argument_example : facts17 /\ ~ In "rid" (l_groups args17) /\
  (ls <- snd made17 ;; Ok (l_groups (dl_args ls))) = Ok ["uid"; "rid"] /\
  (ls <- snd made17 ;; Ok (map (map (option_map (fun v => match v with VInt z => z | _ => -1 end))) (firstn 2 (dl_uniq ls)))) = Ok [[Some 2; Some 3]; [Some 1; Some 1]].
Proof. split; [exact facts17_ok|]. split; [intros [H|[]]; discriminate|]. vm_compute. split; reflexivity. Qed.
(** one record is asked for as a target, with two, four and -1 negatives per target;
    there are five values of the column *)
Definition args20 (neg : Z) : ls_args := mkLs ["uid"] neg (Some 1) "iid" None None 0 (Some 0).
Definition negs17 (r : res (list db_gsample)) : res (list (list Z * list (option Z))) :=
  l <- r ;; Ok (map (fun g => match g with DSeq p => (map rid_of p, []) | DTri p q ns => (map rid_of q, map (option_map (fun v => match v with VInt z => z | _ => -1 end)) ns) end) l).
Lemma pick17_ok : picks pick17.
Proof. intros k l n H. split; [apply firstn_length_le; exact H|intros x Hx; eapply firstn_incl; exact Hx]. Qed.
Example C117_negatives_example : facts17 /\ picks pick17 /\
  negs17 (snd (db_sampled disk ords7 pick17 rnd17 0 (args20 2) 2 in17)) = Ok [([1], [Some 0; Some 2]); ([0], [Some 1; Some 2])] /\
  negs17 (snd (db_sampled disk ords7 pick17 rnd17 0 (args20 4) 2 in17)) = Ok [([1], [Some 0; Some 2; Some 3; Some 4]); ([0], [Some 1; Some 2; Some 3; Some 4])] /\
  snd (db_sampled disk ords7 pick17 rnd17 0 (args20 5) 2 in17) = Err GenericException /\
  snd (db_sampled disk ords7 pick17 rnd17 0 (args20 (-1)) 2 in17) = Err ValueError.
Proof. split; [exact facts17_ok|]. split; [exact pick17_ok|]. repeat split; vm_compute; reflexivity. Qed.
(** the data set has no internal ids; zero targets; a sort column or a column of
    negatives that is none; more records at least than at most *)
Example C117_checks_example : facts17 /\
  ~ takes (match datas [new7 rows17] 0%nat with Some d => d | None => d17 end) args17 /\
  ~ takes d17 (mkLs ["uid"] 1 (Some 0) "iid" None None 2 (Some 2)) /\
  ~ takes d17 (mkLs ["uid"] 1 None "iid" None (Some "when") 2 (Some 2)) /\
  ~ takes d17 (mkLs ["uid"] 1 (Some 1) "when" None None 2 (Some 2)) /\
  ~ takes d17 (mkLs ["uid"] 1 None "iid" None None 3 (Some 2)) /\
  takes d17 args17 /\ takes d17 (mkLs ["uid"] 1 None "when" None (Some "interaction") 2 None) /\
  (exists ls, snd made17 = Ok ls) /\
  exists ls, snd (db_ls_init disk ords7 0 (mkLs ["uid"] 1 None "iid" None (Some "interaction") 2 None) in17) = Ok ls.
Proof.
  split; [exact facts17_ok|]. split; [intros [H _ _ _]; vm_compute in H; discriminate|].
  split; [intros [_ H _ _]; destruct (H 0 eq_refl); lia|].
  split; [intros [_ _ H _]; specialize (H "when" eq_refl); apply in_cols_In in H; vm_compute in H; discriminate|].
  split; [intros [_ H _ _]; destruct (H 1 eq_refl) as [_ K]; apply in_cols_In in K; vm_compute in K; discriminate|].
  split; [intros [_ _ _ H]; specialize (H 2 eq_refl); cbn in H; lia|].
  split; [split; [vm_compute; reflexivity|intros t H; injection H as <-; split; [lia|apply inb_ok; vm_compute; reflexivity]|discriminate|intros m H; injection H as <-; cbn; lia]|].
  split; [split; [vm_compute; reflexivity|discriminate|intros c H; injection H as <-; apply inb_ok; vm_compute; reflexivity|discriminate]|].
  split; vm_compute; eauto.
Qed.
Example C117_data_kept_example : facts17 /\
  let '(s, _) := db_sampled disk ords7 pick17 rnd17 0 args17 1 in17 in
  (exists b', reaches disk (snd s) b' /\ forall j, datas p17 j <> None -> b' j = datas p17 j).
Proof.
  split; [exact facts17_ok|]. destruct facts17_ok as (R & Hd & _ & G & Th & _ & _ & Po).
  destruct (db_sampled disk ords7 pick17 rnd17 0 args17 1 in17) as [s r] eqn:E.
  apply (C117_data_kept_partial _ _ _ _ _ _ args17 _ _ _ _ _ _ _ R Hd Po G Th E).
Qed.

(** *** What a user relies on is false: that a sampler which works in memory works on a
    database with the same data. *)
Theorem C117_samples_refuted : ~ (forall inode ords w b mb i m a pick pick' rnd n k l,
  both inode w b mb -> mb i = Some m -> (forall k rows, Permutation (ords k rows) rows) -> (forall k, sorting (ords k)) ->
  mem_sampled pick rnd m a n = Ok l -> exists l', snd (db_sampled inode ords pick' rnd i a n (k, w)) = Ok l').
Proof.
  intro H. destruct (mem_sampled pick17 rnd17 m17 args17 2) as [l|e] eqn:E; [|vm_compute in E; discriminate].
  destruct facts17_ok as (_ & _ & Hm & _). assert (B : both disk (dbs p17) (datas p17) (mems p17)) by (apply done_ok; vm_compute; reflexivity).
  destruct (H disk (fun _ => by_id) (dbs p17) (datas p17) (mems p17) 0%nat m17 args17 pick17 pick17 rnd17 2%nat 0%nat l B Hm (fun _ => by_id_ok) (fun _ => by_id_sorts) E) as [l' El].
  vm_compute in El. discriminate.
Qed.
Print Assumptions C117_samples_refuted.

(** *** Nor does the constructor leave its arguments alone. *)
Theorem C117_argument_refuted : ~ (forall inode ords w b i d a k s ls,
  reaches inode w b -> b i = Some d -> (forall k rows, Permutation (ords k rows) rows) -> int_groups d (l_groups a) ->
  db_ls_init inode ords i a (k, w) = (s, Ok ls) -> dl_args ls = a).
Proof.
  intro H. destruct facts17_ok as (R & Hd & _ & G & _ & _ & _ & Po). destruct (db_ls_init disk ords7 0 args17 (0%nat, dbs p17)) as [s [ls|e]] eqn:E; [|vm_compute in E; discriminate].
  specialize (H disk ords7 (dbs p17) (datas p17) 0%nat d17 args17 0%nat s ls R Hd Po G E).
  assert (K : l_groups (dl_args ls) = ["uid"] ++ ["rid"]) by (apply (C117_argument_partial disk ords7 (dbs p17) (datas p17) 0%nat d17 args17 0%nat s ls R Hd Po G E); intros [X|[]]; discriminate).
  rewrite H in K. discriminate.
Qed.
Print Assumptions C117_argument_refuted.

(** ** C118 *)

(** *** No batch can be taken when Caser is trained on a database: with sequences of
    L >= 1 and T >= 1 records, fit raises. *)
Theorem C118_raises_partial : forall inode ords w b i d ts t pick rnd copy L T neg thr sort epochs batch k,
  reaches inode w b -> b i = Some d -> (forall k rows, Permutation (ords k rows) rows) -> safe inode w b (OAssign i) ->
  d_types d = Some ts -> assoc String.eqb "rid" ts = Some DInt -> thr_fits d (caser_args L T neg thr sort) t ->
  2 <= L + T -> (0 < epochs)%nat -> (0 < batch)%nat ->
  exists e, snd (db_caser_fit inode ords pick rnd copy L T neg thr sort epochs batch i (k, w)) = Err e.
Proof.
  intros inode ords w b i d ts t pick rnd copy L T neg thr sort epochs batch k R Hb Po Sf Ts Ty Th LT He Hn.
  destruct (db_caser_fit inode ords pick rnd copy L T neg thr sort epochs batch i (k, w)) as [s [x|e]] eqn:E; [|exists e; reflexivity]. exfalso.
  assert (N : now inode b (snd (k, w))) by (exists b; auto).
  destruct (caser_does inode ords Po b i d ts t pick rnd copy L T neg thr sort epochs batch _ _ _ N Hb Sf Ts Ty Th E) as (b' & _ & _ & H).
  destruct (H x eq_refl) as [Le F]. destruct x as [|l x]; [cbn in Le; lia|]. inversion F as [|? ? [Ll Fl] _].
  destruct l as [|g l]; [cbn in Ll; lia|]. inversion Fl as [|? ? [No _] _]. apply No. right. exists T. split; [reflexivity|exact LT].
Qed.
Print Assumptions C118_raises_partial.

(** *** Other data sets are as they were; the given one has its ids assigned, or is as
    it was if fit did not get that far. *)
Theorem C118_data_kept_partial : forall inode ords w b i d ts t pick rnd copy L T neg thr sort epochs batch k s r,
  reaches inode w b -> b i = Some d -> (forall k rows, Permutation (ords k rows) rows) -> safe inode w b (OAssign i) ->
  d_types d = Some ts -> assoc String.eqb "rid" ts = Some DInt -> thr_fits d (caser_args L T neg thr sort) t ->
  db_caser_fit inode ords pick rnd copy L T neg thr sort epochs batch i (k, w) = (s, r) ->
  exists b', reaches inode (snd s) b' /\ (b' i = Some d \/ b' i = Some (assigned d)) /\ forall j, j <> i -> b j <> None -> b' j = b j.
Proof.
  intros inode ords w b i d ts t pick rnd copy L T neg thr sort epochs batch k s r R Hb Po Sf Ts Ty Th E.
  assert (N : now inode b (snd (k, w))) by (exists b; auto).
  destruct (caser_does inode ords Po b i d ts t pick rnd copy L T neg thr sort epochs batch _ _ _ N Hb Sf Ts Ty Th E) as (b' & (b1 & Eb & R') & X & _).
  exists b1. split; [exact R'|]. split.
  - rewrite Eb. destruct X as [X|X]; rewrite X.
    + left. exact Hb.
    + congruence.
    + right. apply note_same.
    + rewrite note_same. discriminate.
  - intros j Hj Bj. rewrite Eb. destruct X as [X|X]; rewrite X; try rewrite note_other by exact Hj; auto.
Qed.
Print Assumptions C118_data_kept_partial.

Definition in18 : nat * world := (0%nat, dbs [new7 rows17]).
Definition b18 := datas [new7 rows17].
Definition d18 : ds := match b18 0%nat with Some d => d | None => mkDs [] None false [] end.
Definition facts18 : Prop :=
  reaches disk (dbs [new7 rows17]) b18 /\ b18 0%nat = Some d18 /\ (forall k rows, Permutation (ords7 k rows) rows) /\
  safe disk (dbs [new7 rows17]) b18 (OAssign 0) /\ (exists ts, d_types d18 = Some ts /\ assoc String.eqb "rid" ts = Some DInt) /\
  thr_fits d18 (caser_args 2 1 1 None None) None.
Lemma facts18_ok : facts18.
Proof.
  destruct facts7_rows17 as (B & _ & _ & _ & S). split; [exact (both_reaches _ _ _ _ B)|]. split; [vm_compute; reflexivity|]. split; [exact ords7_ok|].
  split; [exact S|]. split; [eexists; split; vm_compute; reflexivity|]. split; [reflexivity|exact Logic.I].
Qed.
(** fit raises at the first batch; without epochs it returns *)
Example C118_raises_example : facts18 /\
  snd (db_caser_fit disk ords7 pick17 rnd17 false 2 1 1 None None 3 2 0 in18) = Err GenericException /\
  snd (db_caser_fit disk ords7 pick17 rnd17 false 2 1 1 None None 0 2 0 in18) = Ok [] /\
  out17 (mem_first_batch pick17 rnd17 2 1 1 None None 2 (mem7 rows17)) = Ok [(2%nat, 1%nat); (2%nat, 1%nat)].
Proof. split; [exact facts18_ok|]. repeat split; vm_compute; reflexivity. Qed.
Example C118_data_kept_example : facts18 /\
  let '(s, _) := db_caser_fit disk ords7 pick17 rnd17 false 2 1 1 None None 3 2 0 in18 in
  (exists b', reaches disk (snd s) b' /\ (b' 0%nat = Some d18 \/ b' 0%nat = Some (assigned d18)) /\ forall j, j <> 0%nat -> b18 j <> None -> b' j = b18 j).
Proof.
  split; [exact facts18_ok|]. destruct facts18_ok as (R & Hd & Po & S & (ts & Ts & Ty) & Th).
  destruct (db_caser_fit disk ords7 pick17 rnd17 false 2 1 1 None None 3 2 0 in18) as [s r] eqn:E.
  exact (C118_data_kept_partial _ _ _ _ _ _ _ None _ _ _ 2 1 1 None None _ _ _ _ _ R Hd Po S Ts Ty Th E).
Qed.

(** *** A batch that can be taken in memory cannot be taken on a database with the same
    data. *)
Theorem C118_caser_refuted : ~ (forall inode ords w b mb i m pick pick' rnd L T neg thr sort batch k l,
  both inode w b mb -> mb i = Some m -> (forall k rows, Permutation (ords k rows) rows) -> (forall k, sorting (ords k)) -> safe inode w b (OAssign i) ->
  mem_first_batch pick rnd L T neg thr sort batch m = Ok l ->
  exists x, snd (db_caser_fit inode ords pick' rnd false L T neg thr sort 1 batch i (k, w)) = Ok x).
Proof.
  intro H. destruct (mem_first_batch pick17 rnd17 2 1 1 None None 2 (mem7 rows17)) as [l|e] eqn:E; [|vm_compute in E; discriminate].
  destruct facts7_rows17 as (B & Hm & _ & _ & S).
  destruct (H disk (fun _ => by_id) _ _ _ 0%nat _ pick17 pick17 rnd17 2 1 1 None None 2%nat 0%nat l B Hm (fun _ => by_id_ok) (fun _ => by_id_sorts) S E) as [x Ex].
  vm_compute in Ex. discriminate.
Qed.
Print Assumptions C118_caser_refuted.
