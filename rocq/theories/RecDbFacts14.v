(** The tasks of the users on data sets in a database end with what the tasks on data
    sets in memory compute. *)
From Coq Require Import String Ascii.
From Coq Require Import List ZArith QArith Qcanon Bool Permutation Lia.
From Verif Require Import Py PyFacts MemModel MemSpec MemFacts MemFacts2 MemFacts4 RankModel SampModel EvalModel EvalSpec EvalFacts2 EvalFacts3 DbModel DbFacts DbSpec DbFacts2 DbFacts3 DbFacts4 DbFacts7 DbFacts13 DbGenModel DbGenSpec DbGenFacts DbGenFacts2
  DbSplitSpec TwinSpec TwinFacts TwinFacts5 RecDbModel RecDbModel5 RecDbFacts RecDbFacts2 RecDbSpec5 RecDbFacts11 RecDbFacts12 RecDbFacts13.
From Verif Require Import SplitFacts.
From Verif Require RankFacts MemFacts6.
Import ListNotations.
Open Scope string_scope.
Open Scope Z_scope.
Open Scope list_scope.
Notation interaction_of := MemSpec.interaction_of.

(** ** Values that are alike: [v] in memory, [v'] in the database *)
Definition small_int (v : value) : Prop := exists z, v = VInt z /\ Z.abs z <= 2 ^ 53.
Definition alike (v v' : value) : Prop := same_value v v' /\ small_int v'.

Lemma same_norm a b : same_value a b <-> val_norm a = val_norm b.
Proof. destruct a, b; cbn; split; intro H; try discriminate; try contradiction; congruence. Qed.
Lemma same_eqb a a' b b' : same_value a a' -> same_value b b' -> val_eqb a b = val_eqb a' b'.
Proof. rewrite !same_norm. intros E F. apply eq_true_iff_eq. rewrite !val_eqb_norm, E, F. tauto. Qed.
Lemma same_mem x x' l l' : same_value x x' -> Forall2 same_value l l' -> mem_b val_eqb x l = mem_b val_eqb x' l'.
Proof. intros S F. induction F as [|a b l l' H _ IH]; [auto|]. cbn [mem_b]. rewrite IH, (same_eqb x x' a b) by auto. auto. Qed.
Lemma F2_weaken {A B} (R S : A -> B -> Prop) l l' : (forall a b, R a b -> S a b) -> Forall2 R l l' -> Forall2 S l l'.
Proof. intros H F. induction F; constructor; auto. Qed.
Lemma F2_len {A B} (R : A -> B -> Prop) l l' : Forall2 R l l' -> length l = length l'.
Proof. intro F. induction F; cbn; auto. Qed.
Lemma snoc_nodup {A} (l : list A) a : NoDup l -> ~ In a l -> NoDup (l ++ [a]).
Proof. intros N H. apply (Permutation_NoDup (l := a :: l)); [apply Permutation_cons_append|constructor; auto]. Qed.
Lemma alike_same l l' : Forall2 alike l l' -> Forall2 same_value l l'.
Proof. apply F2_weaken. intros a b [H _]. exact H. Qed.
Lemma alike_small l l' : Forall2 alike l l' -> Forall small_int l'.
Proof. intro F. induction F as [|a b l l' [_ H] _ IH]; constructor; auto. Qed.
Lemma alike_refl l : Forall small_int l -> Forall2 alike l l.
Proof. intro F. induction F; constructor; auto. split; [apply same_value_refl|auto]. Qed.
Lemma dedup_alike l l' : Forall2 alike l l' -> Forall2 alike (dedup val_eqb l) (dedup val_eqb l').
Proof.
  intro F. unfold dedup. assert (S : Forall2 same_value [] []) by constructor. revert S. generalize (@nil value) at 1 3. generalize (@nil value).
  induction F as [|a b l l' H F IH]; intros s' s S; cbn [dedup_acc]; [constructor|]. rewrite (same_mem a b s s' (proj1 H) S).
  destruct (mem_b val_eqb b s'); [auto|]. constructor; [exact H|]. apply IH. constructor; [apply H|exact S].
Qed.
Lemma at_F2 {A B} (R : A -> B -> Prop) l l' ps : Forall2 R l l' -> Forall2 R (at_positions l ps) (at_positions l' ps).
Proof.
  intro F. unfold at_positions. induction ps as [|p ps IH]; [constructor|]. cbn [flat_map]. apply Forall2_app; [|exact IH].
  clear IH. revert p. induction F as [|a b l l' H _ IH]; intro p; [destruct p; constructor|]. destruct p; cbn [nth_error]; [constructor; [exact H|constructor]|apply IH].
Qed.
Lemma at_map {A B} (f : A -> B) l ps : at_positions (map f l) ps = map f (at_positions l ps).
Proof.
  unfold at_positions. induction ps as [|p ps IH]; [auto|]. cbn [flat_map]. rewrite map_app, IH. f_equal. rewrite nth_error_map. destruct (nth_error l p); auto.
Qed.
Lemma at_incl {A} (l : list A) ps x : In x (at_positions l ps) -> In x l.
Proof. unfold at_positions. rewrite in_flat_map. intros (p & _ & H). destruct (nth_error l p) as [y|] eqn:E; [|destruct H]. destruct H as [<-|[]]. eapply nth_error_In; eauto. Qed.

(** ** Negatives *)
Lemma negs_alike fuel n black need s : Z.of_nat n <= 2 ^ 53 -> forall k have have', Forall2 alike have have' ->
  match gen_negs fuel n black need s k have, gen_negs fuel n black need s k have' with
  | None, None => True
  | Some (Err e), Some (Err e') => e = e'
  | Some (Ok l), Some (Ok l') => Forall2 alike l l'
  | _, _ => False
  end.
Proof.
  intro Bn. induction fuel as [|fuel IH]; intros k have have' F; cbn [gen_negs]; rewrite (F2_len _ _ _ F).
  - destruct (need <=? _); auto.
  - destruct (need <=? _); [auto|]. destruct (randint s k 0 (Z.of_nat n - 1)) as [x|e] eqn:E; [|auto].
    assert (Sx : small_int (VInt x)).
    { exists x. split; [auto|]. unfold randint in E. destruct (_ <? _) eqn:L; [discriminate|]. injection E as <-. apply Z.ltb_ge in L.
      pose proof (Z.mod_pos_bound (Z.of_nat (s k)) (Z.of_nat n - 1 - 0 + 1) ltac:(lia)). lia. }
    rewrite (same_mem (VInt x) (VInt x) have have' (same_value_refl _) (alike_same _ _ F)).
    destruct (mem_b val_eqb (VInt x) black || mem_b val_eqb (VInt x) have'); apply IH; [exact F|].
    apply Forall2_app; [exact F|]. constructor; [|constructor]. split; [apply same_value_refl|exact Sx].
Qed.

(** ** The singled out item *)
Definition same_best (o o' : option value) : Prop := match o, o' with Some v, Some v' => same_value v v' | None, None => True | _, _ => False end.
Lemma best_alike (l l' : list (value * Qc)) : Forall2 (fun p p' => alike (fst p) (fst p') /\ snd p = snd p') l l' -> same_best (best_item l) (best_item l').
Proof.
  intro F. destruct F as [|p p' l l' H F]; [exact Logic.I|]. cbn [best_item same_best].
  revert p p' H. induction F as [|q q' l l' H _ IH]; intros p p' Hp; cbn [max_by]; [apply Hp|].
  rewrite (proj2 Hp), (proj2 H). destruct (Qcltb _ _); apply IH; auto.
Qed.

(** ** The dict of relevancies *)
Definition rel_of (mu : mem) (v : value) : Q := match relevancy mu v with Ok q => q | Err _ => 0%Q end.
Lemma rel_ok mu v v' : int_data mu -> alike v v' -> relevancy mu v = Ok (rel_of mu v) /\ relevancy mu v' = Ok (rel_of mu v') /\ rel_of mu v = rel_of mu v'.
Proof.
  intros D (S & z & -> & Hz). unfold rel_of. rewrite (relevancy_ok mu D v z S Hz), (relevancy_ok mu D (VInt z) z (same_value_refl _) Hz). split; [auto|]. split; [auto|].
  do 2 f_equal. assert (E : find (fun r => val_eqb (item_of r) v) (rows_of mu) = find (fun r => val_eqb (item_of r) (VInt z)) (rows_of mu)).
  { induction (rows_of mu) as [|r rs IH]; [auto|]. cbn [find]. rewrite IH, (same_eqb (item_of r) (item_of r) v (VInt z)); auto. apply same_value_refl. }
  rewrite E. auto.
Qed.
Lemma rels_mem mu l l' : int_data mu -> Forall2 alike l l' -> relevancies mu l = Ok (map (fun v => (v, rel_of mu v)) (dedup val_eqb l)).
Proof.
  intros D F. unfold relevancies. apply dedup_alike in F. induction F as [|v v' x y H _ IH]; [auto|]. cbn [mapM map].
  destruct (rel_ok mu v v' D H) as (-> & _). cbn [bind]. rewrite IH. auto.
Qed.
Lemma set_there mu z d : In (VInt z) (map fst d) -> NoDup (map fst d) -> (forall v q, In (v, q) d -> small_int v /\ q = rel_of mu v) ->
  assoc_set val_eqb (VInt z) (rel_of mu (VInt z)) d = d.
Proof.
  induction d as [|(v, q) d IH]; intros I N H; [destruct I|]. cbn [assoc_set map fst] in *. inversion N as [|? ? Nv N']; subst.
  destruct (H v q (or_introl eq_refl)) as ((x & -> & _) & ->). destruct (val_eqb (VInt z) (VInt x)) eqn:E.
  - cbn in E. apply Z.eqb_eq in E. subst x. auto.
  - rewrite IH; auto; [|intros; apply H; right; auto]. destruct I as [I|I]; [|auto]. injection I as ->. cbn in E. rewrite Z.eqb_refl in E. discriminate.
Qed.
Lemma set_new z q (d : list (value * Q)) : (forall v, In v (map fst d) -> small_int v) -> ~ In (VInt z) (map fst d) -> assoc_set val_eqb (VInt z) q d = d ++ [(VInt z, q)].
Proof.
  induction d as [|(v, q') d IH]; intros H N; [reflexivity|]. cbn [assoc_set map fst] in *. destruct (H v (or_introl eq_refl)) as (x & -> & _).
  destruct (val_eqb (VInt z) (VInt x)) eqn:E.
  - cbn in E. apply Z.eqb_eq in E. subst x. destruct N. left. reflexivity.
  - cbn [app]. rewrite IH; [reflexivity|intros; apply H; right; assumption|intro I; apply N; right; assumption].
Qed.
Lemma mem_small z l : Forall small_int l -> mem_b val_eqb (VInt z) l = true <-> In (VInt z) l.
Proof.
  intro F. induction F as [|v l (x & -> & _) _ IH]; cbn [mem_b In]; [split; [discriminate|tauto]|]. rewrite orb_true_iff, IH. cbn [val_eqb]. rewrite Z.eqb_eq.
  split; intros [H|H]; auto; left; congruence.
Qed.
Lemma set_all mu l : Forall small_int l -> forall d seen, NoDup (map fst d) -> (forall v q, In (v, q) d -> small_int v /\ q = rel_of mu v) ->
  Forall small_int seen -> (forall v, In v seen <-> In v (map fst d)) ->
  fold_left (fun d x => assoc_set val_eqb x (rel_of mu x) d) l d = d ++ map (fun v => (v, rel_of mu v)) (dedup_acc val_eqb seen l).
Proof.
  intro F. induction F as [|v l (z & -> & Hz) _ IH]; intros d seen N H Fs Ss; cbn [fold_left dedup_acc map]; [rewrite app_nil_r; auto|].
  destruct (mem_b val_eqb (VInt z) seen) eqn:E.
  - apply (mem_small z seen Fs) in E. rewrite set_there; auto. apply Ss. exact E.
  - assert (Nz : ~ In (VInt z) (map fst d)) by (intro I; apply Ss in I; apply (mem_small z seen Fs) in I; congruence).
    rewrite set_new; auto.
    + rewrite (IH _ (VInt z :: seen)).
      * cbn [map]. rewrite <- app_assoc. auto.
      * rewrite map_app. cbn [map fst]. apply snoc_nodup; auto.
      * intros v q I. apply in_app_iff in I. destruct I as [I|[I|[]]]; [auto|]. injection I as <- <-. split; [exists z; auto|auto].
      * constructor; [exists z; auto|exact Fs].
      * intro v. rewrite map_app, in_app_iff. cbn [map fst In]. rewrite Ss. tauto.
    + intros v I. rewrite <- Ss in I. rewrite Forall_forall in Fs. auto.
Qed.
Lemma rels_alike mu l l' : int_data mu -> Forall2 alike l l' ->
  Forall2 (fun p p' => same_value (fst p) (fst p') /\ snd p = snd p') (map (fun v => (v, rel_of mu v)) (dedup val_eqb l)) (map (fun v => (v, rel_of mu v)) (dedup val_eqb l')).
Proof.
  intros D F. apply dedup_alike in F. induction F as [|v v' x y H _ IH]; cbn [map]; constructor; [|exact IH]. cbn [fst snd]. split; [apply H|].
  destruct (rel_ok mu v v' D H) as (_ & _ & E). exact E.
Qed.

Lemma dedup_again {A} (eqb : A -> A -> bool) l : forall s s', (forall x, mem_b eqb x s = true -> mem_b eqb x s' = true) ->
  dedup_acc eqb s (dedup_acc eqb s' l) = dedup_acc eqb s' l.
Proof.
  induction l as [|x l IH]; intros s s' H; [auto|]. cbn [dedup_acc]. destruct (mem_b eqb x s') eqn:E; [auto|]. cbn [dedup_acc].
  destruct (mem_b eqb x s) eqn:E1; [rewrite (H x E1) in E; discriminate|]. rewrite IH; [auto|]. intro y. cbn [mem_b]. rewrite !orb_true_iff. intros [K|K]; auto.
Qed.

(** the arguments of the metrics are ints *)
Definition is_int (v : value) : Prop := exists z, v = VInt z.
Definition ints (c : case) : Prop :=
  Forall is_int (c_rel c) /\ match c_best c with Some v => is_int v | None => True end /\ Forall (fun p => is_int (fst p)) (c_rels c).
Lemma ints_same c c' : same_case c c' -> ints c -> ints c' -> c = c'.
Proof.
  intros [E1 E2 E3 E4] (I1 & I2 & I3) (J1 & J2 & J3). destruct c as [a b x d], c' as [a' b' x' d']. cbn [c_recs c_rel c_best c_rels] in *. f_equal.
  - exact E1.
  - clear - E2 I1 J1. induction E2 as [|v v' l l' H _ IH]; [auto|]. inversion I1 as [|? ? (z & ->) I1']; subst. inversion J1 as [|? ? (z' & ->) J1']; subst.
    rewrite IH by auto. f_equal. f_equal. exact (RankFacts.same_value_int_inj (VInt z) z z' (same_value_refl _) H).
  - destruct x as [v|], x' as [v'|]; try contradiction; [|auto]. destruct I2 as [z ->], J2 as [z' ->]. do 2 f_equal. exact (RankFacts.same_value_int_inj (VInt z) z z' (same_value_refl _) E3).
  - clear - E4 I3 J3. induction E4 as [|[v q] [v' q'] l l' [H H'] _ IH]; [auto|]. cbn [fst snd] in *. inversion I3 as [|? ? (z & E) I3']; subst. inversion J3 as [|? ? (z' & E') J3']; subst.
    cbn [fst] in *. subst. rewrite IH by auto. do 3 f_equal. exact (RankFacts.same_value_int_inj (VInt z) z z' (same_value_refl _) H).
Qed.
Lemma best_int (l : list (value * Qc)) : Forall is_int (map fst l) -> match best_item l with Some v => is_int v | None => True end.
Proof.
  intro F. destruct l as [|p l]; [exact Logic.I|]. cbn [best_item map] in *. pose proof (Forall_inv F) as Hp. pose proof (Forall_inv_tail F) as F'. clear F. revert p Hp.
  induction l as [|q l IH]; intros p Hp; cbn [max_by]; [exact Hp|]. cbn [map] in F'. apply IH; [exact (Forall_inv_tail F')|]. destruct (Qcltb _ _); [exact (Forall_inv F')|exact Hp].
Qed.
Lemma small_ints l : Forall small_int l -> Forall is_int l.
Proof. intro F. induction F as [|v l (z & -> & _) _ IH]; constructor; auto. exists z. auto. Qed.
Lemma rels_int (f : value -> Q) l : Forall is_int l -> Forall (fun p => is_int (fst p)) (map (fun v => (v, f v)) (dedup val_eqb l)).
Proof. intro F. apply Forall_forall. intros p Hp. apply in_map_iff in Hp. destruct Hp as (v & <- & Hv). apply dedup_acc_incl in Hv. rewrite Forall_forall in F. apply (F v Hv). Qed.
Lemma at_int l ps : Forall is_int l -> Forall is_int (at_positions l ps).
Proof. intro F. apply Forall_forall. intros v Hv. rewrite Forall_forall in F. apply F. eapply at_incl; eauto. Qed.

(** what a task ends with: in memory, and in the database *)
Definition same_verdict (x y : verdict) : Prop :=
  match x, y with
  | None, None => True
  | Some (Err e), Some (Err e') => e = e'
  | Some (Ok None), Some (Ok None) => True
  | Some (Ok (Some c)), Some (Ok (Some c')) => same_case c c' /\ ints c'
  | _, _ => False
  end.

Section Users.
Variable inode : string -> nat.
Variable ords : nat -> list trow -> list trow.
Hypothesis Po : forall k, permuting (ords k).
Hypothesis So : forall k, sorting (ords k).
Variables (i : nat) (d : ds) (m : mem).
Variable base : book.
Hypothesis Bi : base i = Some d.
Hypothesis Tw : twin d m.
Hypothesis Cd : complete d.
Hypothesis D : int_data m.
Local Notation gives := (gives inode i d).
Local Notation good := (good inode i d base).
Local Notation apart := (apart base).
Local Notation there := (there base).

(** what the process uses of the model *)
Variables (dm : db_model) (md : model).
Hypothesis Eds : dm_ds dm = i.
Hypothesis Emd : md_ds md = m.
Hypothesis Eit : dm_items dm = md_items md.
Hypothesis Bit : Z.of_nat (md_items md) <= 2 ^ 53.
Hypothesis Grank : forall b u l l' nov, small_int u -> Forall2 alike l l' -> gives b (dm_rank dm u l' nov) (md_rank md u l nov).
Hypothesis Krank : forall u l nov, pkeeps (dm_rank dm u l nov).
Hypothesis Grec : forall b u n nov low, small_int u -> gives b (dm_recommend dm u n nov low) (md_recommend md u n nov low).
Hypothesis Krec : forall u n nov low, pkeeps (dm_recommend dm u n nov low).
Hypothesis Irec : forall u n nov low recs, md_recommend md u n nov low = Ok recs -> Forall small_int recs.

(** the test data, the user, the threshold *)
Variables (j : nat) (dt : ds) (mt : mem).
Hypothesis Hj : base j = Some dt.
Hypothesis Tt : twin dt mt.
Hypothesis Ct : complete dt.
Hypothesis Dt : int_data mt.
Variables (z : Z) (t : slit).
Hypothesis Hz : Z.abs z <= 2 ^ 53.
Hypothesis Ht : threshold_ok t.

Let cu := mkCond "user" Eq (LInt z).
Let cp := mkCond "interaction" Ge t.
Let cn := mkCond "interaction" Lt t.
Local Notation mu := (sub mt (user_is z)).
Local Notation mp := (sub mu (liked t)).
Local Notation mn := (sub mu (disliked t)).
Local Notation mtr := (sub m (fun r => user_is z r && liked t r)).
Local Notation du := (restricted dt [cu]).
Local Notation dp := (restricted du [cp]).
Local Notation dn := (restricted du [cn]).
Local Notation dtr := (restricted d [cu; cp]).

Lemma Dmu : int_data mu. Proof. apply int_sub; exact Dt. Qed.
Lemma Dmp : int_data mp. Proof. apply int_sub, Dmu. Qed.
Lemma Dmn : int_data mn. Proof. apply int_sub, Dmu. Qed.
Lemma Dmtr : int_data mtr. Proof. apply int_sub; exact D. Qed.
Lemma thr_numeric : numeric (mkCond "interaction" Ge t) /\ numeric (mkCond "interaction" Lt t).
Proof. destruct Ht as (ty & Ny & L). unfold numeric. cbn [sc_lit]. inversion L; subst; try contradiction; auto. Qed.
Lemma Tmu : twin du mu.
Proof.
  apply (twin_restricted dt mt [cu]); [exact Tt|constructor; [apply (user_cond mt Dt z Hz)|constructor]|].
  intros r Hr. unfold sat, cu. cbn [forallb]. rewrite andb_true_r. apply (user_sat mt Dt z r Hr).
Qed.
Lemma Tmp : twin dp mp.
Proof.
  apply (twin_restricted du mu [cp]); [exact Tmu|constructor; [apply (thr_cond mu Dmu Ge t Ht)|constructor]|].
  intros r Hr. unfold sat, cp, liked. cbn [forallb]. apply andb_true_r.
Qed.
Lemma Tmn : twin dn mn.
Proof.
  apply (twin_restricted du mu [cn]); [exact Tmu|constructor; [apply (thr_cond mu Dmu Lt t Ht)|constructor]|].
  intros r Hr. unfold sat, cn, disliked. cbn [forallb]. apply andb_true_r.
Qed.
Lemma Tmtr : twin dtr mtr.
Proof.
  apply (twin_restricted d m [cu; cp]); [exact Tw|constructor; [apply (user_cond m D z Hz)|constructor; [apply (thr_cond m D Ge t Ht)|constructor]]|].
  intros r Hr. unfold sat, cu, cp, liked. cbn [forallb]. rewrite (user_sat m D z r Hr), andb_true_r. reflexivity.
Qed.

(** ** Calls *)
Lemma pick_user N own k Q : apart own -> (forall ju, apart ((ju, du) :: own) -> good N ((ju, du) :: own) (k ju) Q) ->
  good (S N) own (call (db (select inode j ("user == " ++ str_of_value (VInt z))%string true)) k) Q.
Proof.
  intros A G. apply (good_select inode i d base N own j dt mt [cu]); auto; [left; exact Hj|discriminate| | |].
  - constructor; [apply (user_cond mt Dt z Hz)|constructor].
  - constructor; [exact Logic.I|constructor].
  - intros c [<-|[]]. cbn. intuition discriminate.
Qed.
Lemma pick_liked N own ju k Q : there own ju du -> apart own -> (forall jp, apart ((jp, dp) :: own) -> good N ((jp, dp) :: own) (k jp) Q) ->
  good (S N) own (call (db (select inode ju ("interaction >= " ++ lit_text t)%string true)) k) Q.
Proof.
  intros Th A G. apply (good_select inode i d base N own ju du mu [cp]); auto; [exact Tmu|exact Dmu|discriminate| | |].
  - constructor; [apply (thr_cond mu Dmu Ge t Ht)|constructor].
  - constructor; [apply thr_numeric|constructor].
  - intros c [<-|[]]. cbn. intuition discriminate.
Qed.
Lemma pick_disliked N own ju k Q : there own ju du -> apart own -> (forall jn, apart ((jn, dn) :: own) -> good N ((jn, dn) :: own) (k jn) Q) ->
  good (S N) own (call (db (select inode ju ("interaction < " ++ lit_text t)%string true)) k) Q.
Proof.
  intros Th A G. apply (good_select inode i d base N own ju du mu [cn]); auto; [exact Tmu|exact Dmu|discriminate| | |].
  - constructor; [apply (thr_cond mu Dmu Lt t Ht)|constructor].
  - constructor; [apply thr_numeric|constructor].
  - intros c [<-|[]]. cbn. intuition discriminate.
Qed.
Lemma train_text : query_text [cu; cp] = ("user == " ++ str_of_value (VInt z) ++ ", interaction >= " ++ lit_text t)%string.
Proof.
  cbn [query_text]. unfold cond_text, cu, cp. cbn [sc_col sc_op sc_lit op_text lit_text].
  change ("user" ++ " " ++ "==" ++ " " ++ str_of_Z z)%string with ("user == " ++ str_of_Z z)%string. rewrite append_assoc. reflexivity.
Qed.
Lemma pick_train N own k Q : apart own -> (forall jt, apart ((jt, dtr) :: own) -> good N ((jt, dtr) :: own) (k jt) Q) ->
  good (S N) own (call (db (select inode i ("user == " ++ str_of_value (VInt z) ++ ", interaction >= " ++ lit_text t)%string true)) k) Q.
Proof.
  intros A G. rewrite <- train_text. apply (good_select inode i d base N own i d m [cu; cp]); auto; [left; exact Bi|discriminate| | |].
  - constructor; [apply (user_cond m D z Hz)|constructor; [apply (thr_cond m D Ge t Ht)|constructor]].
  - constructor; [exact Logic.I|constructor; [apply thr_numeric|constructor]].
  - intros c [<-|[<-|[]]]; cbn; intuition discriminate.
Qed.

Definition fd (r : row) : value * Qc := (item_of r, interaction_of r).
Definition fm (ty : dtype) (r : row) : value * Qc := (upcast ty (item_of r), interaction_of r).
Lemma pairs_alike m' ty rs : int_data m' -> (forall r, In r rs -> In r (rows_of m')) -> Forall2 (fun p p' => alike (fst p) (fst p') /\ snd p = snd p') (map (fm ty) rs) (map fd rs).
Proof.
  intros D' H. induction rs as [|r rs IH]; [constructor|]. cbn [map]. constructor; [|apply IH; intros; apply H; right; auto].
  unfold fm, fd. cbn [fst snd]. split; [|auto]. assert (Hr : In r (rows_of m')) by (apply H; left; auto). split; [apply (item_same m' D' ty r Hr)|].
  destruct (row_item m' D' r Hr) as (x & E & B). exists x. unfold item_of. rewrite E. auto.
Qed.
Lemma F2_fst (l l' : list (value * Qc)) : Forall2 (fun p p' => alike (fst p) (fst p') /\ snd p = snd p') l l' -> Forall2 alike (map fst l) (map fst l').
Proof. intro F. induction F as [|p p' l l' [H _] _ IH]; constructor; auto. Qed.

(** the positives *)
Definition chosen (npos : option Z) (g : rng) : list row :=
  match npos with None => rows_of mp | Some n => at_positions (rows_of mp) (rg_pos g (length (rows_of mp)) (Z.to_nat n)) end.
Definition enough (npos : option Z) : bool := match npos with None => true | Some n => negb (Z.of_nat (length (rows_of mp)) <? n) end.
Lemma chosen_in npos g r : In r (chosen npos g) -> In r (rows_of mp).
Proof. unfold chosen. destruct npos; [apply at_incl|auto]. Qed.
Lemma mem_positives npos g : exists ty, positives mu (lit_text t) npos g = Ok (if enough npos then Some (map (fm ty) (chosen npos g)) else None).
Proof.
  unfold positives. rewrite (select_liked mu Dmu t Ht). cbn [bind]. destruct (item_pairs_ok mp Dmp) as [ty E]. exists ty. rewrite E. cbn [bind].
  unfold enough, chosen. destruct npos as [n|]; [|reflexivity]. change (mem_len mp) with (length (rows_of mp)).
  destruct (Z.of_nat (length (rows_of mp)) <? n); cbn [negb]; [reflexivity|]. rewrite map_length. fold (fm ty). rewrite at_map. reflexivity.
Qed.
Lemma good_positives N own jp npos g k Q : there own jp dp -> apart own -> (length own <= N)%nat ->
  (if enough npos then good N own (k (map fd (chosen npos g))) Q else Q (Some (Ok None))) ->
  good (S (S N)) own (db_positives inode ords (names own) jp npos g k) Q.
Proof.
  intros Th A L G. unfold db_positives. unfold enough, chosen in G.
  assert (Gp : forall b, extends base b -> held b own -> gives b (db_pairs inode ords jp) (Ok (map fd (rows_of mp)))).
  { intros b X H. apply (pairs_gives inode ords Po So i d jp dp mp Tmp (restricted_complete _ _ (restricted_complete _ _ Ct)) Dmp). eapply there_at; eauto. }
  destruct npos as [n|].
  - apply (good_gives inode i d base _ own _ _ (Ok (length (rows_of mp)))); [|apply pkeeps_len|].
    + intros b X H. apply (len_gives inode i d jp dp mp Tmp). eapply there_at; eauto.
    + destruct (Z.of_nat (length (rows_of mp)) <? n) eqn:E; cbn [negb] in G.
      * apply (good_more inode i d base _ _ (length own)); [|lia]. apply good_leave; auto.
      * apply (good_gives inode i d base _ own _ _ _ _ Gp); [apply pkeeps_pairs|]. rewrite map_length, at_map. exact G.
  - apply (good_more inode i d base _ _ (S N)); [|lia]. apply (good_gives inode i d base _ own _ _ _ _ Gp); [apply pkeeps_pairs|exact G].
Qed.

(** the relevancies *)
Lemma good_relevancies N own ju l k Q : there own ju du -> Forall small_int l -> forall acc,
  good N own (k (fold_left (fun dd x => assoc_set val_eqb x (rel_of mu x) dd) l acc)) Q ->
  good (length l + N) own (each_relevancy inode ords ju l acc k) Q.
Proof.
  intros Th F. induction F as [|v l (x & -> & Hx) _ IH]; intros acc G; cbn [each_relevancy length plus fold_left] in *; [exact G|].
  apply (good_gives inode i d base _ own _ _ (Ok (rel_of mu (VInt x)))); [|apply pkeeps_relevancy|apply IH; exact G].
  intros b X H. destruct (rel_ok mu (VInt x) (VInt x) Dmu) as (E & _); [split; [apply same_value_refl|exists x; auto]|]. rewrite <- E.
  apply (relevancy_gives inode ords Po So i d ju du mu Tmu (restricted_complete _ _ Ct) Dmu); [eapply there_at; eauto|exact Hx].
Qed.
Lemma rels_db l : Forall small_int l -> fold_left (fun dd x => assoc_set val_eqb x (rel_of mu x) dd) l [] = map (fun v => (v, rel_of mu v)) (dedup val_eqb l).
Proof. intro F. apply (set_all mu l F [] []); [constructor|intros v q []|constructor|intro v; split; intros []]. Qed.

Lemma case_alike recs rs ty all all' : (forall r, In r rs -> In r (rows_of mp)) -> Forall2 alike all all' ->
  let c' := mkCase recs (map fst (map fd rs)) (best_item (map fd rs)) (map (fun v => (v, rel_of mu v)) (dedup val_eqb all')) in
  same_case (mkCase recs (map fst (map (fm ty) rs)) (best_item (map (fm ty) rs)) (map (fun v => (v, rel_of mu v)) (dedup val_eqb all))) c' /\ ints c'.
Proof.
  intros H F c'. pose proof (pairs_alike mp ty rs Dmp H) as P. pose proof (small_ints _ (alike_small _ _ (F2_fst _ _ P))) as Pi. split.
  - constructor; cbn [c_recs c_rel c_best c_rels].
    + reflexivity.
    + apply alike_same, F2_fst, P.
    + apply best_alike, P.
    + apply (rels_alike mu all all' Dmu F).
  - split; [exact Pi|]. split; [apply best_int; exact Pi|]. apply rels_int. apply small_ints, (alike_small _ _ F).
Qed.

(** ** A task of recommendation_evaluation *)
Lemma rec_task_good a g : r_thr a = lit_text t ->
  exists N, good N [] (db_rec_user inode ords dm j a (VInt z) g) (same_verdict (Some (rec_user md mt a (VInt z) g))).
Proof.
  intro Et. unfold db_rec_user, rec_user. rewrite Et, (select_user_ok mt Dt z Hz). cbn [bind].
  destruct (mem_positives (r_npos a) g) as [ty E]. rewrite E. cbn [bind].
  assert (Step : forall N Q, (2 <= N)%nat ->
    (if enough (r_npos a) then forall ju jp, apart [(jp, dp); (ju, du)] -> good N [(jp, dp); (ju, du)]
       (match map fd (chosen (r_npos a) g) with
        | [] => leave inode [jp; ju] (Some (Ok None))
        | _ => call (pbind (pret (max_list (r_k a))) (fun n => dm_recommend dm (VInt z) n (r_novelty a) (r_low a))) (fun recs =>
               each_relevancy inode ords ju (dedup val_eqb (map fst (map fd (chosen (r_npos a) g)) ++ recs)) [] (fun rels =>
               leave inode [jp; ju] (Some (Ok (Some (mkCase recs (map fst (map fd (chosen (r_npos a) g))) (best_item (map fd (chosen (r_npos a) g))) rels))))))
        end) Q else Q (Some (Ok None))) ->
    good (S (S (S (S N)))) [] (db_rec_user inode ords dm j a (VInt z) g) Q).
  { intros N Q L G. unfold db_rec_user. rewrite Et. apply pick_user; [apply apart_nil|]. intros ju A1. apply (pick_liked _ _ ju); [apply there_first|exact A1|]. intros jp A2.
    change [jp; ju] with (names [(jp, dp); (ju, du)]).
    apply good_positives; [apply there_first|exact A2|exact L|]. destruct (enough (r_npos a)); [|exact G]. apply (G ju jp A2). }
  unfold db_rec_user in Step. rewrite Et in Step.
  destruct (enough (r_npos a)) eqn:En.
  2:{ exists 6%nat. apply (Step 2%nat); [lia|exact Logic.I]. }
  assert (Lv : forall N ju jp x (Q : verdict -> Prop), (2 <= N)%nat -> apart [(jp, dp); (ju, du)] -> Q x -> good N [(jp, dp); (ju, du)] (leave inode [jp; ju] x) Q).
  { intros N ju jp x Q L A Hx. apply (good_more inode i d base _ _ 2%nat); [|exact L]. apply (good_leave inode i d base Bi x Q Hx [(jp, dp); (ju, du)] A). }
  pose proof (chosen_in (r_npos a) g) as Hin. destruct (chosen (r_npos a) g) as [|r0 rs0] eqn:Ec.
  { exists 6%nat. apply (Step 2%nat); [lia|]. intros ju jp A. cbn [map]. apply Lv; [lia|exact A|exact Logic.I]. }
  rewrite <- Ec in *. set (rs := chosen (r_npos a) g) in *.
  assert (Er : forall T (x y : T), match map fd rs with [] => x | _ => y end = y) by (intros; rewrite Ec; reflexivity).
  assert (Erm : forall T (x y : T), match map (fm ty) rs with [] => x | _ => y end = y) by (intros; rewrite Ec; reflexivity).
  rewrite Erm.
  set (rcs := n <- max_list (r_k a) ;; md_recommend md (VInt z) n (r_novelty a) (r_low a)).
  assert (Gc : forall b, extends base b -> held b [] -> gives b (pbind (pret (max_list (r_k a))) (fun n => dm_recommend dm (VInt z) n (r_novelty a) (r_low a))) rcs).
  { intros b _ _. apply gives_bind; [apply gives_ret|]. intros b1 n _ _. apply Grec. exists z. auto. }
  assert (Em : (n <- max_list (r_k a) ;; recs <- md_recommend md (VInt z) n (r_novelty a) (r_low a) ;;
      rels <- relevancies mu (map fst (map (fm ty) rs) ++ recs) ;; Ok (Some (mkCase recs (map fst (map (fm ty) rs)) (best_item (map (fm ty) rs)) rels))) =
      (recs <- rcs ;; rels <- relevancies mu (map fst (map (fm ty) rs) ++ recs) ;; Ok (Some (mkCase recs (map fst (map (fm ty) rs)) (best_item (map (fm ty) rs)) rels)))).
  { unfold rcs. destruct (max_list (r_k a)); reflexivity. }
  rewrite Em. clear Em.
  assert (Kc : pkeeps (pbind (pret (max_list (r_k a))) (fun n => dm_recommend dm (VInt z) n (r_novelty a) (r_low a)))).
  { apply pkeeps_bind; [apply pkeeps_ret|]. intro n. apply Krec. }
  destruct rcs as [recs|e] eqn:Ers; cbn [bind].
  2:{ exists 7%nat. apply (Step 3%nat); [lia|]. intros ju jp A. rewrite Er. apply (good_gives inode i d base _ _ _ _ (Err e)); [|exact Kc|reflexivity].
      intros b X _. apply Gc; [exact X|intros n dn []]. }
  assert (Fr : Forall small_int recs).
  { unfold rcs in Ers. destruct (max_list (r_k a)) as [n|]; [|discriminate]. exact (Irec _ _ _ _ _ Ers). }
  assert (Fa : Forall2 alike (map fst (map (fm ty) rs) ++ recs) (map fst (map fd rs) ++ recs)).
  { apply Forall2_app; [|apply alike_refl; exact Fr]. apply F2_fst, (pairs_alike mp ty rs Dmp Hin). }
  rewrite (rels_mem mu _ _ Dmu Fa). cbn [bind].
  set (all' := map fst (map fd rs) ++ recs) in *.
  exists (S (S (S (S (S (length (dedup val_eqb all') + 2)))))). apply Step; [lia|]. intros ju jp A. rewrite Er.
  apply (good_gives inode i d base _ _ _ _ (Ok recs)); [intros b X _; apply Gc; [exact X|intros n dn []]|exact Kc|]. fold all'.
  assert (Fs : Forall small_int (dedup val_eqb all')).
  { apply Forall_forall. intros v Hv. apply dedup_acc_incl in Hv. pose proof (alike_small _ _ Fa) as F. rewrite Forall_forall in F. auto. }
  apply good_relevancies; [right; right; left; reflexivity|exact Fs|]. rewrite (rels_db _ Fs). apply Lv; [lia|exact A|].
  assert (Ed : dedup val_eqb (dedup val_eqb all') = dedup val_eqb all') by (apply dedup_again; auto). rewrite Ed. apply case_alike; [exact Hin|exact Fa].
Qed.

(** ** A task of ranking_evaluation *)
Lemma good_blacklist N own jp train_ev k Q : there own jp dp -> apart own ->
  match blacklist md train_ev mp (VInt z) (lit_text t) with
  | Err e => Q (Some (Err e))
  | Ok black => forall more, apart (more ++ own) -> (length more <= 1)%nat -> good N (more ++ own) (k (names more) black) Q
  end -> good (S (S (S N))) own (db_blacklist inode ords dm train_ev jp (VInt z) (lit_text t) k) Q.
Proof.
  intros Th A G. unfold db_blacklist, blacklist in *.
  assert (Sp : forall own', there own' jp dp -> forall b, extends base b -> held b own' -> sure inode i d b (db_distinct inode ords jp) (SplitModel.distinct_values mp "item")).
  { intros own' Th' b X H. apply (distinct_sure inode ords Po So i d jp dp mp Tmp (restricted_complete _ _ (restricted_complete _ _ Ct)) Dmp). eapply there_at; eauto. }
  destruct train_ev.
  - apply (good_more inode i d base _ _ (S N)); [|lia]. apply (good_sure inode i d base _ _ _ _ _ _ (Sp own Th)).
    destruct (SplitModel.distinct_values mp "item") as [l|e]; [|exact G]. apply (G []); [exact A|cbn; lia].
  - rewrite Eds. rewrite Emd in G. cbn [str_of_value] in *. rewrite (select_user_liked m D z t Hz Ht) in G. cbn [bind] in G.
    apply pick_train; [exact A|]. intros jt A'.
    apply (good_sure inode i d base _ _ _ _ (SplitModel.distinct_values mtr "item")).
    { intros b X H. apply (distinct_sure inode ords Po So i d jt dtr mtr Tmtr (restricted_complete _ _ Cd) Dmtr). apply (there_at base ((jt, dtr) :: own)); [apply there_first|exact X|exact H]. }
    destruct (SplitModel.distinct_values mtr "item") as [l|e]; cbn [bind] in G; [|exact G].
    apply (good_sure inode i d base _ _ _ _ _ _ (Sp ((jt, dtr) :: own) (there_more base own jp dp _ Th))).
    destruct (SplitModel.distinct_values mp "item") as [l2|e]; cbn [bind] in G; [|exact G]. apply (G [(jt, dtr)]); [exact A'|cbn; lia].
Qed.
Lemma good_negatives fmul fuel N ju jp jn train_ev a np g k Q : e_thr a = lit_text t -> let own := [(jn, dn); (jp, dp); (ju, du)] in apart own -> (4 <= N)%nat ->
  match negatives fmul fuel md train_ev a mu mp (VInt z) np g with
  | None => Q None
  | Some (Err e) => Q (Some (Err e))
  | Some (Ok None) => Q (Some (Ok None))
  | Some (Ok (Some ns)) => forall more ns', Forall2 alike ns ns' -> apart (more ++ own) -> (length more <= 1)%nat -> good N (more ++ own) (k (names (more ++ own)) ns') Q
  end -> good (S (S (S (S (S N))))) own (db_negatives inode ords fmul fuel dm train_ev a (names own) jp jn (VInt z) np g k) Q.
Proof.
  intros Et own A L G. unfold db_negatives, negatives in *. rewrite Et in *. rewrite (select_disliked mu Dmu t Ht) in G. cbn [bind] in G.
  destruct (item_list_ok mn Dmn) as [ty E]. rewrite E in G.
  assert (Fn : Forall2 alike (map (fun r => upcast ty (item_of r)) (rows_of mn)) (map item_of (rows_of mn))).
  { pose proof (F2_fst _ _ (pairs_alike mn ty (rows_of mn) Dmn (fun r H => H))) as F. rewrite !map_map in F. exact F. }
  apply (good_gives inode i d base _ _ _ _ (Ok (map item_of (rows_of mn)))); [|apply pkeeps_items|].
  { intros b X H. apply (items_gives inode ords Po So i d jn dn mn Tmn (restricted_complete _ _ (restricted_complete _ _ Ct)) Dmn). apply (there_at base own); [apply there_first|exact X|exact H]. }
  destruct (e_nneg a) as [nn|].
  2:{ apply (good_more inode i d base _ _ N); [|lia]. apply (G []); [exact Fn|exact A|cbn; lia]. }
  apply (good_gives inode i d base _ _ _ _ (Ok (length (rows_of mn)))); [|apply pkeeps_len|].
  { intros b X H. apply (len_gives inode i d jn dn mn Tmn). apply (there_at base own); [apply there_first|exact X|exact H]. }
  rewrite !map_length in *. cbv zeta in *. set (n := neg_count fmul nn np) in *.
  set (ps := rg_neg g (length (rows_of mn)) (Z.to_nat (Z.min n (Z.of_nat (length (rows_of mn)))))) in *.
  set (have := at_positions (map (fun r => upcast ty (item_of r)) (rows_of mn)) ps) in *.
  set (have' := at_positions (map item_of (rows_of mn)) ps).
  assert (Fh : Forall2 alike have have') by (apply at_F2; exact Fn).
  rewrite <- (F2_len _ _ _ Fh). destruct ((Z.of_nat (length have) <? n) && e_gen a).
  2:{ apply (good_more inode i d base _ _ N); [|lia]. apply (G []); [exact Fh|exact A|cbn; lia]. }
  apply (good_blacklist N own jp train_ev); [right; right; left; reflexivity|exact A|].
  destruct (blacklist md train_ev mp (VInt z) (lit_text t)) as [black|e]; [|exact G].
  intros more A' Lm. rewrite Eit. destruct (Z.of_nat (md_items md) - Z.of_nat (length black) <? n).
  - assert (En : names more ++ names own = names (more ++ own)) by (unfold names; rewrite map_app; reflexivity). rewrite En.
    apply (good_more inode i d base _ _ (length (more ++ own))); [|rewrite app_length; cbn [length own]; lia]. apply good_leave; auto.
  - pose proof (negs_alike fuel (md_items md) black n (rg_draw g) Bit 0 have have' Fh) as K.
    destruct (gen_negs fuel (md_items md) black n (rg_draw g) 0 have) as [[l|e]|], (gen_negs fuel (md_items md) black n (rg_draw g) 0 have') as [[l'|e']|]; try contradiction.
    + assert (En : names more ++ names own = names (more ++ own)) by (unfold names; rewrite map_app; reflexivity). rewrite En. apply G; auto.
    + subst e'. apply good_ended. exact G.
    + apply good_ended. exact G.
Qed.

Lemma rank_task_good fmul fuel train_ev a g : e_thr a = lit_text t ->
  exists N, good N [] (db_rank_user inode ords fmul fuel dm train_ev j a (VInt z) g) (same_verdict (rank_user fmul fuel md train_ev mt a (VInt z) g)).
Proof.
  intro Et. unfold rank_user. rewrite Et, (select_user_ok mt Dt z Hz). cbn [bind]. rewrite (select_liked mu Dmu t Ht). cbn [bind].
  destruct (mem_positives (e_npos a) g) as [ty E]. rewrite E. cbn [bind].
  set (rs := chosen (e_npos a) g) in *.
  assert (Step : forall N Q, (9 <= N)%nat ->
    (if enough (e_npos a) then forall ju jp jn, apart [(jn, dn); (jp, dp); (ju, du)] -> good N [(jn, dn); (jp, dp); (ju, du)]
       (db_negatives inode ords fmul fuel dm train_ev a [jn; jp; ju] jp jn (VInt z) (length (map fd rs)) g (fun held ns =>
          match map fst (map fd rs) ++ ns with
          | [] => leave inode held (Some (Ok None))
          | items =>
              let all := at_positions items (rg_shuffle g (length items)) in
              call (dm_rank dm (VInt z) all (e_novelty a)) (fun recs =>
              each_relevancy inode ords ju all [] (fun rels =>
              leave inode held (Some (Ok (Some (mkCase recs (map fst (map fd rs)) (best_item (map fd rs)) rels))))))
          end)) Q else Q (Some (Ok None))) ->
    good (S (S (S (S (S N))))) [] (db_rank_user inode ords fmul fuel dm train_ev j a (VInt z) g) Q).
  { intros N Q L G. unfold db_rank_user. rewrite Et. apply pick_user; [apply apart_nil|]. intros ju A1. apply (pick_liked _ _ ju); [apply there_first|exact A1|]. intros jp A2.
    change [jp; ju] with (names [(jp, dp); (ju, du)]).
    apply good_positives; [apply there_first|exact A2|cbn; lia|]. destruct (enough (e_npos a)); [|exact G].
    apply (pick_disliked _ _ ju); [right; right; left; reflexivity|exact A2|]. intros jn A3. apply (G ju jp jn A3). }
  destruct (enough (e_npos a)) eqn:En.
  2:{ exists 14%nat. apply (Step 9%nat); [lia|exact Logic.I]. }
  pose proof (chosen_in (e_npos a) g) as Hin. fold rs in Hin.
  pose proof (pairs_alike mp ty rs Dmp Hin) as Fp.
  rewrite !map_length in *.
  set (V := match negatives fmul fuel md train_ev a mu mp (VInt z) (length rs) g with Some (Ok (Some ns)) => length (at_positions (map fst (map (fm ty) rs) ++ ns) (rg_shuffle g (length (map fst (map (fm ty) rs) ++ ns)))) | _ => 0%nat end).
  exists (S (S (S (S (S (S (S (S (S (S (S (V + 4)))))))))))). apply Step; [lia|]. intros ju jp jn A.
  change [jn; jp; ju] with (names [(jn, dn); (jp, dp); (ju, du)]). apply good_negatives; [exact Et|exact A|lia|].
  destruct (negatives fmul fuel md train_ev a mu mp (VInt z) (length rs) g) as [[[ns|]|e]|]; try exact Logic.I; [|reflexivity].
  intros more ns' Fn A' Lm. set (own := more ++ [(jn, dn); (jp, dp); (ju, du)]) in *.
  assert (Lv : forall N x (Q : verdict -> Prop), (4 <= N)%nat -> Q x -> good N own (leave inode (names own) x) Q).
  { intros N x Q L Hx. apply (good_more inode i d base _ _ (length own)); [|unfold own; rewrite app_length; cbn [length]; lia]. apply good_leave; auto. }
  assert (Fi : Forall2 alike (map fst (map (fm ty) rs) ++ ns) (map fst (map fd rs) ++ ns')) by (apply Forall2_app; [apply F2_fst; exact Fp|exact Fn]).
  unfold V. clear V Step. revert Fi. set (ims := map fst (map (fm ty) rs) ++ ns). set (imd := map fst (map fd rs) ++ ns'). intro Fi.
  destruct Fi as [|v v' ims' imd' Hv Fi]; [apply Lv; [lia|exact Logic.I]|].
  assert (Fi' : Forall2 alike (v :: ims') (v' :: imd')) by (constructor; auto). clear Hv Fi. cbv zeta. rewrite <- (F2_len _ _ _ Fi').
  set (all := at_positions (v :: ims') (rg_shuffle g (length (v :: ims')))).
  set (all' := at_positions (v' :: imd') (rg_shuffle g (length (v :: ims')))).
  assert (Fa : Forall2 alike all all') by (apply at_F2; exact Fi').
  apply (good_gives inode i d base _ _ _ _ (md_rank md (VInt z) all (e_novelty a))); [|apply Krank|].
  { intros b X H. apply Grank; [exists z; auto|exact Fa]. }
  destruct (md_rank md (VInt z) all (e_novelty a)) as [recs|e]; cbn [bind]; [|reflexivity].
  rewrite (rels_mem mu _ _ Dmu Fa). cbn [bind]. rewrite (F2_len _ _ _ Fa).
  apply good_relevancies; [right; unfold own; apply in_or_app; right; right; right; left; reflexivity|apply (alike_small _ _ Fa)|].
  rewrite (rels_db _ (alike_small _ _ Fa)). apply Lv; [lia|]. apply case_alike; [exact Hin|exact Fa].
Qed.

(** ** The arguments of the metrics in memory, without columns of floats *)
Hypothesis Nf : no_floats mt.
Lemma sub_floats m' p : no_floats m' -> no_floats (sub m' p).
Proof. intros H c Hc N. exact (H c Hc N). Qed.
Lemma values_exact m' cs : wf_mem m' -> no_floats m' -> (forall c, In c cs -> In c (m_columns m')) ->
  exists ty, (forall v, upcast ty v = v) /\ MemModel.values m' (Some cs) = Ok (map (rec_of ty cs) (rows_of m')).
Proof.
  intros W F Hc. destruct (col_types_ok m' (df_columns (m_columns m')) W) as [ts E]; [intros c H; apply filter_In in H; tauto|].
  assert (N : existsb (dtype_eqb DFloat) ts = false).
  { apply Bool.not_true_is_false. intro X. apply existsb_exists in X. destruct X as (ty & I & Et). destruct ty; try discriminate Et.
    destruct (MemFacts6.mapM_In _ _ _ _ E I) as (c & Ic & Ec). apply filter_In in Ic. destruct Ic as [Ic Nc]. apply (F c Ic); [|exact Ec]. intros ->. discriminate Nc. }
  exists (common_type ts). split; [intro v; unfold common_type; rewrite N; destruct (existsb (dtype_eqb DObj) ts); reflexivity|].
  unfold MemModel.values, MemModel.handle_columns. rewrite (forallb_col_in m' cs Hc). cbn [bind]. rewrite E. cbn [bind]. apply mapM_Ok. intros r Hr. unfold row_record, rec_of. apply mapM_Ok. intros c Ic.
  destruct (col_type_ok m' c W (Hc c Ic)) as [ty Ty]. destruct (wf_row_val m' c ty r W Ty Hr) as [v [Ev _]].
  rewrite (row_value_val c r v Ev). cbn [bind]. unfold row_val_or. rewrite Ev. destruct (String.eqb c "rid"); reflexivity.
Qed.
Lemma items_int m' rs : int_data m' -> (forall r, In r rs -> In r (rows_of m')) -> Forall is_int (map item_of rs).
Proof.
  intros D' H. apply Forall_forall. intros v Hv. apply in_map_iff in Hv. destruct Hv as (r & <- & Hr). destruct (row_item m' D' r (H r Hr)) as (x & E & _).
  exists x. unfold item_of. rewrite E. auto.
Qed.
Lemma pairs_int m' ps : int_data m' -> no_floats m' -> item_pairs m' = Ok ps -> Forall is_int (map fst ps).
Proof.
  intros D' F. unfold item_pairs. destruct (values_exact m' ["item"; "interaction"] (in_wf m' D') F) as (ty & U & E).
  { intros c Hc. apply (EvalSpec.in_cols m' D'). simpl in *. tauto. }
  rewrite E. cbn [bind]. rewrite mapM_map.
  rewrite (mapM_Ok _ fd (rows_of m')).
  - intro X. injection X as <-. rewrite map_map. apply (items_int m'); auto.
  - intros r Hr. unfold rec_of. cbn [map]. change (String.eqb "interaction" "rid") with false. change (String.eqb "item" "rid") with false. cbn iota.
    rewrite (val_inter m' D'), U, (val_item m' D') by auto. reflexivity.
Qed.
Lemma list_int m' l : int_data m' -> no_floats m' -> item_list m' = Ok l -> Forall is_int l.
Proof.
  intros D' F. unfold item_list. destruct (values_exact m' ["item"] (in_wf m' D') F) as (ty & U & E).
  { intros c Hc. apply (EvalSpec.in_cols m' D'). simpl in *. tauto. }
  rewrite E. cbn [bind]. rewrite mapM_map.
  rewrite (mapM_Ok _ item_of (rows_of m')).
  - intro X. injection X as <-. apply (items_int m'); auto.
  - intros r Hr. unfold rec_of. cbn [map]. change (String.eqb "item" "rid") with false. cbn iota. rewrite U, (val_item m' D') by auto. reflexivity.
Qed.
Lemma positives_int npos g ps : positives mu (lit_text t) npos g = Ok (Some ps) -> Forall is_int (map fst ps).
Proof.
  unfold positives. rewrite (select_liked mu Dmu t Ht). cbn [bind]. destruct (item_pairs mp) as [qs|] eqn:E; [|discriminate]. cbn [bind].
  pose proof (pairs_int mp qs Dmp (sub_floats _ _ (sub_floats _ _ Nf)) E) as H. destruct npos as [n|].
  - destruct (_ <? _); [discriminate|]. intro X. injection X as <-. rewrite <- at_map. apply at_int. exact H.
  - intro X. injection X as <-. exact H.
Qed.
Lemma gen_int fuel n black need s : forall k have l, Forall is_int have -> gen_negs fuel n black need s k have = Some (Ok l) -> Forall is_int l.
Proof.
  induction fuel as [|fuel IH]; intros k have l H; cbn [gen_negs]; destruct (need <=? _).
  - intro X. injection X as <-. exact H.
  - discriminate.
  - intro X. injection X as <-. exact H.
  - destruct (randint s k 0 _) as [x|]; [|discriminate]. destruct (_ || _); apply IH; [exact H|]. apply Forall_app. split; [exact H|]. constructor; [exists x; auto|constructor].
Qed.
Lemma negatives_int fmul fuel train_ev a np g l : e_thr a = lit_text t -> negatives fmul fuel md train_ev a mu mp (VInt z) np g = Some (Ok (Some l)) -> Forall is_int l.
Proof.
  intros Et. unfold negatives. rewrite Et, (select_disliked mu Dmu t Ht). cbn [bind]. destruct (item_list mn) as [ns|] eqn:E; [|discriminate].
  pose proof (list_int mn ns Dmn (sub_floats _ _ (sub_floats _ _ Nf)) E) as H. destruct (e_nneg a) as [nn|].
  2:{ intro X. injection X as <-. exact H. }
  cbv zeta. set (have := at_positions ns _). assert (Hh : Forall is_int have) by (apply at_int; exact H). destruct (_ && _).
  2:{ intro X. injection X as <-. exact Hh. }
  destruct (blacklist _ _ _ _ _) as [black|]; [|discriminate]. destruct (_ <? _); [discriminate|].
  destruct (gen_negs _ _ _ _ _ _ _) as [[l'|]|] eqn:G; try discriminate. intro X. injection X as <-. eapply gen_int; eauto.
Qed.
Lemma rels_ints items rels : Forall is_int items -> relevancies mu items = Ok rels -> Forall (fun p => is_int (fst p)) rels.
Proof.
  intros F E. apply Forall_forall. intros p Hp. unfold relevancies in E. destruct (MemFacts6.mapM_In _ _ _ _ E Hp) as (v & Iv & Ev).
  destruct (relevancy mu v); [|discriminate]. cbn [bind] in Ev. injection Ev as <-. apply dedup_acc_incl in Iv. rewrite Forall_forall in F. apply (F v Iv).
Qed.
Lemma rank_user_ints fmul fuel train_ev a g c : e_thr a = lit_text t -> rank_user fmul fuel md train_ev mt a (VInt z) g = Some (Ok (Some c)) -> ints c.
Proof.
  intros Et. unfold rank_user. rewrite Et, (select_user_ok mt Dt z Hz). cbn [bind]. rewrite (select_liked mu Dmu t Ht). cbn [bind].
  destruct (positives mu (lit_text t) (e_npos a) g) as [[ps|]|] eqn:E; try discriminate. cbn [bind]. pose proof (positives_int _ _ _ E) as Hp.
  destruct (negatives fmul fuel md train_ev a mu mp (VInt z) (length ps) g) as [[[ns|]|]|] eqn:En; try discriminate. pose proof (negatives_int _ _ _ _ _ _ _ Et En) as Hn.
  assert (Hi : Forall is_int (map fst ps ++ ns)) by (apply Forall_app; auto). destruct (map fst ps ++ ns) as [|v items]; [discriminate|]. cbv zeta. intro X.
  match type of X with Some ?r = Some _ => assert (X' : r = Ok (Some c)) by congruence end. clear X.
  match type of X' with bind ?r _ = _ => destruct r as [recs|]; [|discriminate] end. cbn [bind] in X'.
  match type of X' with bind ?r _ = _ => destruct r as [rels|] eqn:Er; [|discriminate] end. cbn [bind] in X'.
  injection X' as <-. split; [exact Hp|]. split; [apply best_int; exact Hp|]. eapply rels_ints; [apply at_int; exact Hi|exact Er].
Qed.
Lemma rec_user_ints a g c : r_thr a = lit_text t -> rec_user md mt a (VInt z) g = Ok (Some c) -> ints c.
Proof.
  intros Et. unfold rec_user. rewrite Et, (select_user_ok mt Dt z Hz). cbn [bind].
  destruct (positives mu (lit_text t) (r_npos a) g) as [[ps|]|] eqn:E; try discriminate. cbn [bind]. pose proof (positives_int _ _ _ E) as Hp.
  destruct ps as [|p ps]; [discriminate|]. destruct (max_list (r_k a)) as [n|]; [|discriminate]. cbn [bind].
  destruct (md_recommend md (VInt z) n (r_novelty a) (r_low a)) as [recs|] eqn:Er; [|discriminate]. cbn [bind].
  destruct (relevancies mu (map fst (p :: ps) ++ recs)) as [rels|] eqn:Ev; [|discriminate]. cbn [bind]. intro X. injection X as <-.
  split; [exact Hp|]. split; [exact (best_int _ Hp)|]. eapply rels_ints; [|exact Ev]. apply Forall_app. split; [exact Hp|]. apply small_ints, (Irec _ _ _ _ _ Er).
Qed.
End Users.
