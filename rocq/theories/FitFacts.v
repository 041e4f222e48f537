(** Lemmas about the start of fit and about repeated fits. *)
From Coq Require Import String Ascii.
From Coq Require Import List ZArith QArith Qcanon Bool Lia.
From Verif Require Import Py PyFacts MemModel MemSpec MemFacts MemFacts2 MemFacts3 MemFacts4 MemFacts5 MemFacts6 RankFacts.
From Verif Require Import FitModel.
Import ListNotations.
Open Scope string_scope.
Open Scope Z_scope.

Lemma assigned_col_type m c t : c <> "uid" -> c <> "iid" -> col_type m c = Ok t -> col_type (assigned m) c = Ok t.
Proof.
  intros Nu Ni H. unfold col_type in *. rewrite assigned_types.
  destruct (String.eqb c "rid"); auto.
  rewrite !(assoc_set_other _ reflects_string) by auto. exact H.
Qed.
Lemma assigned_keeps_columns m c : In c (m_columns m) -> In c (m_columns (assigned m)).
Proof.
  intros H. unfold assigned. cbn [m_columns]. unfold add_column at 1.
  assert (X : In c (m_columns (set_columns m (add_column m "uid")))).
  { cbn. unfold add_column. destruct (mem_b String.eqb "uid" (m_columns m)); auto. apply in_app_iff. auto. }
  destruct (mem_b String.eqb "iid" _); auto. apply in_app_iff. auto.
Qed.
Lemma row_val_cell r c : c <> "rid" -> row_val r c = cell r c.
Proof. intros H. unfold row_val. apply String.eqb_neq in H. rewrite H. reflexivity. Qed.
Lemma assigned_in_rows m r' : In r' (rows_of (assigned m)) <-> exists r, In r (rows_of m) /\ r' = coded_row m r.
Proof. rewrite assigned_rows, in_map_iff. split; intros [r [A B]]; exists r; auto. Qed.
Lemma assigned_same_raw m : Forall2 same_raw (rows_of m) (rows_of (assigned m)).
Proof.
  rewrite assigned_rows. apply coded_same_raw.
Qed.

Definition low_of (lo v : value) : Prop :=
  num lo <> 1%Qc /\ (num v = num lo \/ num v = 1%Qc /\ num lo = 0%Qc).

Section Start.
Variables (m : mem) (tu ti tx : dtype).
Hypotheses (W : wf_mem m) (Tu : col_type m "user" = Ok tu) (Ti : col_type m "item" = Ok ti)
  (Tx : col_type m "interaction" = Ok tx) (Nx : tx <> DObj) (Cx : In "interaction" (m_columns m)).

Lemma begin_ok : rows_of m <> [] -> exists info lo hi,
  begin_fit m false = (assigned m, Ok info) /\
  fi_users info = n_distinct "user" m /\ fi_items info = n_distinct "item" m /\
  fi_rows info = length (rows_of m) /\ fi_min info = Some lo /\ fi_max info = Some hi /\
  (forall r v, In r (rows_of m) -> cell r "interaction" = Some v -> (num lo <= num v <= num hi)%Qc) /\
  (exists r v, In r (rows_of m) /\ cell r "interaction" = Some v /\ num v = num hi) /\
  (exists r v, In r (rows_of m) /\ cell r "interaction" = Some v /\ low_of lo v).
Proof.
  intros NE.
  assert (Wa := wf_assigned m tu ti W Tu Ti).
  assert (Ta := assigned_col_type m "interaction" tx ltac:(discriminate) ltac:(discriminate) Tx).
  assert (Ca := assigned_keeps_columns m _ Cx).
  assert (NA : rows_of (assigned m) <> []) by (rewrite assigned_rows; destruct (rows_of m); [contradiction|discriminate]).
  destruct (min_spec _ _ tx Wa Ca Ta Nx NA) as (a & ra & A1 & A2 & A3 & A4).
  destruct (max_spec _ _ tx Wa Ca Ta Nx NA) as (b & rb & B1 & B2 & B3 & B4).
  rewrite row_val_cell in A3, B3 by discriminate.
  assert (Co := assigned_contig m tu ti tx W Tu Ti Tx Nx NE).
  assert (RV : forall r v, In r (rows_of m) -> cell r "interaction" = Some v ->
            In (coded_row m r) (rows_of (assigned m)) /\ row_val (coded_row m r) "interaction" = Some v).
  { intros r v I E. split; [apply assigned_in_rows; eauto|]. rewrite row_val_cell by discriminate.
    rewrite coded_row_other by discriminate. exact E. }
  assert (NB : num_of a = Some (num a)).
  { destruct (cg_row _ _ _ Co ra A2) as (u & i & _ & _ & _ & _ & v & E & N). rewrite A3 in E. injection E as <-.
    unfold num. destruct (num_of a); [reflexivity|contradiction]. }
  unfold begin_fit. rewrite (assign_ok m tu ti Tu Ti). unfold statistics.
  rewrite A1. cbn [bind]. rewrite B1. cbn [bind].
  rewrite (contig_count_u _ _ _ Co), (contig_count_i _ _ _ Co). cbn [bind].
  unfold log_initial_info. cbn [fi_users fi_items].
  assert (Z0 : Nat.eqb (n_distinct "user" m * n_distinct "item" m) 0 = false).
  { apply Nat.eqb_neq. assert (P1 := cg_n _ _ _ Co). assert (P2 := cg_p _ _ _ Co). nia. }
  rewrite Z0. cbn [bind].
  assert (LO : exists lo, lowered (Some a) = Some lo /\ low_of lo a /\ (num lo <= num a)%Qc).
  { unfold lowered. rewrite NB. destruct (Qc_eq_bool (num a) 1) eqn:E.
    - apply Qc_eq_bool_correct in E. exists (VInt 0). split; auto. split.
      + split; [vm_compute; discriminate|]. right. split; auto.
      + rewrite E. vm_compute. discriminate.
    - exists a. split; auto. split; [|apply Qcle_refl]. split; auto. intros X. rewrite X in E. vm_compute in E. discriminate. }
  destruct LO as (lo & EL & LO & LE).
  exists (mkInfo (Some lo) (Some b) (n_distinct "user" m) (n_distinct "item" m) (length (rows_of m))), lo, b.
  split. { rewrite EL. f_equal. do 2 f_equal. unfold mem_len. rewrite assigned_rows, map_length. reflexivity. }
  repeat (split; [reflexivity|]). split; [|split].
  - intros r v I E. destruct (RV r v I E) as [I' E']. split; [|exact (B4 _ _ I' E')].
    eapply Qcle_trans; [exact LE|exact (A4 _ _ I' E')].
  - apply assigned_in_rows in B2. destruct B2 as [r [I ->]]. rewrite coded_row_other in B3 by discriminate. exists r, b. auto.
  - apply assigned_in_rows in A2. destruct A2 as [r [I ->]]. rewrite coded_row_other in A3 by discriminate. exists r, a. auto.
Qed.

Lemma begin_empty : rows_of m = [] -> snd (begin_fit m false) = Err ZeroDivisionError.
Proof.
  intros R.
  assert (Ra : rows_of (assigned m) = []) by (rewrite assigned_rows, R; reflexivity).
  assert (Ta := assigned_col_type m "interaction" tx ltac:(discriminate) ltac:(discriminate) Tx).
  assert (Ca := assigned_keeps_columns m _ Cx).
  destruct (assigned_has_cols m) as [Hu Hi]. assert (Wa := wf_assigned m tu ti W Tu Ti).
  assert (Cu := col_type_ok _ _ Wa Hu). assert (Ci := col_type_ok _ _ Wa Hi).
  unfold begin_fit. rewrite (assign_ok m tu ti Tu Ti). cbn [snd]. unfold statistics.
  assert (M : forall f, col_extremum f (assigned m) "interaction" = Ok None).
  { intros f. unfold col_extremum, validate_column, col_in. apply (mem_b_In _ reflects_string) in Ca. rewrite Ca. cbn [bind].
    rewrite ?Ta. cbn [bind]. rewrite Ra. reflexivity. }
  unfold mem_min, mem_max. rewrite !M. cbn [bind].
  rewrite !count_unique_one by (auto; discriminate). rewrite Ra. cbn [map bind].
  reflexivity.
Qed.
End Start.

(** ** Updates *)
Open Scope nat_scope.

(** the entry can be updated *)
Definition updatable (linked : var -> bool) (e : entry) : Prop :=
  match e with Tensor v => linked v = true | Group vs => vs = [] \/ exists v, In v vs /\ linked v = true end.

Lemma updates_ok linked e : updatable linked e <-> exists l, updates_of linked e = Ok l.
Proof.
  destruct e as [v|vs]; cbn [updatable updates_of].
  - destruct (linked v); split; intros H; eauto; try discriminate. destruct H; discriminate.
  - destruct vs as [|v0 vs]; [split; eauto|].
    destruct (filter linked (v0 :: vs)) as [|w l] eqn:F.
    + split; [|intros [? H]; discriminate]. intros [H|[v [I E]]]; [discriminate|].
      exfalso. assert (X : In v (filter linked (v0 :: vs))) by (apply filter_In; auto). rewrite F in X. exact X.
    + split; [eauto|]. intros _. right. exists w. assert (X : In w (filter linked (v0 :: vs))) by (rewrite F; left; auto).
      apply filter_In in X. exact X.
Qed.
Lemma epoch_ok linked es : snd (epoch_updates linked es) = None <-> Forall (updatable linked) es.
Proof.
  induction es as [|e es IH]; cbn [epoch_updates]; [split; auto; intros; reflexivity|].
  destruct (updates_of linked e) as [l|x] eqn:E.
  - destruct (epoch_updates linked es) as [l' o]. cbn [snd] in *. split.
    + intros ->. constructor; [apply updates_ok; eauto|apply IH; auto].
    + intros H. inversion H; subst. apply IH; auto.
  - cbn [snd]. split; [discriminate|]. intros H. inversion H as [|? ? U]; subst. apply updates_ok in U. destruct U as [l U]. congruence.
Qed.

(** the variables of an entry *)
Definition vars_of (e : entry) : list var := match e with Tensor v => [v] | Group vs => vs end.

Lemma updates_filter linked e l : updates_of linked e = Ok l -> l = filter linked (vars_of e).
Proof.
  destruct e as [v|vs]; cbn [updates_of vars_of filter].
  - destruct (linked v); congruence.
  - destruct vs as [|v0 vs]; [cbn; congruence|]. destruct (filter linked (v0 :: vs)) eqn:F; [discriminate|]. congruence.
Qed.
Lemma epoch_filter linked es : snd (epoch_updates linked es) = None ->
  fst (epoch_updates linked es) = filter linked (flat_map vars_of es).
Proof.
  induction es as [|e es IH]; cbn [epoch_updates flat_map]; auto.
  destruct (updates_of linked e) as [l|x] eqn:E; [|discriminate].
  destruct (epoch_updates linked es) as [l' o]. cbn [fst snd] in *. intros ->.
  rewrite filter_app, <- (updates_filter _ _ _ E), IH; auto.
Qed.

Lemma registered_S n k : registered n (S k) = (registered n k ++ n_entries n (S k))%list.
Proof. unfold registered. rewrite seq_S, map_app, concat_app. cbn. rewrite app_nil_r. reflexivity. Qed.
Lemma registered_first n k : exists es, registered n k = (n_entries n 0 ++ es)%list.
Proof. unfold registered. cbn [seq map concat]. eauto. Qed.

Lemma epoch_app_err linked es es' l x : epoch_updates linked es = (l, Some x) ->
  epoch_updates linked (es ++ es') = (l, Some x).
Proof.
  revert l. induction es as [|e es IH]; intros l; cbn [app epoch_updates]; [congruence|].
  destruct (updates_of linked e); [|congruence].
  destruct (epoch_updates linked es) as [l1 o1]. intros H. injection H as <- ->. rewrite (IH l1); auto.
Qed.
Lemma epoch_app_ok linked es es' l : epoch_updates linked es = (l, None) ->
  epoch_updates linked (es ++ es') = let '(l', o) := epoch_updates linked es' in ((l ++ l')%list, o).
Proof.
  revert l. induction es as [|e es IH]; intros l; cbn [app epoch_updates]; intros H.
  - injection H as <-. destruct (epoch_updates linked es'). reflexivity.
  - destruct (updates_of linked e) as [a|]; [|discriminate]. destruct (epoch_updates linked es) as [l1 o1].
    injection H as <- ->. rewrite (IH l1 eq_refl). destruct (epoch_updates linked es'). rewrite app_assoc. reflexivity.
Qed.

Lemma own_same k i : own k (k, i) = true.
Proof. unfold own. cbn. apply Nat.eqb_refl. Qed.
Lemma own_other k j i : j <> k -> own k (j, i) = false.
Proof. unfold own. cbn. apply Nat.eqb_neq. Qed.

Lemma cdae_again k : 1 <= k -> fit_updates cdae_network k = ([], Some TypeError).
Proof.
  intros H. unfold fit_updates. destruct (registered_first cdae_network k) as [es ->].
  apply epoch_app_err.
  cbn [n_entries cdae_network map seq epoch_updates updates_of n_linked]. rewrite own_other by lia. reflexivity.
Qed.

Lemma caser_again l k : 1 <= k -> exists vs, fit_updates (caser_network l) k = (vs, Some ValueError) /\
  forall v, In v vs -> fst v = 0.
Proof.
  intros H. unfold fit_updates. destruct (registered_first (caser_network l) k) as [es ->].
  set (f := own_or_kernel k).
  assert (E : n_linked (caser_network l) k = f) by reflexivity. rewrite E.
  assert (K : forall i, f (0, 2 * i) = true).
  { intros i. unfold f, own_or_kernel. cbn [snd]. rewrite Nat.even_mul. cbn. apply orb_true_r. }
  assert (K' : forall i, f (0, 1 + 2 * i) = false).
  { intros i. unfold f, own_or_kernel. rewrite own_other by lia. cbn [snd orb]. rewrite Nat.even_add, Nat.even_mul. reflexivity. }
  assert (P : forall es0, (forall e, In e es0 -> exists i, e = Group [(0, 2 * i)] \/ e = Group [(0, 2 * i); (0, 1 + 2 * i)]) ->
     exists vs, epoch_updates f es0 = (vs, None) /\ forall v, In v vs -> fst v = 0).
  { induction es0 as [|e es0 IH]; intros G; [exists []; split; auto; intros v []|].
    destruct (IH ltac:(intros; apply G; right; auto)) as [vs [E1 E2]].
    destruct (G e ltac:(left; auto)) as [i [-> | ->]]; exists ((0, 2 * i) :: vs); cbn [epoch_updates updates_of filter];
      rewrite ?K, ?K', E1; (split; [reflexivity|]); intros v [<-|I]; auto. }
  change (n_entries (caser_network l) 0) with
    ([Group [(0, 0)]; Group [(0, 2)]; Group [(0, 4); (0, 5)]] ++
     map (fun i => Group [(0, 6 + 2 * i); (0, 7 + 2 * i)]) (seq 0 l) ++
     [Group [(0, 6 + 2 * l); (0, 7 + 2 * l)]; Group [(0, 8 + 2 * l)]; Group [(0, 9 + 2 * l)]])%list.
  set (es0 := ([Group [(0, 0)]; Group [(0, 2)]; Group [(0, 4); (0, 5)]] ++
     map (fun i => Group [(0, 6 + 2 * i); (0, 7 + 2 * i)]) (seq 0 l) ++
     [Group [(0, 6 + 2 * l); (0, 7 + 2 * l)]; Group [(0, 8 + 2 * l)]])%list).
  destruct (P es0) as [vs [E1 E2]].
  { intros e I. unfold es0 in I. rewrite !in_app_iff, in_map_iff in I. cbn [In] in I.
    destruct I as [[<-|[<-|[<-|[]]]]|[[i [<- _]]|[<-|[<-|[]]]]].
    - exists 0. auto.
    - exists 1. auto.
    - exists 2. auto.
    - exists (3 + i). right. replace (2 * (3 + i)) with (6 + 2 * i) by lia. reflexivity.
    - exists (3 + l). right. replace (2 * (3 + l)) with (6 + 2 * l) by lia. reflexivity.
    - exists (4 + l). left. replace (2 * (4 + l)) with (8 + 2 * l) by lia. reflexivity. }
  exists vs. split; auto.
  apply epoch_app_err.
  assert (A : ([Group [(0, 0)]; Group [(0, 2)]; Group [(0, 4); (0, 5)]] ++
     map (fun i => Group [(0, 6 + 2 * i); (0, 7 + 2 * i)]) (seq 0 l) ++
     [Group [(0, 6 + 2 * l); (0, 7 + 2 * l)]; Group [(0, 8 + 2 * l)]; Group [(0, 9 + 2 * l)]] =
     es0 ++ [Group [(0, 9 + 2 * l)]])%list).
  { unfold es0. rewrite <- !app_assoc. reflexivity. }
  rewrite A, (epoch_app_ok _ _ _ _ E1). cbn [epoch_updates updates_of filter].
  replace (9 + 2 * l) with (1 + 2 * (4 + l)) by lia. rewrite K'. rewrite app_nil_r. reflexivity.
Qed.

Lemma dense_head k s n : 1 <= n -> exists l, dense k (2 * s) n = (k, 2 * s) :: l.
Proof.
  intros H. destruct n as [|n]; [lia|]. unfold dense. replace (2 * S n) with (S (S (2 * n))) by lia.
  cbn [seq map]. rewrite Nat.add_0_r. eauto.
Qed.
Lemma kernel_linked k j s : own_or_kernel k (j, 2 * s) = true.
Proof. unfold own_or_kernel. cbn [snd]. rewrite Nat.even_mul. cbn. apply orb_true_r. Qed.

Lemma dmf_again a b k : 1 <= a -> 1 <= b -> snd (fit_updates (dmf_network a b) k) = None.
Proof.
  intros Ha Hb. apply epoch_ok. unfold registered. rewrite Forall_concat, Forall_map, Forall_forall.
  intros j _. cbn [n_entries dmf_network].
  assert (G : forall s n, 1 <= n -> updatable (own_or_kernel k) (Group (dense j (2 * s) n))).
  { intros s n H. right. exists (j, 2 * s). split; [|apply kernel_linked].
    destruct (dense_head j s n H) as [l ->]. left. auto. }
  constructor; [exact (G 0 a Ha)|]. constructor; [exact (G a b Hb)|constructor].
Qed.

(** every variable of fit [k] is updated, none twice *)
Definition all_updated (n : network) (k : nat) : Prop :=
  snd (fit_updates n k) = None /\ NoDup (fst (fit_updates n k)) /\
  forall v, In v (flat_map vars_of (n_entries n k)) -> In v (fst (fit_updates n k)).

Lemma all_updated_from n k :
  snd (fit_updates n k) = None -> NoDup (flat_map vars_of (registered n k)) ->
  (forall v, In v (flat_map vars_of (n_entries n k)) -> n_linked n k v = true) -> all_updated n k.
Proof.
  intros H N L. unfold all_updated. split; auto. unfold fit_updates in *. rewrite (epoch_filter _ _ H). split.
  - apply NoDup_filter; auto.
  - intros v Hv. apply filter_In. split; auto. apply in_flat_map in Hv. destruct Hv as [e [He Hv]].
    apply in_flat_map. exists e. split; auto. destruct k as [|k]; [|rewrite registered_S; apply in_or_app; auto].
    unfold registered. cbn. rewrite app_nil_r. exact He.
Qed.

Lemma NoDup_append {A} (l l' : list A) : NoDup l -> NoDup l' -> (forall x, In x l -> ~ In x l') -> NoDup (l ++ l').
Proof.
  induction 1 as [|x l Hx Hl IH]; intros N D; auto. cbn [app]. constructor.
  - intros I. apply in_app_or in I. destruct I as [I|I]; [auto|]. apply (D x); [left; auto|auto].
  - apply IH; auto. intros y Hy. apply D. right. auto.
Qed.
Lemma NoDup_pairs N ks : NoDup ks -> NoDup (flat_map (fun j => map (fun i => (j, i) : var) (seq 0 N)) ks).
Proof.
  induction ks as [|k ks IH]; intros H; cbn [flat_map]; [constructor|]. inversion H; subst.
  apply NoDup_append; auto.
  - apply FinFun.Injective_map_NoDup; [intros x y E; congruence|apply seq_NoDup].
  - intros v I1 I2. apply in_map_iff in I1. destruct I1 as [i [<- _]].
    apply in_flat_map in I2. destruct I2 as [j [Hj I2]]. apply in_map_iff in I2. destruct I2 as [i' [E _]]. congruence.
Qed.
Lemma flat_map_concat_map {A B C} (f : B -> list C) (g : A -> list B) l :
  flat_map f (concat (map g l)) = flat_map (fun x => flat_map f (g x)) l.
Proof. induction l as [|x l IH]; simpl; auto. rewrite flat_map_app, IH. reflexivity. Qed.

Lemma dmf_vars a b k : flat_map vars_of (n_entries (dmf_network a b) k) = map (fun i => (k, i)) (seq 0 (2 * a + 2 * b)).
Proof.
  cbn [n_entries dmf_network flat_map vars_of]. unfold dense. rewrite app_nil_r, seq_app, map_app. f_equal.
  cbn [plus]. rewrite <- (map_map (fun i => 2 * a + i) (fun i => (k, i))). f_equal.
  generalize (2 * b) as c, (2 * a) as s. intros c s. induction c as [|c IH]; auto.
  rewrite !seq_S, map_app, IH. reflexivity.
Qed.

Lemma dmf_all a b k : 1 <= a -> 1 <= b -> all_updated (dmf_network a b) k.
Proof.
  intros Ha Hb. apply all_updated_from; [apply dmf_again; auto| |].
  - unfold registered. rewrite flat_map_concat_map.
    rewrite (flat_map_ext _ (fun j => map (fun i => (j, i)) (seq 0 (2 * a + 2 * b))) (dmf_vars a b)).
    apply NoDup_pairs, seq_NoDup.
  - intros v Hv. rewrite dmf_vars in Hv. apply in_map_iff in Hv. destruct Hv as [i [<- _]].
    cbn [n_linked dmf_network]. unfold own_or_kernel. rewrite own_same. reflexivity.
Qed.

Lemma cdae_first : all_updated cdae_network 0.
Proof.
  apply all_updated_from; [reflexivity| |].
  - cbn. repeat constructor; cbn; intuition congruence.
  - cbn. intuition; subst; reflexivity.
Qed.

Lemma caser_vars l k : flat_map vars_of (n_entries (caser_network l) k) =
  map (fun i => (k, i)) ([0; 2] ++ seq 4 (6 + 2 * l))%list.
Proof.
  cbn [n_entries caser_network]. rewrite !flat_map_app. cbn [flat_map vars_of app].
  assert (E : flat_map vars_of (map (fun i => Group [(k, 6 + 2 * i); (k, 7 + 2 * i)]) (seq 0 l)) =
              map (fun i => (k, i)) (seq 6 (2 * l))).
  { induction l as [|l IH]; auto. rewrite seq_S, map_app, flat_map_app, IH. cbn [map flat_map vars_of app plus].
    replace (2 * S l) with (2 * l + 2) by lia. rewrite seq_app, map_app. f_equal. }
  rewrite E.
  assert (Q : seq 4 (6 + 2 * l) = (4 :: 5 :: seq 6 (2 * l) ++ [6 + 2 * l; 7 + 2 * l; 8 + 2 * l; 9 + 2 * l])%list).
  { replace (6 + 2 * l) with (2 + (2 * l + 4)) at 1 by lia. cbn [seq plus]. do 2 f_equal. rewrite seq_app. reflexivity. }
  rewrite Q. cbn [app map]. rewrite map_app. reflexivity.
Qed.
Lemma caser_first l : all_updated (caser_network l) 0.
Proof.
  apply all_updated_from.
  - apply epoch_ok. unfold registered. cbn [seq map concat]. rewrite app_nil_r. apply Forall_forall.
    intros e He.
    assert (X : vars_of e <> [] /\ forall v, In v (vars_of e) -> own_or_kernel 0 v = true).
    { assert (Y : forall v, In v (vars_of e) -> own_or_kernel 0 v = true).
      { intros v Hv. assert (I : In v (flat_map vars_of (n_entries (caser_network l) 0))) by (apply in_flat_map; eauto).
        rewrite caser_vars in I. apply in_map_iff in I. destruct I as [i [<- _]].
        unfold own_or_kernel. rewrite own_same. reflexivity. }
      split; auto. cbn [n_entries caser_network] in He. rewrite !in_app_iff, in_map_iff in He. cbn [In] in He.
      destruct He as [[<-|[<-|[<-|[]]]]|[[i [<- _]]|[<-|[<-|[<-|[]]]]]]; discriminate. }
    destruct e as [v|[|v vs]]; cbn [vars_of] in X.
    + apply X. left; auto.
    + left; auto.
    + right. exists v. split; [left; auto|]. apply X. left. auto.
  - unfold registered. cbn [seq map concat]. rewrite app_nil_r, caser_vars.
    apply FinFun.Injective_map_NoDup; [intros x y E; congruence|].
    cbn [app]. constructor; [|constructor; [|apply seq_NoDup]]; cbn [In]; rewrite ?in_seq; lia.
  - intros v Hv. rewrite caser_vars in Hv. apply in_map_iff in Hv. destruct Hv as [i [<- _]].
    cbn [n_linked caser_network]. unfold own_or_kernel. rewrite own_same. reflexivity.
Qed.
