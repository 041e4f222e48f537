(** The run of the tasks of a split on a database data set. *)
From Coq Require Import String Ascii.
From Coq Require Import List ZArith QArith Qcanon Bool Permutation Sorted Lia.
From Verif Require Import Py PyFacts MemModel MemSpec DbModel DbFacts DbSpec DbFacts2 DbFacts3 DbFacts4
  DbFacts5 DbFacts6 DbFacts7 DbFacts13 DbFacts14 DbFacts15 DbFacts17 SampModel DbGenModel DbGenSpec DbGenFacts DbGenFacts2
  SplitModel DbSplitModel DbSplitSpec DbSplitFacts.
Import ListNotations.
Open Scope string_scope.
Open Scope Z_scope.
Open Scope list_scope.

Section Calls.
Variable inode : string -> nat.
Notation reaches := (reaches inode).

Definition user_cond (z : Z) : list scond := [mkCond "user" Eq (LInt z)].
Definition uds (d : ds) (z : Z) : ds := restricted d (user_cond z).

Lemma user_cond_fits d z : user_ints d -> cond_fits d (mkCond "user" Eq (LInt z)).
Proof.
  intros [(Ic & _) (ts & Ts & A) _]. split; [apply Ic; cbn; auto|]. split; [|exists ts, DInt; cbn [sc_col sc_lit lit_fits]; auto].
  cbn [sc_col]. split; [discriminate|]. cbn. unfold plain_char. repeat split; intro; discriminate.
Qed.
Lemma uds_rows d z : user_ints d -> d_rows (uds d z) = filter (of_user z) (d_rows d).
Proof.
  intros U. unfold uds, restricted, user_cond. cbn [d_rows]. apply filter_ext_in. intros row Hr. cbn [forallb].
  rewrite id_is, andb_true_r. destruct (ui_rows d U row Hr) as [u Hu]. unfold number_is, of_user. rewrite Hu. auto.
Qed.

Lemma select_call w b i d z w' r : reaches w b -> b i = Some d -> user_ints d ->
  select inode i ("user == " ++ user_text (Some (VInt z))) true w = (w', r) ->
  exists j, r = Ok j /\ b j = None /\ reaches w' (note b j (Some (uds d z))) /\ framed i w w' j.
Proof.
  intros R Hb U E. change ("user == " ++ user_text (Some (VInt z)))%string with (query_text (user_cond z)) in E.
  assert (S : safe inode w b (OSelect i (user_cond z) true)).
  { exists d. split; [auto|]. split; [discriminate|]. split; [constructor; [apply user_cond_fits; auto|constructor]|].
    constructor; [exact Logic.I|constructor]. }
  assert (X : exec inode (fun l => l) (OSelect i (user_cond z) true) w = (w', match r with Ok j => Ok (ADs j) | Err e => Err e end)).
  { cbn [exec]. unfold amap. unfold andthen. rewrite E. destruct r; auto. }
  assert (Po : permuting (fun l => l)) by (intro; auto).
  pose proof (Calls inode _ _ _ _ _ _ R Po S X) as R'. pose proof (answer_of inode _ _ _ _ _ _ (reaches_inv _ _ _ R) Po S X) as A.
  destruct r as [j|e].
  - exists j. destruct A as [_ A]. cbn [fresh_result] in A. destruct A as (j' & Ej & Fr). injection Ej as <-.
    split; [auto|]. split; [auto|]. cbn [effect] in R'. rewrite Hb in R'. split; [exact R'|]. eapply select_frame; eauto.
  - exfalso. apply A. exists d. split; [auto|apply U].
Qed.
Lemma drop_call w b i d rids keep w' r : reaches w b -> b i = Some d -> complete d ->
  drop inode i rids true keep w = (w', r) ->
  exists j, r = Ok j /\ b j = None /\ framed i w w' j /\
    reaches w' (note b j (Some (part d (fun row => if keep then listed rids row else negb (listed rids row))))).
Proof.
  intros R Hb C E.
  assert (S : safe inode w b (ODrop i rids true keep)) by (cbn; congruence).
  assert (X : exec inode (fun l => l) (ODrop i rids true keep) w = (w', match r with Ok j => Ok (ADs j) | Err e => Err e end)).
  { cbn [exec]. unfold amap. unfold andthen. rewrite E. destruct r; auto. }
  assert (Po : permuting (fun l => l)) by (intro; auto).
  pose proof (Calls inode _ _ _ _ _ _ R Po S X) as R'. pose proof (answer_of inode _ _ _ _ _ _ (reaches_inv _ _ _ R) Po S X) as A.
  destruct r as [j|e].
  - exists j. destruct A as [_ A]. cbn [fresh_result] in A. destruct A as (j' & Ej & Fr). injection Ej as <-.
    split; [auto|]. split; [auto|]. cbn [effect] in R'. rewrite Hb in R'. split; [eapply drop_frame; eauto|exact R'].
  - exfalso. apply A. exists d. auto.
Qed.
Lemma values_call ord w b i d cols lo w' r : reaches w b -> permuting ord -> b i = Some d ->
  values inode ord i (Some cols) lo w = (w', r) -> reaches w' b /\ (complete d -> incl cols (d_cols d) -> exists vs, r = Ok vs).
Proof.
  intros R Po Hb E. set (o := if lo then OGenerator i (Some cols) else OValues i (Some cols)).
  assert (S : safe inode w b o) by (unfold o; destruct lo; cbn; congruence).
  assert (X : exec inode ord o w = (w', match r with Ok j => Ok (ARows j) | Err e => Err e end)).
  { unfold o. destruct lo; cbn [exec]; unfold amap, andthen; rewrite E; destruct r; auto. }
  pose proof (Calls inode _ _ _ _ _ _ R Po S X) as R'. pose proof (answer_of inode _ _ _ _ _ _ (reaches_inv _ _ _ R) Po S X) as A.
  split; [unfold o in R'; destruct lo; exact R'|]. intros C I. destruct r as [vs|e]; [eauto|]. exfalso. apply A.
  unfold o. destruct lo; cbn [must_succeed]; exists d; auto.
Qed.
Lemma close_gen_call w b : reaches w b -> reaches (fst (close_generator w)) b.
Proof.
  intro R. assert (Po : permuting (fun l => l)) by (intro; auto).
  exact (Calls inode w b (fun l => l) OCloseGenerator (fst (close_generator w)) (Ok AUnit) R Po Logic.I eq_refl).
Qed.
Lemma close_call w b j : reaches w b -> b j <> None -> let w' := fst (close inode j w) in
  reaches w' (note b j None) /\ w_open w' = w_open w /\ w_inst w' j = None /\ forall k, k <> j -> w_inst w' k = w_inst w k.
Proof.
  intros R Hb w'. assert (Po : permuting (fun l => l)) by (intro; auto). pose proof (reaches_inv _ _ _ R) as I.
  destruct (b j) as [d|] eqn:Hd; [|congruence].
  destruct (shows_inst _ _ _ _ (inv_ds _ _ _ I j d Hd)) as (x & Hx & _).
  assert (S : safe inode w b (OClose j)) by (cbn; congruence).
  destruct (close inode j w) as [w1 r] eqn:E. cbn [fst] in w'. subst w'.
  assert (X : exec inode (fun l => l) (OClose j) w = (w1, match r with Ok _ => Ok AUnit | Err e => Err e end)).
  { cbn [exec]. unfold amap, andthen. rewrite E. destruct r; auto. }
  pose proof (Calls inode _ _ _ _ _ _ R Po S X) as R'. pose proof (answer_of inode _ _ _ _ _ _ I Po S X) as A.
  destruct (close_frame _ _ _ _ _ E) as (F1 & F2 & F3 & F4). split; [exact R'|]. split; [auto|]. split; [|auto].
  destruct r as [[]|e]; [auto|]. exfalso. apply A. exact Logic.I.
Qed.
Lemma len_call w b i d : reaches w b -> b i = Some d -> ds_len i w = (w, Ok (length (d_rows d))).
Proof. intros R H. apply (len_is inode w b i d); [apply reaches_inv; auto|auto]. Qed.
Lemma fresh_inst w b j : reaches w b -> (w_next w <= j)%nat -> w_inst w j = None.
Proof. intros R H. apply (b_next inode w (inv_base _ _ _ (reaches_inv _ _ _ R))). auto. Qed.
Lemma book_inst w b j d : reaches w b -> b j = Some d -> w_inst w j <> None.
Proof.
  intros R H. destruct (shows_inst _ _ _ _ (inv_ds _ _ _ (reaches_inv _ _ _ R) j d H)) as (x & Hx & _). congruence.
Qed.

(** ** The invariant of the run *)
Variables (w0 : world) (b0 : book) (i : nat) (d : ds) (temps : list nat) (verbose : bool).
Variable pl : Z -> option value -> nat -> plan.
Variable srt : bool.                                      (* rows are read by record id *)
Variable contrib : Z -> Z -> list Z -> list Z -> Prop.    (* what a task may add *)
Variable us0 : list (Z * Z).                              (* seeds and users *)
Hypothesis Hi : b0 i = Some d.
Hypothesis Hu : user_ints d.
Definition plan_ok : Prop := forall seed z, In z (map snd us0) -> match pl seed (Some (VInt z)) (length (d_rows (uds d z))) with
  | PNothing => contrib seed z [] []
  | PRead cols use => incl cols (d_cols d) /\
      forall l, Permutation l (d_rows (uds d z)) -> (srt = true -> StronglySorted (fun a b => rid_of a <= rid_of b) l) ->
        exists rem test, use (map (cells cols) l) = Ok (rem, test) /\ contrib seed z rem test
  end.
Hypothesis Hpl : plan_ok.

Record slot := mkSlot { s_seed : Z; s_user : Z; s_task : task; s_out : list Z * list Z }.
Definition held1 (t : task) : list nat :=
  match t with Holding _ _ j | Reading j _ | Adding j _ _ | Counting j | Leaving j _ => [j] | _ => [] end.
Definition held (l : list slot) : list nat := flat_map (fun s => held1 (s_task s)) l.
Definition reading1 (t : task) : nat := match t with Reading _ _ => 1 | _ => 0 end.
Definition counted1 (t : task) : nat := match t with Leaving _ _ | Ended => 1 | _ => 0 end.
Definition slot_ok (bt : book) (s : slot) : Prop :=
  match s_task s with
  | Waiting sd u => sd = s_seed s /\ u = Some (VInt (s_user s)) /\ s_out s = ([], [])
  | Holding sd u j => sd = s_seed s /\ u = Some (VInt (s_user s)) /\ s_out s = ([], []) /\ bt j = Some (uds d (s_user s))
  | Reading j r => s_out s = ([], []) /\ exists rem test, r = Ok (rem, test) /\ contrib (s_seed s) (s_user s) rem test
  | Adding j rem test => s_out s = ([], []) /\ contrib (s_seed s) (s_user s) rem test
  | Counting _ | Leaving _ true | Ended => contrib (s_seed s) (s_user s) (fst (s_out s)) (snd (s_out s))
  | Leaving _ false | Failed => False
  end.
Definition rems (l : list slot) : list Z := flat_map (fun s => fst (s_out s)) l.
Definition tests (l : list slot) : list Z := flat_map (fun s => snd (s_out s)) l.
Definition sub1 (m : main) : nat := match m with Submitting => 1 | _ => 0 end.
Record Good (g : prog) (l : list slot) (bt : book) : Prop := {
  go_reach : reaches (g_world g) bt;
  go_tasks : g_tasks g = map s_task l;
  go_users : map (fun s => (s_seed s, s_user s)) l = us0;
  go_slots : Forall (slot_ok bt) l;
  go_rem : Permutation (g_rem g) (rems l);
  go_test : Permutation (g_test g) (tests l);
  go_nodup : NoDup (temps ++ held l);
  go_fresh : forall j, In j (temps ++ held l) -> b0 j = None /\ bt j <> None;
  go_same : forall j, ~ In j (temps ++ held l) -> bt j = b0 j;
  go_inst : forall j, ~ In j (temps ++ held l) -> w_inst w0 j = None -> w_inst (g_world g) j = None;
  go_open : w_open (g_world g) = (w_open w0 + sub1 (g_main g) + list_sum (map (fun s => reading1 (s_task s)) l))%nat;
  go_done : g_done g = list_sum (map (fun s => counted1 (s_task s)) l) }.

Lemma held_app l l' : held (l ++ l') = (held l ++ held l')%list.
Proof. apply flat_map_app. Qed.
Lemma held_cons s l : held (s :: l) = (held1 (s_task s) ++ held l)%list.
Proof. auto. Qed.
Lemma nodup_right {A} (a b : list A) : NoDup (a ++ b) -> NoDup b.
Proof. induction a as [|x a IH]; [auto|]. cbn. intro N. inversion N. auto. Qed.
Lemma nodup_clash {A} (a b : list A) x : NoDup (a ++ b) -> In x a -> In x b -> False.
Proof.
  induction a as [|y a IH]; [intros _ []|]. cbn. intros N [->|H] K; inversion N as [|? ? X1 X2]; subst; [|auto].
  apply X1, in_app_iff. auto.
Qed.
Lemma nodup_mid {A} (l1 h l2 h' : list A) : NoDup (l1 ++ h ++ l2) -> NoDup h' ->
  (forall x, In x h' -> ~ In x l1 /\ ~ In x l2) -> NoDup (l1 ++ h' ++ l2).
Proof.
  intros N Nh H. assert (P : Permutation (l1 ++ h' ++ l2) (h' ++ l1 ++ l2)) by (rewrite !app_assoc; apply Permutation_app_tail, Permutation_app_comm).
  apply (Permutation_NoDup (Permutation_sym P)).
  assert (N2 : NoDup (l1 ++ l2)).
  { assert (Q : Permutation (l1 ++ h ++ l2) (h ++ l1 ++ l2)) by (rewrite !app_assoc; apply Permutation_app_tail, Permutation_app_comm).
    apply (Permutation_NoDup Q) in N. clear -N. induction h as [|a h IH]; [auto|]. cbn in N. inversion N. auto. }
  clear - Nh N2 H. induction h' as [|a h' IH]; [auto|]. cbn [app]. inversion Nh as [|? ? X1 X2]; subst. constructor.
  - rewrite !in_app_iff. intros [?|[?|?]]; [contradiction| |]; destruct (H a (or_introl eq_refl)); contradiction.
  - apply IH; auto. intros x Hx. apply H. right. auto.
Qed.
Lemma set_nth_app {A} (l1 : list A) t t' l2 : Conc.set_nth (length l1) t' (l1 ++ t :: l2) = (l1 ++ t' :: l2)%list.
Proof. induction l1 as [|a l1 IH]; [auto|]. cbn. f_equal. exact IH. Qed.
Lemma slots_split (l : list slot) k t : nth_error (map s_task l) k = Some t ->
  exists l1 s l2, l = (l1 ++ s :: l2)%list /\ length l1 = k /\ s_task s = t.
Proof.
  revert k. induction l as [|s l IH]; intros [|k] H; cbn in H; try discriminate.
  - injection H as <-. exists [], s, l. auto.
  - destruct (IH k H) as (l1 & s' & l2 & -> & <- & E). exists (s :: l1), s', l2. auto.
Qed.
Lemma slot_ok_same bt bt' s : (forall j, In j (held1 (s_task s)) -> bt' j = bt j) -> slot_ok bt s -> slot_ok bt' s.
Proof.
  unfold slot_ok. intros H. destruct (s_task s); auto. intros (A & B & C & D). rewrite H by (left; auto). auto.
Qed.
Lemma list_sum_mid (f : slot -> nat) l1 s l2 : list_sum (map f (l1 ++ s :: l2)) = (list_sum (map f l1) + f s + list_sum (map f l2))%nat.
Proof.
  rewrite map_app, list_sum_app. change (list_sum (map f (s :: l2))) with (f s + list_sum (map f l2))%nat. lia.
Qed.
Lemma mid_perm {A} (g l1 o l2 a : list A) : Permutation g (l1 ++ o ++ l2) -> Permutation (g ++ a) (l1 ++ (o ++ a) ++ l2).
Proof.
  intro P. eapply Permutation_trans; [apply Permutation_app_tail, P|]. rewrite <- !app_assoc. apply Permutation_app_head, Permutation_app_head, Permutation_app_comm.
Qed.

(** One step of one task, by what it changes. *)
Lemma good_task g l1 s l2 bt w' t' rem test n bt' :
  Good g (l1 ++ s :: l2) bt -> (forall r, g_main g <> Returned r) ->
  reaches w' bt' -> slot_ok bt' (mkSlot (s_seed s) (s_user s) t' (fst (s_out s) ++ rem, snd (s_out s) ++ test)) ->
  NoDup (held1 t') ->
  (forall j, In j (held1 t') -> (In j (held1 (s_task s)) \/ bt j = None) /\ bt' j <> None) ->
  (forall j, ~ In j (held1 t') -> In j (held1 (s_task s)) -> bt' j = None /\ w_inst w' j = None) ->
  (forall j, ~ In j (held1 t') -> ~ In j (held1 (s_task s)) -> bt' j = bt j /\ (w_inst (g_world g) j = None -> w_inst w' j = None)) ->
  (w_open w' + reading1 (s_task s) = w_open (g_world g) + reading1 t')%nat ->
  (n + counted1 (s_task s) = counted1 t')%nat ->
  Good (mkProg w' (set_nth_task (length l1) t' (g_tasks g)) (g_rem g ++ rem) (g_test g ++ test) (g_done g + n) (g_main g))
       (l1 ++ mkSlot (s_seed s) (s_user s) t' (fst (s_out s) ++ rem, snd (s_out s) ++ test) :: l2) bt'.
Proof.
  intros G Nr R Ok Nh Hn Hg Hs Ho Hc. pose proof (go_nodup _ _ _ G) as ND. rewrite held_app, held_cons in ND.
  assert (Fh : forall j, In j (temps ++ held l1) \/ In j (held l2) -> In j (temps ++ held (l1 ++ s :: l2))).
  { intros j Hj. rewrite held_app, held_cons. rewrite !in_app_iff in *. tauto. }
  rewrite app_assoc in ND.
  assert (Nb : forall j, In j (held1 (s_task s)) -> ~ In j (temps ++ held l1) /\ ~ In j (held l2)).
  { intros j Hj. split; intro K.
    - eapply nodup_clash; [exact ND|exact K|]. apply in_app_iff. auto.
    - apply nodup_right in ND. eapply nodup_clash; eauto. }
  assert (Nj : forall j, In j (held1 t') -> ~ In j (temps ++ held l1) /\ ~ In j (held l2)).
  { intros j Hj. destruct (Hn j Hj) as [[Hj'|Hj'] _]; [auto|].
    split; intro K; (destruct (go_fresh _ _ _ G j) as [_ X]; [apply Fh; auto|contradiction]). }
  assert (Old : forall j, In j (temps ++ held l1) \/ In j (held l2) -> bt' j = bt j).
  { intros j Hj. apply Hs; intro K; [destruct (Nj j K)|destruct (Nb j K)]; tauto. }
  constructor; cbn [g_world g_tasks g_rem g_test g_done g_main].
  - auto.
  - rewrite (go_tasks _ _ _ G), !map_app. cbn [map]. unfold set_nth_task. rewrite <- (map_length s_task l1). apply set_nth_app.
  - rewrite <- (go_users _ _ _ G), !map_app. auto.
  - pose proof (go_slots _ _ _ G) as F. apply Forall_app in F. destruct F as [F1 F2]. inversion F2 as [|? ? F3 F4]; subst.
    apply Forall_app. split; [|constructor; [auto|]].
    + apply Forall_forall. intros s' Hs'. rewrite Forall_forall in F1. apply (slot_ok_same bt); [|auto].
      intros j Hj. apply Old. left. apply in_app_iff. right. apply in_flat_map. eauto.
    + apply Forall_forall. intros s' Hs'. rewrite Forall_forall in F4. apply (slot_ok_same bt); [|auto].
      intros j Hj. apply Old. right. apply in_flat_map. eauto.
  - unfold rems. rewrite flat_map_app. cbn [flat_map s_out fst]. apply mid_perm. pose proof (go_rem _ _ _ G) as P.
    unfold rems in P. rewrite flat_map_app in P. exact P.
  - unfold tests. rewrite flat_map_app. cbn [flat_map s_out snd]. apply mid_perm. pose proof (go_test _ _ _ G) as P.
    unfold tests in P. rewrite flat_map_app in P. exact P.
  - rewrite held_app, held_cons. cbn [s_task]. rewrite app_assoc.
    apply (nodup_mid _ (held1 (s_task s))); auto.
  - intros j Hj. rewrite held_app, held_cons in Hj. cbn [s_task] in Hj. rewrite app_assoc in Hj.
    apply in_app_iff in Hj. destruct Hj as [Hj|Hj]; [|apply in_app_iff in Hj; destruct Hj as [Hj|Hj]].
    + rewrite Old by auto. apply (go_fresh _ _ _ G). apply Fh. auto.
    + destruct (Hn j Hj) as [[Hb|Hb] Hb']; (split; [|auto]).
      * apply (go_fresh _ _ _ G). rewrite held_app, held_cons, !in_app_iff. auto.
      * destruct (in_dec Nat.eq_dec j (temps ++ held (l1 ++ s :: l2))) as [Hd|Hd].
        -- destruct (go_fresh _ _ _ G j Hd). contradiction.
        -- rewrite <- (go_same _ _ _ G j Hd). auto.
    + rewrite Old by auto. apply (go_fresh _ _ _ G). apply Fh. auto.
  - intros j Hj. rewrite held_app, held_cons in Hj. cbn [s_task] in Hj. rewrite !in_app_iff in Hj.
    destruct (in_dec Nat.eq_dec j (held1 (s_task s))) as [Hk|Hk].
    + destruct (Hg j) as [Hg1 _]; [tauto|auto|]. rewrite Hg1. symmetry. apply (go_fresh _ _ _ G).
      rewrite held_app, held_cons, !in_app_iff. auto.
    + destruct (Hs j) as [-> _]; [tauto|auto|]. apply (go_same _ _ _ G). rewrite held_app, held_cons, !in_app_iff. tauto.
  - intros j Hj Hw. rewrite held_app, held_cons in Hj. cbn [s_task] in Hj. rewrite !in_app_iff in Hj.
    destruct (in_dec Nat.eq_dec j (held1 (s_task s))) as [Hk|Hk].
    + apply Hg; tauto.
    + apply Hs; [tauto|auto|]. apply (go_inst _ _ _ G); [|auto]. rewrite held_app, held_cons, !in_app_iff. tauto.
  - pose proof (go_open _ _ _ G) as O. rewrite list_sum_mid in *. cbn [s_task]. lia.
  - pose proof (go_done _ _ _ G) as O. rewrite list_sum_mid in *. cbn [s_task]. lia.
Qed.

Lemma slot_src g l bt : Good g l bt -> bt i = Some d.
Proof.
  intro G. destruct (in_dec Nat.eq_dec i (temps ++ held l)) as [H|H].
  - destruct (go_fresh _ _ _ G i H). congruence.
  - rewrite (go_same _ _ _ G i H). auto.
Qed.
Lemma uds_complete z : complete (uds d z).
Proof. apply restricted_complete. apply Hu. Qed.

Lemma in_held1 (j : nat) : In j [j]. Proof. left. auto. Qed.
Lemma not_in1 (k j : nat) : ~ In k [j] -> k <> j.
Proof. intros H E. apply H. left. auto. Qed.

Lemma good_step g l bt ord k : Good g l bt -> (forall r, g_main g <> Returned r) -> permuting ord -> (srt = true -> sorting ord) ->
  exists l' bt', Good (prog_step inode pl i temps verbose ord (Some k) g) l' bt'.
Proof.
  intros G Nr Po So. unfold prog_step. destruct (nth_error (g_tasks g) k) as [t|] eqn:Hk; [|eauto].
  assert (Em : forall X Y : prog, match g_main g with Returned _ => X | _ => Y end = Y) by (intros; destruct (g_main g); auto; exfalso; eapply Nr; eauto).
  rewrite Em. rewrite (go_tasks _ _ _ G) in Hk. destruct (slots_split l k t Hk) as (l1 & s & l2 & -> & <- & Et).
  pose proof (slot_src _ _ _ G) as Hbi. pose proof (go_reach _ _ _ G) as R.
  assert (Ok : slot_ok bt s) by (pose proof (go_slots _ _ _ G) as F; rewrite Forall_forall in F; apply F; apply in_app_iff; right; left; auto).
  assert (Hz : In (s_user s) (map snd us0)).
  { rewrite <- (go_users _ _ _ G), map_map. cbn [snd]. apply (in_map (fun s => s_user s)). apply in_app_iff. right. left. auto. }
  assert (Hheld : forall j, In j (held1 t) -> bt j <> None).
  { intros j Hj. apply (go_fresh _ _ _ G). rewrite held_app, held_cons, Et, !in_app_iff. auto. }
  unfold slot_ok in Ok. rewrite Et in Ok.
  destruct t as [sd u|sd u j|j r|j rem test|j|j ok| |]; cbn [task_step].
  - destruct Ok as (-> & -> & Eo). destruct (select inode i _ true (g_world g)) as [w' r] eqn:E.
    destruct (select_call _ _ _ _ _ _ _ R Hbi Hu E) as (j & -> & Fj & R' & F1 & F2 & F3 & F4).
    do 2 eexists. eapply good_task; [exact G|exact Nr|..].
    + exact R'.
    + unfold slot_ok. cbn [s_task s_seed s_user s_out]. rewrite Eo. cbn. rewrite note_same. auto.
    + cbn. constructor; [auto|constructor].
    + rewrite Et. intros j' [<-|[]]. rewrite note_same. split; [auto|discriminate].
    + rewrite Et. intros j' _ [].
    + rewrite Et. intros j' Hj _. apply not_in1 in Hj. rewrite note_other by auto. split; [auto|]. intro Hw.
      destruct (Nat.eq_dec j' i) as [->|Ni]; [exfalso; exact (book_inst _ _ _ _ R Hbi Hw)|]. rewrite F4; auto.
    + rewrite Et. cbn. rewrite F2. auto.
    + rewrite Et. auto.
  - destruct Ok as (-> & -> & Eo & Hj). rewrite (len_call _ _ _ _ R Hj).
    pose proof (Hpl (s_seed s) (s_user s) Hz) as Pl. destruct (pl _ _ _) as [|cols use].
    + do 2 eexists. eapply good_task; [exact G|exact Nr|..].
      * exact R.
      * unfold slot_ok. cbn [s_task s_seed s_user s_out]. rewrite Eo. exact Pl.
      * cbn. constructor; [auto|constructor].
      * rewrite Et. intros j' [<-|[]]. split; [left; left; auto|apply Hheld; left; auto].
      * rewrite Et. cbn [held1]. intros j' X Y. contradiction.
      * rewrite Et. intros j' _ _. auto.
      * rewrite Et. auto.
      * rewrite Et. auto.
    + destruct Pl as [Ic Pl]. destruct (values inode ord j (Some cols) true (g_world g)) as [w' r] eqn:E.
      destruct (values_call _ _ _ _ _ _ _ _ _ R Po Hj E) as [R' Vs]. destruct (Vs (uds_complete _) Ic) as [vs ->].
      destruct (values_read inode _ _ _ _ _ _ _ _ _ Po (reaches_inv _ _ _ R) Hj E) as (rows & Pr & -> & Sr).
      destruct (values_frame _ _ _ _ _ _ _ _ E) as (F1 & F2 & F3 & _).
      destruct (Pl rows Pr (fun H => Sr (So H))) as (rem & test & Eu & Cn). cbn [asked] in *.
      do 2 eexists. eapply good_task; [exact G|exact Nr|..].
      * exact R'.
      * unfold slot_ok. cbn [s_task s_seed s_user s_out]. rewrite Eo. split; [auto|]. exists rem, test. auto.
      * cbn. constructor; [auto|constructor].
      * rewrite Et. intros j' [<-|[]]. split; [left; left; auto|apply Hheld; left; auto].
      * rewrite Et. cbn [held1]. intros j' X Y. contradiction.
      * rewrite Et. cbn [held1]. intros j' Hj' _. apply not_in1 in Hj'. split; [auto|]. rewrite F2; auto.
      * rewrite Et. cbn. rewrite (F3 _ eq_refl). lia.
      * rewrite Et. auto.
  - destruct Ok as (Eo & rem & test & -> & Cn). do 2 eexists. eapply good_task; [exact G|exact Nr|..].
    + apply close_gen_call. exact R.
    + unfold slot_ok. cbn [s_task s_seed s_user s_out]. rewrite Eo. auto.
    + cbn. constructor; [auto|constructor].
    + rewrite Et. intros j' [<-|[]]. split; [left; left; auto|apply Hheld; left; auto].
    + rewrite Et. cbn [held1]. intros j' X Y. contradiction.
    + rewrite Et. intros j' _ _. auto.
    + rewrite Et. cbn. pose proof (go_open _ _ _ G) as O. rewrite list_sum_mid, Et in O. cbn in O. lia.
    + rewrite Et. auto.
  - destruct Ok as (Eo & Cn). do 2 eexists. eapply good_task; [exact G|exact Nr|..].
    + exact R.
    + unfold slot_ok. cbn [s_task s_seed s_user s_out]. rewrite Eo. exact Cn.
    + cbn. constructor; [auto|constructor].
    + rewrite Et. intros j' [<-|[]]. split; [left; left; auto|apply Hheld; left; auto].
    + rewrite Et. cbn [held1]. intros j' X Y. contradiction.
    + rewrite Et. intros j' _ _. auto.
    + rewrite Et. auto.
    + rewrite Et. auto.
  - do 2 eexists. eapply good_task; [exact G|exact Nr|..].
    + exact R.
    + unfold slot_ok. cbn [s_task s_seed s_user s_out fst snd]. rewrite !app_nil_r. exact Ok.
    + cbn. constructor; [auto|constructor].
    + rewrite Et. intros j' [<-|[]]. split; [left; left; auto|apply Hheld; left; auto].
    + rewrite Et. cbn [held1]. intros j' X Y. contradiction.
    + rewrite Et. intros j' _ _. auto.
    + rewrite Et. auto.
    + rewrite Et. auto.
  - destruct ok; [|destruct Ok]. destruct (close_call _ _ _ R (Hheld j (in_held1 j))) as (R' & F1 & F2 & F3).
    do 2 eexists. eapply good_task; [exact G|exact Nr|..].
    + exact R'.
    + unfold slot_ok. cbn [s_task s_seed s_user s_out fst snd]. rewrite !app_nil_r. exact Ok.
    + cbn. constructor.
    + intros j' [].
    + rewrite Et. intros j' _ [<-|[]]. rewrite note_same. auto.
    + rewrite Et. intros j' _ Hj'. apply not_in1 in Hj'. rewrite note_other by auto. split; [auto|]. rewrite F3; auto.
    + rewrite Et. cbn. rewrite F1. auto.
    + rewrite Et. auto.
  - do 2 eexists. eapply good_task; [exact G|exact Nr|..].
    + exact R.
    + unfold slot_ok. cbn [s_task s_seed s_user s_out fst snd]. rewrite !app_nil_r. exact Ok.
    + cbn. constructor.
    + intros j' [].
    + rewrite Et. intros j' _ [].
    + rewrite Et. intros j' _ _. auto.
    + rewrite Et. auto.
    + rewrite Et. auto.
  - destruct Ok.
Qed.

(** ** The end *)
Lemma close_all_spec ts : forall w b, reaches w b -> NoDup ts -> (forall j, In j ts -> b j <> None) ->
  exists w' b', close_all inode ts w = (w', Ok tt) /\ reaches w' b' /\ w_open w' = w_open w /\
    (forall j, In j ts -> b' j = None /\ w_inst w' j = None) /\
    (forall j, ~ In j ts -> b' j = b j /\ w_inst w' j = w_inst w j).
Proof.
  induction ts as [|j ts IH]; intros w b R N H.
  - exists w, b. cbn. repeat split; auto; intros; contradiction.
  - inversion N as [|? ? N1 N2]; subst. cbn [close_all]. destruct (close inode j w) as [w1 r1] eqn:E.
    destruct (close_call w b j R (H j (or_introl eq_refl))) as (R' & F1 & F2 & F3). rewrite E in *. cbn [fst] in *.
    destruct (IH w1 (note b j None)) as (w' & b' & E' & R2 & O & I1 & I2); auto.
    { intros k Hk. rewrite note_other; [apply H; right; auto|]. intros ->. contradiction. }
    exists w', b'. split; [auto|]. split; [auto|]. split; [congruence|]. split.
    + intros k [<-|Hk]; [|auto]. destruct (I2 j N1) as [X Y]. rewrite X, Y, note_same. auto.
    + intros k Hk. assert (k <> j) by (intros ->; apply Hk; left; auto). destruct (I2 k) as [X Y]; [intro; apply Hk; right; auto|].
      rewrite X, Y, note_other, F3; auto.
Qed.

Definition finished (w : world) (r : res (nat * nat)) : Prop :=
  exists tr te l R T, r = Ok (tr, te) /\ map (fun s => (s_seed s, s_user s)) l = us0 /\
    Forall (fun s => contrib (s_seed s) (s_user s) (fst (s_out s)) (snd (s_out s))) l /\
    Permutation R (rems l) /\ Permutation T (tests l) /\
    leaves inode w0 b0 w tr te (part d (fun row => negb (listed (R ++ T) row))) (part d (listed T)).

Lemma good_finish g l bt w r : Good g l bt -> g_main g = Joining -> forallb over (g_tasks g) = true ->
  finish inode i temps (g_rem g) (g_test g) (g_world g) = (w, r) -> finished w r.
Proof.
  intros G Hm Ov E. pose proof (go_reach _ _ _ G) as R. pose proof (slot_src _ _ _ G) as Hbi.
  assert (En : forall s, In s l -> s_task s = Ended).
  { intros s Hs. rewrite (go_tasks _ _ _ G), forallb_forall in Ov. specialize (Ov (s_task s) (in_map _ _ _ Hs)).
    pose proof (go_slots _ _ _ G) as F. rewrite Forall_forall in F. specialize (F s Hs). unfold slot_ok in F.
    destruct (s_task s); try discriminate; [auto|destruct F]. }
  assert (Hh : held l = []).
  { unfold held. clear - En. induction l as [|s l IH]; [auto|]. cbn. rewrite En by (left; auto). cbn. apply IH. intros; apply En; right; auto. }
  assert (Hr : list_sum (map (fun s => reading1 (s_task s)) l) = 0%nat).
  { clear - En. induction l as [|s l IH]; [auto|]. cbn. rewrite En by (left; auto). cbn. apply IH. intros; apply En; right; auto. }
  pose proof (go_open _ _ _ G) as Op. rewrite Hr, Hm in Op. cbn in Op. rewrite !Nat.add_0_r in Op.
  pose proof (go_nodup _ _ _ G) as Nd. pose proof (go_fresh _ _ _ G) as Fr. pose proof (go_same _ _ _ G) as Sm.
  pose proof (go_inst _ _ _ G) as In0. rewrite Hh, app_nil_r in *.
  unfold finish in E. unfold andthen at 1 in E. destruct (drop inode i (g_test g) true true (g_world g)) as [w1 r1] eqn:E1.
  destruct (drop_call _ _ _ _ _ _ _ _ R Hbi (ui_complete d Hu) E1) as (te & -> & Ft & (A1 & A2 & A3 & A4) & R1).
  assert (Nt : te <> i) by congruence.
  assert (Hbi1 : note bt te (Some (part d (fun row => if true then listed (g_test g) row else negb (listed (g_test g) row)))) i = Some d)
    by (rewrite note_other; auto).
  unfold andthen at 1 in E. destruct (drop inode i (g_rem g ++ g_test g) true false w1) as [w2 r2] eqn:E2.
  destruct (drop_call _ _ _ _ _ _ _ _ R1 Hbi1 (ui_complete d Hu) E2) as (tr & -> & Ft2 & (B1 & B2 & B3 & B4) & R2).
  set (b2 := note _ tr _) in R2.
  assert (Ne : tr <> te) by (intros ->; rewrite note_same in Ft2; discriminate). rewrite note_other in Ft2 by auto.
  assert (T1 : forall j, In j temps -> j <> tr /\ j <> te).
  { intros j Hj. destruct (Fr j Hj). split; congruence. }
  destruct (close_all_spec temps w2 b2 R2 Nd) as (w3 & b3 & Ec & R3 & O3 & C1 & C2).
  { intros j Hj. unfold b2. destruct (T1 j Hj). rewrite !note_other by auto. apply Fr. auto. }
  unfold andthen in E. rewrite Ec in E. injection E as <- <-.
  assert (Ntr : ~ In tr temps) by (intro K; apply T1 in K; tauto). assert (Nte : ~ In te temps) by (intro K; apply T1 in K; tauto).
  exists tr, te, l, (g_rem g), (g_test g). split; [auto|]. split; [apply G|]. split.
  { apply Forall_forall. intros s Hs. pose proof (go_slots _ _ _ G) as F. rewrite Forall_forall in F. specialize (F s Hs).
    unfold slot_ok in F. rewrite En in F by auto. auto. }
  split; [apply G|]. split; [apply G|].
  exists b3. split; [auto|]. split; [rewrite <- Sm; auto|]. split; [rewrite <- Sm; auto|]. split; [auto|].
  split; [destruct (C2 tr Ntr) as [-> _]; apply note_same|].
  split; [destruct (C2 te Nte) as [-> _]; unfold b2; rewrite note_other, note_same; auto|].
  split; [|split].
  - intros j N1 N2. destruct (in_dec Nat.eq_dec j temps) as [Hj|Hj].
    + destruct (C1 j Hj) as [-> _]. symmetry. apply Fr. auto.
    + destruct (C2 j Hj) as [-> _]. unfold b2. rewrite !note_other by auto. auto.
  - intros j N1 N2 Hw. destruct (in_dec Nat.eq_dec j temps) as [Hj|Hj]; [apply C1; auto|].
    destruct (C2 j Hj) as [_ ->]. destruct (Nat.eq_dec j i) as [->|Nji].
    + exfalso. specialize (In0 i Hj Hw). exact (book_inst _ _ _ _ R Hbi In0).
    + rewrite B4, A4 by auto. auto.
  - congruence.
Qed.

Theorem run_good sched ords g0 : (exists l bt, Good g0 l bt) -> (forall r, g_main g0 <> Returned r) -> fair_orders ords -> (srt = true -> forall t, sorting (ords t)) ->
  forall t, let g := prog_run inode pl i temps verbose sched ords t g0 in
    match g_main g with Returned r => finished (g_world g) r | _ => exists l bt, Good g l bt end.
Proof.
  intros G0 N0 Po So t. induction t as [|t IH]; cbn [prog_run].
  - destruct (g_main g0) eqn:E; auto. exfalso. eapply N0; eauto.
  - cbv zeta in *. set (g := prog_run _ _ _ _ _ _ _ _ _) in *. clearbody g.
    assert (Rt : forall r, g_main g = Returned r -> prog_step inode pl i temps verbose (ords t) (sched t) g = g).
    { intros r Hr. unfold prog_step, main_step. rewrite Hr. destruct (sched t) as [k|]; [|auto]. destruct (nth_error _ _); auto. }
    destruct (g_main g) as [| | |r] eqn:Hm.
    4:{ rewrite (Rt r eq_refl), Hm. auto. }
    1,2,3: clear Rt; assert (Nr : forall r, g_main g <> Returned r) by (rewrite Hm; discriminate);
      destruct IH as (l & bt & G); destruct (sched t) as [k|];
      [destruct (good_step g l bt (ords t) k G Nr (Po t) (fun H => So H t)) as (l' & bt' & G');
       assert (Hm' : g_main (prog_step inode pl i temps verbose (ords t) (Some k) g) = g_main g)
         by (unfold prog_step; destruct (nth_error (g_tasks g) k); [|auto]; rewrite Hm; destruct (task_step _ _ _ _ _ _) as [[[[? ?] ?] ?] ?]; auto);
       rewrite Hm', Hm; eauto|].
    + unfold prog_step, main_step. rewrite Hm. cbn [g_main].
      assert (X : exists l bt, Good (mkProg (fst (close_generator (g_world g))) (g_tasks g) (g_rem g) (g_test g) (g_done g)
                         (if verbose then Polling else Joining)) l bt).
      { exists l, bt. destruct G. constructor; cbn; auto; [apply close_gen_call; auto|].
        rewrite Hm in *. cbn in *. rewrite go_open0. destruct verbose; cbn; lia. }
      destruct verbose; auto.
    + unfold prog_step, main_step. rewrite Hm. destruct (Nat.leb _ _); [|rewrite Hm; eauto]. cbn [g_main].
      exists l, bt. destruct G. constructor; cbn; auto. rewrite Hm in *. auto.
    + unfold prog_step, main_step. rewrite Hm. destruct (forallb over (g_tasks g)) eqn:Ov; [|rewrite Hm; eauto].
      destruct (finish inode i temps (g_rem g) (g_test g) (g_world g)) as [w r] eqn:Ef. cbn [g_main g_world].
      eapply good_finish; eauto.
Qed.
End Calls.
