(** Facts about rows, tables and the SQL evaluator of DbModel.v. *)
From Coq Require Import String Ascii.
From Coq Require Import List ZArith QArith Qcanon Bool Lia Permutation.
From Verif Require Import Py PyFacts MemModel DbModel.
Import ListNotations.
Open Scope string_scope.
Open Scope Z_scope.

Lemma in_cols_In c cs : in_cols c cs = true <-> In c cs.
Proof. apply mem_b_In, reflects_string. Qed.
Lemma in_cols_false c cs : in_cols c cs = false <-> ~ In c cs.
Proof. rewrite <- in_cols_In. destruct (in_cols c cs); split; intro H; congruence. Qed.
Lemma subset_b_incl a b : subset_b a b = true <-> incl a b.
Proof.
  unfold subset_b. rewrite forallb_forall. split; intros H c Hc; apply in_cols_In, H; auto.
Qed.

(** ** Projections *)
Lemma assoc_map_key {B} (f : string -> B) c cs : In c cs ->
  assoc String.eqb c (map (fun c => (c, f c)) cs) = Some (f c).
Proof.
  induction cs as [|d cs IH]; [intros []|]. intros H. cbn [map assoc].
  destruct (String.eqb c d) eqn:E; [apply String.eqb_eq in E; subst; auto|].
  destruct H as [->|H]; [rewrite String.eqb_refl in E; discriminate|auto].
Qed.
Lemma assoc_map_none {B} (f : string -> B) c cs : ~ In c cs ->
  assoc String.eqb c (map (fun c => (c, f c)) cs) = None.
Proof.
  induction cs as [|d cs IH]; [auto|]. intros H. cbn [map assoc].
  destruct (String.eqb c d) eqn:E; [apply String.eqb_eq in E; subst; exfalso; apply H; left; auto|].
  apply IH. intro Hc. apply H. right. auto.
Qed.
Lemma tcell_proj cs r c : In c cs -> tcell (proj cs r) c = tcell r c.
Proof. intro H. unfold tcell at 1, proj. rewrite (assoc_map_key (tcell r)); auto. Qed.
Lemma tcell_proj_none cs r c : ~ In c cs -> tcell (proj cs r) c = None.
Proof. intro H. unfold tcell, proj. rewrite (assoc_map_none (tcell r)); auto. Qed.
Lemma proj_keys cs r : map fst (proj cs r) = cs.
Proof. unfold proj. rewrite map_map. cbn. apply map_id. Qed.
Lemma proj_proj cs ds r : incl cs ds -> proj cs (proj ds r) = proj cs r.
Proof.
  intro H. unfold proj at 1 3. apply map_ext_in. intros c Hc. rewrite tcell_proj; auto.
Qed.
Lemma proj_ext cs r r' : (forall c, In c cs -> tcell r c = tcell r' c) -> proj cs r = proj cs r'.
Proof. intro H. unfold proj. apply map_ext_in. intros c Hc. rewrite H; auto. Qed.
Lemma rid_proj cs r : In "rid" cs -> rid_of (proj cs r) = rid_of r.
Proof. intro H. unfold rid_of. rewrite tcell_proj; auto. Qed.

Lemma tcell_cons c d v r : tcell ((d, v) :: r) c = if String.eqb c d then v else tcell r c.
Proof. unfold tcell. cbn [assoc]. destruct (String.eqb c d); auto. Qed.
Lemma proj_self r : NoDup (map fst r) -> proj (map fst r) r = r.
Proof.
  induction r as [|[d v] r IH]; [auto|]. cbn [map fst]. intro H. inversion H as [|? ? Hn Hd]; subst.
  unfold proj. cbn [map]. rewrite tcell_cons, String.eqb_refl. f_equal.
  rewrite <- (IH Hd) at 2. unfold proj. apply map_ext_in. intros c Hc.
  rewrite tcell_cons. destruct (String.eqb c d) eqn:E; auto.
  apply String.eqb_eq in E. subst. contradiction.
Qed.
Lemma combine_proj_prefix cs ext r : combine cs (row_values (proj (cs ++ ext) r)) = proj cs r.
Proof.
  unfold row_values, proj. rewrite map_map. cbn [snd].
  induction cs as [|c cs IH]; [auto|]. cbn [app map combine]. f_equal. exact IH.
Qed.

(** ** Column affinity *)
Lemma Qden_one_int q : Qden (this q) = 1%positive -> int_if_integral q = VInt (Qnum (this q)).
Proof. intro H. unfold int_if_integral. rewrite H. auto. Qed.
Lemma int_if_integral_cases q :
  (Qden (this q) = 1%positive /\ int_if_integral q = VInt (Qnum (this q))) \/
  (Qden (this q) <> 1%positive /\ int_if_integral q = VFlt q).
Proof. unfold int_if_integral. destruct (Qden (this q)); [right|right|left]; split; auto; discriminate. Qed.
Lemma affine_int_if q : affine DInt (int_if_integral q) = int_if_integral q.
Proof.
  destruct (int_if_integral_cases q) as [[H E]|[H E]]; rewrite E; cbn [affine]; auto.
Qed.
Lemma affine_idem t v : affine t (affine t v) = affine t v.
Proof.
  destruct t.
  - destruct v as [z|q|s]; cbn [affine]; auto.
    + apply affine_int_if.
    + destruct (Z_of_str s) eqn:E; auto. destruct (float_of_str s) eqn:F; [apply affine_int_if|].
      cbn [affine]. rewrite E, F. auto.
  - destruct v as [z|q|s]; cbn [affine]; auto.
    destruct (float_of_str s) eqn:F; auto. cbn [affine]. rewrite F. auto.
  - auto.
Qed.

(** ** Well-formed tables *)
Record wf_table (tb : table) : Prop := {
  wt_nodup : NoDup (tb_cols tb);
  wt_ids : forall c, In c id_cols -> assoc String.eqb c (tb_types tb) = Some DInt;
  wt_keys : forall r, In r (tb_rows tb) -> map fst r = tb_cols tb;
  wt_rid : forall r, In r (tb_rows tb) -> exists z, tcell r "rid" = Some (VInt z);
  wt_uniq : NoDup (map rid_of (tb_rows tb));
  wt_typed : forall r c t v, In r (tb_rows tb) -> assoc String.eqb c (tb_types tb) = Some t ->
     tcell r c = Some v -> affine t v = v }.

Lemma assoc_In_key {B} c (l : list (string * B)) v : assoc String.eqb c l = Some v -> In c (map fst l).
Proof.
  induction l as [|[d w] l IH]; [discriminate|]. cbn [assoc map fst].
  destruct (String.eqb c d) eqn:E; [apply String.eqb_eq in E; subst; left; auto|right; auto].
Qed.
Lemma key_assoc {B} c (l : list (string * B)) : In c (map fst l) -> exists v, assoc String.eqb c l = Some v.
Proof.
  induction l as [|[d w] l IH]; [intros []|]. cbn [assoc map fst]. intros H.
  destruct (String.eqb c d) eqn:E; [eauto|].
  destruct H as [->|H]; [rewrite String.eqb_refl in E; discriminate|auto].
Qed.
Lemma wt_id_in tb c : wf_table tb -> In c id_cols -> In c (tb_cols tb).
Proof. intros W H. eapply assoc_In_key, wt_ids; eauto. Qed.
Lemma wt_rid_in tb : wf_table tb -> In "rid" (tb_cols tb).
Proof. intro W. apply wt_id_in; auto. left. auto. Qed.
Lemma wt_proj tb r : wf_table tb -> In r (tb_rows tb) -> proj (tb_cols tb) r = r.
Proof.
  intros W H. rewrite <- (wt_keys _ W r H). apply proj_self. rewrite (wt_keys _ W r H). apply (wt_nodup _ W).
Qed.

(** ** The evaluator *)

(** The table a source reads from. *)
Fixpoint base (s : src) : string := match s with STab t => t | SSub _ f _ => base f end.

Lemma eval_ext ts ts' s : ts (base s) = ts' (base s) -> eval ts s = eval ts' s.
Proof.
  induction s as [t|cs f IH w]; cbn [base eval]; intro H; [rewrite H; auto|]. rewrite (IH H). auto.
Qed.

Lemma filter_filter {A} (f g : A -> bool) l : filter f (filter g l) = filter (fun x => (g x && f x)%bool) l.
Proof.
  induction l as [|a l IH]; [auto|]. cbn [filter]. destruct (g a); cbn [filter andb]; [destruct (f a)|]; rewrite IH; auto.
Qed.
Lemma filter_map {A B} (f : A -> B) (p : B -> bool) l : filter p (map f l) = map f (filter (fun x => p (f x)) l).
Proof. induction l as [|a l IH]; [auto|]. cbn [map filter]. destruct (p (f a)); cbn [map]; rewrite IH; auto. Qed.

(** Every source gives a projection of some of the rows of its table. *)
Lemma eval_shape ts tb : wf_table tb -> forall s cs rows, ts (base s) = Some tb -> eval ts s = Ok (cs, rows) ->
  incl cs (tb_cols tb) /\ exists P, rows = map (proj cs) (filter P (tb_rows tb)).
Proof.
  intro W. induction s as [t|cs f IH w]; cbn [base eval]; intros ds rows Ht H.
  - rewrite Ht in H. injection H as <- <-. split; [apply incl_refl|]. exists (fun _ => true).
    assert (F : filter (fun _ => true) (tb_rows tb) = tb_rows tb)
      by (induction (tb_rows tb) as [|a l IH]; [auto|cbn [filter]; rewrite IH; auto]).
    rewrite F. symmetry. rewrite <- (map_id (tb_rows tb)) at 2. apply map_ext_in.
    intros r Hr. apply wt_proj; auto.
  - destruct (eval ts f) as [[fcs frows]|] eqn:E; [|discriminate].
    destruct (IH _ _ Ht eq_refl) as [I [P ->]].
    destruct (negb (is_nil cs) && subset_b cs fcs && forallb (wcond_ok fcs) w)%bool eqn:G; [|discriminate].
    injection H as <- <-. apply andb_true_iff in G. destruct G as [G _]. apply andb_true_iff in G. destruct G as [_ G].
    apply subset_b_incl in G. split; [eapply incl_tran; eauto|].
    rewrite filter_map, filter_filter, map_map.
    eexists. apply map_ext. intro r. apply proj_proj. auto.
Qed.

Lemma eval_cols ts s cs rows : eval ts s = Ok (cs, rows) ->
  match s with STab t => exists tb, ts t = Some tb /\ cs = tb_cols tb | SSub cs' _ _ => cs = cs' end.
Proof.
  destruct s; cbn [eval].
  - destruct (ts t) as [tb|]; [|discriminate]. intro H. injection H as <- _. eauto.
  - destruct (eval ts s) as [[fcs frows]|]; [|discriminate]. destruct (_ && _)%bool; [|discriminate].
    intro H. injection H as <- _. auto.
Qed.

(** Selecting some of the columns without a condition. *)
Lemma eval_sub_nil ts cs s fcs rows : eval ts s = Ok (fcs, rows) -> cs <> [] -> incl cs fcs ->
  eval ts (SSub cs s []) = Ok (cs, map (proj cs) rows).
Proof.
  intros E N I. cbn [eval]. rewrite E.
  assert (G : (negb (is_nil cs) && subset_b cs fcs && forallb (wcond_ok fcs) [])%bool = true).
  { rewrite (proj2 (subset_b_incl _ _) I). destruct cs; [congruence|auto]. }
  rewrite G. cbn [forallb].
  assert (F : filter (fun _ : trow => true) rows = rows); [|rewrite F; auto].
  clear. induction rows as [|a l IH]; [auto|]. cbn [filter]. rewrite IH. auto.
Qed.

Lemma NoDup_map_filter {A B} (f : A -> B) p l : NoDup (map f l) -> NoDup (map f (filter p l)).
Proof.
  induction l as [|a l IH]; [auto|]. cbn [map filter]. intro H. inversion H as [|? ? Hn Hd]; subst.
  destruct (p a); [|auto]. cbn [map]. constructor; auto. intro Hc. apply Hn.
  apply in_map_iff in Hc. destruct Hc as [x [E Hx]]. apply filter_In in Hx. apply in_map_iff. exists x. tauto.
Qed.
Lemma filter_by_rids (P : trow -> bool) rows : NoDup (map rid_of rows) ->
  filter (fun r => mem_b Z.eqb (rid_of r) (map rid_of (filter P rows))) rows = filter P rows.
Proof.
  intro N. apply filter_ext_in. intros r Hr.
  destruct (P r) eqn:E.
  - apply (mem_b_In Z.eqb reflects_Z). apply in_map. apply filter_In. auto.
  - apply (mem_b_false Z.eqb reflects_Z). intro H. apply in_map_iff in H. destruct H as [r' [Er H]].
    apply filter_In in H. destruct H as [H Hp].
    assert (r' = r); [|congruence].
    clear E Hp. induction rows as [|a l IH]; [destruct Hr|]. cbn [map] in N. inversion N as [|? ? Hn Hd]; subst.
    destruct Hr as [->|Hr], H as [->|H]; auto.
    + exfalso. apply Hn. rewrite <- Er. apply in_map. auto.
    + exfalso. apply Hn. rewrite Er. apply in_map. auto.
Qed.

(** ** Filling a table *)
Lemma store_keys types r : map fst (store types r) = map fst types.
Proof. unfold store. rewrite map_map. auto. Qed.
Lemma tcell_store types r c t : NoDup (map fst types) -> assoc String.eqb c types = Some t ->
  tcell (store types r) c = option_map (affine t) (tcell r c).
Proof.
  induction types as [|[d u] types IH]; [discriminate|]. cbn [map fst assoc store]. intros N H.
  inversion N as [|? ? Hn Hd]; subst. unfold store. cbn [map fst snd]. rewrite tcell_cons.
  destruct (String.eqb c d) eqn:E.
  - apply String.eqb_eq in E. injection H as ->. subst. auto.
  - apply IH; auto.
Qed.
Lemma nodup_b_NoDup l : nodup_b l = true <-> NoDup l.
Proof.
  induction l as [|a l IH]; cbn [nodup_b]; [split; [constructor|auto]|].
  rewrite andb_true_iff, IH, negb_true_iff, (mem_b_false Z.eqb reflects_Z).
  split; [intros [A B]; constructor; auto|intro H; inversion H; auto].
Qed.
Lemma fill_wf types rows tb : NoDup (map fst types) ->
  (forall c, In c id_cols -> assoc String.eqb c types = Some DInt) ->
  (forall r, In r rows -> exists z, tcell r "rid" = Some (VInt z)) ->
  fill types rows = Ok tb -> wf_table tb /\ tb_types tb = types /\ tb_rows tb = map (store types) rows.
Proof.
  intros N I R H. unfold fill in H. destruct (nodup_b _) eqn:D; [|discriminate]. injection H as <-.
  split; [|auto]. constructor; cbn [tb_types tb_rows tb_cols]; auto.
  - intros r Hr. apply in_map_iff in Hr. destruct Hr as [r0 [<- _]]. apply store_keys.
  - intros r Hr. apply in_map_iff in Hr. destruct Hr as [r0 [<- Hr]]. destruct (R _ Hr) as [z E].
    exists z. rewrite (tcell_store _ _ _ DInt); auto; [rewrite E; auto|]. apply I. left. auto.
  - apply nodup_b_NoDup. auto.
  - intros r c t v Hr Ht E. apply in_map_iff in Hr. destruct Hr as [r0 [<- _]].
    rewrite (tcell_store _ _ _ t) in E; auto. destruct (tcell r0 c) as [u|]; [|discriminate].
    cbn [option_map] in E. injection E as <-. apply affine_idem.
Qed.
Lemma rid_store types r : NoDup (map fst types) -> assoc String.eqb "rid" types = Some DInt ->
  (exists z, tcell r "rid" = Some (VInt z)) -> rid_of (store types r) = rid_of r.
Proof.
  intros N A [z E]. unfold rid_of. rewrite (tcell_store _ _ _ DInt); auto. rewrite E. auto.
Qed.
Lemma fill_ok types rows : NoDup (map fst types) -> assoc String.eqb "rid" types = Some DInt ->
  (forall r, In r rows -> exists z, tcell r "rid" = Some (VInt z)) ->
  NoDup (map rid_of rows) -> exists tb, fill types rows = Ok tb.
Proof.
  intros N A R D. unfold fill.
  assert (E : map rid_of (map (store types) rows) = map rid_of rows).
  { rewrite map_map. apply map_ext_in. intros r Hr. apply rid_store; auto. }
  rewrite E. rewrite (proj2 (nodup_b_NoDup _) D). eauto.
Qed.

(** ** Names of tables *)
Lemma app_inj_l (a b c : string) : (a ++ b)%string = (a ++ c)%string -> b = c.
Proof. induction a as [|x a IH]; cbn; [auto|]. intro H. injection H as H. auto. Qed.
Lemma tname_inj a b : tname a = tname b -> a = b.
Proof. unfold tname. intro H. apply app_inj_l, str_of_Z_inj in H. lia. Qed.
Lemma tname_main a : tname a <> main_table.
Proof. unfold tname, main_table. cbn. intro H. discriminate. Qed.

Lemma NoDup_app_intro {A} (l m : list A) : NoDup l -> NoDup m -> (forall x, In x l -> ~ In x m) -> NoDup (l ++ m).
Proof.
  intros N M D. induction N as [|c l Hc HN IH]; [auto|]. cbn [app]. constructor.
  - rewrite in_app_iff. intros [H|H]; [auto|]. exact (D c (or_introl eq_refl) H).
  - apply IH. intros d Hd. apply D. right. auto.
Qed.

(** ** The table a data set builds *)
Lemma build_types_ok x types : NoDup (i_cols x) -> build_types x = Ok types ->
  NoDup (map fst types) /\ (forall c, In c id_cols -> assoc String.eqb c types = Some DInt) /\
  incl required (i_cols x) /\
  (forall c, In c (i_cols x) -> In c (map fst types)) /\
  (forall c, In c (map fst types) -> In c id_cols \/ In c (i_cols x)) /\
  exists ts, i_types x = Some ts /\
  forall c t, ~ In c id_cols -> assoc String.eqb c types = Some t -> assoc String.eqb c ts = Some t.
Proof.
  intros N H. unfold build_types in H. destruct (forallb _ required) eqn:R; [|discriminate]. cbn [negb] in H.
  destruct (mapM _ _) as [others|] eqn:E; [|discriminate]. cbn [bind] in H.
  assert (Et : types = (map (fun c => (c, DInt)) id_cols ++ others)%list) by congruence. subst types. clear H.
  assert (Req : incl required (i_cols x)).
  { intros c Hc. rewrite forallb_forall in R. apply in_cols_In, R. auto. }
  set (nonid := filter (fun c => negb (in_cols c id_cols)) (i_cols x)) in *.
  assert (T : exists ts, i_types x = Some ts).
  { destruct (i_types x); [eauto|]. exfalso.
    assert (In "user" nonid) by (apply filter_In; split; [apply Req; cbn; auto|auto]).
    destruct nonid; [contradiction|]. discriminate. }
  destruct T as [ts T]. rewrite T in E.
  assert (F : map fst others = nonid /\ forall c t, In (c, t) others -> assoc String.eqb c ts = Some t).
  { clear - E. revert others E. induction nonid as [|c l IH]; intros others E.
    - injection E as <-. split; [auto|intros ? ? []].
    - cbn [mapM] in E. destruct (assoc String.eqb c ts) as [t|] eqn:A; [|discriminate]. cbn [bind] in E.
      destruct (mapM _ l) as [o|]; [|discriminate]. cbn [bind] in E. injection E as <-.
      destruct (IH _ eq_refl) as [E1 E2]. split; [cbn [map fst]; f_equal; auto|].
      intros c' t' [H|H]; [injection H as <- <-; auto|auto]. }
  destruct F as [F1 F2].
  assert (K : map fst (map (fun c => (c, DInt)) id_cols ++ others)%list = (id_cols ++ nonid)%list).
  { rewrite map_app, F1. auto. }
  assert (NI : forall c, In c nonid -> ~ In c id_cols).
  { intros c Hc. apply filter_In in Hc. destruct Hc as [_ Hc]. apply negb_true_iff in Hc. apply in_cols_false. auto. }
  assert (A1 : forall c, In c id_cols -> assoc String.eqb c (map (fun c => (c, DInt)) id_cols ++ others)%list = Some DInt).
  { intros c Hc. cbn in Hc. destruct Hc as [<-|[<-|[<-|[]]]]; reflexivity. }
  split.
  { rewrite K. assert (ND : NoDup id_cols) by (unfold id_cols; repeat constructor; cbn; intuition discriminate).
    assert (NN : NoDup nonid) by (apply NoDup_filter; auto).
    apply NoDup_app_intro; auto. intros c H1 H2. exact (NI c H2 H1). }
  split; [exact A1|]. split; [exact Req|]. split.
  { intros c Hc. rewrite K. apply in_app_iff. destruct (in_cols c id_cols) eqn:B; [left; apply in_cols_In; auto|].
    right. apply filter_In. rewrite B. auto. }
  split.
  { intros c Hc. rewrite K in Hc. apply in_app_iff in Hc. destruct Hc as [Hc|Hc]; [auto|].
    right. apply filter_In in Hc. tauto. }
  exists ts. split; [auto|]. intros c t Hn A. apply F2.
  assert (B : assoc String.eqb c (map (fun c => (c, DInt)) id_cols ++ others)%list = assoc String.eqb c others).
  { unfold id_cols. cbn [map app assoc].
    destruct (String.eqb c "rid") eqn:E1; [apply String.eqb_eq in E1; exfalso; apply Hn; cbn; auto|].
    destruct (String.eqb c "uid") eqn:E2; [apply String.eqb_eq in E2; exfalso; apply Hn; cbn; auto|].
    destruct (String.eqb c "iid") eqn:E3; [apply String.eqb_eq in E3; exfalso; apply Hn; cbn; auto|]. auto. }
  rewrite B in A. clear - A. induction others as [|[d u] l IH]; [discriminate|]. cbn [assoc] in A.
  destruct (String.eqb c d) eqn:E; [apply String.eqb_eq in E; injection A as <-; subst; left; auto|right; auto].
Qed.
Lemma build_types_some x ts : i_types x = Some ts -> incl required (i_cols x) ->
  (forall c, In c (i_cols x) -> ~ In c id_cols -> exists t, assoc String.eqb c ts = Some t) ->
  exists types, build_types x = Ok types.
Proof.
  intros T R A. unfold build_types.
  assert (G : forallb (fun c => in_cols c (i_cols x)) required = true).
  { apply forallb_forall. intros c Hc. apply in_cols_In, R. auto. }
  rewrite G, T. cbn [negb].
  assert (M : exists l, mapM (fun c => match assoc String.eqb c ts with Some t => Ok (c, t) | None => Err KeyError end)
                             (filter (fun c => negb (in_cols c id_cols)) (i_cols x)) = Ok l).
  { assert (A' : forall c, In c (filter (fun c => negb (in_cols c id_cols)) (i_cols x)) -> exists t, assoc String.eqb c ts = Some t).
    { intros c Hc. apply filter_In in Hc. destruct Hc as [Hc Hn]. apply negb_true_iff, in_cols_false in Hn. auto. }
    induction (filter _ _) as [|c l IH]; [exists []; auto|].
    destruct (A' c (or_introl eq_refl)) as [t Ht]. destruct IH as [l' Hl]; [intros d Hd; apply A'; right; auto|].
    exists ((c, t) :: l'). cbn [mapM]. rewrite Ht. cbn [bind]. rewrite Hl. auto. }
  destruct M as [l ->]. cbn [bind]. eauto.
Qed.
