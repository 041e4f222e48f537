(** A data set in a database whose internal ids have been assigned: what the calls
    of a recommender do to it. *)
From Coq Require Import String Ascii.
From Coq Require Import List ZArith QArith Qcanon Bool Permutation Sorted Lia.
From Verif Require Import Py PyFacts MemModel MemSpec DbModel DbFacts DbSpec DbFacts2 DbFacts3 DbFacts4
  DbFacts5 DbFacts6 DbFacts7 DbFacts12 DbFacts13 DbFacts14 DbFacts15 DbFacts17 DbFacts18 SampModel DbGenModel DbGenSpec DbGenFacts DbGenFacts2
  DbSplitModel DbSplitSpec DbSplitFacts DbSplitFacts2 DbSplitFacts3 DbSplitFacts6.
Import ListNotations.
Open Scope string_scope.
Open Scope Z_scope.

Section Calm.
Variable inode : string -> nat.
Notation reaches := (reaches inode).

(** at rest, and nothing was asked of it that counts as a query *)
Definition calm (w : world) (i : nat) : Prop := exists x, w_inst w i = Some x /\ i_state x = None /\ i_queries x = 0%nat.

Lemma record_calm w i w' r : calm w i -> record_interaction inode i w = (w', r) -> calm w' i.
Proof.
  intros (x & H & Sn & Q) E. unfold record_interaction in E. rewrite (andthen_ok _ _ _ _ _ (self_ok i w x H)) in E.
  set (y := set_counts x (i_n x) (i_before x) (i_queries x) (Datatypes.S (i_direct x))) in E.
  set (w1 := set_insts w (upd_nat (w_inst w) i (Some y))) in *.
  rewrite (andthen_ok _ _ w w1 tt) in E by reflexivity.
  rewrite (andthen_ok _ _ w1 w1 (w_open w)) in E by reflexivity.
  assert (H1 : w_inst w1 i = Some y) by (cbn; apply upd_nat_same).
  destruct (_ && _)%bool.
  - unfold optimize in E. rewrite (andthen_ok _ _ _ _ _ (self_ok i w1 y H1)) in E. unfold put, modify, andthen, ret in E.
    cbn [i_state set_counts y] in E. rewrite Sn in E. cbn in E. injection E as <- <-.
    eexists. cbn [w_inst set_insts w1 y]. rewrite upd_nat_same. split; [reflexivity|]. split; [exact Sn|reflexivity].
  - injection E as <- <-. exists y. split; [exact H1|]. split; [exact Sn|exact Q].
Qed.
Lemma calm_inst w w' i : w_inst w' i = w_inst w i -> calm w i -> calm w' i.
Proof. intros E (x & H & K). exists x. rewrite E. auto. Qed.
Lemma calm_rest w i : calm w i -> at_rest w i.
Proof. intros (x & H & Sn & _). exists x. auto. Qed.

(** after the count of a read, nothing changes *)
Lemma counted_calm {A} (k : M A) i w w' r : calm w i -> andthen (record_interaction inode i) (fun _ => k) w = (w', r) ->
  (forall w1 w2 r2, k w1 = (w2, r2) -> w_inst w2 = w_inst w1) -> calm w' i.
Proof.
  intros C E F. unfold andthen in E. destruct (record_interaction inode i w) as [w1 [u|e]] eqn:Er.
  - pose proof (record_calm _ _ _ _ C Er) as C1. specialize (F _ _ _ E). apply (calm_inst w1); [congruence|auto].
  - injection E as <- _. eapply record_calm; eauto.
Qed.
Lemma read_calm ord o i w w' r : is_read o = true -> subject o = Some i -> calm w i -> exec inode ord o w = (w', r) -> calm w' i.
Proof.
  intros Rd Su C E.
  destruct o; cbn in Rd; try discriminate; injection Su as <-; apply amap_inv in E; destruct E as (r0 & E & _).
  - unfold values in E. eapply counted_calm; [exact C|exact E|]. clear. intros w1 w2 r2 X. unfold andthen, self, lift, modify, state_rows, query, ret in X.
    destruct (w_inst w1 _) as [y|] eqn:Hy; [|injection X as <- <-; auto]. destruct (handle_columns y _); [|injection X as <- <-; auto].
    unfold self, andthen in X. rewrite Hy in X. destruct (eval _ _); injection X as <- <-; auto.
  - unfold values in E. eapply counted_calm; [exact C|exact E|]. clear. intros w1 w2 r2 X. unfold andthen, self, lift, modify, state_rows, query, ret in X.
    destruct (w_inst w1 _) as [y|] eqn:Hy; [|injection X as <- <-; auto]. destruct (handle_columns y _); [|injection X as <- <-; auto].
    unfold self, andthen in X. rewrite Hy in X. destruct (eval _ _); injection X as <- <-; auto.
  - unfold select_one in E. eapply counted_calm; [exact C|exact E|]. clear. intros w1 w2 r2 X. unfold andthen, self, lift, query, ret in X.
    destruct (w_inst w1 _) as [y|] eqn:Hy; [|injection X as <- <-; auto]. destruct (parse_query y _); [|injection X as <- <-; auto].
    destruct (handle_columns y _); [|injection X as <- <-; auto]. destruct (eval _ _) as [rr|]; [|injection X as <- <-; auto].
    destruct (ord (snd rr)); [injection X as <- <-; auto|]. destruct (list_record _ _ _); injection X as <- <-; auto.
  - destruct C as (x & H & K). unfold ds_len, andthen, self, ret in E. rewrite H in E. injection E as <- _. exists x. auto.
  - unfold count_unique in E. eapply counted_calm; [exact C|exact E|]. clear. intros w1 w2 r2 X. unfold andthen, self, lift, query, ret in X.
    destruct (w_inst w1 _) as [y|] eqn:Hy; [|injection X as <- <-; auto]. destruct (handle_columns y _); [|injection X as <- <-; auto].
    destruct (eval _ _) as [rr|]; injection X as <- <-; auto.
  - unfold db_max, extremum in E. eapply counted_calm; [exact C|exact E|]. clear. intros w1 w2 r2 X. unfold andthen, self, lift, query, ret in X.
    destruct (w_inst w1 _) as [y|] eqn:Hy; [|injection X as <- <-; auto]. destruct (handle_columns y _); [|injection X as <- <-; auto].
    destruct (eval _ _) as [rr|]; injection X as <- <-; auto.
  - unfold db_min, extremum in E. eapply counted_calm; [exact C|exact E|]. clear. intros w1 w2 r2 X. unfold andthen, self, lift, query, ret in X.
    destruct (w_inst w1 _) as [y|] eqn:Hy; [|injection X as <- <-; auto]. destruct (handle_columns y _); [|injection X as <- <-; auto].
    destruct (eval _ _) as [rr|]; injection X as <- <-; auto.
Qed.

(** a read of another data set *)
Ltac mild := repeat first
  [simple apply mild_bind; [|intro]|simple apply mild_ret|simple apply mild_lift|simple apply mild_self|simple apply mild_query|simple apply mild_put; assumption
  |simple apply mild_fresh|simple apply mild_if|simple apply mild_read].
Lemma mild_select_one ord l j q cs : In j l -> mild l (select_one inode ord j q cs).
Proof.
  intro I. unfold select_one. apply mild_bind; [apply mild_record; exact I|]. intros _. mild.
  destruct (ord _); [apply mild_ret|]. mild.
Qed.
Lemma read_other ord o i j w w' r : is_read o = true -> subject o = Some j -> j <> i -> calm w i -> exec inode ord o w = (w', r) -> calm w' i.
Proof.
  intros Rd Su N C E.
  assert (K : forall {A} (p : M A) r0, mild [j] p -> p w = (w', r0) -> calm w' i).
  { intros A p r0 M0 X. destruct (M0 _ _ _ X) as (_ & _ & U). apply (calm_inst w); [|exact C]. apply U. intros [?|[]]; congruence. }
  pose proof (or_introl eq_refl : In j [j]) as Ij.
  destruct o; cbn in Rd; try discriminate; injection Su as ->; apply amap_inv in E; destruct E as (r0 & E & _).
  - destruct (values_frame _ _ _ _ _ _ _ _ E) as (_ & U & _). apply (calm_inst w); [apply U; auto|exact C].
  - destruct (values_frame _ _ _ _ _ _ _ _ E) as (_ & U & _). apply (calm_inst w); [apply U; auto|exact C].
  - apply (K _ _ _ (mild_select_one ord [j] j _ _ Ij) E).
  - apply (K _ (ds_len j) r0); [unfold ds_len; mild|exact E].
  - apply (K _ (count_unique inode j columns) r0); [|exact E]. unfold count_unique. apply mild_bind; [apply mild_record; exact Ij|]. intros _. mild.
  - apply (K _ (db_max inode j c) r0); [|exact E]. unfold db_max, extremum. apply mild_bind; [apply mild_record; exact Ij|]. intros _. mild.
  - apply (K _ (db_min inode j c) r0); [|exact E]. unfold db_min, extremum. apply mild_bind; [apply mild_record; exact Ij|]. intros _. mild.
Qed.

(** the copies made of it *)
Lemma select_calm i q w w' j : Base inode w -> calm w i -> select inode i q true w = (w', Ok j) -> calm w' i.
Proof.
  intros B C E. pose proof C as (x & H & _). destruct (copy_spec inode w i x B H) as (_ & _ & _ & _ & _ & _ & _ & Nei & _).
  unfold select, target, touched in E. apply andthen_val in E. destruct E as (w1 & k & E1 & E).
  destruct (copy_frame _ _ _ _ _ E1) as (-> & _ & _ & U1).
  apply (calm_inst w w1) in C; [|apply U1; auto].
  apply andthen_val in E. destruct E as (w2 & u & E2 & E). pose proof (record_calm _ _ _ _ C E2) as C2.
  assert (Mi : mild [w_next w] (y <~ self (w_next w);; (conds <~ lift (parse_query y q);; (_ <~ update_state inode (w_next w) (new_state y conds);; ret (w_next w))))).
  { mild. apply mild_update. left. auto. }
  destruct (Mi _ _ _ E) as (_ & _ & U). apply (calm_inst w2); [apply U; intros [?|[]]; congruence|exact C2].
Qed.
Lemma unique_calm i cs w w' j : Base inode w -> calm w i -> unique inode i cs true w = (w', Ok j) -> calm w' i.
Proof.
  intros B C E. pose proof C as (x & H & _). destruct (copy_spec inode w i x B H) as (_ & _ & _ & _ & _ & _ & _ & Nei & _).
  unfold unique, target, touched in E. rewrite (andthen_ok _ _ _ _ _ (self_ok i w x H)) in E.
  apply andthen_val in E. destruct E as (w0 & cs' & E0 & E). injection E0 as <- _.
  apply andthen_val in E. destruct E as (w1 & k & E1 & E).
  destruct (copy_frame _ _ _ _ _ E1) as (-> & _ & _ & U1).
  apply (calm_inst w w1) in C; [|apply U1; auto]. set (k := w_next w) in *.
  assert (Pu : forall y, mild [k] (put k y)) by (intro; apply mild_put; left; auto).
  apply andthen_val in E. destruct E as (w2 & y0 & E2 & E). destruct (mild_self [k] k _ _ _ E2) as (_ & _ & U2).
  apply (calm_inst w1 w2) in C; [|apply U2; intros [?|[]]; congruence].
  apply andthen_val in E. destruct E as (w3 & u & E3 & E). destruct (Pu _ _ _ _ E3) as (_ & _ & U3).
  apply (calm_inst w2 w3) in C; [|apply U3; intros [?|[]]; congruence].
  apply andthen_val in E. destruct E as (w4 & u4 & E4 & E). pose proof (record_calm _ _ _ _ C E4) as C4.
  eapply (calm_inst w4); [|exact C4].
  match type of E with ?p w4 = _ => assert (Mi : mild [k] p) end.
  { apply mild_bind; [apply mild_self|]. intro y. cbv zeta. apply mild_bind; [apply Pu|]. intros _.
    apply mild_bind; [apply mild_update; left; auto|]. intros _. apply mild_ret. }
  destruct (Mi _ _ _ E) as (_ & _ & U). apply U. intros [?|[]]; congruence.
Qed.
Lemma close_calm i j w w' r : j <> i -> calm w i -> close inode j w = (w', r) -> calm w' i.
Proof. intros N C E. destruct (close_frame _ _ _ _ _ E) as (_ & _ & U & _). apply (calm_inst w); [apply U; auto|exact C]. Qed.

(** assigning the ids *)
Definition zq (w : world) (i : nat) : Prop := exists x, w_inst w i = Some x /\ i_queries x = 0%nat.
Definition keepq {A} (i : nat) (m : M A) : Prop := forall w w' r, zq w i -> m w = (w', r) -> zq w' i.
Lemma keepq_bind {A B} i (m : M A) (f : A -> M B) : keepq i m -> (forall a, keepq i (f a)) -> keepq i (andthen m f).
Proof.
  intros Hm Hf w w' r Z E. unfold andthen in E. destruct (m w) as [w1 [a|e]] eqn:E1.
  - eapply Hf; [eapply Hm; eauto|eauto].
  - injection E as <- _. eapply Hm; eauto.
Qed.
Lemma keepq_self {B} i (f : inst -> M B) : (forall x, i_queries x = 0%nat -> keepq i (f x)) -> keepq i (andthen (self i) f).
Proof.
  intros Hf w w' r (x & H & Q) E. rewrite (andthen_ok _ _ _ _ _ (self_ok i w x H)) in E. eapply Hf; [exact Q| |exact E]. exists x. auto.
Qed.
Lemma keepq_put i x : i_queries x = 0%nat -> keepq i (put i x).
Proof. intros Q w w' r _ E. injection E as <- _. exists x. split; [cbn; apply upd_nat_same|exact Q]. Qed.
Lemma keepq_same {A} i (m : M A) : (forall w w' r, m w = (w', r) -> w_inst w' = w_inst w) -> keepq i m.
Proof. intros H w w' r (x & Hx & Q) E. exists x. rewrite (H _ _ _ E). auto. Qed.
Lemma keepq_lift {A} i (r : res A) : keepq i (lift r).
Proof. apply keepq_same. intros w w' r' E. injection E as <- _. auto. Qed.
Lemma keepq_read {A} i (f : world -> res A) : keepq i (fun w => (w, f w)).
Proof. apply keepq_same. intros w w' r' E. injection E as <- _. auto. Qed.
Lemma keepq_query i x s : keepq i (query inode x s).
Proof. apply keepq_same. unfold query. intros w w' r' E. destruct (eval _ _); injection E as <- _; auto. Qed.
Lemma keepq_modify i f : (forall w, w_inst (f w) = w_inst w) -> keepq i (modify f).
Proof. intro H. apply keepq_same. intros w w' r' E. injection E as <- _. auto. Qed.
Lemma keepq_fresh i : keepq i fresh_name.
Proof. apply keepq_same. intros w w' r' E. injection E as <- _. auto. Qed.
Lemma keepq_ret {A} i (a : A) : keepq i (ret a).
Proof. apply keepq_same. intros w w' r' E. injection E as <- _. auto. Qed.

Lemma keepq_move i x name tb : i_queries x = 0%nat -> keepq i (move_to inode i x name tb).
Proof.
  intro Q. unfold move_to. apply keepq_bind; [apply keepq_modify; auto|intros _]. apply keepq_bind; [apply keepq_read|intro l].
  apply keepq_bind; [apply keepq_modify; auto|intros _]. apply keepq_put. exact Q.
Qed.
Lemma optimize_zq i b w w' r : w_inst w i <> None -> optimize inode i b w = (w', r) -> zq w' i.
Proof.
  intros H E. destruct (w_inst w i) as [x|] eqn:Hx; [clear H|contradiction]. unfold optimize in E.
  rewrite (andthen_ok _ _ _ _ _ (self_ok i w x Hx)) in E. cbv zeta in E.
  set (y := set_counts x (i_n x) (i_before x) 0 0) in *.
  set (w1 := set_insts w (upd_nat (w_inst w) i (Some y))) in *. rewrite (andthen_ok _ _ w w1 tt) in E by reflexivity.
  assert (Z1 : zq w1 i) by (exists y; split; [cbn; apply upd_nat_same|auto]).
  match type of E with ?p w1 = _ => assert (K : keepq i p) end; [|exact (K _ _ _ Z1 E)].
  apply keepq_bind; [apply keepq_read|]. intro n.
  assert (G : forall st, keepq i (if Nat.ltb 0 n then ret tt else
      (users <~ (fun w0 : world => (w0, match w_tabs w0 (i_path y) (i_table y) with Some l => Ok l | None => Err KeyError end));;
      (if Nat.eqb (length users) 1
      then _ <~ match st with
           | Some q => keep <~ query inode y (SSub ["rid"] (src_of q) []);;
               (let rids := map rid_of (snd keep) in
                modify (fun w0 => match tables inode w0 (i_path y) (i_table y) with
                  | Some tb => set_tables inode w0 (i_path y) (upd_str (tables inode w0 (i_path y)) (i_table y)
                       (Some (mkTable (tb_types tb) (filter (fun r0 => mem_b Z.eqb (rid_of r0) rids) (tb_rows tb)))))
                  | None => w0 end))
           | None => ret tt end;; put i (set_state y None)
      else name <~ fresh_name;; (types <~ lift (build_types y);;
           (rows <~ query inode y (SSub (i_cols y) (curr_source y) []);; (tb <~ lift (fill types (snd rows));; move_to inode i y name tb))))))).
  { intro st. destruct (Nat.ltb 0 n); [apply keepq_ret|]. apply keepq_bind; [apply keepq_read|]. intro users.
    destruct (Nat.eqb (length users) 1).
    - apply keepq_bind; [|intros _; apply keepq_put; auto]. destruct st; [|apply keepq_ret].
      apply keepq_bind; [apply keepq_query|]. intro keep. cbv zeta. apply keepq_modify. intro w0. destruct (tables inode w0 _ _); auto.
    - apply keepq_bind; [apply keepq_fresh|]. intro name. apply keepq_bind; [apply keepq_lift|]. intro types.
      apply keepq_bind; [apply keepq_query|]. intro rows. apply keepq_bind; [apply keepq_lift|]. intro tb. apply keepq_move. auto. }
  destruct (i_state y) as [q|]; [exact (G (Some q))|]. destruct b; [apply keepq_ret|exact (G None)].
Qed.
Lemma assign_one_keepq raw id i : keepq i (assign_one inode raw id i).
Proof.
  unfold assign_one. apply keepq_self. intros x Q. cbv zeta. apply keepq_bind; [apply keepq_put; exact Q|intros _].
  destruct (i_types _); [|apply keepq_same; intros w w' r E; injection E as <- _; auto].
  apply keepq_bind; [apply keepq_put; exact Q|intros _]. apply keepq_bind; [apply keepq_query|intros _].
  apply keepq_modify. intro w0. destruct (tables inode w0 _ _); auto.
Qed.
Lemma assign_zq i w w' r : w_inst w i <> None -> assign_ids inode i w = (w', r) -> zq w' i.
Proof.
  intros H E. unfold assign_ids in E. unfold andthen at 1 in E. destruct (optimize inode i true w) as [w1 [[]|e]] eqn:E1.
  2:{ injection E as <- _. eapply optimize_zq; eauto. }
  pose proof (optimize_zq _ _ _ _ _ H E1) as Z. revert Z E. apply (fun K : keepq i _ => K w1 w' r).
  apply keepq_bind; [apply assign_one_keepq|intros _]. apply keepq_bind; [apply assign_one_keepq|intros _].
  apply keepq_self. intros x Q. apply keepq_put. exact Q.
Qed.
End Calm.
