(** Closing, creating and loading data sets, and reads. *)
From Coq Require Import String Ascii.
From Coq Require Import List ZArith QArith Qcanon Bool Lia Permutation.
From Verif Require Import Py PyFacts MemModel DbModel DbFacts DbFacts2 DbFacts3 DbFacts4 DbFacts5.
Import ListNotations.
Open Scope string_scope.
Open Scope Z_scope.

Section Ops.
Variable inode : string -> nat.
Notation tables := (tables inode).
Notation set_tables := (set_tables inode).
Notation Base := (Base inode).
Notation settledw := (settledw inode).
Notation unchanged := (unchanged inode).
Notation quiet := (quiet inode).
Notation same := (same inode).
Notation works := (works inode).

(** ** close *)
Definition alone_tab (w : world) (i : nat) (x : inst) : Prop :=
  forall j y, w_inst w j = Some y -> i_path y = i_path x -> i_table y = i_table x -> j = i.
Definition alone_db (w : world) (i : nat) (x : inst) : Prop :=
  forall j y, w_inst w j = Some y -> i_path y = i_path x -> j = i.

Lemma set_remove_nil i l : set_remove i l = [] -> forall j, In j l -> j = i.
Proof.
  intros E j Hj. destruct (Nat.eq_dec j i) as [->|N]; [auto|].
  assert (X : In j (set_remove i l)) by (apply In_set_remove; auto). rewrite E in X. destruct X.
Qed.
Lemma NoDup_set_remove i l : NoDup l -> NoDup (set_remove i l).
Proof. apply NoDup_filter. Qed.

Theorem close_spec w i x w' r : Base w -> w_inst w i = Some x -> close inode i w = (w', r) ->
  r = Ok tt /\ works w w' i /\ w_inst w' i = None /\ (forall j, j <> i -> w_inst w' j = w_inst w j) /\
  (alone_db w i x -> is_temp (i_path x) = true -> w_file w' (inode (i_path x)) = None) /\
  (forall n, n <> inode (i_path x) -> w_file w' n = w_file w n) /\
  (~ (alone_db w i x /\ is_temp (i_path x) = true) -> exists f, w_file w' (inode (i_path x)) = Some f /\
     (forall t, t <> i_table x -> f t = tables w (i_path x) t) /\
     (~ alone_tab w i x \/ w_open w <> 0%nat -> f (i_table x) = tables w (i_path x) (i_table x)) /\
     (alone_tab w i x -> w_open w = 0%nat -> f (i_table x) = None)).
Proof.
  intros B H E. unfold close in E. rewrite (andthen_ok _ _ _ _ _ (self_ok i w x H)) in E. unfold close_obj in E.
  pose proof (b_tabs2 inode w B i x H) as Nt. pose proof (b_dbs2 inode w B i x H) as Nd.
  destruct (w_tabs w (i_path x) (i_table x)) as [l|] eqn:Et; [clear Nt|congruence].
  destruct (w_dbs w (i_path x)) as [m|] eqn:Ed; [clear Nd|congruence].
  destruct (b_tabs inode w B _ _ _ Et) as [Nl Il]. destruct (b_dbs inode w B _ _ Ed) as (Nm & Nem & Im).
  assert (Ii : In i l) by (apply Il; eauto). assert (Ij : In i m) by (apply Im; eauto).
  pose proof (proj2 (mem_b_In Nat.eqb reflects_nat i l) Ii) as Mi. pose proof (proj2 (mem_b_In Nat.eqb reflects_nat i m) Ij) as Mj.
  destruct (Base_file inode w i x B H) as [f Hf].
  destruct (b_inst inode w B i x H) as (tb & cs & rows & T & _).
  set (lt := set_remove i l) in *. set (lm := set_remove i m) in *.
  assert (At : lt = [] <-> alone_tab w i x).
  { split.
    - intros En j y Hy E1 E2. apply (set_remove_nil i l En). apply Il. eauto.
    - intro A. destruct lt as [|j lt'] eqn:El; [auto|]. exfalso.
      assert (X : In j (set_remove i l)) by (fold lt; rewrite El; left; auto). apply In_set_remove in X. destruct X as [X N].
      apply Il in X. destruct X as (y & Hy & E1 & E2). apply N. eapply A; eauto. }
  assert (Ad : lm = [] <-> alone_db w i x).
  { split.
    - intros En j y Hy E1. apply (set_remove_nil i m En). apply Im. eauto.
    - intro A. destruct lm as [|j lt'] eqn:El; [auto|]. exfalso.
      assert (X : In j (set_remove i m)) by (fold lm; rewrite El; left; auto). apply In_set_remove in X. destruct X as [X N].
      apply Im in X. destruct X as (y & Hy & E1). apply N. eapply A; eauto. }
  (* the first step *)
  set (f1 := if is_nil lt then (if Nat.eqb (w_open w) 0 then upd_str f (i_table x) None else f) else f).
  set (tabs' := upd_tab (w_tabs w) (i_path x) (i_table x) (if is_nil lt then None else Some lt)).
  set (files1 := if is_nil lt then (if Nat.eqb (w_open w) 0 then upd_nat (w_file w) (inode (i_path x)) (Some f1) else w_file w) else w_file w).
  set (w1 := mkWorld files1 (w_inst w) (w_dbs w) tabs' (w_open w) (w_next w) (w_fresh w)).
  assert (Tf : tables w (i_path x) = f) by (unfold DbModel.tables; rewrite Hf; auto).
  match type of E with andthen ?m _ _ = _ => assert (S1 : m w = (w1, Ok tt)) end.
  { rewrite Et, Mi. cbn [negb]. fold lt. unfold w1, tabs', files1, f1. destruct lt as [|a lt']; cbn [is_nil]; [|reflexivity].
    destruct (Nat.eqb (w_open w) 0); [|reflexivity]. rewrite T, Tf. reflexivity. }
  rewrite (andthen_ok _ _ _ _ _ S1) in E.
  set (files2 := if (is_nil lm && is_temp (i_path x))%bool then upd_nat files1 (inode (i_path x)) None else files1).
  set (dbs' := upd_str (w_dbs w) (i_path x) (if is_nil lm then None else Some lm)).
  set (w2 := mkWorld files2 (w_inst w) dbs' tabs' (w_open w) (w_next w) (w_fresh w)).
  assert (Hf1 : files1 (inode (i_path x)) = Some f1).
  { unfold files1, f1. destruct (is_nil lt); [|auto]. destruct (Nat.eqb (w_open w) 0); [apply upd_nat_same|auto]. }
  match type of E with andthen ?m _ _ = _ => assert (S2 : m w1 = (w2, Ok tt)) end.
  { cbn [w_dbs w1]. rewrite Ed, Mj. cbn [negb]. fold lm. unfold w2, dbs', files2. destruct lm as [|a lm']; cbn [is_nil andb]; [|reflexivity].
    destruct (is_temp (i_path x)); [|reflexivity]. cbn [w_file w1]. rewrite Hf1. reflexivity. }
  rewrite (andthen_ok _ _ _ _ _ S2) in E. unfold modify in E. injection E as <- <-.
  set (w3 := set_insts w2 (upd_nat (w_inst w2) i None)).
  assert (I3 : forall j, j <> i -> w_inst w3 j = w_inst w j) by (intros; cbn; apply upd_nat_other; auto).
  assert (I3i : w_inst w3 i = None) by (cbn; apply upd_nat_same).
  assert (F3o : forall n, n <> inode (i_path x) -> w_file w3 n = w_file w n).
  { intros n N. cbn. unfold files2, files1. destruct (is_nil lm && is_temp (i_path x))%bool;
      destruct (is_nil lt); try destruct (Nat.eqb (w_open w) 0); rewrite ?upd_nat_other by auto; auto. }
  assert (F3n : is_nil lm = true -> is_temp (i_path x) = true -> w_file w3 (inode (i_path x)) = None).
  { intros E1 E2. cbn. unfold files2. rewrite E1, E2. apply upd_nat_same. }
  assert (F3s : (is_nil lm && is_temp (i_path x))%bool = false -> w_file w3 (inode (i_path x)) = Some f1).
  { intros E1. cbn. unfold files2. rewrite E1. auto. }
  assert (Nil : forall A (l : list A), is_nil l = true <-> l = []) by (intros A [|? ?]; cbn; split; congruence).
  (* other data sets keep their tables *)
  assert (Oth : forall j y, j <> i -> w_inst w j = Some y -> tables w3 (i_path y) (i_table y) = tables w (i_path y) (i_table y)).
  { intros j y N Hy. destruct (Nat.eq_dec (inode (i_path y)) (inode (i_path x))) as [Ei|Ni].
    - pose proof (b_alias inode w B j y i x Hy H Ei) as Ep. unfold DbModel.tables. rewrite Ei, F3s, Hf.
      + unfold f1. destruct (is_nil lt) eqn:El; [|auto]. destruct (Nat.eqb (w_open w) 0); [|auto].
        rewrite upd_str_other; [auto|]. intro Et'. apply N. apply Nil in El. exact (proj1 At El j y Hy Ep Et').
      + destruct (is_nil lm) eqn:El; [|auto]. exfalso. apply N. apply Nil in El. exact (proj1 Ad El j y Hy Ep).
    - unfold DbModel.tables. rewrite F3o by auto. auto. }
  assert (U : forall j, j <> i -> unchanged w w3 j).
  { intros j N. split; [auto|]. intros y Hy. eapply Oth; eauto. }
  assert (B3 : Base w3).
  { constructor.
    - intros n g t tb' Hn Ht. destruct (Nat.eq_dec n (inode (i_path x))) as [->|N].
      + destruct (is_nil lm && is_temp (i_path x))%bool eqn:Eb.
        * apply andb_true_iff in Eb. rewrite F3n in Hn by tauto. discriminate.
        * rewrite F3s in Hn by auto. injection Hn as <-. apply (b_wf inode w B _ f t tb' Hf).
          unfold f1 in Ht. destruct (is_nil lt); [|auto]. destruct (Nat.eqb (w_open w) 0); [|auto].
          unfold upd_str in Ht. destruct (String.eqb t (i_table x)); [discriminate|auto].
      + rewrite F3o in Hn by auto. exact (b_wf inode w B n g t tb' Hn Ht).
    - intros j y Hy. destruct (Nat.eq_dec j i) as [->|N]; [congruence|]. rewrite I3 in Hy by auto.
      apply src_ok_ext with (ts := tables w (i_path y)); [eapply Oth; eauto|]. exact (b_inst inode w B j y Hy).
    - intros p t k Hk. cbn [w3 w2 set_insts w_tabs] in Hk. unfold tabs', upd_tab in Hk.
      destruct (String.eqb_spec p (i_path x)) as [->|Np], (String.eqb_spec t (i_table x)) as [->|Ntb]; cbn [andb] in Hk.
      1:{ destruct (is_nil lt); [discriminate|]. injection Hk as <-. split; [apply NoDup_set_remove; auto|].
          intro j. unfold lt. rewrite In_set_remove, Il. split.
          - intros [(y & Hy) N]. exists y. rewrite I3 by auto. exact Hy.
          - intros (y & Hy & E1 & E2). destruct (Nat.eq_dec j i) as [->|N]; [congruence|]. rewrite I3 in Hy by auto. eauto 6. }
      all: destruct (b_tabs inode w B _ _ _ Hk) as [K1 K2]; split; [auto|]; intro j; rewrite K2; split;
        intros (y & Hy & E1 & E2).
      all: try (destruct (Nat.eq_dec j i) as [->|N];
        [rewrite I3i in Hy; discriminate|rewrite I3 in Hy by auto; eauto 6]).
      all: destruct (Nat.eq_dec j i) as [->|N]; [congruence|exists y; rewrite I3 by auto; auto].
    - intros j y Hy. destruct (Nat.eq_dec j i) as [->|N]; [congruence|]. rewrite I3 in Hy by auto.
      cbn [w3 w2 set_insts w_tabs]. unfold tabs', upd_tab. destruct (String.eqb (i_path y) (i_path x) && String.eqb (i_table y) (i_table x))%bool eqn:Eb; [|exact (b_tabs2 inode w B j y Hy)].
      apply andb_true_iff in Eb. destruct Eb as [E1 E2]. apply String.eqb_eq in E1, E2.
      destruct (is_nil lt) eqn:El; [|discriminate]. exfalso. apply N. apply Nil in El. exact (proj1 At El j y Hy E1 E2).
    - intros p k Hk. cbn [w3 w2 set_insts w_dbs] in Hk. unfold dbs', upd_str in Hk.
      destruct (String.eqb_spec p (i_path x)) as [->|Np].
      + destruct (is_nil lm) eqn:El; [discriminate|]. injection Hk as <-. split; [apply NoDup_set_remove; auto|].
        split; [intro X; rewrite X in El; discriminate|]. intro j. unfold lm. rewrite In_set_remove, Im. split.
        * intros [(y & Hy) N]. exists y. rewrite I3 by auto. exact Hy.
        * intros (y & Hy & E1). destruct (Nat.eq_dec j i) as [->|N]; [congruence|]. rewrite I3 in Hy by auto. eauto 6.
      + destruct (b_dbs inode w B _ _ Hk) as (K1 & K3 & K2). split; [auto|]. split; [auto|]. intro j. rewrite K2. split;
          intros (y & Hy & E1); (destruct (Nat.eq_dec j i) as [->|N]; [|]).
        * congruence.
        * exists y. rewrite I3 by auto. auto.
        * congruence.
        * rewrite I3 in Hy by auto. eauto.
    - intros j y Hy. destruct (Nat.eq_dec j i) as [->|N]; [congruence|]. rewrite I3 in Hy by auto.
      cbn [w3 w2 set_insts w_dbs]. unfold dbs', upd_str. destruct (String.eqb (i_path y) (i_path x)) eqn:Eb; [|exact (b_dbs2 inode w B j y Hy)].
      apply String.eqb_eq in Eb.
      destruct (is_nil lm) eqn:El; [|discriminate]. exfalso. apply N. apply Nil in El. exact (proj1 Ad El j y Hy Eb).
    - intros j Hj. destruct (Nat.eq_dec j i) as [->|N]; [auto|]. rewrite I3 by auto. apply (b_next inode w B). exact Hj.
    - intros n g k Hn Hk. destruct (Nat.eq_dec n (inode (i_path x))) as [->|N].
      + destruct (is_nil lm && is_temp (i_path x))%bool eqn:Eb.
        * apply andb_true_iff in Eb. rewrite F3n in Hn by tauto. discriminate.
        * rewrite F3s in Hn by auto. injection Hn as <-. pose proof (b_fresh inode w B _ f k Hf Hk) as X.
          unfold f1. destruct (is_nil lt); [|auto]. destruct (Nat.eqb (w_open w) 0); [|auto].
          unfold upd_str. destruct (String.eqb _ _); auto.
      + rewrite F3o in Hn by auto. exact (b_fresh inode w B n g k Hn Hk).
    - intros a ya b yb Ha Hb. destruct (Nat.eq_dec a i) as [->|Na]; [congruence|]. destruct (Nat.eq_dec b i) as [->|Nb]; [congruence|].
      rewrite I3 in Ha, Hb by auto. exact (b_alias inode w B a ya b yb Ha Hb). }
  split; [auto|]. split; [apply unchanged_works; auto|]. split; [auto|]. split; [auto|].
  split; [intros A Tm; apply F3n; [apply Nil, Ad; auto|auto]|]. split; [auto|].
  intro Nn. exists f1. split.
  { apply F3s. destruct (is_nil lm) eqn:El; [|auto]. destruct (is_temp (i_path x)) eqn:Em; [|auto]. exfalso. apply Nn.
    split; [apply Ad, Nil; auto|auto]. }
  rewrite Tf. split.
  { intros t Nt. unfold f1. destruct (is_nil lt); [|auto]. destruct (Nat.eqb (w_open w) 0); [|auto]. apply upd_str_other. auto. }
  split.
  - intros [Na|No].
    + unfold f1. destruct (is_nil lt) eqn:El; [|auto]. exfalso. apply Na, At, Nil. auto.
    + unfold f1. destruct (is_nil lt); [|auto]. apply Nat.eqb_neq in No. rewrite No. auto.
  - intros Aa Oo. unfold f1. rewrite (proj2 (Nil _ lt) (proj2 At Aa)), Oo. apply upd_str_same.
Qed.
End Ops.
