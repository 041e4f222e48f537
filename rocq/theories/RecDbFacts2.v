(** Programs of a recommender on a data set in a database: what every kind of
    access returns. *)
From Coq Require Import String Ascii.
From Coq Require Import List ZArith QArith Qcanon Bool Permutation Sorted Lia.
From Verif Require Import Py PyFacts MemModel MemSpec KnnModel DbModel DbFacts DbSpec DbFacts2 DbFacts3 DbFacts4
  DbFacts5 DbFacts6 DbFacts7 DbFacts12 DbFacts13 DbFacts14 DbFacts15 DbFacts17 DbFacts18 SampModel DbGenModel DbGenSpec DbGenFacts DbGenFacts2
  DbSplitModel DbSplitSpec DbSplitFacts DbSplitFacts2 DbSplitFacts3 DbSplitFacts6 KnnFacts RecDbModel RecDbFacts.
Import ListNotations.
Open Scope string_scope.
Open Scope Z_scope.
Open Scope list_scope.

(** the rows as (uid, iid, interaction) *)
Definition zcell (c : string) (row : trow) : Z := match tcell row c with Some (VInt z) => z | _ => 0 end.
Definition qcell (row : trow) : Qc :=
  match tcell row "interaction" with Some v => match num_of v with Some q => q | None => 0%Qc end | None => 0%Qc end.
Definition dtri (row : trow) : Z * Z * Qc := (zcell "uid" row, zcell "iid" row, qcell row).

(** a data set a recommender can be trained on *)
Record ready (d : ds) : Prop := {
  rd_complete : complete d;
  rd_cols : incl ["uid"; "iid"] (d_cols d);
  rd_types : exists ts, d_types d = Some ts /\ assoc String.eqb "uid" ts = Some DInt /\ assoc String.eqb "iid" ts = Some DInt;
  rd_rows : forall row, In row (d_rows d) -> tcell row "uid" = Some (VInt (zcell "uid" row)) /\
    tcell row "iid" = Some (VInt (zcell "iid" row)) /\ exists v, tcell row "interaction" = Some v /\ num_of v = Some (qcell row)
}.
Lemma ready_part d d' : ready d -> d_cols d' = d_cols d -> d_types d' = d_types d -> incl (d_rows d') (d_rows d) -> ready d'.
Proof.
  intros [C I Ty R] Ec Et Ir. split.
  - destruct C as [C1 C2]. split; [rewrite Ec; auto|rewrite Ec, Et; auto].
  - rewrite Ec; auto.
  - rewrite Et; auto.
  - intros row Hr. apply R. auto.
Qed.

Section Fine.
Variable inode : string -> nat.
Variable ords : nat -> list trow -> list trow.
Hypothesis Po : forall k, permuting (ords k).
Variables (i : nat) (d : ds).
Hypothesis Rd : ready d.

(** The data sets of the program are those of [b], and the one the recommender
    was trained on is at rest. *)
Definition fine (w : world) (b : book) : Prop :=
  (exists b0, (forall j, b0 j = b j) /\ reaches inode w b0) /\ b i = Some d /\ calm w i.

Definition runs {A} (b : book) (p : P A) (Q : book -> res A -> Prop) : Prop :=
  forall s, fine (snd s) b -> exists s' r b', p s = (s', r) /\ fine (snd s') b' /\ Q b' r.
Definition extends (b b' : book) : Prop := forall j, b j <> None -> b' j = b j.
Lemma extends_refl b : extends b b. Proof. intros j _. auto. Qed.
Lemma extends_trans a b c : extends a b -> extends b c -> extends a c.
Proof. intros H K j N. rewrite K; [apply H; auto|]. rewrite H; auto. Qed.

Lemma runs_bind {A B} b (p : P A) (f : A -> P B) Q R : runs b p Q ->
  (forall b' a, Q b' (Ok a) -> runs b' (f a) R) -> (forall b' e, Q b' (Err e) -> R b' (Err e)) -> runs b (pbind p f) R.
Proof.
  intros Hp Hf He s F. destruct (Hp s F) as (s1 & r & b1 & E & F1 & Q1). unfold pbind. rewrite E. destruct r as [a|e].
  - destruct (Hf b1 a Q1 s1 F1) as (s2 & r2 & b2 & X). eauto.
  - exists s1, (Err e), b1. auto.
Qed.
Lemma runs_weaken {A} b (p : P A) (Q R : book -> res A -> Prop) : runs b p Q -> (forall b' r, Q b' r -> R b' r) -> runs b p R.
Proof. intros H W s F. destruct (H s F) as (s1 & r & b1 & E & F1 & Q1). exists s1, r, b1. auto. Qed.
Lemma runs_ret {A} b (r : res A) (Q : book -> res A -> Prop) : Q b r -> runs b (pret r) Q.
Proof. intros H s F. exists s, r, b. auto. Qed.

(** a program that leaves the data sets as they are and has the result [r] *)
Definition gives {A} (b : book) (p : P A) (r : res A) : Prop := runs b p (fun b' r' => extends b b' /\ r' = r).
Lemma gives_ret {A} b (r : res A) : gives b (pret r) r.
Proof. apply runs_ret. split; [apply extends_refl|auto]. Qed.
Lemma gives_bind {A B} b (p : P A) (f : A -> P B) (r : res A) (g : A -> res B) : gives b p r ->
  (forall b' a, extends b b' -> r = Ok a -> gives b' (f a) (g a)) -> gives b (pbind p f) (a <- r ;; g a).
Proof.
  intros Hp Hf. eapply runs_bind; [exact Hp| |].
  - intros b1 a [X <-]. eapply runs_weaken; [apply (Hf b1 a X eq_refl)|]. cbn [bind]. intros b2 r2 [Y ->]. split; [eapply extends_trans; eauto|auto].
  - intros b1 e [X <-]. split; [auto|reflexivity].
Qed.
Lemma gives_map {A B} (f : A -> P B) (g : A -> res B) l : forall b, (forall b' a, extends b b' -> In a l -> gives b' (f a) (g a)) ->
  gives b (pmap f l) (mapM g l).
Proof.
  induction l as [|a l IH]; intros b H; cbn [pmap mapM]; [apply gives_ret|].
  apply gives_bind; [apply H; [apply extends_refl|left; auto]|]. intros b1 x X1 _. apply gives_bind.
  - apply IH. intros b2 y X2 Hy. apply H; [eapply extends_trans; eauto|right; auto].
  - intros b2 xs X2 _. apply gives_ret.
Qed.
(** a program whose result only meets [Q] *)
Lemma gives_then {A B} b (p : P A) (f : A -> P B) Q (r : res B) : runs b p (fun b' r' => extends b b' /\ Q r') ->
  (forall e, ~ Q (Err e)) -> (forall b' a, extends b b' -> Q (Ok a) -> gives b' (f a) r) -> gives b (pbind p f) r.
Proof.
  intros Hp He Hf. eapply runs_bind; [exact Hp| |].
  - intros b1 a [X Qa]. eapply runs_weaken; [apply (Hf b1 a X Qa)|]. intros b2 r2 [Y ->]. split; [eapply extends_trans; eauto|auto].
  - intros b1 e [_ X]. exfalso. eapply He; eauto.
Qed.

(** ** Reads *)
Lemma read_step ord o j dj w b : permuting ord -> is_read o = true -> subject o = Some j -> b j = Some dj -> fine w b ->
  (forall b0, b0 j = Some dj -> safe inode w b0 o /\ must_succeed inode w b0 o) ->
  exists w' a, exec inode ord o w = (w', Ok a) /\ fine w' b /\ right_answer dj o a.
Proof.
  intros P0 Rr Su Hb ((b0 & Eb & R) & Hi & C) K. assert (Hb0 : b0 j = Some dj) by (rewrite Eb; auto).
  destruct (K b0 Hb0) as [Sf Ms]. destruct (exec inode ord o w) as [w' r] eqn:E.
  pose proof (answer_of inode _ _ _ _ _ _ (reaches_inv _ _ _ R) P0 Sf E) as A. destruct r as [a|e]; [|contradiction].
  exists w', a. split; [auto|]. split; [|destruct A as [A _]; apply (A j dj Su Hb0)].
  split; [|split; [auto|]].
  - exists b0. split; [auto|]. pose proof (Calls inode _ _ _ _ _ _ R P0 Sf E) as R'. destruct o; try discriminate; exact R'.
  - destruct (Nat.eq_dec j i) as [->|N]; [eapply read_calm; eauto|eapply read_other; eauto].
Qed.

Lemma values_fine ord j dj cs lo w b : permuting ord -> b j = Some dj -> complete dj -> incl cs (d_cols dj) -> fine w b ->
  exists w' vs, values inode ord j (Some cs) lo w = (w', Ok vs) /\ fine w' b /\
    Permutation vs (map (cells cs) (d_rows dj)).
Proof.
  intros P0 Hb C I F. destruct (read_step ord (if lo then OGenerator j (Some cs) else OValues j (Some cs)) j dj w b) as (w' & a & E & F' & A); auto.
  - destruct lo; auto.
  - destruct lo; auto.
  - intros b0 H0. destruct lo; (split; [cbn; congruence|exists dj; auto]).
  - destruct lo; cbn [exec] in E; apply amap_inv in E; destruct E as (r0 & E & Er); destruct r0 as [vs|e]; try discriminate; injection Er as ->;
      exists w', vs; (split; [exact E|]); (split; [exact F'|]); destruct A as (rows & X & Pm); injection X as ->; exact Pm.
Qed.
Lemma generator_fine w b : fine w b -> exists w', close_generator w = (w', Ok tt) /\ fine w' b.
Proof.
  intros ((b0 & Eb & R) & Hi & C).
  assert (Sf : safe inode w b0 OCloseGenerator) by exact Logic.I.
  assert (Po1 : permuting (fun l => l)) by (intro; auto).
  destruct (exec inode (fun l => l) OCloseGenerator w) as [w1 r] eqn:E.
  pose proof (answer_of inode _ _ _ _ _ _ (reaches_inv _ _ _ R) Po1 Sf E) as A.
  destruct r as [a|e]; [|destruct (A Logic.I)].
  pose proof (Calls inode _ _ _ _ _ _ R Po1 Sf E) as R'.
  cbn [exec] in E. apply amap_inv in E. destruct E as ([[]|e] & E & Er); [|discriminate]. exists w1. split; [exact E|].
  split; [exists b0; auto|]. split; [auto|]. unfold close_generator, modify in E. injection E as <-. exact C.
Qed.
Lemma filled_rows cs rows vs : (forall row, In row rows -> forall c, In c cs -> tcell row c <> None) ->
  Permutation vs (map (cells cs) rows) -> exists l, Permutation l rows /\
    mapM (mapM filled) vs = Ok (map (fun row => map (fun c => match tcell row c with Some v => v | None => VInt 0 end) cs) l).
Proof.
  intros Nn Pm. destruct (Permutation_map_inv _ _ Pm) as (l & -> & Pl). exists l. split; [apply Permutation_sym; auto|].
  assert (Nl : forall row, In row l -> forall c, In c cs -> tcell row c <> None).
  { intros row Hr. apply Nn. eapply Permutation_in; [apply Permutation_sym|]; eauto. }
  clear - Nl. induction l as [|row l IH]; [auto|]. cbn [map mapM]. 
  assert (E : mapM filled (cells cs row) = Ok (map (fun c => match tcell row c with Some v => v | None => VInt 0 end) cs)).
  { assert (X : forall c, In c cs -> tcell row c <> None) by (intros; apply Nl; [left; auto|auto]). clear - X.
    unfold cells. induction cs as [|c cs IH]; [auto|]. cbn [map mapM]. destruct (tcell row c) as [v|] eqn:Ev; [|destruct (X c); [left; auto|auto]].
    cbn [filled]. cbn [bind]. rewrite IH by (intros; apply X; right; auto). reflexivity. }
  rewrite E. cbn [bind]. rewrite IH by (intros; apply Nl; [right; auto|auto]). reflexivity.
Qed.
Definition listed_rows (dj : ds) (cs : list string) (r : res (list (list value))) : Prop :=
  exists l, Permutation l (d_rows dj) /\ r = Ok (map (fun row => map (fun c => match tcell row c with Some v => v | None => VInt 0 end) cs) l).
Lemma values_runs b j dj cs : b j = Some dj -> complete dj -> incl cs (d_cols dj) ->
  (forall row, In row (d_rows dj) -> forall c, In c cs -> tcell row c <> None) ->
  runs b (db_values inode ords j cs) (fun b' r => extends b b' /\ listed_rows dj cs r).
Proof.
  intros Hb C I Nn s F. destruct (values_fine (ords (fst s)) j dj cs false (snd s) b (Po _) Hb C I F) as (w' & vs & E & F' & Pm).
  destruct (filled_rows cs _ vs Nn Pm) as (l & Pl & Em).
  eexists. eexists. exists b. split; [|split; [|split]].
  - unfold db_values, pbind, dbo. rewrite E. unfold pret. reflexivity.
  - exact F'.
  - apply extends_refl.
  - exists l. auto.
Qed.
Lemma each_runs b j dj cs : b j = Some dj -> complete dj -> incl cs (d_cols dj) ->
  (forall row, In row (d_rows dj) -> forall c, In c cs -> tcell row c <> None) ->
  runs b (db_each inode ords j cs) (fun b' r => extends b b' /\ listed_rows dj cs r).
Proof.
  intros Hb C I Nn s F. destruct (values_fine (ords (fst s)) j dj cs true (snd s) b (Po _) Hb C I F) as (w' & vs & E & F' & Pm).
  destruct (generator_fine w' b F') as (w2 & E2 & F2).
  destruct (filled_rows cs _ vs Nn Pm) as (l & Pl & Em).
  eexists. eexists. exists b. split; [|split; [|split]].
  - unfold db_each, pbind, dbo. rewrite E. unfold db. cbn [fst snd]. rewrite E2. unfold pret. reflexivity.
  - exact F2.
  - apply extends_refl.
  - exists l. auto.
Qed.
Lemma len_runs b j dj : b j = Some dj -> gives b (db (ds_len j)) (Ok (length (d_rows dj))).
Proof.
  intros Hb s F. destruct (read_step (fun l => l) (OLen j) j dj (snd s) b) as (w' & a & E & F' & A); auto.
  - intro; auto.
  - intros b0 H0. split; [cbn; congruence|exact Logic.I].
  - cbn [exec] in E. apply amap_inv in E. destruct E as ([n|e] & E & Er); [|discriminate]. injection Er as ->. cbn in A. injection A as ->.
    eexists. eexists. exists b. split; [unfold db; rewrite E; reflexivity|]. split; [exact F'|]. split; [apply extends_refl|auto].
Qed.
Lemma count_runs b c : In c (d_cols d) -> gives b (db (count_unique inode i (Some [c]))) (Ok (length (nodup cells_dec (map (cells [c]) (d_rows d))))).
Proof.
  intros Hc s F. pose proof F as (_ & Hb & _). destruct (read_step (fun l => l) (OCountUnique i (Some [c])) i d (snd s) b) as (w' & a & E & F' & A); auto.
  - intro; auto.
  - intros b0 H0. split.
    + exists d. split; [auto|]. cbn [asked]. split; [constructor; [auto|constructor]|discriminate].
    + exists d. split; [auto|]. split; [left; apply Rd|]. cbn [asked]. intros ? [<-|[]]; auto.
  - cbn [exec] in E. apply amap_inv in E. destruct E as ([n|e] & E & Er); [|discriminate]. injection Er as ->. cbn in A. injection A as ->.
    eexists. eexists. exists b. split; [unfold db; rewrite E; reflexivity|]. split; [exact F'|]. split; [apply extends_refl|auto].
Qed.
Lemma max_runs b : runs b (db (db_max inode i "interaction")) (fun b' r => extends b b' /\ exists v, r = Ok v /\ extreme Datatypes.Gt "interaction" (d_rows d) v).
Proof.
  intros s F. pose proof F as (_ & Hb & _). destruct (read_step (fun l => l) (OMax i "interaction") i d (snd s) b) as (w' & a & E & F' & A); auto.
  - intro; auto.
  - intros b0 H0. split; [cbn; congruence|]. exists d. split; [auto|]. split; [left; apply Rd|]. destruct (rd_complete d Rd) as [Ic _]. apply Ic. cbn. auto.
  - cbn [exec] in E. apply amap_inv in E. destruct E as ([v|e] & E & Er); [|discriminate]. injection Er as ->. destruct A as (v' & X & Ex). injection X as <-.
    eexists. eexists. exists b. split; [unfold db; rewrite E; reflexivity|]. split; [exact F'|]. split; [apply extends_refl|eauto].
Qed.
Lemma min_runs b : runs b (db (db_min inode i "interaction")) (fun b' r => extends b b' /\ exists v, r = Ok v /\ extreme Datatypes.Lt "interaction" (d_rows d) v).
Proof.
  intros s F. pose proof F as (_ & Hb & _). destruct (read_step (fun l => l) (OMin i "interaction") i d (snd s) b) as (w' & a & E & F' & A); auto.
  - intro; auto.
  - intros b0 H0. split; [cbn; congruence|]. exists d. split; [auto|]. split; [left; apply Rd|]. destruct (rd_complete d Rd) as [Ic _]. apply Ic. cbn. auto.
  - cbn [exec] in E. apply amap_inv in E. destruct E as ([v|e] & E & Er); [|discriminate]. injection Er as ->. destruct A as (v' & X & Ex). injection X as <-.
    eexists. eexists. exists b. split; [unfold db; rewrite E; reflexivity|]. split; [exact F'|]. split; [apply extends_refl|eauto].
Qed.

(** ** One row *)
Definition is_id (c : string) (k : Z) : scond := mkCond c Eq (LInt k).
Lemma id_fits c k dj : ready dj -> c = "uid" \/ c = "iid" -> cond_fits dj (is_id c k).
Proof.
  intros R Hc. apply id_cond; [auto|]. destruct (rd_types dj R) as (ts & Ts & Tu & Ti). split.
  - destruct Hc as [-> | ->]; apply (rd_cols dj R); cbn; auto.
  - exists ts. split; [auto|]. destruct Hc as [-> | ->]; auto.
Qed.
Lemma id_holds dj c k row : ready dj -> c = "uid" \/ c = "iid" -> In row (d_rows dj) -> holds row (is_id c k) = (zcell c row =? k).
Proof.
  intros R Hc Hr. unfold is_id. rewrite id_is. destruct (rd_rows dj R row Hr) as (Eu & Ei & _). destruct Hc as [-> | ->]; [rewrite Eu|rewrite Ei]; reflexivity.
Qed.
(** the answer of select_one with conditions [cs] *)
Definition found_as (dj : ds) (cs : list scond) (r : res (option (list value))) : Prop :=
  (r = Ok None /\ forall row, In row (d_rows dj) -> forallb (holds row) cs = false) \/
  (exists row v, r = Ok (Some [v]) /\ In row (d_rows dj) /\ forallb (holds row) cs = true /\ num_of v = Some (qcell row)).
Lemma one_runs b j dj cs : b j = Some dj -> ready dj -> cs <> [] -> Forall (cond_fits dj) cs ->
  (forall c, In c cs -> exists z, sc_lit c = LInt z) ->
  runs b (db_one inode ords j (query_text cs) ["interaction"]) (fun b' r => extends b b' /\ found_as dj cs r).
Proof.
  intros Hb R Ne Fc Li s F. destruct (read_step (ords (fst s)) (OSelectOne j cs (Some ["interaction"])) j dj (snd s) b) as (w' & a & E & F' & A); auto.
  - intros b0 H0. split.
    + exists dj. split; [auto|]. split; [auto|]. split; [auto|]. apply Forall_forall. intros c Hc. destruct (Li c Hc) as [z Hz]. unfold no_name. rewrite Hz. exact Logic.I.
    + exists dj. split; [auto|]. split; [left; apply R|]. cbn [asked]. intros ? [<-|[]]. destruct (rd_complete dj R) as [Ic _]. apply Ic. cbn. auto.
  - cbn [exec] in E. apply amap_inv in E. destruct E as ([n|e] & E & Er); [|discriminate]. injection Er as ->.
    destruct A as (row & X & A). injection X as <-. cbn [asked] in A.
    eexists. eexists. exists b. split; [unfold db_one, pbind, dbo; rewrite E; unfold pret; reflexivity|]. split; [exact F'|].
    split; [apply extends_refl|]. destruct n as [l|].
    + destruct A as (r & Hr & Hh & ->). right. destruct (rd_rows dj R r Hr) as (_ & _ & v & Ev & Q). exists r, v. cbn [cells map]. rewrite Ev. cbn. auto.
    + left. auto.
Qed.

(** ** The data set of one user or item *)
Lemma select_runs b c k : c = "uid" \/ c = "iid" ->
  runs b (db (select inode i (c ++ " == " ++ str_of_Z k)%string true))
    (fun b' r => exists j, r = Ok j /\ b j = None /\ b' = note b j (Some (restricted d [is_id c k]))).
Proof.
  intros Hc s ((b0 & Eb & R) & Hb & C). assert (Hb0 : b0 i = Some d) by (rewrite Eb; auto).
  assert (Tx : (c ++ " == " ++ str_of_Z k)%string = query_text [is_id c k]) by (destruct Hc as [-> | ->]; reflexivity).
  rewrite Tx. assert (Po1 : permuting (fun l => l)) by (intro; auto).
  assert (Sf : safe inode (snd s) b0 (OSelect i [is_id c k] true)).
  { exists d. split; [auto|]. split; [discriminate|]. split; [constructor; [apply id_fits; auto|constructor]|]. constructor; [exact Logic.I|constructor]. }
  destruct (exec inode (fun l => l) (OSelect i [is_id c k] true) (snd s)) as [w' r] eqn:E.
  pose proof (answer_of inode _ _ _ _ _ _ (reaches_inv _ _ _ R) Po1 Sf E) as A.
  pose proof (Calls inode _ _ _ _ _ _ R Po1 Sf E) as R'.
  destruct r as [a|e]; [|destruct A; exists d; split; [auto|apply Rd]].
  destruct A as (_ & j & -> & Fr). cbn [effect] in R'. rewrite Hb0 in R'. cbn [result] in R'.
  cbn [exec] in E. apply amap_inv in E. destruct E as ([j'|e] & E & Er); [|discriminate]. injection Er as <-.
  assert (Ni : i <> j) by congruence.
  exists (fst s, w'), (Ok j), (note b j (Some (restricted d [is_id c k]))). split; [unfold db; rewrite E; reflexivity|].
  split; [|exists j; rewrite <- Eb; auto]. split; [|split].
  - exists (note b0 j (Some (restricted d [is_id c k]))). split; [|exact R']. intro x. unfold note. destruct (Nat.eqb x j); auto.
  - rewrite note_other; auto.
  - eapply select_calm; [apply (inv_base _ _ _ (reaches_inv _ _ _ R))|exact C|exact E].
Qed.
Lemma close_runs b j dj : b j = Some dj -> j <> i -> runs b (db (close inode j)) (fun b' r => r = Ok tt /\ b' = note b j None).
Proof.
  intros Hj N s ((b0 & Eb & R) & Hb & C). assert (Hj0 : b0 j = Some dj) by (rewrite Eb; auto).
  assert (Po1 : permuting (fun l => l)) by (intro; auto).
  destruct (shows_inst inode _ j dj (inv_ds _ _ _ (reaches_inv _ _ _ R) j dj Hj0)) as (x & H & _).
  assert (Sf : safe inode (snd s) b0 (OClose j)) by (cbn; congruence).
  destruct (exec inode (fun l => l) (OClose j) (snd s)) as [w' r] eqn:E.
  pose proof (answer_of inode _ _ _ _ _ _ (reaches_inv _ _ _ R) Po1 Sf E) as A.
  pose proof (Calls inode _ _ _ _ _ _ R Po1 Sf E) as R'.
  destruct r as [a|e]; [|destruct A; exact Logic.I].
  cbn [effect] in R'. cbn [exec] in E. apply amap_inv in E. destruct E as ([[]|e] & E & Er); [|discriminate].
  exists (fst s, w'), (Ok tt), (note b j None). split; [unfold db; rewrite E; reflexivity|]. split; [|auto]. split; [|split].
  - exists (note b0 j None). split; [|exact R']. intro y. unfold note. destruct (Nat.eqb y j); auto.
  - rewrite note_other; auto.
  - eapply close_calm; eauto.
Qed.
End Fine.
