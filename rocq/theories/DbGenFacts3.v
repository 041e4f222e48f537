(** What the generators can draw, when they return, and the sampler. *)
From Coq Require Import String Ascii.
From Coq Require Import List ZArith QArith Qcanon Bool Permutation Lia.
From Verif Require Import Py PyFacts MemModel MemFacts MemSpec DbModel DbFacts DbFacts2 DbFacts3 DbFacts4 DbFacts5 DbFacts7 DbFacts10
  DbSpec DbFacts11 DbFacts12 DbFacts13 DbFacts14 DbFacts15 DbFacts17 SampModel DbGenModel DbGenSpec DbGenFacts DbGenFacts2.
Import ListNotations.
Open Scope string_scope.
Open Scope Z_scope.

Section Facts.
Variable inode : string -> nat.
Notation tables := (tables inode).
Notation Inv := (Inv inode).

(** ** The random generator *)
Lemma randint_at s k m : 0 <= Z.of_nat (s k) <= m -> randint s k 0 m = Ok (Z.of_nat (s k)).
Proof. intro H. unfold randint. destruct (Z.ltb_spec m 0); [lia|]. rewrite Z.mod_small by lia. f_equal. Qed.

Lemma rand_loop_drawn ord j mu w b d row u : permuting ord -> Inv w b -> b j = Some d -> id_column d "uid" ->
  In row (d_rows d) -> tcell row "uid" = Some (VInt u) -> 0 <= u <= mu ->
  exists a c, forall s k fuel, s k = a -> s (Datatypes.S k) = c ->
    rand_loop inode (Datatypes.S fuel) ord s j mu k w = (w, Some (Ok (row, Datatypes.S (Datatypes.S k)))).
Proof.
  intros Po I Hb Ic Hr Eu Hu. destruct (uid_rows inode w b j d u I Hb Ic) as (rows & x & Er & Hx & P).
  assert (Hin : In row (map (zip_row x) (ord rows))).
  { eapply Permutation_in; [apply Permutation_map, Permutation_sym, Po|].
    eapply Permutation_in; [apply Permutation_sym, P|]. apply filter_In. split; [auto|]. rewrite Eu. cbn [number_is]. apply Z.eqb_refl. }
  apply In_nth_error in Hin. destruct Hin as [n Hn].
  assert (Ln : (n < length rows)%nat).
  { rewrite <- (Permutation_length (Po rows)), <- (map_length (zip_row x)). apply nth_error_Some. congruence. }
  exists (Z.to_nat u), n. intros s k fuel Sk0 Sk1. assert (Sk : Z.of_nat (s k) = u) by (rewrite Sk0; lia).
  destruct (rand_step inode fuel ord s j mu k w b d Po I Hb Ic) as (v & Ev & _ & [[Nr _]|(rec & rows' & x' & E & _ & _ & Er' & Hx' & _ & idx & Ei & En)]); [lia| |].
  - rewrite randint_at in Ev by lia. assert (v = u) by congruence. subst v. specialize (Nr row Hr). rewrite Eu in Nr. cbn [number_is] in Nr.
    rewrite Z.eqb_refl in Nr. discriminate.
  - rewrite E. rewrite randint_at in Ev by lia. assert (v = u) by congruence. subst v. assert (rows' = rows) by congruence. assert (x' = x) by congruence. subst rows' x'.
    rewrite randint_at in Ei by lia. rewrite Sk1 in Ei. injection Ei as <-. rewrite Nat2Z.id in En. assert (rec = row) by congruence. subst rec. auto.
Qed.
Definition two (k a c : nat) : nat -> nat := fun m => if Nat.eqb m k then a else c.
Lemma two_0 k a c : two k a c k = a.
Proof. unfold two. rewrite Nat.eqb_refl. auto. Qed.
Lemma two_1 k a c : two k a c (Datatypes.S k) = c.
Proof. unfold two. destruct (Nat.eqb_spec (Datatypes.S k) k); [lia|auto]. Qed.
Lemma rand_loop_draws ord j mu w b d row u k : permuting ord -> Inv w b -> b j = Some d -> id_column d "uid" ->
  In row (d_rows d) -> tcell row "uid" = Some (VInt u) -> 0 <= u <= mu ->
  exists s, forall fuel, rand_loop inode (Datatypes.S fuel) ord s j mu k w = (w, Some (Ok (row, Datatypes.S (Datatypes.S k)))).
Proof.
  intros Po I Hb Ic Hr Eu Hu. destruct (rand_loop_drawn ord j mu w b d row u Po I Hb Ic Hr Eu Hu) as (a & c & H).
  exists (two k a c). intro fuel. apply H; [apply two_0|apply two_1].
Qed.

Lemma rand_start_new ord w b j d : permuting ord -> Inv w b -> b j = Some d -> numbered d -> complete d -> d_rows d <> [] ->
  exists w' mu, rand_start inode (RNew j) w = (w', Ok (j, mu, 0%nat)) /\ Inv w' b /\ extreme Datatypes.Gt "uid" (d_rows d) (Some (VInt mu)) /\ 0 <= mu.
Proof.
  intros Po I Hb Nd Cm Nr. destruct (rand_start inode (RNew j) w) as [w1 r] eqn:E.
  destruct (rand_start_spec inode ord (RNew j) j w b d w1 r Po I eq_refl Hb E) as (I1 & A & Ne). destruct r as [t|e].
  - destruct (A t eq_refl) as (mu & k & -> & -> & _ & Ex). exists w1, mu. repeat (split; [auto|]).
    apply (extreme_nonneg d "uid"); [apply numbered_numbers|]; auto.
  - exfalso. destruct (Ne e eq_refl) as [_ [[X _]|[X|(v & Ex & X)]]]; [contradiction| |].
    + apply X. split; [auto|apply (nb_uid _ Nd)].
    + destruct (bound_max d v (numbered_bound d Nd Cm Nr) Ex) as (z & -> & _). apply (X z eq_refl).
Qed.
Lemma extreme_above d c m row u : extreme Datatypes.Gt c (d_rows d) (Some (VInt m)) -> In row (d_rows d) -> tcell row c = Some (VInt u) -> u <= m.
Proof.
  intros [_ H] Hr E. specialize (H row _ Hr E). cbn [key_of key_compare] in H. apply Z.le_ngt. intro L. apply H.
  rewrite Qc_of_Z_compare. apply Z.compare_gt_iff. auto.
Qed.

(** every row can come next *)
Theorem rand_next_draws ord j w b d row : permuting ord -> Inv w b -> b j = Some d -> numbered d -> complete d -> In row (d_rows d) ->
  exists s w' g', forall fuel, rand_next inode (Datatypes.S fuel) ord s (RNew j) w = (w', Some (Ok (Some row), g')).
Proof.
  intros Po I Hb Nd Cm Hr. destruct (rand_start_new ord w b j d Po I Hb Nd Cm) as (w' & mu & Es & I' & Ex & Hm); [intro X; rewrite X in Hr; contradiction|].
  destruct (nb_rows _ Nd row Hr) as (u & i & Eu & _ & Hu & _). pose proof (extreme_above _ _ _ _ _ Ex Hr Eu) as Le.
  destruct (rand_loop_draws ord j mu w' b d row u 0 Po I' Hb (nb_uid _ Nd) Hr Eu (conj Hu Le)) as (s & Hs).
  exists s, w', (RAt j mu 2). intro fuel. unfold rand_next. rewrite (fthen_ok _ _ w w' (j, mu, 0%nat)) by (apply runs_ok; exact Es).
  rewrite (fthen_ok _ _ w' w' (row, 2%nat)) by apply Hs. reflexivity.
Qed.
Theorem rand_next_draws_at ord j mu k w b d row u : permuting ord -> Inv w b -> b j = Some d -> id_column d "uid" -> In row (d_rows d) ->
  tcell row "uid" = Some (VInt u) -> 0 <= u <= mu ->
  exists s g', forall fuel, rand_next inode (Datatypes.S fuel) ord s (RAt j mu k) w = (w, Some (Ok (Some row), g')).
Proof.
  intros Po I Hb Ic Hr Eu Hu. destruct (rand_loop_draws ord j mu w b d row u k Po I Hb Ic Hr Eu Hu) as (s & Hs).
  exists s, (RAt j mu (Datatypes.S (Datatypes.S k))). intro fuel. unfold rand_next. cbn [rand_start].
  rewrite (fthen_ok _ _ w w (j, mu, k)) by reflexivity. rewrite (fthen_ok _ _ w w (row, Datatypes.S (Datatypes.S k))) by apply Hs. reflexivity.
Qed.
(** a pull returns once a user with rows is drawn *)
Theorem rand_next_returns ord s j w b d : permuting ord -> Inv w b -> b j = Some d -> numbered d -> complete d -> 
  (forall m, extreme Datatypes.Gt "uid" (d_rows d) (Some (VInt m)) ->
     exists n row u, In row (d_rows d) /\ tcell row "uid" = Some (VInt u) /\ randint s n 0 m = Ok u) ->
  d_rows d <> [] ->
  exists fuel w' row g', rand_next inode fuel ord s (RNew j) w = (w', Some (Ok (Some row), g')).
Proof.
  intros Po I Hb Nd Cm Hs Nr. destruct (rand_start_new ord w b j d Po I Hb Nd Cm Nr) as (w' & mu & Es & I' & Ex & Hm).
  destruct (Hs mu Ex) as (n & row & u & Hr & Eu & En).
  destruct (rand_loop_returns inode ord s j mu w' b d Po I' Hb (nb_uid _ Nd) Hm n 0%nat u row En Hr) as (rec & k' & El & _).
  { rewrite Eu. cbn [number_is]. apply Z.eqb_refl. }
  exists (Datatypes.S n), w', rec, (RAt j mu k'). unfold rand_next. rewrite (fthen_ok _ _ w w' (j, mu, 0%nat)) by (apply runs_ok; exact Es).
  rewrite (fthen_ok _ _ w' w' (rec, k')) by exact El. reflexivity.
Qed.

(** ** Pairs *)
Theorem null_take_pulled ord s s2 d t w b : permuting ord -> Inv w b -> id_column d "uid" -> id_column d "iid" ->
  forall n fuel g w' o, pulled b d t g -> null_take inode n fuel ord s s2 g w = (w', o) ->
  w' = w /\ (forall l, o = Some (Ok l) -> length l = n /\ forall p, In p l -> null_pair d t p) /\
  (numbered d -> forall e, o <> Some (Err e)).
Proof.
  intros Po I Iu Ii. induction n as [|n IH]; intros fuel g w' o Pg E; cbn [null_take] in E.
  { unfold runs, ret in E. injection E as <- <-. split; [auto|]. split; [|discriminate]. intros l X. injection X as <-. split; [auto|contradiction]. }
  destruct (null_next inode fuel ord s s2 g w) as [w1 o1] eqn:En.
  destruct (null_next_pulled inode fuel ord s s2 g w b d t w1 o1 Po I Pg En) as (-> & A).
  destruct o1 as [[x g']|]; [|injection E as <- <-; split; [auto|split; discriminate]].
  specialize (A _ _ eq_refl). destruct x as [[p|]|e].
  - destruct A as (Pg' & Hp & _). specialize (Hp Iu Ii). destruct Hp as [Hp _]. destruct (null_take inode n fuel ord s s2 g' w) as [w2 o2] eqn:Et.
    destruct (IH _ _ _ _ Pg' Et) as (-> & B & Ne). unfold fthen in E. rewrite Et in E.
    destruct o2 as [[l|e]|]; cbn [runs ret] in E; injection E as <- <-; (split; [auto|]); (split; [|try discriminate]); try discriminate.
    + intros l0 X. injection X as <-. destruct (B l eq_refl) as [<- Hl]. split; [auto|]. intros r0 [<-|H]; auto.
    + intros N e0 X. apply (Ne N e). auto.
  - contradiction.
  - injection E as <- <-. split; [auto|]. split; [discriminate|]. intros N e0 X. destruct A as [_ A]. apply A; auto; apply numbered_numbers; auto.
Qed.
Theorem null_take_spec ord s s2 i d t w b n fuel w' o : permuting ord -> Inv w b -> b i = Some d -> threshold_fits d t ->
  id_column d "uid" -> id_column d "iid" -> null_take inode n fuel ord s s2 (NNew i (thr_text t)) w = (w', o) ->
  Inv w' b /\ (forall l, o = Some (Ok l) -> length l = n /\ forall p, In p l -> null_pair d t p) /\
  (numbered d -> complete d -> d_ids d = true -> d_rows d <> [] -> forall e, o <> Some (Err e)).
Proof.
  intros Po I Hb Tf Iu Ii E. destruct n as [|n]; cbn [null_take] in E.
  { unfold runs, ret in E. injection E as <- <-. split; [auto|]. split; [|discriminate]. intros l X. injection X as <-. split; [auto|contradiction]. }
  destruct (null_next inode fuel ord s s2 (NNew i (thr_text t)) w) as [w1 o1] eqn:En.
  destruct (null_next_new inode fuel ord s s2 i w b d t w1 o1 Po I Hb Tf En) as (I1 & A).
  destruct o1 as [[x g']|]; [|injection E as <- <-; split; [auto|split; discriminate]].
  specialize (A _ _ eq_refl). destruct x as [[p|]|e].
  - destruct A as (In1 & Sub & Pg' & Hp & _). specialize (Hp Iu Ii). destruct (null_take inode n fuel ord s s2 g' w1) as [w2 o2] eqn:Et.
    destruct (null_take_pulled ord s s2 d t w1 _ Po In1 Iu Ii _ _ _ _ _ Pg' Et) as (-> & B & Ne). unfold fthen in E. rewrite Et in E.
    destruct o2 as [[l|e]|]; cbn [runs ret] in E; injection E as <- <-; (split; [auto|]); (split; [|try discriminate]); try discriminate.
    + intros l0 X. injection X as <-. destruct (B l eq_refl) as [<- Hl]. split; [auto|]. intros r0 [<-|H]; auto.
    + intros N _ _ _ e0 X. apply (Ne N e). auto.
  - contradiction.
  - injection E as <- <-. split; [auto|]. split; [discriminate|]. intros N Cm Hi Nr e0 X. destruct A as [_ A].
    apply A; auto; try apply numbered_numbers; auto.
Qed.

(** A full data set without rows below the threshold: a pull never returns. *)
Theorem null_never_returns fuel ord s s2 i w b d t : permuting ord -> Inv w b -> b i = Some d -> threshold_fits d t ->
  numbered d -> complete d -> d_ids d = true -> d_rows d <> [] ->
  (forall u v, in_range d u v -> observed d u v) ->
  (forall l row, t = Some l -> In row (d_rows d) -> forallb (holds row) (below l) = false) ->
  snd (null_next inode fuel ord s s2 (NNew i (thr_text t)) w) = None.
Proof.
  intros Po I Hb Tf Nd Cm Hi Nr Full Nb. destruct (null_next inode fuel ord s s2 (NNew i (thr_text t)) w) as [w' o] eqn:E. cbn [snd].
  destruct (null_next_new inode fuel ord s s2 i w b d t w' o Po I Hb Tf E) as (_ & A). destruct o as [[x g']|]; [|auto]. exfalso.
  specialize (A _ _ eq_refl). destruct x as [[p|]|e]; [|auto|].
  - destruct A as (_ & _ & _ & Hp & _). destruct (Hp (nb_uid _ Nd) (nb_iid _ Nd)) as [(u & v & _ & Hr & Hn)|(l & row & Et & Hr & Hh & _)]; [auto|].
    rewrite (Nb l row Et Hr) in Hh. discriminate.
  - destruct A as [_ A]. apply A; auto; try apply (nb_uid _ Nd); try apply (nb_iid _ Nd); apply numbered_numbers; auto.
Qed.
End Facts.
