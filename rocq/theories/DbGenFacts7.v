(** More fuel gives the same result; under streams in which every finite sequence of
    draws comes again and again the sampler returns. *)
From Coq Require Import String Ascii.
From Coq Require Import List ZArith QArith Qcanon Bool Permutation Lia.
From Verif Require Import Py PyFacts MemModel MemFacts MemSpec DbModel DbFacts DbFacts2 DbFacts3 DbFacts4 DbFacts5 DbFacts7 DbFacts10
  DbSpec DbFacts11 DbFacts12 DbFacts13 DbFacts14 DbFacts15 DbFacts17 SampModel DbGenModel DbGenSpec DbGenSpec2 DbGenFacts DbGenFacts2 DbGenFacts3 DbGenFacts4 DbGenFacts5 DbGenFacts6.
Import ListNotations.
Open Scope string_scope.
Open Scope Z_scope.
Open Scope list_scope.

(** ** More fuel *)
(** [q] returns what [p] returns *)
Definition steady {S X} (p q : S -> S * option X) : Prop := forall s s' r, p s = (s', Some r) -> q s = (s', Some r).
Lemma steady_refl {S X} (p : S -> S * option X) : steady p p.
Proof. intros s s' r E. exact E. Qed.
Lemma steady_fthen {A B} (p q : F A) (f g : A -> F B) : steady p q -> (forall a, steady (f a) (g a)) -> steady (fthen p f) (fthen q g).
Proof.
  intros H K w w' r E. unfold fthen in *. destruct (p w) as [w1 [[a|e]|]] eqn:E1; [| |discriminate].
  - rewrite (H _ _ _ E1). apply K. exact E.
  - rewrite (H _ _ _ E1). exact E.
Qed.
Lemma steady_attempt {A} (p q : F A) : steady p q -> steady (attempt p) (attempt q).
Proof.
  intros H w w' r E. unfold attempt in *. destruct (p w) as [w1 [[a|e]|]] eqn:E1; [| |discriminate]; rewrite (H _ _ _ E1); exact E.
Qed.
Lemma steady_hangs {A} (q : F A) : steady hangs q.
Proof. intros w w' r E. discriminate. Qed.

Section More.
Variable inode : string -> nat.
Ltac calm := repeat first [apply steady_refl|apply steady_hangs|apply steady_fthen; [|intro]|apply steady_attempt
  |match goal with |- steady (if ?c then _ else _) _ => destruct c end|match goal with |- steady (match ?c with _ => _ end) _ => destruct c end].
Lemma more_rand_loop ord s j mu f : forall f' k, (f <= f')%nat -> steady (rand_loop inode f ord s j mu k) (rand_loop inode f' ord s j mu k).
Proof.
  induction f as [|f IH]; intros [|f'] k L; try lia; cbn [rand_loop]; calm; apply IH; lia.
Qed.
Lemma more_rand ord s g f f' : (f <= f')%nat -> steady (rand_next inode f ord s g) (rand_next inode f' ord s g).
Proof.
  intros L w w' r. unfold rand_next. destruct g as [j|j mu k|]; [| |auto];
  (match goal with |- match ?p w with _ => _ end = _ -> match ?q w with _ => _ end = _ =>
    assert (K : steady p q) by (apply steady_fthen; [apply steady_refl|intros [[j0 mu0] k0]; apply steady_fthen; [apply more_rand_loop; exact L|intro; apply steady_refl]]);
    destruct (p w) as [w1 [x|]] eqn:E1; [rewrite (K _ _ _ E1); auto|discriminate] end).
Qed.
Lemma more_pull ord s g f f' : (f <= f')%nat -> steady (rand_pull inode f ord s g) (rand_pull inode f' ord s g).
Proof.
  intros L w w' r. unfold rand_pull. pose proof (more_rand ord s g f f' L w) as K.
  destruct (rand_next inode f ord s g w) as [w1 [x|]]; [|discriminate]. rewrite (K _ _ eq_refl). auto.
Qed.
Lemma more_pair_loop ord s s2 i mu mi f : forall f' neg k, (f <= f')%nat -> steady (pair_loop inode f ord s s2 i mu mi neg k) (pair_loop inode f' ord s s2 i mu mi neg k).
Proof.
  induction f as [|f IH]; intros [|f'] neg k L; try lia; cbn [pair_loop]; calm; first [apply more_pull; lia|apply IH; lia].
Qed.
Lemma more_start ord s2 i t f f' : (f <= f')%nat -> steady (null_start inode f ord s2 i t) (null_start inode f' ord s2 i t).
Proof. intro L. unfold null_start. calm. apply more_pull. exact L. Qed.
Lemma more_null ord s s2 g f f' : (f <= f')%nat -> steady (null_next inode f ord s s2 g) (null_next inode f' ord s s2 g).
Proof.
  intros L w w' r. unfold null_next. destruct g as [i t|i mu mi neg k|]; [| |auto];
  (match goal with |- match ?p w with _ => _ end = _ -> match ?q w with _ => _ end = _ =>
    assert (K : steady p q) by (first [apply steady_fthen; [apply more_pair_loop; exact L|intro; apply steady_refl]|apply steady_fthen; [apply more_start; exact L|intros [[mu0 mi0] neg0]; apply steady_fthen; [apply more_pair_loop; exact L|intro; apply steady_refl]]]);
    destruct (p w) as [w1 [x|]] eqn:E1; [rewrite (K _ _ _ E1); auto|discriminate] end).
Qed.
Lemma more_sample neg ord dr f f' n : (f <= f')%nat -> forall p, steady (db_sample inode n f ord neg dr p) (db_sample inode n f' ord neg dr p).
Proof.
  intro L. induction n as [|n IH]; intros p w w' r; cbn [db_sample]; [auto|].
  set (p1 := mkDbPoint _ _ _).
  match goal with |- context [if ?c then _ else _] => set (lab := c) end.
  assert (K : forall x y, (if lab then db_sample_negative inode f ord dr p1 w else db_sample_positive inode f ord dr p1 w) = (x, Some y) ->
    (if lab then db_sample_negative inode f' ord dr p1 w else db_sample_positive inode f' ord dr p1 w) = (x, Some y)).
  { intros x y. destruct lab.
    - unfold db_sample_negative. pose proof (more_null ord (dd_null dr) (dd_neg dr) (dp_null p1) f f' L w) as M.
      destruct (null_next inode f ord (dd_null dr) (dd_neg dr) (dp_null p1) w) as [w1 [[o g]|]]; [|discriminate]. rewrite (M _ _ eq_refl). auto.
    - unfold db_sample_positive. pose proof (more_rand ord (dd_pos dr) (dp_pos p1) f f' L w) as M.
      destruct (rand_next inode f ord (dd_pos dr) (dp_pos p1) w) as [w1 [[o g]|]]; [|discriminate]. rewrite (M _ _ eq_refl). auto. }
  destruct (if lab then db_sample_negative inode f ord dr p1 w else db_sample_positive inode f ord dr p1 w) as [w1 [[o p2]|]] eqn:E1; [|discriminate].
  rewrite (K _ _ eq_refl). destruct o as [tr|e]; [|auto]. specialize (IH p2 w1).
  destruct (db_sample inode n f ord neg dr p2 w1) as [w2 [[o2 p3]|]]; [|discriminate]. rewrite (IH _ _ eq_refl). auto.
Qed.
End More.

(** ** The sampler returns *)
Section Returns.
Variable inode : string -> nat.
Local Notation Inv := (Inv inode).
Variables (d : ds) (t : option slit).
Hypothesis Nd : numbered d.
Hypothesis Cm : complete d.
Hypothesis Hi : d_ids d = true.
Local Notation low l := (d_rows (restricted d (below l))).
(** what the generators know of the data *)
Definition keen_pos (g : rgen) : Prop :=
  match g with RAt _ mu _ => extreme Datatypes.Gt "uid" (d_rows (positives d t)) (Some (VInt mu)) | _ => True end.
Definition keen_null (g : ngen) : Prop := match g with NAt _ _ _ None _ => forall l, t = Some l -> low l = [] | _ => True end.
Definition keen (p : dbpoint) : Prop := keen_null (dp_null p) /\ keen_pos (dp_pos p).
(** there is a negative pair *)
Definition some_null : Prop := (exists u v, in_range d u v /\ ~ observed d u v) \/ (exists l, t = Some l /\ low l <> []).

Lemma pos_returns ord dr p w b : permuting ord -> rich (dd_pos dr) -> Inv w b -> sampler_ok b d t p -> keen_pos (dp_pos p) ->
  exists f w' r, db_sample_positive inode f ord dr p w = (w', Some r).
Proof.
  intros Po R I (_ & j & Ow & Hj & _) Kp. pose proof (positives_numbered d t Nd) as Np. pose proof (positives_complete d t Cm) as Cp.
  assert (X : exists f w' r, rand_next inode f ord (dd_pos dr) (dp_pos p) w = (w', Some r)).
  { destruct (dp_pos p) as [j'|j' mu k|]; [| |discriminate]; cbn [owner] in Ow; injection Ow as ->.
    - destruct (list_eq_dec (list_eq_dec (fun x y : string * option value => ltac:(repeat decide equality; apply Qc_eq_dec))) (d_rows (positives d t)) []) as [Z|Nr].
      + destruct (rand_start inode (RNew j) w) as [w1 r1] eqn:E1.
        destruct (rand_start_spec inode ord (RNew j) j w b _ w1 r1 Po I eq_refl Hj E1) as (_ & A & _). destruct r1 as [tt0|e].
        { destruct (A _ eq_refl) as (mu & k & _ & _ & N & _). contradiction. }
        exists 0%nat, w1, (Err e, REnd). unfold rand_next, fthen, runs. rewrite E1. reflexivity.
      + destruct (rand_start_new inode ord w b j _ Po I Hj Np Cp Nr) as (w2 & mu & Es & I2 & Ex & _).
        destruct (row_pulls inode ord Po (dd_pos dr) j mu w2 b _ R I2 Hj Np Ex Nr 0%nat) as (r & k' & f0 & Hf).
        exists f0, w2, (Ok (Some r), RAt j mu k'). unfold rand_next. rewrite (fthen_ok _ _ w w2 (j, mu, 0%nat)) by (apply runs_ok; exact Es).
        rewrite (fthen_ok _ _ w2 w2 (r, k')) by (apply Hf; lia). reflexivity.
    - cbn [keen_pos] in Kp. assert (Nr : d_rows (positives d t) <> []) by (destruct Kp as ((r & Hr & _) & _); intro Z; rewrite Z in Hr; destruct Hr).
      destruct (row_pulls inode ord Po (dd_pos dr) j mu w b _ R I Hj Np Kp Nr k) as (r & k' & f0 & Hf).
      exists f0, w, (Ok (Some r), RAt j mu k'). unfold rand_next. cbn [rand_start]. rewrite (fthen_ok _ _ w w (j, mu, k)) by reflexivity.
      rewrite (fthen_ok _ _ w w (r, k')) by (apply Hf; lia). reflexivity. }
  destruct X as (f & w' & [o g] & E). exists f, w'. eexists. unfold db_sample_positive. rewrite E. reflexivity.
Qed.

Lemma at_returns ord s s2 g w b : permuting ord -> rich s -> rich s2 -> Inv w b -> pulled b d t g -> keen_null g -> some_null ->
  exists f w' r, null_next inode f ord s s2 g w = (w', Some r).
Proof.
  intros Po R R2 I (i & mu & mi & neg & k & -> & Hb & Xu & Xi & Hn) Kg Sn. cbn [keen_null] in Kg.
  assert (B : exists bl k2, neg = gen bl k2 /\
    match bl with
    | None => neg = None
    | Some (j, m, dj) => b j = Some dj /\ numbered dj /\ d_rows dj <> [] /\ extreme Datatypes.Gt "uid" (d_rows dj) (Some (VInt m))
    end).
  { destruct neg as [[j g]|]; [|exists None, 0%nat; auto]. destruct Hn as (l & Et & Bj & m & k2 & -> & Xm).
    exists (Some (j, m, restricted d (below l))), k2. split; [reflexivity|]. split; [exact Bj|]. split; [apply restricted_numbered; exact Nd|]. split; [|exact Xm].
    destruct Xm as ((r & Hr & _) & _). intro Z. rewrite Z in Hr. destruct Hr. }
  destruct B as (bl & k2 & -> & Bl).
  assert (Bl' : match bl with None => True | Some (j, m, dj) => b j = Some dj /\ numbered dj /\ d_rows dj <> [] /\ extreme Datatypes.Gt "uid" (d_rows dj) (Some (VInt m)) end)
    by (destruct bl as [[[j m] dj]|]; [exact Bl|exact Logic.I]).
  assert (Hp : exists p, null_one mu mi d bl p).
  { destruct bl as [[[j m] dj]|].
    - destruct Bl as (_ & _ & Nj & _). destruct (d_rows dj) as [|row rs] eqn:Er; [contradiction|]. exists (pair_of row). right. exists row. split; [auto|].
      cbn [below_row]. rewrite Er. left. auto.
    - destruct Sn as [(u & v & Rg & Ob)|(l & Et & Nl)]; [|rewrite (Kg l Et) in Nl; contradiction].
      exists (Some (VInt u), Some (VInt v)). left. exists u, v. split; [auto|split; [auto|split; [auto|]]]. intro X. contradiction. }
  destruct Hp as (p & Hp).
  destruct (again inode ord Po s s2 i mu mi w b d R R2 I Hb Nd Xu Xi bl Bl' p 0 Hp k k2) as (l & q & q2 & _ & H).
  assert (Pn : exists p0 l0, l ++ [p] = p0 :: l0) by (destruct l; cbn [app]; eauto). destruct Pn as (p0 & l0 & El). rewrite El in H.
  destruct (pair_runs_pull inode ord s s2 i mu mi w bl _ _ _ _ _ H _ _ eq_refl) as (k' & k2' & (f1 & H1) & _).
  exists f1, w. eexists. unfold null_next. rewrite (fthen_ok _ _ w w (p0, gen bl k2', k')) by (apply H1; lia). reflexivity.
Qed.
Lemma neg_returns ord dr p w b : permuting ord -> rich (dd_null dr) -> rich (dd_neg dr) -> Inv w b -> sampler_ok b d t p -> keen_null (dp_null p) -> some_null ->
  exists f w' r, db_sample_negative inode f ord dr p w = (w', Some r).
Proof.
  intros Po R R2 I (Hn & _) Kn Sn.
  assert (X : exists f w' r, null_next inode f ord (dd_null dr) (dd_neg dr) (dp_null p) w = (w', Some r)).
  { destruct Hn as [(i & Eg & Hb & Tf)|Pg]; [|eapply at_returns; eauto]. rewrite Eg.
    assert (Q : exists q : pair, (exists u v, q = (Some (VInt u), Some (VInt v)) /\ in_range d u v /\ ~ observed d u v /\
        forall l row, t = Some l -> In row (d_rows d) -> forallb (holds row) (below l) = true ->
        (exists row z, In row (d_rows d) /\ tcell row "uid" = Some (VInt z) /\ 0 < z) /\ (exists row z, In row (d_rows d) /\ tcell row "iid" = Some (VInt z) /\ 0 < z)) \/
      (exists l row, t = Some l /\ In row (d_rows d) /\ forallb (holds row) (below l) = true /\ q = pair_of row)).
    { assert (D : (exists l row, t = Some l /\ In row (low l)) \/ forall l row, t = Some l -> ~ In row (low l)).
      { destruct t as [l|]; [|right; discriminate]. destruct (low l) as [|row rs] eqn:El.
        - right. intros l' row E. injection E as <-. rewrite El. intros [].
        - left. exists l, row. rewrite El. split; [auto|left; auto]. }
      destruct D as [(l & row & Et & Hr)|D].
      - apply filter_In in Hr. exists (pair_of row). right. exists l, row. intuition.
      - destruct Sn as [(u & v & Rg & Ob)|(l & Et & Nl)].
        + exists (Some (VInt u), Some (VInt v)). left. exists u, v. split; [auto|split; [auto|split; [auto|]]]. intros l row Et Hr Hh. exfalso. apply (D l row Et). apply filter_In. auto.
        + exfalso. destruct (low l) as [|row rs] eqn:El; [contradiction|]. apply (D l row Et). rewrite El. left. auto. }
    destruct Q as (q & Q).
    destruct (null_again inode ord Po i w b d t (dd_null dr) (dd_neg dr) q 0 R R2 I Hb Tf Nd Cm Hi Q) as (w' & l & f0 & _ & H).
    specialize (H f0 (le_n _)). cbn [null_take] in H. exists f0.
    destruct (null_next inode f0 ord (dd_null dr) (dd_neg dr) (NNew i (thr_text t)) w) as [w1 [r|]]; [eauto|discriminate]. }
  destruct X as (f & w' & [o g] & E). exists f, w'. eexists. unfold db_sample_negative. rewrite E. reflexivity.
Qed.

Lemma pos_keen fuel ord dr p w b w' tr p' : permuting ord -> Inv w b -> sampler_ok b d t p -> keen p ->
  db_sample_positive inode fuel ord dr p w = (w', Some (Ok tr, p')) -> keen p'.
Proof.
  intros Po I (_ & j & Ow & Hj & _) [Kn Kp] E. unfold db_sample_positive in E.
  destruct (rand_next inode fuel ord (dd_pos dr) (dp_pos p) w) as [w1 [[o g]|]] eqn:En; [|discriminate]. injection E as _ Eo <-.
  destruct (rand_next_spec inode _ _ _ _ j _ _ _ _ _ Po I Ow Hj En) as (_ & A & _). specialize (A _ _ eq_refl).
  split; [exact Kn|]. cbn [dp_pos]. destruct o as [[r|]|e]; [|destruct A|discriminate]. destruct A as (_ & mu & k & -> & Hmu). cbn [keen_pos].
  destruct (dp_pos p) as [j0|j0 m k0|]; [exact Hmu|subst mu; exact Kp|destruct Hmu].
Qed.
Lemma neg_keen fuel ord dr p w b w' tr p' : permuting ord -> Inv w b -> sampler_ok b d t p -> keen p ->
  db_sample_negative inode fuel ord dr p w = (w', Some (Ok tr, p')) -> keen p'.
Proof.
  intros Po I (Hn & _) [Kn Kp] E. unfold db_sample_negative in E.
  destruct (null_next inode fuel ord (dd_null dr) (dd_neg dr) (dp_null p) w) as [w1 [[o g]|]] eqn:En; [|discriminate]. injection E as _ Eo <-.
  split; [|exact Kp]. cbn [dp_null]. destruct o as [[[u v]|]|e]; [|discriminate|discriminate].
  assert (At : forall i mu mi neg k b1 w1', neg_ok b1 neg -> keen_null (NAt i mu mi neg k) ->
    forall w2 q, (r <~~ pair_loop inode fuel ord (dd_null dr) (dd_neg dr) i mu mi neg k ;; (let '(p, neg', k') := r in runs (ret (p, NAt i mu mi neg' k')))) w1' = (w2, Some (Ok (q, g))) -> keen_null g).
  { intros i mu mi neg k b1 w1' No Kg w2 q X. unfold fthen in X. destruct (pair_loop inode fuel ord (dd_null dr) (dd_neg dr) i mu mi neg k w1') as [w3 o3] eqn:E3.
    destruct (pair_loop_world inode _ _ _ _ _ _ _ b1 _ _ _ _ _ No E3) as [-> Sm]. destruct o3 as [[[[p3 n3] k3]|]|]; cbn [runs ret] in X; try discriminate.
    injection X as _ _ <-. specialize (Sm _ _ _ eq_refl). cbn [keen_null] in *. destruct n3; [exact Logic.I|]. destruct neg as [[j0 g0]|]; [|exact Kg].
    cbn [neg_same] in Sm. destruct g0; contradiction. }
  unfold null_next in En. destruct Hn as [(i & Eg & Hb & Tf)|(i & mu & mi & neg & k & Eg & Hb & _ & _ & Hn)]; rewrite Eg in *.
  - match type of En with (match ?m with _ => _ end) = _ => destruct m as [w2 [[[q g0]|e]|]] eqn:El; try discriminate end. injection En as -> _ ->.
    apply fthen_inv in El. destruct El as [(w3 & st & E1 & El)|[(e & E1 & X)|(E1 & X)]]; try discriminate.
    destruct (null_start_spec inode _ _ _ _ _ _ _ _ _ _ Po I Hb Tf E1) as (I1 & A1 & _). destruct st as [[mu mi] neg]. destruct (A1 _ _ _ eq_refl) as (_ & _ & _ & _ & Hneg).
    apply (At i mu mi neg 0%nat (match neg with Some (j, _) => match t with Some l => note b j (Some (restricted d (below l))) | None => b end | None => b end) w3) with (w2 := w1) (q := q); [| |exact El].
    + destruct neg as [[j g0]|]; cbn [neg_ok]; [|exact Logic.I]. destruct Hneg as (l & -> & _ & _ & m & k & -> & _). rewrite note_same. split; [discriminate|eauto].
    + cbn [keen_null]. destruct neg as [[j g0]|]; [exact Logic.I|]. intros l Et. apply Hneg; [exact Et|exact Cm|apply (nb_uid _ Nd)|apply numbered_numbers; exact Nd].
  - match type of En with (match ?m with _ => _ end) = _ => destruct m as [w2 [[[q g0]|e]|]] eqn:El; try discriminate end. injection En as -> _ ->.
    apply (At i mu mi neg k b w) with (w2 := w1) (q := q); [|exact Kn|exact El].
    destruct neg as [[j g0]|]; cbn [neg_ok]; [|exact Logic.I]. destruct Hn as (l & _ & Bj & m & k0 & -> & _). split; [congruence|eauto].
Qed.

(** one sample *)
Lemma sample_returns neg ord dr p w b : permuting ord -> rich (dd_null dr) -> rich (dd_neg dr) -> rich (dd_pos dr) -> Inv w b -> sampler_ok b d t p -> keen p ->
  some_null \/ ~ (1 < (neg + 1) * dd_label dr (dp_k p))%Qc -> exists f w' r, db_sample inode 1 f ord neg dr p w = (w', Some r).
Proof.
  intros Po R1 R2 R3 I Sk [Kn Kp] Hl. set (p1 := mkDbPoint (Datatypes.S (dp_k p)) (dp_null p) (dp_pos p)). assert (Sk1 : sampler_ok b d t p1) by exact Sk.
  assert (X : exists f w' r, (if Qcgtb (0 + (neg + 1 - 0) * dd_label dr (dp_k p))%Qc 1 then db_sample_negative inode f ord dr p1 w else db_sample_positive inode f ord dr p1 w) = (w', Some r)).
  { destruct (Qcgtb (0 + (neg + 1 - 0) * dd_label dr (dp_k p))%Qc 1) eqn:G.
    - apply label_gt in G. destruct Hl as [Sn|N]; [|contradiction]. eapply neg_returns; eauto.
    - eapply pos_returns; eauto. }
  destruct X as (f & w' & [o p'] & E). exists f, w'. cbn [db_sample]. fold p1. rewrite E. destruct o as [tr|e]; eauto.
Qed.
Lemma sample_keen neg fuel ord dr p w b w' l p' : permuting ord -> Inv w b -> sampler_ok b d t p -> keen p ->
  db_sample inode 1 fuel ord neg dr p w = (w', Some (Ok l, p')) -> keen p'.
Proof.
  intros Po I Sk K E. cbn [db_sample] in E. set (p1 := mkDbPoint (Datatypes.S (dp_k p)) (dp_null p) (dp_pos p)) in E. assert (Sk1 : sampler_ok b d t p1) by exact Sk.
  assert (K1 : keen p1) by exact K.
  destruct (Qcgtb (0 + (neg + 1 - 0) * dd_label dr (dp_k p))%Qc 1).
  - destruct (db_sample_negative inode fuel ord dr p1 w) as [w1 [[[tr|e] p2]|]] eqn:E1; try discriminate. injection E as _ _ <-. eapply neg_keen; eauto.
  - destruct (db_sample_positive inode fuel ord dr p1 w) as [w1 [[[tr|e] p2]|]] eqn:E1; try discriminate. injection E as _ _ <-. eapply pos_keen; eauto.
Qed.
End Returns.
