(** Programs that use generators, and the records and pairs they get. *)
From Coq Require Import String Ascii.
From Coq Require Import List ZArith QArith Qcanon Bool Permutation Lia.
From Verif Require Import Py PyFacts MemModel MemSpec DbModel DbFacts DbFacts2 DbFacts3 DbFacts4 DbFacts5 DbFacts7 DbFacts10
  DbSpec DbFacts11 DbFacts12 DbFacts13 DbFacts14 DbFacts15 DbFacts17 SampModel DbGenModel DbGenSpec DbGenFacts.
Import ListNotations.
Open Scope string_scope.
Open Scope Z_scope.

Section Facts.
Variable inode : string -> nat.
Notation tables := (tables inode).
Notation Inv := (Inv inode).

Lemma random_generator_spec ord w b i d cs w' r : permuting ord -> Inv w b -> b i = Some d ->
  cs <> [] -> Forall (cond_fits d) cs -> Forall (fun c => forall s, sc_lit c <> LText s) cs ->
  random_generator inode i (Some (query_text cs)) w = (w', r) ->
  Inv w' b /\ (forall g, r = Ok g -> exists j, g = RNew j /\ d_ids d = true /\ b j = None /\ Inv w' (note b j (Some (restricted d cs)))) /\
  (forall e, r = Err e -> d_ids d = false \/ ~ complete d).
Proof.
  intros Po I Hb Nc Fc Nt E. unfold random_generator in E. destruct (inv_attributes inode w b i d I Hb) as (x & Hx & _ & Di & Nx & _).
  rewrite (andthen_ok _ _ _ _ _ (self_ok i w x Hx)) in E. rewrite Di in E. destruct (d_ids d); cbn [negb] in E.
  2:{ unfold raise in E. injection E as <- <-. split; [auto|]. split; [discriminate|auto]. }
  destruct (filtered_copy inode i (query_text cs) w) as [w1 r1] eqn:E1.
  destruct (filtered_copy_spec inode ord w b i d cs w1 r1 Po I Hb Nc Fc Nt E1) as (I1 & A & Ne). destruct r1 as [j|e].
  - rewrite (andthen_ok _ _ _ _ _ E1) in E. unfold ret in E. injection E as <- <-. split; [auto|]. split; [|discriminate].
    intros g X. injection X as <-. exists j. destruct (A j eq_refl). auto.
  - rewrite (andthen_err _ _ _ _ _ E1) in E. injection E as <- <-. split; [auto|]. split; [discriminate|].
    intros e0 X. right. apply (Ne e eq_refl).
Qed.
Lemma random_generator_all w b i d : Inv w b -> b i = Some d ->
  random_generator inode i None w = (w, if d_ids d then Ok (RNew i) else Err AssertionError).
Proof.
  intros I Hb. unfold random_generator. destruct (inv_attributes inode w b i d I Hb) as (x & Hx & _ & Di & Nx & _).
  rewrite (andthen_ok _ _ _ _ _ (self_ok i w x Hx)), Di. destruct (d_ids d); auto.
Qed.

(** a started generator of pairs never changes the tables *)
Lemma null_next_at fuel ord s s2 i mu mi neg k w b w' x g' : neg_ok b neg ->
  null_next inode fuel ord s s2 (NAt i mu mi neg k) w = (w', Some (x, g')) ->
  w' = w /\ (g' = NEnd \/ exists neg' k', g' = NAt i mu mi neg' k' /\ neg_same neg neg').
Proof.
  intros No E. unfold null_next, fthen in E. destruct (pair_loop inode fuel ord s s2 i mu mi neg k w) as [w1 o1] eqn:El.
  destruct (pair_loop_world inode fuel ord s s2 i mu mi b neg k w w1 o1 No El) as [-> Sm].
  destruct o1 as [[[[p n] k']|e]|]; cbn [runs ret] in E; try discriminate; injection E as <- <- <-; (split; [auto|]); [right|left; auto].
  exists n, k'. split; [auto|]. apply (Sm p n k' eq_refl).
Qed.

Theorem reaches_inv w b : reaches inode w b -> Inv w b.
Proof.
  induction 1 as [fs F|w b ord o w' r R I Po S E|w b i d cs w' j R I Hb [Nc [Fc Nn]] Nt E|w b fuel ord s g w' o g' R I Po Ow E|w b fuel ord s s2 g t w' o g' R I Po Nf E].
  - apply (history_inv inode fs [] F). exact Logic.I.
  - apply (step inode ord w b o w' r Po I S E).
  - assert (Po : permuting (fun l : list trow => l)) by (intro; apply Permutation_refl).
    destruct (random_generator_spec _ w b i d cs w' _ Po I Hb Nc Fc Nt E) as (_ & A & _).
    destruct (A _ eq_refl) as (j0 & X & _ & _ & I'). injection X as <-. auto.
  - destruct (owner g) as [j|] eqn:Og.
    + destruct (b j) as [d|] eqn:Hb; [|destruct (Ow j eq_refl Hb)].
      apply (rand_next_spec inode fuel ord s g j w b d w' _ Po I Og Hb E).
    + destruct g; try discriminate. cbn [rand_next] in E. congruence.
  - destruct g as [i txt|i mu mi neg k|].
    + destruct Nf as (-> & d & Hb & Tf). destruct (null_next_new inode _ _ _ _ _ _ _ _ _ _ _ Po I Hb Tf E) as (I' & A).
      specialize (A _ _ eq_refl). destruct o as [[p|]|e]; [apply A|destruct A|]. destruct A as [-> _]. exact I'.
    + destruct Nf as (_ & No). destruct (null_next_at _ _ _ _ _ _ _ _ _ _ _ _ _ _ No E) as [-> _]. exact I.
    + cbn [null_next] in E. cbn [noted]. congruence.
Qed.

Theorem reaches_history fs h : files_ok fs -> all_safe inode (start fs) no_book h ->
  reaches inode (fst (after inode (start fs) no_book h)) (snd (after inode (start fs) no_book h)).
Proof.
  intros F. assert (K : forall h w b, reaches inode w b -> all_safe inode w b h -> reaches inode (fst (after inode w b h)) (snd (after inode w b h))).
  { clear. induction h as [|[ord o] h IH]; intros w b R A; cbn [after]; [exact R|]. cbn [all_safe] in A. destruct A as (Po & S & A).
    destruct (exec inode ord o w) as [w' r] eqn:E. apply IH; [|exact A]. eapply Calls; eauto. }
  apply K. constructor. auto.
Qed.

(** ** Ids *)
Lemma plus_in c c' cs : In c (plus c' cs) <-> c = c' \/ In c cs.
Proof.
  unfold plus. destruct (existsb (String.eqb c') cs) eqn:E.
  - apply existsb_exists in E. destruct E as (x & Hx & Ex). apply String.eqb_eq in Ex. subst x. split; [auto|intros [->|]; auto].
  - rewrite in_app_iff. cbn [In]. intuition.
Qed.
Lemma type_as_same c t ts : assoc String.eqb c (type_as c t ts) = Some t.
Proof.
  unfold type_as. induction ts as [|[k v] ts IH]; cbn [assoc_set assoc]; [rewrite String.eqb_refl; auto|].
  destruct (String.eqb_spec c k) as [->|N]; cbn [assoc]; [rewrite String.eqb_refl; auto|].
  destruct (String.eqb_spec c k); [contradiction|auto].
Qed.
Lemma type_as_other c c' t ts : c <> c' -> assoc String.eqb c (type_as c' t ts) = assoc String.eqb c ts.
Proof.
  intro N. unfold type_as. induction ts as [|[k v] ts IH]; cbn [assoc_set assoc].
  - destruct (String.eqb_spec c c'); [contradiction|auto].
  - destruct (String.eqb_spec c' k) as [->|N']; cbn [assoc].
    + destruct (String.eqb_spec c k); [contradiction|auto].
    + destruct (String.eqb_spec c k); auto.
Qed.
Lemma with_ids_cell rows cs row c : In c cs -> tcell (with_ids rows cs row) c =
  if String.eqb c "uid" then Some (VInt (rank "user" rows (tcell row "user")))
  else if String.eqb c "iid" then Some (VInt (rank "item" rows (tcell row "item"))) else tcell row c.
Proof.
  intro H. unfold with_ids. unfold tcell at 1. induction cs as [|c0 cs IH]; [contradiction|]. cbn [map assoc].
  destruct (String.eqb_spec c c0) as [<-|N]; [destruct (String.eqb c "uid"); [auto|]; destruct (String.eqb c "iid"); [auto|]; destruct (tcell row c); auto|].
  apply IH. destruct H; [congruence|auto].
Qed.

Lemma assigned_numbered d : d_types d <> None -> numbered (assigned d).
Proof.
  intro Nt. destruct (d_types d) as [ts|] eqn:Ts; [|contradiction]. unfold assigned. rewrite Ts. cbn [option_map].
  assert (U : In "uid" (plus "iid" (plus "uid" (d_cols d)))) by (rewrite !plus_in; auto).
  assert (I : In "iid" (plus "iid" (plus "uid" (d_cols d)))) by (rewrite !plus_in; auto).
  constructor; [split|split|]; cbn [d_cols d_types d_rows]; auto.
  - eexists. split; [reflexivity|]. rewrite type_as_other by discriminate. apply type_as_same.
  - eexists. split; [reflexivity|]. apply type_as_same.
  - intros row Hr. apply in_map_iff in Hr. destruct Hr as (row0 & <- & Hr).
    rewrite !with_ids_cell by auto. cbn [String.eqb Ascii.eqb Bool.eqb]. do 2 eexists. split; [reflexivity|]. split; [reflexivity|].
    unfold rank. lia.
Qed.
Lemma restricted_numbered d cs : numbered d -> numbered (restricted d cs).
Proof.
  intros [U I R]. constructor; auto. intros row Hr. apply R. cbn [restricted d_rows] in Hr. apply filter_In in Hr. apply Hr.
Qed.
Lemma restricted_complete d cs : complete d -> complete (restricted d cs).
Proof. intro C. exact C. Qed.
Lemma assigned_complete d : complete d -> complete (assigned d).
Proof.
  intros (A & ts & Ts & T). split.
  - intros c Hc. unfold assigned. cbn [d_cols]. rewrite !plus_in. auto.
  - unfold assigned. cbn [d_types d_cols]. rewrite Ts. cbn [option_map]. eexists. split; [reflexivity|]. intros c Hc Nc.
    assert (Nu : c <> "uid") by (intros ->; apply Nc; cbn; auto). assert (Ni : c <> "iid") by (intros ->; apply Nc; cbn; auto).
    rewrite !type_as_other by auto. apply T; auto. rewrite !plus_in in Hc. intuition.
Qed.
Lemma numbered_numbers d : numbered d -> numbers d "uid" /\ numbers d "iid".
Proof. intros [_ _ R]. split; intros row Hr; destruct (R row Hr) as (u & i & Eu & Ei & Hu & Hi); eauto. Qed.

(** ** Records of the random generator *)
Lemma numbered_bound d : numbered d -> complete d -> d_rows d <> [] -> bound_ok d.
Proof. intros N C Nr. split; [auto|]. split; [apply (nb_uid _ N)|]. split; [auto|]. apply numbered_numbers. auto. Qed.

Lemma rand_take_at ord s j d w b : permuting ord -> Inv w b -> b j = Some d -> id_column d "uid" ->
  forall n fuel mu k w' o, rand_take inode n fuel ord s (RAt j mu k) w = (w', o) ->
  w' = w /\ (forall l, o = Some (Ok l) -> length l = n /\ forall r, In r l -> In r (d_rows d)) /\
  (0 <= mu -> forall e, o <> Some (Err e)).
Proof.
  intros Po I Hb Ic. induction n as [|n IH]; intros fuel mu k w' o E; cbn [rand_take] in E.
  { unfold runs, ret in E. injection E as <- <-. split; [auto|]. split; [|discriminate]. intros l X. injection X as <-. split; [auto|contradiction]. }
  destruct (rand_next inode fuel ord s (RAt j mu k) w) as [w1 o1] eqn:En.
  pose proof (rand_next_at_world inode _ _ _ _ _ _ _ _ _ En) as ->.
  destruct (rand_next_spec inode fuel ord s (RAt j mu k) j w b d w o1 Po I eq_refl Hb En) as (_ & A & Ne).
  destruct o1 as [[[[r|]|e] g']|].
  - destruct (A _ _ eq_refl) as (Hr & m & k' & -> & ->). destruct (rand_take inode n fuel ord s (RAt j mu k') w) as [w2 o2] eqn:Et.
    destruct (IH _ _ _ _ _ Et) as (-> & B & Ne2). unfold fthen in E. rewrite Et in E.
    destruct o2 as [[l|e]|]; cbn [runs ret] in E; injection E as <- <-; (split; [auto|]); (split; [|try discriminate]); try discriminate.
    + intros l0 X. injection X as <-. destruct (B l eq_refl) as [<- Hl]. split; [auto|]. intros r0 [<-|H]; auto.
    + intros Hm e0 X. injection X as <-. apply (Ne2 Hm e eq_refl).
  - destruct (A _ _ eq_refl).
  - injection E as <- <-. split; [auto|]. split; [discriminate|]. intros Hm e0 X. apply (Ne Ic Hm e g'). auto.
  - injection E as <- <-. split; [auto|]. split; discriminate.
Qed.
Theorem rand_take_spec ord s j d w b n fuel w' o : permuting ord -> Inv w b -> b j = Some d -> id_column d "uid" ->
  rand_take inode n fuel ord s (RNew j) w = (w', o) ->
  Inv w' b /\ (forall l, o = Some (Ok l) -> length l = n /\ forall r, In r l -> In r (d_rows d)) /\
  (numbered d -> complete d -> d_rows d <> [] -> forall e, o <> Some (Err e)).
Proof.
  intros Po I Hb Ic E. destruct n as [|n]; cbn [rand_take] in E.
  { unfold runs, ret in E. injection E as <- <-. split; [auto|]. split; [|discriminate]. intros l X. injection X as <-. split; [auto|contradiction]. }
  destruct (rand_next inode fuel ord s (RNew j) w) as [w1 o1] eqn:En.
  destruct (rand_next_spec inode fuel ord s (RNew j) j w b d w1 o1 Po I eq_refl Hb En) as (I1 & A & Ne).
  destruct o1 as [[[[r|]|e] g']|].
  - destruct (A _ _ eq_refl) as (Hr & mu & k' & -> & Ex). destruct (rand_take inode n fuel ord s (RAt j mu k') w1) as [w2 o2] eqn:Et.
    destruct (rand_take_at ord s j d w1 b Po I1 Hb Ic _ _ _ _ _ _ Et) as (-> & B & Ne2). unfold fthen in E. rewrite Et in E.
    destruct o2 as [[l|e]|]; cbn [runs ret] in E; injection E as <- <-; (split; [auto|]); (split; [|try discriminate]); try discriminate.
    + intros l0 X. injection X as <-. destruct (B l eq_refl) as [<- Hl]. split; [auto|]. intros r0 [<-|H]; auto.
    + intros N _ _ e0 X. apply (Ne2 (extreme_nonneg d "uid" mu (proj1 (numbered_numbers d N)) Ex) e eq_refl).
  - destruct (A _ _ eq_refl).
  - injection E as <- <-. split; [auto|]. split; [discriminate|]. intros N Cm Nr e0 X. apply (Ne Ic (numbered_bound _ N Cm Nr) e g'). auto.
  - injection E as <- <-. split; [auto|]. split; discriminate.
Qed.
End Facts.
