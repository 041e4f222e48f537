(** Tasks on data sets in a database: when a task ends well whatever the other tasks
    do, and pools of such tasks. *)
From Coq Require Import String Ascii.
From Coq Require Import List ZArith QArith Qcanon Bool Permutation Sorted Lia.
From Verif Require Import Py PyFacts MemModel MemSpec RankModel EvalModel EvalSpec EvalFacts3 DbModel DbFacts DbSpec DbFacts2 DbFacts3 DbFacts4 DbFacts7 DbFacts13 DbGenModel DbGenSpec DbGenFacts DbGenFacts2
  DbSplitSpec TwinSpec TwinFacts RecDbModel RecDbModel5 RecDbFacts RecDbFacts2 RecDbSpec5 RecDbFacts11 RecDbFacts12.
Import ListNotations.
Open Scope string_scope.
Open Scope Z_scope.
Open Scope list_scope.

Section Tasks.
Variable inode : string -> nat.
Variable ords : nat -> list trow -> list trow.
Hypothesis Po : forall k, permuting (ords k).
Hypothesis So : forall k, sorting (ords k).
Variables (i : nat) (d : ds).
(** the data sets of the process *)
Variable base : book.
Hypothesis Bi : base i = Some d.
Local Notation fine := (fine inode i d).
Local Notation gives := (gives inode i d).
Local Notation sure := (sure inode i d).

(** the data sets of a task *)
Definition owned := list (nat * ds).
Definition names (own : owned) : list nat := map fst own.
Definition held (b : book) (own : owned) : Prop := forall n dn, In (n, dn) own -> b n = Some dn.
Definition okw (s : nat * world) (b : book) : Prop := fine (snd s) b /\ small_world (snd s) /\ extends base b.

Fixpoint good (N : nat) (own : owned) (p : task) (Q : verdict -> Prop) {struct N} : Prop :=
  match p with
  | Ended x => Q x
  | Next f =>
      match N with
      | O => False
      | S N' => forall s b, okw s b -> held b own -> exists s' p' b' own', f s = (s', p') /\ okw s' b' /\ held b' own' /\
          (forall n, b n <> None -> ~ In n (names own) -> b' n = b n) /\
          (forall n, In n (names own') -> In n (names own) \/ b n = None) /\ good N' own' p' Q
      end
  end.
Lemma good_more p Q : forall N N' own, good N own p Q -> (N <= N')%nat -> good N' own p Q.
Proof.
  intros N. revert p. induction N as [|N IH]; intros p N' own G L.
  - destruct p as [x|f]; [|destruct G]. destruct N'; exact G.
  - destruct p as [x|f]; [destruct N'; exact G|]. destruct N' as [|N']; [lia|]. cbn [good] in *. intros s b K H.
    destruct (G s b K H) as (s' & p' & b' & own' & E & K' & H' & F & X & G'). exists s', p', b', own'. repeat (split; [assumption|]). apply (IH _ N'); [exact G'|lia].
Qed.
Lemma good_ended N own x (Q : verdict -> Prop) : Q x -> good N own (Ended x) Q.
Proof. intro H. destruct N; exact H. Qed.
Lemma good_weaken p (Q R : verdict -> Prop) : (forall x, Q x -> R x) -> forall N own, good N own p Q -> good N own p R.
Proof.
  intros W N. revert p. induction N as [|N IH]; intros p own G; destruct p as [x|f]; cbn [good] in *; auto.
  intros s b K H. destruct (G s b K H) as (s' & p' & b' & own' & E & K' & H' & F & X & G'). exists s', p', b', own'. repeat (split; [assumption|]). auto.
Qed.

(** ** Calls *)
Lemma good_sure {A} N own (p : P A) k (r : res A) Q : (forall b, extends base b -> held b own -> sure b p r) ->
  match r with Ok a => good N own (k a) Q | Err e => Q (Some (Err e)) end -> good (S N) own (call p k) Q.
Proof.
  intros Hp G. unfold call. cbn [good]. intros s b (F & Sm & X) H. destruct (Hp b X H s F Sm) as (s' & b' & E & F' & Sm' & X').
  exists s'. eexists. exists b', own. split; [rewrite E; reflexivity|]. split; [split; [exact F'|split; [exact Sm'|eapply extends_trans; eauto]]|].
  split; [intros n dn I; rewrite X'; [auto|rewrite (H n dn I); discriminate]|]. split; [intros n Hn _; apply X'; exact Hn|]. split; [auto|].
  destruct r; [exact G|apply good_ended; exact G].
Qed.
Lemma good_gives {A} N own (p : P A) k (r : res A) Q : (forall b, extends base b -> held b own -> gives b p r) -> pkeeps p ->
  match r with Ok a => good N own (k a) Q | Err e => Q (Some (Err e)) end -> good (S N) own (call p k) Q.
Proof. intros Hp K. apply good_sure. intros b X H. apply sure_gives; auto. Qed.

(** a data set that is there *)
Definition there (own : owned) (n : nat) (dn : ds) : Prop := base n = Some dn \/ In (n, dn) own.
Lemma there_at own n dn b : there own n dn -> extends base b -> held b own -> b n = Some dn.
Proof. intros [H|H] X K; [rewrite X; congruence|auto]. Qed.
Lemma there_more own n dn x : there own n dn -> there (x :: own) n dn.
Proof. intros [H|H]; [left|right; right]; auto. Qed.
Lemma there_first own n dn : there ((n, dn) :: own) n dn.
Proof. right. left. auto. Qed.

(** names that are not in use elsewhere *)
Definition apart (own : owned) : Prop := NoDup (names own) /\ forall n, In n (names own) -> base n = None.
Lemma apart_nil : apart []. Proof. split; [constructor|intros n []]. Qed.

Lemma good_select N own n dn m cs k Q : there own n dn -> twin dn m -> complete dn -> int_data m -> apart own ->
  cs <> [] -> Forall (cond_ok m) cs -> Forall numeric cs -> (forall c, In c cs -> ~ In (sc_col c) ["iid"; "uid"; "rid"]) ->
  (forall j, apart ((j, restricted dn cs) :: own) -> good N ((j, restricted dn cs) :: own) (k j) Q) ->
  good (S N) own (call (db (select inode n (query_text cs) true)) k) Q.
Proof.
  intros Th Tw C D (Nd & Nb) Ne Co Nu Ni G. unfold call. cbn [good]. intros s b (F & Sm & X) H.
  destruct (select_sure inode i d n dn m Tw C b cs s (there_at _ _ _ _ Th X H) Ne Co Nu Ni F Sm) as (s' & j & E & Fr & F' & Sm').
  assert (Nj : ~ In j (names own)).
  { intro I. apply in_map_iff in I. destruct I as ((n0 & d0) & E0 & I). cbn [fst] in E0. subst n0. rewrite (H _ _ I) in Fr. discriminate. }
  assert (Bj : base j = None). { destruct (base j) eqn:Ej; [|auto]. exfalso. rewrite X in Fr; congruence. }
  assert (X' : extends b (note b j (Some (restricted dn cs)))).
  { intros x Hx. unfold note. destruct (Nat.eqb_spec x j) as [->|]; [congruence|auto]. }
  exists s'. eexists. exists (note b j (Some (restricted dn cs))), ((j, restricted dn cs) :: own).
  split; [rewrite E; reflexivity|]. split; [split; [exact F'|split; [exact Sm'|eapply extends_trans; eauto]]|].
  split; [|split; [|split]].
  - intros x dx [Ex|I]; [injection Ex as <- <-; apply note_same|]. rewrite X'; [auto|rewrite (H _ _ I); discriminate].
  - intros x Hx _. apply X'. exact Hx.
  - intros x [<-|I]; [right; exact Fr|left; exact I].
  - apply G. split; [constructor; auto|]. intros x [<-|I]; [exact Bj|auto].
Qed.

Lemma good_close N own j dj k Q : apart ((j, dj) :: own) -> good N own (k tt) Q -> good (S N) ((j, dj) :: own) (call (db (close inode j)) k) Q.
Proof.
  intros (Nd & Nb) G. unfold call. cbn [good]. intros s b (F & Sm & X) H. cbn [names map] in Nd. inversion Nd as [|? ? Nj Nd']; subst.
  assert (Bj : base j = None) by (apply Nb; left; auto). assert (Nji : j <> i) by congruence.
  destruct (close_runs inode i d b j dj (H j dj (or_introl eq_refl)) Nji s F) as (s' & r & b' & E & F' & -> & ->).
  exists s'. eexists. exists (note b j None), own. split; [rewrite E; reflexivity|]. split; [|split; [|split; [|split]]].
  - split; [exact F'|]. split.
    + pose proof (pkeeps_close inode j s Sm) as K. rewrite E in K. exact K.
    + intros x Hx. unfold note. destruct (Nat.eqb_spec x j) as [->|]; [congruence|apply X; exact Hx].
  - intros x dx I. rewrite note_other; [apply H; right; exact I|]. intros ->. apply Nj. apply in_map_iff. exists (j, dx). auto.
  - intros x Hx Nx. apply note_other. intros ->. apply Nx. left. auto.
  - intros x I. left. right. exact I.
  - exact G.
Qed.
Lemma good_leave x (Q : verdict -> Prop) : Q x -> forall own, apart own -> good (length own) own (leave inode (names own) x) Q.
Proof.
  intros H. induction own as [|(j, dj) own IH]; intros A; cbn [names map leave length fst].
  - exact H.
  - apply good_close; [exact A|]. apply IH. destruct A as [N B]. split; [inversion N; auto|]. intros n I. apply B. right. exact I.
Qed.

(** ** Pools *)
Record entry := mkEntry { en_n : nat; en_own : owned; en_q : verdict -> Prop }.
Definition suits (e : entry) (p : task) : Prop := good (en_n e) (en_own e) p (en_q e).
Definition total (es : list entry) : nat := fold_right (fun e n => (en_n e + n)%nat) 0%nat es.
Definition separate (es : list entry) : Prop := forall k k' e e', nth_error es k = Some e -> nth_error es k' = Some e' -> k <> k' ->
  forall n, In n (names (en_own e)) -> In n (names (en_own e')) -> False.
Definition pool_ok (c : pool) (es : list entry) : Prop :=
  (exists b, okw (fst c) b /\ forall e, In e es -> held b (en_own e)) /\ Forall2 suits es (snd c) /\ separate es.

Lemma replace_nth {A} (x : A) : forall l k k', nth_error (replace k x l) k' =
  if Nat.eqb k' k then match nth_error l k with Some _ => Some x | None => None end else nth_error l k'.
Proof.
  induction l as [|y l IH]; intros k k'; [destruct k, k'; cbn; auto; destruct (Nat.eqb _ _); auto|].
  destruct k as [|k], k' as [|k']; cbn; auto.
Qed.
Lemma replace_F2 {A B} (R : A -> B -> Prop) a b l l' k : Forall2 R l l' -> R a b -> Forall2 R (replace k a l) (replace k b l').
Proof. intros F H. revert k. induction F as [|x y l l' Hx F IH]; intro k; [destruct k; constructor|]. destruct k; cbn; constructor; auto. Qed.
Lemma replace_total es k e e' : nth_error es k = Some e -> (en_n e' < en_n e)%nat -> (total (replace k e' es) < total es)%nat.
Proof.
  unfold total. revert k. induction es as [|x es IH]; intros k H L; [destruct k; discriminate|].
  destruct k as [|k]; cbn [replace fold_right nth_error] in *; [injection H as ->; lia|]. specialize (IH k H L). lia.
Qed.
Lemma replace_map {A B} (f : A -> B) l k e e' : nth_error l k = Some e -> f e' = f e -> map f (replace k e' l) = map f l.
Proof. revert k. induction l as [|x l IH]; intros k H E; [destruct k; discriminate|]. destruct k; cbn in *; [injection H as <-; rewrite E; auto|]. rewrite IH; auto. Qed.

Lemma F2_nth {A B} (R : A -> B -> Prop) l l' k y : Forall2 R l l' -> nth_error l' k = Some y -> exists x, nth_error l k = Some x /\ R x y.
Proof. intro F. revert k. induction F as [|a b l l' H _ IH]; intros k E; [destruct k; discriminate|]. destruct k; cbn in *; [injection E as <-; eauto|eauto]. Qed.

Lemma pool_step c es k : pool_ok c es ->
  go_on k c = c /\ (forall f, nth_error (snd c) k <> Some (Next f)) \/
  exists es', pool_ok (go_on k c) es' /\ (total es' < total es)%nat /\ map en_q es' = map en_q es.
Proof.
  intros ((b & K & H) & F & Sp). unfold go_on. destruct (nth_error (snd c) k) as [[x|f]|] eqn:E; [left; split; [auto|discriminate]| |left; split; [auto|discriminate]].
  right. destruct (F2_nth _ _ _ _ _ F E) as (e & Ee & G). unfold suits in G. destruct (en_n e) as [|N] eqn:En; [destruct G|]. cbn [good] in G.
  destruct (G (fst c) b K (H e (nth_error_In _ _ Ee))) as (s' & p' & b' & own' & Ef & K' & H' & Fr & X & G').
  exists (replace k (mkEntry N own' (en_q e)) es). rewrite Ef.
  assert (Oth : forall k' e', k' <> k -> nth_error es k' = Some e' -> held b' (en_own e') /\ forall n, In n (names own') -> In n (names (en_own e')) -> False).
  { intros k' e' Nk Ek. assert (He : held b (en_own e')) by (apply H; eapply nth_error_In; eauto).
    assert (Dj : forall n, In n (names (en_own e')) -> ~ In n (names (en_own e))) by (intros n I1 I2; exact (Sp k' k e' e Ek Ee Nk n I1 I2)).
    split.
    - intros n dn I. rewrite Fr; [apply He; exact I| |].
      + rewrite (He n dn I). discriminate.
      + apply Dj. apply in_map_iff. exists (n, dn). auto.
    - intros n I1 I2. destruct (X n I1) as [I|Nn]; [apply (Dj n I2 I)|]. apply in_map_iff in I2. destruct I2 as ((n0 & dn) & E0 & I2). cbn [fst] in E0. subst n0. rewrite (He _ _ I2) in Nn. discriminate. }
  split; [split; [|split]|split].
  - exists b'. cbn [fst]. split; [exact K'|]. intros e' I. apply In_nth_error in I. destruct I as [k1 Ek]. rewrite replace_nth in Ek.
    destruct (Nat.eqb_spec k1 k) as [_|Nk]; [rewrite Ee in Ek; injection Ek as <-; exact H'|]. apply (Oth k1 e' Nk Ek).
  - cbn [snd]. apply replace_F2; [exact F|]. exact G'.
  - intros k1 k2 e1 e2 E1 E2 Nk n I1 I2. rewrite replace_nth in E1, E2.
    destruct (Nat.eqb_spec k1 k) as [->|N1], (Nat.eqb_spec k2 k) as [->|N2].
    + congruence.
    + rewrite Ee in E1. injection E1 as <-. apply (proj2 (Oth k2 e2 N2 E2) n I1 I2).
    + rewrite Ee in E2. injection E2 as <-. apply (proj2 (Oth k1 e1 N1 E1) n I2 I1).
    + exact (Sp k1 k2 e1 e2 E1 E2 Nk n I1 I2).
  - apply (replace_total es k e); [exact Ee|]. cbn [en_n]. lia.
  - apply (replace_map en_q es k e); auto.
Qed.

Lemma pool_keeps sched c es : pool_ok c es -> forall t, exists es', pool_ok (pool_run sched t c) es' /\ map en_q es' = map en_q es.
Proof.
  intros H t. induction t as [|t (es' & H' & E)]; [exists es; auto|]. cbn [pool_run].
  destruct (pool_step _ _ (sched t) H') as [[-> _]|(es2 & H2 & _ & E2)]; [exists es'; auto|]. exists es2. split; [auto|congruence].
Qed.
Definition done (ts : list task) : Prop := forall k f, nth_error ts k <> Some (Next f).
Lemma done_stays sched c t0 : done (snd (pool_run sched t0 c)) -> forall t, (t0 <= t)%nat -> pool_run sched t c = pool_run sched t0 c.
Proof.
  intros Dn t L. induction t as [|t IH]; [replace t0 with 0%nat by lia; auto|].
  destruct (Nat.eq_dec t0 (S t)) as [->|N]; [auto|]. cbn [pool_run]. rewrite IH by lia. unfold go_on.
  destruct (nth_error (snd (pool_run sched t0 c)) (sched t)) as [[x|f]|] eqn:E; auto. destruct (Dn _ _ E).
Qed.
Lemma done_dec ts : done ts \/ exists k f, nth_error ts k = Some (Next f).
Proof.
  induction ts as [|p ts [IH|(k & f & E)]]; [left; intros k f; destruct k; discriminate| |right; exists (S k), f; exact E].
  destruct p as [x|f]; [|right; exists 0%nat, f; auto]. left. intros k f. destruct k; [discriminate|apply IH].
Qed.
Lemma pool_ends sched c es : fair sched -> pool_ok c es -> exists T, done (snd (pool_run sched T c)).
Proof.
  intros Fs H. 
  assert (G : forall n t0 es0, pool_ok (pool_run sched t0 c) es0 -> (total es0 <= n)%nat -> exists T, done (snd (pool_run sched T c))).
  { induction n as [|n IH]; intros t0 es0 H0 L0.
    - destruct (done_dec (snd (pool_run sched t0 c))) as [Dn|(k & f & E)]; [eauto|]. exfalso.
      destruct (pool_step _ _ k H0) as [[_ X]|(es2 & _ & L2 & _)]; [exact (X f E)|lia].
    - destruct (done_dec (snd (pool_run sched t0 c))) as [Dn|(k & f & E)]; [eauto|].
      destruct (Fs k t0) as (t' & L & Ek).
      assert (M : forall m, (exists es1, pool_ok (pool_run sched (t0 + m) c) es1 /\ (total es1 < total es0)%nat) \/ pool_run sched (t0 + m) c = pool_run sched t0 c).
      { induction m as [|m [(es1 & H1 & L1)|Em]]; [right; rewrite Nat.add_0_r; auto| |].
        - left. rewrite Nat.add_succ_r. cbn [pool_run]. destruct (pool_step _ _ (sched (t0 + m)%nat) H1) as [[-> _]|(es2 & H2 & L2 & _)]; [eauto|]. exists es2. split; [auto|lia].
        - rewrite Nat.add_succ_r. cbn [pool_run]. rewrite Em. destruct (pool_step _ _ (sched (t0 + m)%nat) H0) as [[-> _]|(es2 & H2 & L2 & _)]; [auto|]. left. eauto. }
      destruct (M (t' - t0)%nat) as [(es1 & H1 & L1)|Em].
      + eapply (IH _ es1); [exact H1|lia].
      + replace (t0 + (t' - t0))%nat with t' in Em by lia.
        destruct (pool_step (pool_run sched t' c) es0 k) as [[_ X]|(es2 & H2 & L2 & _)]; [rewrite Em; exact H0| |].
        * exfalso. apply (X f). rewrite Em. exact E.
        * apply (IH (S t') es2); [|lia]. cbn [pool_run]. rewrite Ek. exact H2. }
  apply (G (total es) 0%nat es H). lia.
Qed.
(** what the tasks end with *)
Lemma ended_all es : forall ts xs, Forall2 suits es ts -> all_some (map ended ts) = Some xs -> Forall2 (fun (q : verdict -> Prop) x => q x) (map en_q es) xs.
Proof.
  intros ts xs F. revert xs. induction F as [|e p es ts H _ IH]; intros xs E; cbn in E; [injection E as <-; constructor|].
  destruct p as [x|f]; cbn in E; [|discriminate]. destruct (all_some (map ended ts)) as [ys|]; [|discriminate]. injection E as <-. cbn [map]. constructor; [|auto].
  unfold suits in H. destruct (en_n e); exact H.
Qed.
Lemma done_all ts : done ts -> exists xs, all_some (map ended ts) = Some xs.
Proof.
  induction ts as [|p ts IH]; intro Dn; [exists []; auto|]. destruct IH as [xs E]; [intros k f; apply (Dn (S k))|].
  destruct p as [x|f]; [|destruct (Dn 0%nat f); auto]. exists (x :: xs). cbn [map ended all_some]. rewrite E. auto.
Qed.
End Tasks.
