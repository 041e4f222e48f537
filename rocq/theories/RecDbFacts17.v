(** Training DMF and CDAE on a data set in a database. *)
From Coq Require Import String Ascii.
From Coq Require Import List ZArith QArith Qcanon Bool Permutation Lia.
From Verif Require Import Py PyFacts MemModel MemSpec KnnModel DbModel DbFacts DbSpec DbFacts2 DbFacts3 DbFacts4
  DbFacts5 DbFacts6 DbFacts7 DbFacts11 DbFacts12 DbFacts13 DbFacts14 DbFacts15 DbFacts17 SampModel DbGenModel DbGenSpec DbGenFacts DbGenFacts2 DbGenFacts5
  DbFacts18 DbSplitModel DbSplitSpec DbSplitFacts DbSplitFacts2 DbSplitFacts3 RecDbModel RecDbFacts RecDbFacts2 RecDbModel7.
Import ListNotations.
Open Scope string_scope.
Open Scope Z_scope.
Open Scope list_scope.

Section Calm.
Variable inode : string -> nat.
Variable i : nat.
Ltac mild := repeat first
  [simple apply mild_bind; [|intro]|simple apply mild_ret|simple apply mild_lift|simple apply mild_self|simple apply mild_query|simple apply mild_put; assumption
  |simple apply mild_fresh|simple apply mild_if|simple apply mild_read].
(** a data set at rest stays so *)
Definition resting (w : world) : Prop := calm w i /\ (i < w_next w)%nat.
Definition keeps {B} (f : world -> world * B) : Prop := forall w, resting w -> resting (fst (f w)).
Lemma keeps_andthen {A B} (m : M A) (f : A -> M B) : keeps m -> (forall a, keeps (f a)) -> keeps (andthen m f).
Proof. intros H K w R. unfold andthen. specialize (H w R). destruct (m w) as [w1 [a|e]]; [apply K; exact H|exact H]. Qed.
Lemma keeps_fthen {A B} (m : F A) (f : A -> F B) : keeps m -> (forall a, keeps (f a)) -> keeps (fthen m f).
Proof. intros H K w R. unfold fthen. specialize (H w R). destruct (m w) as [w1 [[a|e]|]]; [apply K; exact H|exact H|exact H]. Qed.
Lemma keeps_runs {A} (m : M A) : keeps m -> keeps (DbGenModel.runs m).
Proof. intros H w R. unfold DbGenModel.runs. specialize (H w R). destruct (m w). exact H. Qed.
Lemma keeps_attempt {A} (m : F A) : keeps m -> keeps (DbGenModel.attempt m).
Proof. intros H w R. unfold DbGenModel.attempt. specialize (H w R). destruct (m w) as [w1 [[a|e]|]]; exact H. Qed.
Lemma keeps_same {B} (f : world -> world * B) : (forall w, fst (f w) = w) -> keeps f.
Proof. intros H w R. rewrite H. exact R. Qed.
Lemma keeps_mild {A} l (m : M A) : ~ In i l -> mild l m -> keeps m.
Proof.
  intros N H w [C L]. destruct (m w) as [w' r] eqn:E. destruct (H _ _ _ E) as (_ & En & U). cbn [fst]. split; [|rewrite En; exact L].
  apply (calm_inst w); [apply U; exact N|exact C].
Qed.
Lemma keeps_max j c : keeps (db_max inode j c).
Proof.
  intros w [C L]. destruct (db_max inode j c w) as [w' r] eqn:E. cbn [fst].
  assert (Mi : mild [j] (db_max inode j c)) by (unfold db_max, extremum; apply mild_bind; [apply mild_record; left; reflexivity|]; intros _; mild).
  split; [|destruct (Mi _ _ _ E) as (_ & -> & _); exact L].
  assert (X : exec inode (fun l => l) (OMax j c) w = (w', match r with Ok v => Ok (AVal v) | Err e => Err e end)).
  { cbn [exec]. unfold amap, andthen. rewrite E. destruct r; reflexivity. }
  destruct (Nat.eq_dec j i) as [->|N]; [exact (read_calm inode _ _ _ _ _ _ (eq_refl : is_read (OMax i c) = true) eq_refl C X)|].
  exact (read_other inode _ _ _ _ _ _ _ (eq_refl : is_read (OMax j c) = true) eq_refl N C X).
Qed.
Lemma keeps_filtered k q : keeps (filtered_copy inode k q).
Proof.
  intros w [C L]. unfold filtered_copy. unfold andthen at 1. destruct (copy inode k w) as [w1 [j|e]] eqn:E.
  - destruct (copy_frame _ _ _ _ _ E) as (-> & _ & En & U). apply (keeps_mild [w_next w]).
    + intros [X|[]]. lia.
    + mild. apply mild_update. left. reflexivity.
    + split; [apply (calm_inst w); [apply U; lia|exact C]|rewrite En; lia].
  - cbn [fst]. unfold copy, andthen, self, open_db, file_exists, ret in E. destruct (w_inst w k) as [x|]; [|injection E as <- _; split; auto].
    unfold andthen in E. destruct (w_file w _); [|injection E as <- _; split; auto]. destruct (eval _ _) as [[]|]; [discriminate|injection E as <- _; split; auto].
Qed.
Lemma keeps_where k q : keeps (rows_where inode k q).
Proof. apply (keeps_mild []); [intros []|]. unfold rows_where. mild. Qed.
Lemma keeps_len k : keeps (ds_len k).
Proof. apply (keeps_mild []); [intros []|]. unfold ds_len. mild. Qed.
Lemma keeps_self k : keeps (self k).
Proof. apply (keeps_mild []); [intros []|]. mild. Qed.
Ltac keep := repeat first [simple apply keeps_max|simple apply keeps_filtered|simple apply keeps_where|simple apply keeps_len|simple apply keeps_self
  |simple apply keeps_fthen; [|intro]|simple apply keeps_andthen; [|intro]|simple apply keeps_runs|simple apply keeps_attempt|simple apply keeps_same; intro; reflexivity
  |match goal with |- keeps (if ?c then _ else _) => destruct c end
  |match goal with |- keeps (match ?c with _ => _ end) => destruct c end].
Lemma keeps_rand_loop fuel ord s j mu : forall k, keeps (rand_loop inode fuel ord s j mu k).
Proof. induction fuel as [|fuel IH]; intro k; cbn [rand_loop]; keep; apply IH. Qed.
Lemma keeps_rand fuel ord s g : keeps (rand_next inode fuel ord s g).
Proof.
  intros w R. unfold rand_next.
  assert (K : keeps (fthen (DbGenModel.runs (rand_start inode g)) (fun st => let '(j, mu, k) := st in fthen (rand_loop inode fuel ord s j mu k) (fun r => DbGenModel.runs (ret (fst r, RAt j mu (snd r))))))).
  { apply keeps_fthen; [apply keeps_runs; destruct g; cbn [rand_start]; keep|]. intros [[j mu] k]. apply keeps_fthen; [apply keeps_rand_loop|]. intro; keep. }
  specialize (K w R). destruct g; [| |exact R]; (destruct (fthen _ _ w) as [w' [[[r g']|e]|]]; exact K).
Qed.
Lemma keeps_pull fuel ord s g : keeps (rand_pull inode fuel ord s g).
Proof. intros w R. unfold rand_pull. pose proof (keeps_rand fuel ord s g w R) as K. destruct (rand_next inode fuel ord s g w) as [w' [[[[r|]|e] g']|]]; exact K. Qed.
Lemma keeps_pair_loop fuel ord s s2 j mu mi : forall neg k, keeps (pair_loop inode fuel ord s s2 j mu mi neg k).
Proof.
  induction fuel as [|fuel IH]; intros neg k; cbn [pair_loop]; [keep|]. apply keeps_fthen.
  - apply keeps_runs. unfold takes_existing. keep.
  - intros [e k1]. cbn [fst snd]. destruct e as [[j' g]|].
    + apply keeps_fthen; [apply keeps_pull|]. intro. keep.
    + apply keeps_fthen; [apply keeps_runs; unfold draw_pair; keep|]. intros [[u v] rows]. destruct rows; [keep|apply IH].
Qed.
Lemma keeps_null fuel ord s s2 g : keeps (null_next inode fuel ord s s2 g).
Proof.
  intros w R. unfold null_next.
  assert (Kg : forall k mu mi neg p, keeps (fthen (pair_loop inode fuel ord s s2 k mu mi neg p) (fun r => let '(p, neg', k') := r in DbGenModel.runs (ret (p, NAt k mu mi neg' k'))))).
  { intros. apply keeps_fthen; [apply keeps_pair_loop|]. intros [[? ?] ?]. keep. }
  destruct g as [k t|k mu mi neg p|]; [| |exact R].
  - match goal with |- resting (fst (match ?m w with _ => _ end)) => assert (K : keeps m) end.
    { apply keeps_fthen; [|intros [[mu mi] neg]; apply Kg]. unfold null_start. apply keeps_fthen; [apply keeps_runs; keep|]. intros _.
      apply keeps_fthen; [destruct t as [t|]; [|keep]; apply keeps_attempt; apply keeps_fthen; [keep|]; intro j; apply keeps_fthen; [apply keeps_pull|]; intro; keep|].
      intro neg. unfold max_of. keep. }
    specialize (K w R). destruct (fthen _ _ w) as [w' [[[? ?]|e]|]]; exact K.
  - specialize (Kg k mu mi neg p w R). destruct (fthen _ _ w) as [w' [[[? ?]|e]|]]; exact Kg.
Qed.
Lemma keeps_generator k q : keeps (random_generator inode k q).
Proof. unfold random_generator. apply keeps_andthen; [apply keeps_self|]. intro x. keep. Qed.
End Calm.

Section Points.
Variable inode : string -> nat.
Variables (i : nat) (d : ds) (t : option slit).
Hypothesis Nd : numbered d.
Hypothesis Cm : complete d.
Hypothesis Tf : threshold_fits d t.
Hypothesis Hi : d_ids d = true.
Local Notation fine := (fine inode i d).

Lemma sampler_sub b b' p : (forall k d0, b k = Some d0 -> b' k = Some d0) -> sampler_ok b d t p -> sampler_ok b' d t p.
Proof.
  intros Sub (Hn & j & Ow & Hj & Hm). split; [|exists j; auto]. destruct Hn as [(k & Eg & Hb & T)|Pg]; [left; exists k; auto|right; eapply pulled_sub; eauto].
Qed.
Lemma fine_rests w b : fine w b -> resting i w.
Proof.
  intros ((b0 & _ & R) & _ & C). split; [exact C|]. destruct C as (x & Hx & _). destruct (Nat.lt_ge_cases i (w_next w)) as [L|G]; [exact L|].
  rewrite (b_next _ _ (inv_base _ _ _ (reaches_inv _ _ _ R)) i G) in Hx. discriminate.
Qed.
Lemma point_init_fine w b : fine w b -> exists w' p b', db_point_init inode i (thr_text t) w = (w', Ok p) /\ fine w' b' /\ extends b b' /\
  sampler_ok b' d t p /\ dp_k p = 0%nat.
Proof.
  intro F. pose proof F as ((b0 & Eb & R) & Hb & C). assert (Hb0 : b0 i = Some d) by (rewrite Eb; auto). pose proof (reaches_inv _ _ _ R) as I.
  unfold db_point_init. destruct (inv_attributes inode w b0 i d I Hb0) as (x & Hx & _ & Di & _).
  rewrite (andthen_ok _ _ _ _ _ (self_ok i w x Hx)), Di, Hi. cbn [negb].
  pose proof (keeps_generator inode i i (option_map (fun t => ("interaction >= " ++ t)%string) (thr_text t)) w (fine_rests w b F)) as K.
  destruct t as [l|]; cbn [thr_text option_map] in *.
  - change ("interaction >= " ++ lit_text l)%string with (query_text (at_least l)) in *.
    destruct (random_generator inode i (Some (query_text (at_least l))) w) as [w1 r1] eqn:Eg. destruct Tf as [Nt Fc].
    destruct (random_generator_spec inode (fun l => l) w b0 i d (at_least l) w1 r1 ltac:(intro; auto) I Hb0) as (I1 & A & Ne); [discriminate|constructor; [exact Fc|constructor]| |exact Eg|].
    { constructor; [intro s; apply Nt|constructor]. }
    destruct r1 as [g|e]; [|exfalso; destruct (Ne e eq_refl); [congruence|auto]].
    destruct (A g eq_refl) as (j & -> & _ & Bj & I2). rewrite (andthen_ok _ _ _ _ _ Eg). eexists. eexists. exists (note b0 j (Some (restricted d (at_least l)))).
    assert (Sub : forall k d0, b0 k = Some d0 -> note b0 j (Some (restricted d (at_least l))) k = Some d0) by (intros k d0 Hk; rewrite note_other; [auto|congruence]).
    split; [reflexivity|]. split.
    { split; [|split; [apply Sub; auto|apply K]]. eexists. split; [reflexivity|]. eapply (Makes inode w b0 i d (at_least l) w1 j); [exact R|exact Hb0| | |exact Eg].
      - split; [discriminate|]. split; (constructor; [|constructor]); [exact Fc|]. destruct l as [z|q|y]; [exact Logic.I|exact Logic.I|]. destruct (Nt y eq_refl).
      - constructor; [intro s; apply Nt|constructor]. }
    split; [intros k Hk; rewrite <- Eb in Hk |- *; destruct (b0 k) as [d1|] eqn:E1; [apply Sub; exact E1|congruence]|].
    split; [|reflexivity]. split.
    + left. exists i. split; [reflexivity|]. split; [apply Sub; auto|split; auto].
    + exists j. split; [reflexivity|]. split; [apply note_same|exact Logic.I].
  - pose proof (random_generator_all inode w b0 i d I Hb0) as Eg. rewrite Hi in Eg. rewrite (andthen_ok _ _ _ _ _ Eg).
    eexists. eexists. exists b. split; [reflexivity|]. split; [exact F|]. split; [apply extends_refl|]. split; [|reflexivity]. split.
    + left. exists i. split; [reflexivity|]. split; [auto|exact Logic.I].
    + exists i. split; [reflexivity|]. split; [auto|exact Logic.I].
Qed.

Lemma negative_fine fuel ord dr p w b w' tr p' : permuting ord -> fine w b -> sampler_ok b d t p ->
  db_sample_negative inode fuel ord dr p w = (w', Some (Ok tr, p')) -> exists b', fine w' b' /\ extends b b' /\ sampler_ok b' d t p'.
Proof.
  intros Po F Sk E. pose proof F as ((b0 & Eb & R) & Hb & C). pose proof (reaches_inv _ _ _ R) as I.
  assert (Sk0 : sampler_ok b0 d t p) by (apply (sampler_sub b); [intros k d0 H; rewrite Eb; exact H|exact Sk]).
  destruct Sk0 as (Hn & j & Ow & Hj & Hm). unfold db_sample_negative in E.
  pose proof (keeps_null inode i fuel ord (dd_null dr) (dd_neg dr) (dp_null p) w (fine_rests w b F)) as K.
  destruct (null_next inode fuel ord (dd_null dr) (dd_neg dr) (dp_null p) w) as [w1 [[o g]|]] eqn:En; [|discriminate].
  injection E as <- E <-. cbn [fst] in K. destruct Hn as [(k & Eg & Hk & Tk)|Pg].
  - rewrite Eg in En. destruct (null_next_new inode _ _ _ _ _ _ _ _ _ _ _ Po I Hk Tk En) as (I1 & A). specialize (A _ _ eq_refl).
    destruct o as [[[u v]|]|e]; try discriminate. destruct A as (In1 & Sub & Pg' & _).
    exists (noted b0 (NNew k (thr_text t)) g t). split; [|split].
    + split; [|split; [apply Sub; rewrite Eb; auto|apply K]]. eexists. split; [reflexivity|].
      eapply Pairs; [exact R|exact Po| |exact En]. cbn [null_fits]. split; [reflexivity|]. exists d. auto.
    + intros q Hq. rewrite <- Eb in Hq |- *. destruct (b0 q) as [d1|] eqn:E1; [apply Sub; exact E1|congruence].
    + split; [right; exact Pg'|]. exists j. auto.
  - destruct (null_next_pulled inode _ _ _ _ _ _ _ _ _ _ _ Po I Pg En) as (-> & A). specialize (A _ _ eq_refl).
    destruct o as [[[u v]|]|e]; try discriminate. destruct A as (Pg' & _). exists b. split; [exact F|]. split; [apply extends_refl|].
    apply (sampler_sub b0); [intros k d0 H; rewrite <- Eb; exact H|]. split; [right; exact Pg'|]. exists j. auto.
Qed.
Lemma positive_fine fuel ord dr p w b w' tr p' : permuting ord -> fine w b -> sampler_ok b d t p ->
  db_sample_positive inode fuel ord dr p w = (w', Some (Ok tr, p')) -> fine w' b /\ sampler_ok b d t p'.
Proof.
  intros Po F Sk E. pose proof F as ((b0 & Eb & R) & Hb & C). pose proof (reaches_inv _ _ _ R) as I.
  assert (Sk0 : sampler_ok b0 d t p) by (apply (sampler_sub b); [intros k d0 H; rewrite Eb; exact H|exact Sk]).
  destruct (positive_step inode _ _ _ _ _ _ _ _ _ _ _ Po I Sk0 Nd E) as (_ & _ & _ & Sk').
  destruct Sk0 as (Hn & j & Ow & Hj & Hm). unfold db_sample_positive in E.
  pose proof (keeps_rand inode i fuel ord (dd_pos dr) (dp_pos p) w (fine_rests w b F)) as K.
  destruct (rand_next inode fuel ord (dd_pos dr) (dp_pos p) w) as [w1 [[o g]|]] eqn:En; [|discriminate].
  injection E as <- E <-. cbn [fst] in K. split.
  - split; [|split; [exact Hb|apply K]]. exists b0. split; [exact Eb|]. eapply Draws; [exact R|exact Po| |exact En]. intros q Hq. congruence.
  - apply (sampler_sub b0); [intros k d0 H; rewrite <- Eb; exact H|exact Sk'].
Qed.

Variable ords : nat -> list trow -> list trow.
Hypothesis Po : forall k, permuting (ords k).
Variables (fuel : nat) (neg : Qc) (dr : dbdraws).
Lemma point_fine p s b s' o : fine (snd s) b -> sampler_ok b d t p -> db_point inode ords fuel neg dr p s = (s', Some o) ->
  match o with
  | Ok (x, p') => sampled d t neg (dd_label dr (dp_k p)) x /\ dp_k p' = Datatypes.S (dp_k p) /\ exists b', fine (snd s') b' /\ extends b b' /\ sampler_ok b' d t p'
  | Err _ => ~ exists row, positive_row d t row
  end.
Proof.
  intros F Sk E. pose proof F as ((b0 & Eb & R) & Hb & C). pose proof (reaches_inv _ _ _ R) as I.
  assert (Sk0 : sampler_ok b0 d t p) by (apply (sampler_sub b); [intros k d0 H; rewrite Eb; exact H|exact Sk]).
  unfold db_point in E. destruct (db_sample inode 1 fuel (ords (fst s)) neg dr p (snd s)) as [w1 [[r p2]|]] eqn:Es; [|discriminate].
  pose proof (db_sample_spec inode neg dr (ords (fst s)) d t (Po _) Nd 1 fuel p (snd s) b0 w1 r p2 I Sk0 Es) as Sp.
  destruct r as [l|e].
  - destruct Sp as (Ll & Kp & Sm & _). destruct l as [|x [|y l]]; try (cbn in Ll; lia). injection E as <- <-. cbn [snd].
    split; [specialize (Sm 0%nat x eq_refl); rewrite Nat.add_0_r in Sm; exact Sm|]. split; [lia|].
    cbn [db_sample] in Es. set (p1 := mkDbPoint (Datatypes.S (dp_k p)) (dp_null p) (dp_pos p)) in Es.
    assert (Sk1 : sampler_ok b d t p1) by exact Sk. destruct (Qcgtb _ 1).
    + destruct (db_sample_negative inode fuel (ords (fst s)) dr p1 (snd s)) as [w2 [[[x2|e2] p3]|]] eqn:En; try discriminate.
      injection Es as <- _ <-. eapply negative_fine; eauto.
    + destruct (db_sample_positive inode fuel (ords (fst s)) dr p1 (snd s)) as [w2 [[[x2|e2] p3]|]] eqn:En; try discriminate.
      injection Es as <- _ <-. destruct (positive_fine _ _ _ _ _ _ _ _ _ (Po _) F Sk1 En) as [F2 Sk2]. exists b. split; [exact F2|]. split; [apply extends_refl|exact Sk2].
  - injection E as _ <-. intros (row & Hr). apply (Sp Cm Hi). apply positives_rows in Hr. intro X. rewrite X in Hr. destruct Hr.
Qed.
Lemma points_fine n : forall p s b s' o, fine (snd s) b -> sampler_ok b d t p -> db_points inode ords fuel neg dr n p s = (s', Some o) ->
  match o with
  | Ok (l, p') => length l = n /\ (forall k x, nth_error l k = Some x -> sampled d t neg (dd_label dr (dp_k p + k)) x) /\ dp_k p' = (dp_k p + n)%nat /\
      exists b', fine (snd s') b' /\ extends b b' /\ sampler_ok b' d t p'
  | Err _ => ~ exists row, positive_row d t row
  end.
Proof.
  induction n as [|n IH]; intros p s b s' o F Sk E; cbn [db_points] in E.
  - unfold tret in E. injection E as <- <-. split; [reflexivity|]. split; [intros [|k] x X; discriminate|]. split; [lia|]. exists b. split; [exact F|]. split; [apply extends_refl|exact Sk].
  - unfold tbind at 1 in E. destruct (db_point inode ords fuel neg dr p s) as [s1 [r1|]] eqn:E1; [|discriminate].
    pose proof (point_fine _ _ _ _ _ F Sk E1) as H1. destruct r1 as [[x p1]|e]; [|injection E as _ <-; exact H1].
    destruct H1 as (Sx & K1 & b1 & F1 & X1 & Sk1). cbn [fst snd] in E. unfold tbind at 1 in E.
    destruct (db_points inode ords fuel neg dr n p1 s1) as [s2 [r2|]] eqn:E2; [|discriminate].
    pose proof (IH _ _ _ _ _ F1 Sk1 E2) as H2. destruct r2 as [[l p2]|e]; [|injection E as _ <-; exact H2].
    destruct H2 as (Ll & Sl & K2 & b2 & F2 & X2 & Sk2). unfold tret in E. injection E as <- <-. cbn [fst snd length].
    split; [lia|]. split; [|split; [lia|exists b2; split; [exact F2|split; [eapply extends_trans; eauto|exact Sk2]]]].
    intros [|k] y Y; cbn [nth_error] in Y; [injection Y as <-; rewrite Nat.add_0_r; exact Sx|].
    replace (dp_k p + Datatypes.S k)%nat with (dp_k p1 + k)%nat by lia. apply Sl. exact Y.
Qed.
End Points.
