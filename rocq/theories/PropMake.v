(** C127: the constructors of recommenders check their arguments. *)
From Coq Require Import String Ascii.
From Coq Require Import List ZArith Bool Lia.
From Verif Require Import Py LogModel LogSpec LogFacts SeedModel NetModel MakeModel MakeSpec MakeFacts.
Import ListNotations.
Open Scope string_scope.
Open Scope list_scope.

(** A constructor returns exactly for the documented names and layers, whatever the
    process did before. *)
Theorem C127_accepts : forall c b kw now p, (exists o, fst (construct c b kw now p) = Ok o) <-> supported c kw.
Proof. exact construct_iff. Qed.
Print Assumptions C127_accepts.
Definition talk : base := mkBase true true (Some 3%Z).
Definition quiet : base := mkBase false false None.
Definition u1 : string := "2026-11-16_22-30-00".
Definition u2 : string := "2026-11-16_22-30-01".
Example C127_accepts_example :
  (exists o, fst (construct DMF quiet [("user_factors", AList [8; 4]%Z); ("item_factors", AList [4%Z])] u1 process0) = Ok o) /\
  ~ supported DMF [("user_factors", AList [8; 4]%Z)] /\ ~ supported CDAE [("loss", AStr "mae")] /\
  supported UserKNN [("sim_metric", AStr "msd"); ("k", AOther (-1))].
Proof.
  split; [eexists; reflexivity|]. split; [|split].
  - rewrite <- check_iff. cbn. discriminate.
  - rewrite <- check_iff. cbn. discriminate.
  - apply check_iff. reflexivity.
Qed.

(** Constructor calls that raise give no recommender, write nothing on the console, and
    leave the log files of others as they are: a program ends with the same recommenders,
    console and files as without these calls, except for the files they were to log to. *)
Theorem C127_others_unharmed : forall xs ys, erased xs ys ->
  let (os, p) := perform_all xs in let (os', p') := perform_all ys in
  os = os' /\ lg_console (pr_logs p) = lg_console (pr_logs p') /\
  forall path, ~ raising_file xs path -> contents (pr_logs p) path = contents (pr_logs p') path.
Proof.
  intros xs ys E. unfold perform_all.
  pose proof (alike_all (fun path => ~ raising_file xs path) xs ys E (fun _ H => H) _ _ (alike0 _)) as [A B N F C D].
  destruct (fold_left perform xs ([], process0)) as [os p]. destruct (fold_left perform ys ([], process0)) as [os' p'].
  cbn [fst snd] in *. split; [exact A|]. split; [exact C|exact D].
Qed.
Print Assumptions C127_others_unharmed.
Definition bad : kwds := [("loss", AStr "mae")].
Definition program : list call :=
  [Construct CDAE talk [] u1; Construct CDAE (mkBase true true None) bad u2; Tell 0 Info "a" true true; Draw 2].
Definition program' : list call := [Construct CDAE talk [] u1; Tell 0 Info "a" true true; Draw 2].
Lemma bad_unsupported : ~ supported CDAE bad.
Proof. rewrite <- check_iff. cbn. discriminate. Qed.
Lemma program_erased : erased program program'.
Proof.
  apply erased_keep. { intros c b kw now E. injection E as <- <- <- <-. apply check_iff. reflexivity. }
  apply erased_raising; [exact bad_unsupported|].
  apply erased_keep; [intros; discriminate|]. apply erased_keep; [intros; discriminate|]. constructor.
Qed.
Example C127_others_example : erased program program' /\ ~ raising_file program "drecpy_2026-11-16_22-30-00_CDAE.log" /\
  contents (pr_logs (snd (perform_all program))) "drecpy_2026-11-16_22-30-00_CDAE.log" = [(Info, "CDAE_FLOGGER", "a")].
Proof.
  split; [exact program_erased|]. split; [|vm_compute; reflexivity].
  intros (c & b & kw & now & I & N & B & E). cbn [In program] in I.
  destruct I as [I|[I|[I|[I|[]]]]]; try discriminate I; injection I as <- <- <- <-.
  - apply N. apply check_iff. reflexivity.
  - discriminate E.
Qed.

(** Otherwise a call that raises does to the process what one that returns does. *)
Theorem C127_as_if_made : forall c b kw kw' now p, snd (construct c b kw now p) = snd (construct c b kw' now p).
Proof.
  intros. unfold construct. destruct (base_init c b now p). now destruct (check c kw); destruct (check c kw').
Qed.
Print Assumptions C127_as_if_made.
(** In particular it seeds TensorFlow. *)
Theorem C127_seeds : forall c b kw now p s, b_seed b = Some s -> pr_tf (snd (construct c b kw now p)) = (Seeded s, 0).
Proof.
  intros c b kw now p s H. unfold construct, base_init. destruct (new_recommender _ _ _ _ _). rewrite H. now destruct (check c kw).
Qed.
Print Assumptions C127_seeds.

(** Arguments with a name that is none of the constructor's are ignored. *)
Theorem C127_unknown_ignored : forall c b kw x v now p, ~ In x (params c) ->
  construct c b (kw ++ [(x, v)]) now p = construct c b kw now p.
Proof. exact construct_unknown. Qed.
Print Assumptions C127_unknown_ignored.

(** The property: a call that raises changes nothing: neither numbers that TensorFlow
    gives next, nor which files there are and what is in them. *)
Definition no_effect : Prop := forall xs ys, erased xs ys ->
  pr_tf (snd (perform_all xs)) = pr_tf (snd (perform_all ys)).
Definition no_files : Prop := forall xs ys, erased xs ys ->
  forall path, contents (pr_logs (snd (perform_all xs))) path = contents (pr_logs (snd (perform_all ys))) path.
(** A CDAE made with seed 3, then one with a wrong loss and no seed: the initial weights
    of the first no longer come from its seed. *)
Theorem C127_weights_refuted : ~ no_effect /\
  pr_tf (snd (perform_all program')) = (Seeded 3%Z, 2) /\ exists n, pr_tf (snd (perform_all program)) = (Entropy n, 2).
Proof.
  assert (E : exists n, pr_tf (snd (perform_all program)) = (Entropy n, 2)) by (eexists; vm_compute; reflexivity).
  split; [|split; [vm_compute; reflexivity|exact E]].
  intro H. specialize (H _ _ program_erased). destruct E as (n & E). rewrite E in H. vm_compute in H. discriminate.
Qed.
Print Assumptions C127_weights_refuted.
(** The file of the call that raised gets the messages of the CDAE made before it. *)
Theorem C127_file_refuted : ~ no_files /\
  contents (pr_logs (snd (perform_all program))) "drecpy_2026-11-16_22-30-01_CDAE.log" = [(Info, "CDAE_FLOGGER", "a")].
Proof.
  split; [|vm_compute; reflexivity].
  intro H. specialize (H _ _ program_erased "drecpy_2026-11-16_22-30-01_CDAE.log"). vm_compute in H. discriminate.
Qed.
Print Assumptions C127_file_refuted.
(** The property: an argument the constructor does not have raises. *)
Theorem C127_misspelled_refuted : exists c kw x v, ~ In x (params c) /\ In (x, v) kw /\
  forall b now p, exists o, fst (construct c b kw now p) = Ok o /\ ob_params o = [].
Proof.
  exists UserKNN, [("similarity", AStr "cosine")], "similarity", (AStr "cosine").
  split. { cbn. intuition discriminate. } split; [now left|].
  intros b now p. unfold construct, base_init. destruct (new_recommender _ _ _ _ _). eexists. split; reflexivity.
Qed.
Print Assumptions C127_misspelled_refuted.
