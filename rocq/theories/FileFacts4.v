(** Which files the calls of a built-in data set write, and a folder without the
    downloaded file. *)
From Coq Require Import String Ascii.
From Coq Require Import List ZArith QArith Qcanon Bool Lia.
From Verif Require Import Py PyFacts MemModel MemSpec DbModel CsvModel CsvSpec CsvFacts CsvFacts4 Conc SplitModel SplitSpec SplitFacts4 FileModel FileSpec FileFacts FileFacts2.
Import ListNotations.
Open Scope string_scope.
Open Scope Z_scope.

Fixpoint only {A} (W : string -> Prop) (p : prog A) : Prop :=
  match p with
  | Ret _ | Hang => True
  | Do o k => match o with Write q _ | Append q _ => W q | _ => True end /\ only W k
  | See k => forall d, only W (k d)
  end.
Lemma only_killed {A} (W : string -> Prop) (p : prog A) : forall n cut d q d', only W p -> killed p n cut d = Some (Some q, d') -> W q.
Proof.
  induction p as [r| |o k IH|k IH]; intros n cut d q d' O E; cbn [only killed] in O, E.
  - destruct n, cut; discriminate.
  - destruct n, cut; discriminate.
  - destruct O as [O1 O2]. destruct n as [|n]; [|eapply IH; eauto]. destruct cut as [part|]; [|discriminate].
    destruct o; cbn [torn] in E; try discriminate; destruct (prefix_b part t); try discriminate; cbn in E; injection E as <- _; exact O1.
  - eapply IH; eauto.
Qed.
Lemma only_bind {A B} (W : string -> Prop) (p : prog A) (f : A -> prog B) : only W p -> (forall a, only W (f a)) -> only W (pbind p f).
Proof.
  intros O F. induction p as [[a|e]| |o k IH|k IH]; cbn [only pbind] in *; auto.
  - destruct O; auto.
Qed.
Lemma only_performs {A} (W : string -> Prop) os (p : prog A) : (forall q t, In (Write q t) os -> W q) -> (forall q t, In (Append q t) os -> W q) -> only W p -> only W (performs os p).
Proof.
  intros H1 H2 O. induction os as [|o os IH]; [exact O|]. cbn [performs only]. split.
  - destruct o; auto; [apply (H1 p0 t)|apply (H2 p0 t)]; left; reflexivity.
  - apply IH; intros q t Hin; [apply (H1 q t)|apply (H2 q t)]; right; exact Hin.
Qed.

Section Only.
Variable show : Qc -> string.
Variable unzip : string -> option (list (string * string)).
Variable arrange : list string -> list string.
Variable read_full : string -> res mem.
Variable fmul : Z -> Qc -> Qc.
Variable sample : Z -> list Z -> nat -> list Z.
Variable g : config.
Variable data : string.
Variable members : list (string * string).
Hypothesis Hnames : names_ok g members.
Hypothesis Hunpack : unpacks unzip g data members.
Hypothesis Hslash : str_no "/" (g_name g).
Hypothesis Hzip : g_unzip g = true.
Definition gen_file (p : string) : Prop := p = train_gen g /\ (g_train g = None \/ g_test g = None) \/ p = test_gen g /\ (g_train g = None \/ g_test g = None).
Definition calm (p : string) : Prop := ~ important g members p \/ gen_file p.

Lemma download_calm net : net = Some data \/ net = None -> only calm (download unzip arrange g net).
Proof.
  intros Hn. unfold download. destruct net as [s|]; [|exact Logic.I]. destruct Hn as [E|E]; [|discriminate]. injection E as ->.
  unfold unpacks in Hunpack. rewrite Hzip in Hunpack. destruct Hunpack as (f & Ef & Eu). rewrite Hzip, Ef, Eu.
  cbn [only]. intro d. apply only_performs; [intros q t Hin; destruct (is_dir d (g_name g)); cbn in Hin; intuition discriminate..|].
  cbn [only]. split; [left; apply aside_not_H; apply zip_aside; assumption|].
  apply only_performs; [intros q t Hin; destruct (listing f _); cbn in Hin; intuition discriminate..|].
  apply only_performs.
  - intros q t Hin. apply in_map_iff in Hin. destruct Hin as ([x u] & E & Hin). injection E as <- <-. apply in_map_iff in Hin. destruct Hin as ([y v] & E & Hin).
    cbn [fst snd] in *. injection E as <- <-. left. apply aside_not_H. apply sub_aside; assumption.
  - intros q t Hin. apply in_map_iff in Hin. destruct Hin as (x & E & _). discriminate.
  - cbn [only]. intro d'. destruct (is_dir d' (path_of g f)); [|exact Logic.I]. apply only_performs.
    + intros q t Hin. apply in_map_iff in Hin. destruct Hin as (x & E & _). discriminate.
    + intros q t Hin. apply in_map_iff in Hin. destruct Hin as (x & E & _). discriminate.
    + cbn. auto.
Qed.
Lemma dataset_calm net p read : net = Some data \/ net = None -> only calm (get_dataset unzip arrange g net p read).
Proof.
  intro Hn. unfold get_dataset. cbn [only]. intro d. apply only_bind; [|intros; cbn; auto]. destruct (is_dir d (g_name g)); [exact Logic.I|apply download_calm; exact Hn].
Qed.
Lemma part_calm net sched steps file gen pick : net = Some data \/ net = None -> (file = g_train g \/ file = g_test g) ->
  only calm (get_part show unzip arrange read_full fmul sample g net sched steps file gen pick).
Proof.
  intros Hn Hf. unfold get_part. destruct file as [f|]; [apply dataset_calm; exact Hn|].
  assert (Gn : g_train g = None \/ g_test g = None) by (destruct Hf; auto).
  cbn [only]. intro d. destruct (contents d gen); [apply dataset_calm; exact Hn|]. apply only_bind; [apply dataset_calm; exact Hn|].
  intro m. destruct (leave_k_out fmul sample lko10 m sched steps) as [e| |a b]; try exact Logic.I.
  destruct (mem_save show a None false) as [t1|]; [|exact Logic.I]. destruct (mem_save show b None false) as [t2|]; [|exact Logic.I].
  cbn [only]. split; [right; left; auto|]. split; [right; right; auto|exact Logic.I].
Qed.
Lemma call_calm c net sched steps : net = Some data \/ net = None -> only calm (prog_of show unzip arrange read_full fmul sample g c net sched steps).
Proof.
  intro Hn. destruct c; cbn [prog_of].
  - apply part_calm; auto.
  - apply part_calm; auto.
  - apply dataset_calm. exact Hn.
Qed.
(** with files for both parts in the archive no kill is harmful *)
Lemma archive_harmless online d es d' : (g_train g <> None /\ g_test g <> None) ->
  history show unzip arrange read_full fmul sample g data online d es d' -> Forall (harmless g members) es.
Proof.
  intros [N1 N2] Hh. induction Hh as [d|d e d1 es d2 Hp Hh IH]; constructor; [|exact IH].
  destruct Hp as [c net sched steps d1 r Ha E|c net sched steps n cut hurt d1 Ha E]; [exact Logic.I|].
  destruct hurt as [p|]; [|exact Logic.I]. cbn [harmless].
  assert (Hn : net = Some data \/ net = None) by (destruct Ha as [->|[_ ->]]; auto).
  destruct (only_killed calm _ _ _ _ _ _ (call_calm c net sched steps Hn) E) as [C|[(_ & [C|C])|(_ & [C|C])]]; [exact C|contradiction..].
Qed.
(** otherwise only kills during the writing of the generated files are *)
Lemma generated_harmless online d es d' :
  history show unzip arrange read_full fmul sample g data online d es d' ->
  (forall c p, In (Killed c (Some p)) es -> p <> train_gen g /\ p <> test_gen g) -> Forall (harmless g members) es.
Proof.
  intros Hh. induction Hh as [d|d e d1 es d2 Hp Hh IH]; intro Hk; constructor; [|apply IH; intros c p Hin; apply (Hk c p); right; exact Hin].
  destruct Hp as [c net sched steps d1 r Ha E|c net sched steps n cut hurt d1 Ha E]; [exact Logic.I|].
  destruct hurt as [p|]; [|exact Logic.I]. cbn [harmless].
  assert (Hn : net = Some data \/ net = None) by (destruct Ha as [->|[_ ->]]; auto).
  destruct (Hk c p (or_introl eq_refl)) as [P1 P2].
  destruct (only_killed calm _ _ _ _ _ _ (call_calm c net sched steps Hn) E) as [C|[(C & _)|(C & _)]]; [exact C|contradiction..].
Qed.
End Only.

(** ** A folder without the file *)
Lemma never_rebuilt show unzip arrange read_full fmul sample g c net sched steps d :
  is_dir d (g_name g) = true -> (forall x, In x [Some (g_full g); g_train g; g_test g] -> forall f, x = Some f -> contents d (path_of g f) = None) ->
  contents d (train_gen g) = None -> contents d (test_gen g) = None ->
  complete_run (prog_of show unzip arrange read_full fmul sample g c net sched steps) d = (d, Some (Err FileNotFoundError)).
Proof.
  intros Hd Hf H1 H2.
  assert (G : forall p read, contents d p = None -> complete_run (get_dataset unzip arrange g net p read) d = (d, Some (Err FileNotFoundError))).
  { intros p read Ep. unfold get_dataset. cbn [complete_run]. rewrite Hd. cbn [pbind complete_run]. rewrite Ep. reflexivity. }
  assert (F : contents d (path_of g (g_full g)) = None) by (apply (Hf (Some (g_full g))); cbn; auto).
  assert (B : forall p read (k : mem -> prog mem), contents d p = None -> complete_run (pbind (get_dataset unzip arrange g net p read) k) d = (d, Some (Err FileNotFoundError))).
  { intros p read k Ep. unfold get_dataset. cbn [complete_run pbind]. rewrite Hd. cbn [pbind complete_run]. rewrite Ep. reflexivity. }
  destruct c; cbn [prog_of].
  - unfold get_train, get_part. destruct (g_train g) as [f|] eqn:E; [apply G; apply (Hf (Some f)); cbn; auto|]. cbn [complete_run]. rewrite H1. apply B. exact F.
  - unfold get_test, get_part. destruct (g_test g) as [f|] eqn:E; [apply G; apply (Hf (Some f)); cbn; auto|]. cbn [complete_run]. rewrite H2. apply B. exact F.
  - apply G. exact F.
Qed.
