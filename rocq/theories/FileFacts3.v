(** Facts about the built-in data sets: what every call returns in every history. *)
From Coq Require Import String Ascii.
From Coq Require Import List ZArith QArith Qcanon Bool Lia.
From Verif Require Import Py PyFacts MemModel MemSpec DbModel CsvModel CsvSpec CsvFacts CsvFacts4 Conc SplitModel SplitSpec SplitFacts4 FileModel FileSpec FileFacts FileFacts2.
Import ListNotations.
Open Scope string_scope.
Open Scope Z_scope.

(** ** Generated files *)
Section Gen.
Variable show : Qc -> string.
Variable g : config.
Hypothesis Hfit : columns_fit g.

Lemma assoc_map {B} (h : string -> B) (cs : list string) c : In c cs -> assoc String.eqb c (map (fun x => (x, h x)) cs) = Some (h c).
Proof.
  induction cs as [|a cs IH]; intro Hc; [destruct Hc|]. cbn [map assoc]. destruct (String.eqb_spec c a) as [->|N]; [reflexivity|].
  destruct Hc as [->|Hc]; [congruence|auto].
Qed.
Lemma index_rows_ok cs (rs : list row) : (forall r c, In r rs -> In c cs -> cell r c <> None) ->
  forall n, exists rs', index_rows n (map (fun r => map (fun c => (c, cell r c)) cs) rs) = Ok rs' /\
    map (fun r => map (cell r) cs) rs' = map (fun r => map (cell r) cs) rs.
Proof.
  intro Hc. induction rs as [|r rs IH]; intro n; [exists []; auto|]. cbn [map index_rows].
  destruct (IH (fun r' c Hr Hin => Hc r' c (or_intror Hr) Hin) (n + 1)) as (rs' & E & E').
  assert (M : mapM (fun p : string * option value => match snd p with Some v => Ok (fst p, v) | None => Err GenericException end)
    (map (fun c => (c, cell r c)) cs) = Ok (map (fun c => (c, value_at r c)) cs)).
  { assert (Hr : forall c, In c cs -> cell r c <> None) by (intros c Hin; apply Hc; [left; reflexivity|exact Hin]). clear - Hr.
    induction cs as [|c cs IH]; [reflexivity|]. cbn [map mapM snd fst]. unfold value_at at 1. destruct (cell r c) eqn:E; [|destruct (Hr c (or_introl eq_refl) E)].
    cbn [bind]. rewrite IH; [reflexivity|]. intros x Hx. apply Hr. right. exact Hx. }
  rewrite M. cbn [bind]. rewrite E. cbn [bind]. eexists. split; [reflexivity|]. cbn [map]. rewrite E'. f_equal.
  apply map_ext_in. intros c Hin. unfold cell at 1. cbn [r_cells]. rewrite (assoc_map (value_at r) cs c Hin). unfold value_at.
  destruct (cell r c) eqn:Ec; [reflexivity|]. destruct (Hc r c (or_introl eq_refl) Hin Ec).
Qed.
Lemma fit_written : written_columns (g_columns g ++ ["rid"])%list = g_columns g.
Proof.
  destruct Hfit as (_ & _ & N1 & N2 & N3). unfold written_columns. rewrite filter_app. cbn [filter existsb negb].
  replace (String.eqb "rid" "rid") with true by reflexivity. cbn [orb negb]. rewrite app_nil_r. clear Hfit.
  induction (g_columns g) as [|c cs IH]; [reflexivity|]. cbn [filter existsb]. cbn [In] in N1, N2, N3.
  rewrite !eqb_no by tauto. cbn [orb negb]. rewrite IH by tauto. reflexivity.
Qed.
Lemma fit_nodup : NoDup (g_columns g ++ ["rid"])%list.
Proof.
  destruct Hfit as (ND & _ & N & _). clear Hfit. induction (g_columns g) as [|c cs IH]; cbn [app]; [constructor; [intros []|constructor]|].
  inversion ND as [|? ? Nc ND']; subst. cbn [In] in N. constructor; [|apply IH; tauto]. rewrite in_app_iff. cbn [In]. intros [Hc|[Hc|[]]]; [tauto|]. subst. tauto.
Qed.
Lemma choice (f : string -> dtype -> Prop) cs : (forall c, In c cs -> exists t, f c t) -> NoDup cs -> exists ts : string -> dtype, forall c, In c cs -> f c (ts c).
Proof.
  intros Hc ND. induction cs as [|c cs IH]; [exists (fun _ => DObj); intros c []|]. inversion ND as [|? ? N ND']; subst.
  destruct IH as (ts & Hts); [intros x Hx; apply Hc; right; exact Hx|exact ND'|]. destruct (Hc c (or_introl eq_refl)) as (t & Ht).
  exists (fun x => if String.eqb x c then t else ts x). intros x [<-|Hx]; [rewrite String.eqb_refl; exact Ht|]. rewrite eqb_no by congruence. auto.
Qed.
Lemma typed_names (cs : list string) : map fst (map (fun p : string * (nat * dtype) => (fst p, snd (snd p))) (typed_columns (map Some cs) [])) = cs.
Proof.
  unfold typed_columns. rewrite map_map. cbn [fst]. generalize 0%nat. rewrite map_length. intro n.
  revert n. induction cs as [|c cs IH]; intro n; [reflexivity|]. cbn [map length seq combine named fst]. f_equal. apply IH.
Qed.
Lemma gen_back m : part_survives show g m -> exists text m',
  mem_save show m None false = Ok text /\ read_gen g text = Ok m' /\ same_rows (g_columns g) m' m.
Proof.
  intros (Ec & Hc & Sv). destruct Hfit as (ND & Rq & _).
  destruct (rows_of m) as [|r0 rs0] eqn:Er.
  - exists "". unfold mem_save. rewrite Er. cbn [mapM bind map String.concat append].
    assert (X : forallb (fun c => in_cols c (map fst (typed_columns (map Some (g_columns g)) []))) ["user"; "item"; "interaction"] = true).
    { assert (T := typed_names (g_columns g)). rewrite map_map in T. cbn [fst] in T.
      apply forallb_forall. intros c Hin. specialize (Rq c Hin). change (map fst (typed_columns (map Some (g_columns g)) [])) with (map (fun p : string * (nat * dtype) => fst p) (typed_columns (map Some (g_columns g)) [])).
      rewrite T. unfold in_cols. apply (mem_b_In String.eqb reflects_string). exact Rq. }
    unfold read_gen, read_csv_mem. cbn [lines].
    assert (R : reader "," [] = Ok []) by reflexivity. rewrite R. cbn [bind filter]. rewrite X. cbn [forallb negb bind map].
    unfold frame_mem. cbn [snd index_rows fst bind]. eexists. split; [reflexivity|]. split; [reflexivity|]. unfold same_rows. rewrite Er. reflexivity.
  - assert (Ne : rows_of m <> []) by (rewrite Er; discriminate). rewrite <- Er in *.
    destruct (choice (fun c t => forall l, map Some l = map (fun r => cell r c) (rows_of m) -> column_survives show t l) (g_columns g) Sv ND) as (types & Ht).
    destruct (mem_csv_round_trip show m None false types) as (text & E1 & E2).
    + rewrite Ec. apply fit_nodup.
    + rewrite Ec. intros c Hin. apply in_or_app. left. auto.
    + exact Ne.
    + rewrite Ec, fit_written. exact Hc.
    + rewrite Ec, fit_written. intros c Hin. apply Ht; [exact Hin|]. rewrite map_map. apply map_ext_in. intros r Hr. unfold value_at.
      destruct (cell r c) eqn:E; [reflexivity|]. destruct (Hc r c Hr Hin E).
    + discriminate.
    + rewrite Ec, fit_written in E2. destruct (index_rows_ok (g_columns g) (rows_of m) Hc 0) as (rs' & E3 & E4).
      exists text, (mem_of_frame (mkFrame (map (fun c => (c, types c)) (g_columns g)) rs')). split; [exact E1|]. split; [|exact E4].
      unfold read_gen. rewrite E2. cbn [bind frame_mem snd fst]. unfold frame_mem. cbn [snd fst]. rewrite E3. reflexivity.
Qed.
End Gen.

Section Calls.
Variable show : Qc -> string.
Variable unzip : string -> option (list (string * string)).
Variable arrange : list string -> list string.
Variable read_full : string -> res mem.
Variable fmul : Z -> Qc -> Qc.
Variable sample : Z -> list Z -> nat -> list Z.
Variable g : config.
Variable data : string.
Variable members : list (string * string).
Variable train test : mem.
Hypothesis Hnames : names_ok g members.
Hypothesis Hunpack : unpacks unzip g data members.
Hypothesis Harrange : forall l x, In x (arrange l) <-> In x l.
Hypothesis Hslash : str_no "/" (g_name g).
Hypothesis Hread : readable_files read_full g members.
(** the data set has train and test files, or parts are generated *)
Hypothesis Hparts : g_train g = None \/ g_test g = None -> columns_fit g /\ part_survives show g train /\ part_survives show g test /\
  exists m sched steps, stored_file read_full members (g_full g) m /\ leave_k_out fmul sample lko10 m sched steps = Done train test.

Lemma member_once x t u : In (x, t) members -> In (x, u) members -> t = u.
Proof. intros A B. apply (assoc_member members x t (proj1 Hnames)) in A. apply (assoc_member members x u (proj1 Hnames)) in B. congruence. Qed.
Lemma members_some : members <> [].
Proof. destruct (Hread (g_full g) (or_introl eq_refl)) as (m & t & Hin & _). intro E. rewrite E in Hin. destruct Hin. Qed.

Section Texts.
Variable T1 T2 : string.
Hypothesis HT : g_train g = None \/ g_test g = None -> exists m1 m2,
  mem_save show train None false = Ok T1 /\ read_gen g T1 = Ok m1 /\ same_rows (g_columns g) m1 train /\
  mem_save show test None false = Ok T2 /\ read_gen g T2 = Ok m2 /\ same_rows (g_columns g) m2 test.
Notation Kd := (K g members T1 T2).
Notation Hd := (H g members).
Notation stored_d := (stored g members T1 T2).
Notation full_d := (full g members T1 T2).
Definition net_ok (net : option string) : Prop := net = Some data \/ net = None.

Lemma K_stored d : Kd d -> is_dir d (g_name g) = true -> stored_d d.
Proof. intros [[N _]|S] E; [congruence|exact S]. Qed.
Lemma K_nothing d : Kd d -> is_dir d (g_name g) = false -> nothing_stored g d.
Proof. intros [N|[S _]] E; [exact N|congruence]. Qed.

Lemma dataset_keeps net p read d : net_ok net -> Kd d ->
  keeps Kd Hd (fun d' r => (forall m, r = Ok m -> stored_d d' /\ exists t, contents d' p = Some t /\ read t = Ok m) /\
    (stored_d d -> d' = d) /\
    (net <> None -> nothing_stored g d \/ full_d d -> full_d d' /\ r = match contents d' p with Some t => read t | None => Err FileNotFoundError end))
    (get_dataset unzip arrange g net p read) d.
Proof.
  intros Hn Kk. unfold get_dataset. cbn [keeps]. destruct (is_dir d (g_name g)) eqn:E.
  - cbn [pbind keeps]. assert (S := K_stored d Kk E). split; [exact Kk|]. split; [|split; [auto|]].
    + intros m Em. split; [exact S|]. destruct (contents d p) as [t|]; [eauto|discriminate].
    + intros _ [[N _]|F]; [congruence|]. auto.
  - assert (N := K_nothing d Kk E). eapply keeps_bind; [| |apply (download_keeps unzip arrange g data members T1 T2 Hnames Hunpack Harrange Hslash net d Hn N (fun _ => members_some))].
    + intros d' [] Kd' (Q1 & Q2). cbn [keeps]. split; [exact Kd'|]. split; [|split].
      * intros m Em. split; [auto|]. destruct (contents d' p) as [t|]; [eauto|discriminate].
      * intros [S _]. congruence.
      * intros Nn _. split; [apply (Q2 Nn)|reflexivity].
    + intros d' e Kd' (Q1 & Q2). split; [discriminate|]. split; [intros [S _]; congruence|]. intros Nn _. destruct (Q2 Nn). discriminate.
Qed.

Lemma write_train d : stored_d d -> stored_d (perform (Write (train_gen g) T1) d).
Proof.
  intros (S1 & S2 & S3 & S4). split; [exact S1|]. split; [|split].
  - intros x t Hx. rewrite contents_write. unfold train_gen. rewrite root_ne; [auto|]. destruct Hnames as [_ N]. apply (N x). apply in_map_iff. exists (x, t). auto.
  - right. rewrite contents_write, String.eqb_refl. reflexivity.
  - rewrite contents_write. unfold test_gen, train_gen. rewrite root_ne by (intro E; symmetry in E; revert E; apply train_test). exact S4.
Qed.
Lemma write_test d : stored_d d -> stored_d (perform (Write (test_gen g) T2) d).
Proof.
  intros (S1 & S2 & S3 & S4). split; [exact S1|]. split; [|split].
  - intros x t Hx. rewrite contents_write. unfold test_gen. rewrite root_ne; [auto|]. destruct Hnames as [_ N]. apply (N x). apply in_map_iff. exists (x, t). auto.
  - rewrite contents_write. unfold test_gen, train_gen. rewrite root_ne by apply train_test. exact S3.
  - right. rewrite contents_write, String.eqb_refl. reflexivity.
Qed.
Lemma full_write d p t : full_d d -> stored_d (perform (Write p t) d) -> (forall x u, In (x, u) members -> path_of g x <> p) -> full_d (perform (Write p t) d).
Proof. intros [_ F] S A. split; [exact S|]. intros x u Hx. rewrite contents_write, eqb_no by (eapply A; exact Hx). auto. Qed.
Lemma member_not_train x u : In (x, u) members -> path_of g x <> train_gen g.
Proof. intros Hx E. apply root_eq in E. destruct Hnames as [_ N]. destruct (N x) as (_ & _ & A & _); [apply in_map_iff; exists (x, u); auto|]. auto. Qed.
Lemma member_not_test x u : In (x, u) members -> path_of g x <> test_gen g.
Proof. intros Hx E. apply root_eq in E. destruct Hnames as [_ N]. destruct (N x) as (_ & _ & _ & A); [apply in_map_iff; exists (x, u); auto|]. auto. Qed.

(** what a call must return *)
Definition ok_result (P : mem -> Prop) (net : option string) (d : disk) (d' : disk) (r : res mem) : Prop :=
  (forall m, r = Ok m -> P m /\ stored_d d') /\ (net <> None -> nothing_stored g d \/ full_d d -> full_d d' /\ exists m, r = Ok m).

Lemma file_call net x d : net_ok net -> Kd d -> (exists m, stored_file read_full members x m) ->
  keeps Kd Hd (ok_result (stored_file read_full members x) net d) (get_dataset unzip arrange g net (path_of g x) read_full) d.
Proof.
  intros Hn Kk (m0 & t0 & Hin & E0). eapply keeps_weaken; [|apply (dataset_keeps net (path_of g x) read_full d Hn Kk)].
  intros d' r _ (Q1 & _ & Q3). split.
  - intros m Em. destruct (Q1 m Em) as (S & t & Ct & Et). split; [|exact S]. destruct S as (_ & R & _). destruct (R x t0 Hin); [congruence|].
    assert (t = t0) by congruence. subst t. exists t0. auto.
  - intros Nn L. destruct (Q3 Nn L) as ((S & F) & ->). split; [split; assumption|]. rewrite (F x t0 Hin). eauto.
Qed.

Lemma part_call net sched steps gen pick want file d : net_ok net -> Kd d ->
  (gen = train_gen g /\ pick = fst /\ want = train /\ g_train g = file \/ gen = test_gen g /\ pick = snd /\ want = test /\ g_test g = file) ->
  keeps Kd Hd (ok_result (fun m => match file with Some f => stored_file read_full members f m | None => same_rows (g_columns g) m want end) net d)
    (get_part show unzip arrange read_full fmul sample g net sched steps file gen pick) d.
Proof.
  intros Hn Kk Hg. unfold get_part. destruct file as [f|].
  { apply file_call; auto. apply Hread. destruct Hg as [(_ & _ & _ & E)|(_ & _ & _ & E)]; auto. }
  assert (Gen : g_train g = None \/ g_test g = None) by (destruct Hg as [(_ & _ & _ & E)|(_ & _ & _ & E)]; auto).
  destruct (HT Gen) as (m1 & m2 & Sv1 & R1 & W1 & Sv2 & R2 & W2).
  destruct (Hparts Gen) as (_ & _ & _ & fullm & s0 & n0 & Hfull & Hdone).
  cbn [keeps]. destruct (contents d gen) as [tg|] eqn:Eg.
  - (* generated before *)
    assert (S : stored_d d).
    { destruct Kk as [[_ N]|S]; [|exact S]. destruct Hg as [(-> & _)|(-> & _)]; unfold train_gen, test_gen, path_of, join in Eg; rewrite N in Eg; discriminate. }
    assert (X : exists m', read_gen g tg = Ok m' /\ same_rows (g_columns g) m' want).
    { destruct S as (_ & _ & G1 & G2). destruct Hg as [(-> & _ & -> & _)|(-> & _ & -> & _)].
      - destruct G1 as [G|G]; [congruence|]. assert (tg = T1) by congruence. subst. eauto.
      - destruct G2 as [G|G]; [congruence|]. assert (tg = T2) by congruence. subst. eauto. }
    destruct X as (m' & Em' & Wm'). eapply keeps_weaken; [|apply (dataset_keeps net gen (read_gen g) d Hn Kk)].
    intros d' r _ (Q1 & Q2 & Q3). rewrite (Q2 S) in *. split.
    + intros m Em. split; [|exact S]. destruct (Q1 m Em) as (_ & t & Ct & Et). assert (t = tg) by congruence. subst t. assert (m = m') by congruence. subst m. exact Wm'.
    + intros Nn L. destruct (Q3 Nn L) as (F & ->). split; [exact F|]. rewrite Eg. eauto.
  - (* to be generated *)
    eapply keeps_bind; [| |apply (file_call net (g_full g) d Hn Kk (Hread _ (or_introl eq_refl)))].
    + intros d' m Kd' (Q1 & Q2). destruct (Q1 m eq_refl) as [Fm S].
      assert (m = fullm).
      { destruct Fm as (t & It & Et), Hfull as (t' & It' & Et'). assert (t = t') by (eapply member_once; eauto). subst. congruence. }
      subst m. destruct (leave_k_out fmul sample lko10 fullm sched steps) as [e| |a b] eqn:El.
      * exfalso. clear - Hdone El. unfold leave_k_out, run_split in *. destruct (lko_tasks fmul sample lko10 fullm); [|discriminate].
        destruct (w_main _) in El; discriminate.
      * cbn [keeps]. exact Kd'.
      * destruct (lko_deterministic fmul sample fullm lko10 lko10 sched steps s0 n0 a b train test ltac:(repeat split) El Hdone) as [-> ->].
        rewrite Sv1, Sv2. cbn [keeps]. split; [right; exact S|]. split.
        { intros part q d1 E N. cbn [torn] in E. destruct (prefix_b part T1); [|discriminate]. injection E as <- _. destruct N. exists (g_name g ++ "_train.gen"). auto. }
        assert (S1 := write_train d' S). split; [right; exact S1|]. split.
        { intros part q d1 E N. cbn [torn] in E. destruct (prefix_b part T2); [|discriminate]. injection E as <- _. destruct N. exists (g_name g ++ "_test.gen"). auto. }
        assert (S2 := write_test _ S1). split; [right; exact S2|]. split.
        -- intros m Em. split; [|exact S2]. injection Em as <-. destruct Hg as [(_ & -> & -> & _)|(_ & -> & -> & _)]; reflexivity.
        -- intros Nn L. destruct (Q2 Nn L) as [F _]. split; [|eauto]. apply full_write; [apply full_write; [exact F|exact S1|exact member_not_train]|exact S2|exact member_not_test].
    + intros d' e Kd' (Q1 & Q2). split; [discriminate|]. intros Nn L. destruct (Q2 Nn L) as [_ (m & Em)]. discriminate.
Qed.

Lemma call_keeps c net sched steps d : net_ok net -> Kd d ->
  keeps Kd Hd (ok_result (right_data read_full g members train test c) net d) (prog_of show unzip arrange read_full fmul sample g c net sched steps) d.
Proof.
  intros Hn Kk. destruct c; cbn [prog_of right_data].
  - apply (part_call net sched steps (train_gen g) fst train (g_train g) d Hn Kk). left. auto.
  - apply (part_call net sched steps (test_gen g) snd test (g_test g) d Hn Kk). right. auto.
  - apply (file_call net (g_full g) d Hn Kk). apply Hread. auto.
Qed.
Notation hist online d es d' := (history show unzip arrange read_full fmul sample g data online d es d').
Lemma answer_ok online net : answer data online net -> net_ok net.
Proof. intros [->|[_ ->]]; [left|right]; reflexivity. Qed.
Lemma history_right online d es d' : hist online d es d' -> Kd d -> Forall (harmless g members) es ->
  Kd d' /\ Forall (right read_full g members train test) es.
Proof.
  intro Hh. induction Hh as [d|d e d1 es d2 Hp Hh IH]; intros Kk Hs; [split; [exact Kk|constructor]|]. inversion Hs as [|? ? He Hes]; subst.
  assert (X : Kd d1 /\ right read_full g members train test e).
  { destruct Hp as [c net sched steps d1 r Ha E|c net sched steps n cut hurt d1 Ha E].
    - destruct (keeps_run _ _ _ _ _ _ _ (call_keeps c net sched steps d (answer_ok _ _ Ha) Kk) E) as (K1 & Q & _). split; [exact K1|].
      cbn [right]. destruct r as [m|e]; [|exact Logic.I]. apply Q. reflexivity.
    - split; [|exact Logic.I]. eapply keeps_killed; [apply (call_keeps c net sched steps d (answer_ok _ _ Ha) Kk)|exact E|].
      intros q Eq. subst hurt. exact He. }
  destruct X as [K1 R1]. destruct (IH K1 Hes) as [K2 R2]. split; [exact K2|constructor; assumption].
Qed.
Lemma history_live d es d' : hist true d es d' -> Kd d -> nothing_stored g d \/ full_d d -> Forall no_kill es ->
  (nothing_stored g d' \/ full_d d') /\ Forall succeeded es.
Proof.
  intro Hh. induction Hh as [d|d e d1 es d2 Hp Hh IH]; intros Kk L Hs; [split; [exact L|constructor]|]. inversion Hs as [|? ? He Hes]; subst.
  destruct Hp as [c net sched steps d1 r Ha E|c net sched steps n cut hurt d1 Ha E]; [|destruct He].
  destruct (keeps_run _ _ _ _ _ _ _ (call_keeps c net sched steps d (answer_ok _ _ Ha) Kk) E) as (K1 & Q1 & Q2).
  destruct Q2 as (F & m & ->); [destruct Ha as [->|[? _]]; discriminate|exact L|].
  destruct (IH K1 (or_intror F) Hes) as [A B]. split; [exact A|]. constructor; [exact Logic.I|exact B].
Qed.
End Texts.

(** the texts of the generated files *)
Lemma texts : exists T1 T2, g_train g = None \/ g_test g = None -> exists m1 m2,
  mem_save show train None false = Ok T1 /\ read_gen g T1 = Ok m1 /\ same_rows (g_columns g) m1 train /\
  mem_save show test None false = Ok T2 /\ read_gen g T2 = Ok m2 /\ same_rows (g_columns g) m2 test.
Proof.
  destruct (g_train g) as [x|] eqn:E1, (g_test g) as [y|] eqn:E2.
  - exists "", "". intros [E|E]; discriminate.
  - destruct (Hparts (or_intror eq_refl)) as (Hf & Pa & Pb & _). destruct (gen_back show g Hf train Pa) as (t1 & m1 & A1 & A2 & A3), (gen_back show g Hf test Pb) as (t2 & m2 & B1 & B2 & B3).
    exists t1, t2. intros _. exists m1, m2. repeat split; assumption.
  - destruct (Hparts (or_introl eq_refl)) as (Hf & Pa & Pb & _). destruct (gen_back show g Hf train Pa) as (t1 & m1 & A1 & A2 & A3), (gen_back show g Hf test Pb) as (t2 & m2 & B1 & B2 & B3).
    exists t1, t2. intros _. exists m1, m2. repeat split; assumption.
  - destruct (Hparts (or_introl eq_refl)) as (Hf & Pa & Pb & _). destruct (gen_back show g Hf train Pa) as (t1 & m1 & A1 & A2 & A3), (gen_back show g Hf test Pb) as (t2 & m2 & B1 & B2 & B3).
    exists t1, t2. intros _. exists m1, m2. repeat split; assumption.
Qed.
Theorem histories_right online d es d' : history show unzip arrange read_full fmul sample g data online d es d' -> nothing_stored g d ->
  Forall (harmless g members) es -> Forall (right read_full g members train test) es.
Proof. intros Hh N F. destruct texts as (T1 & T2 & HT). eapply (history_right T1 T2 HT); eauto. left. exact N. Qed.
Theorem histories_live d es d' : history show unzip arrange read_full fmul sample g data true d es d' -> nothing_stored g d ->
  Forall no_kill es -> Forall succeeded es.
Proof. intros Hh N F. destruct texts as (T1 & T2 & HT). eapply (history_live T1 T2 HT); eauto. left. exact N. Qed.
End Calls.
