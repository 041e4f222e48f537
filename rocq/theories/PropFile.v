(** Properties of the files the library keeps: C62 - C64, C77, C78. *)
From Coq Require Import String Ascii.
From Coq Require Import List ZArith QArith Qcanon Bool Lia.
From Verif Require Import Py PyFacts MemModel MemSpec DbModel CsvModel CsvSpec Conc SplitModel SplitSpec PropSplit FileModel FileSpec FileFacts FileFacts2 FileFacts3 FileFacts4.
Import ListNotations.
Open Scope string_scope.
Open Scope Z_scope.

(** ** C64 temporary files *)

(** After any history of register and unregister calls the list file holds the
    registered paths, one on each line, and there is no list file when there are
    none.  No other file is touched. *)
Theorem C64_list_partial : forall d h, contents d tmp_list = None -> Forall (fun c => one_line (tpath c)) h ->
  contents (after_calls d h) tmp_list =
    match listed_paths h with [] => None | l => Some (String.concat "" (map (fun p => p ++ String newline "") l)) end /\
  forall q, q <> tmp_list -> contents (after_calls d h) q = contents d q.
Proof.
  intros d h Hd Hh. destruct (calls_list h d [] Hd (Forall_nil _) Hh) as (L & _ & O). split; [|exact O].
  unfold lists, list_file in L. fold (listed_paths h) in L. rewrite L. destruct (listed_paths h); reflexivity.
Qed.
Print Assumptions C64_list_partial.

(** A path is listed exactly when it was registered and not unregistered since. *)
Theorem C64_listed : forall h p, In p (listed_paths h) <->
  exists h1 h2, h = (h1 ++ Register p :: h2)%list /\ ~ In (Unregister p) h2.
Proof.
  intros h p. unfold listed_paths. induction h as [|c h IH] using rev_ind.
  - split; [intros []|]. intros (h1 & h2 & E & _). destruct h1; discriminate.
  - rewrite fold_left_app. cbn [fold_left]. set (l := fold_left list_after h []) in *. split.
    + intro Hin. destruct c as [q|q]; cbn [list_after] in Hin.
      * apply in_app_or in Hin. destruct Hin as [Hin|[->|[]]].
        -- apply IH in Hin. destruct Hin as (h1 & h2 & -> & N). exists h1, (h2 ++ [Register q])%list. split; [rewrite <- app_assoc; reflexivity|].
           intro X. apply in_app_or in X. destruct X as [X|[X|[]]]; [auto|discriminate].
        -- exists h, []. split; [reflexivity|]. intros [].
      * apply filter_In in Hin. destruct Hin as [Hin Ne]. apply IH in Hin. destruct Hin as (h1 & h2 & -> & N). exists h1, (h2 ++ [Unregister q])%list.
        split; [rewrite <- app_assoc; reflexivity|]. intro X. apply in_app_or in X. destruct X as [X|[X|[]]]; [auto|]. injection X as ->.
        rewrite String.eqb_refl in Ne. discriminate.
    + intros (h1 & h2 & E & N). destruct h2 as [|c' h2 _] using rev_ind.
      * apply app_inj_tail in E. destruct E as [_ ->]. cbn [list_after]. apply in_or_app. right. left. reflexivity.
      * change (Register p :: h2 ++ [c'])%list with ((Register p :: h2) ++ [c'])%list in E. rewrite app_assoc in E. apply app_inj_tail in E. destruct E as [-> ->].
        assert (Hin : In p l). { apply IH. exists h1, h2. split; [reflexivity|]. intro X. apply N. apply in_or_app. auto. }
        destruct c' as [q|q]; cbn [list_after]; [apply in_or_app; auto|]. apply filter_In. split; [exact Hin|].
        destruct (String.eqb_spec p q) as [->|]; [|reflexivity]. destruct N. apply in_or_app. right. left. reflexivity.
Qed.
Print Assumptions C64_listed.

(** Deleting the temporary files deletes the listed ones, the list, and nothing
    else.  For paths without blanks at their ends. *)
Theorem C64_delete_partial : forall d h, contents d tmp_list = None ->
  Forall (fun c => one_line (tpath c) /\ trimmed (tpath c)) h ->
  let r := complete_run delete_temps (after_calls d h) in
  snd r = Some (Ok tt) /\ contents (fst r) tmp_list = None /\
  (forall q, In q (listed_paths h) -> contents (fst r) q = None) /\
  (forall q, q <> tmp_list -> ~ In q (listed_paths h) -> contents (fst r) q = contents d q).
Proof.
  intros d h Hd Hh.
  assert (H1 : Forall (fun c => one_line (tpath c)) h) by (eapply Forall_impl; [|exact Hh]; intros c [? _]; auto).
  destruct (calls_list h d [] Hd (Forall_nil _) H1) as (L & F & O). fold (listed_paths h) in L, F.
  assert (T : Forall trimmed (listed_paths h)).
  { apply Forall_forall. intros q Hq. apply C64_listed in Hq. destruct Hq as (h1 & h2 & -> & _). rewrite Forall_forall in Hh.
    apply (Hh (Register q)). apply in_or_app. right. left. reflexivity. }
  destruct (delete_list (after_calls d h) (listed_paths h) L F T) as (A & B & C & D). split; [exact A|]. split; [exact B|]. split; [exact C|].
  intros q N1 N2. rewrite (D q N1 N2). apply O. exact N1.
Qed.
Print Assumptions C64_delete_partial.

(** Registering never fails; unregistering fails exactly when nothing is listed. *)
Theorem C64_results_partial : forall d h c, contents d tmp_list = None -> Forall (fun c => one_line (tpath c)) h ->
  snd (complete_run (tprog c) (after_calls d h)) =
    Some (match c with Register _ => Ok tt | Unregister _ => match listed_paths h with [] => Err FileNotFoundError | _ => Ok tt end end).
Proof.
  intros d h c Hd Hh. destruct (calls_list h d [] Hd (Forall_nil _) Hh) as (L & F & _). fold (listed_paths h) in L, F.
  destruct c as [p|p]; [reflexivity|]. destruct (unregister_once (after_calls d h) (listed_paths h) p L F) as (_ & E & _). rewrite E.
  destruct (listed_paths h); reflexivity.
Qed.
Print Assumptions C64_results_partial.

Definition some_files : disk := mkDisk [] [("/x/a.tmp.sqlite", "A"); ("/x/b.tmp.sqlite", "B"); ("/x/c.sqlite", "C")].
Definition some_calls : list tcall :=
  [Register "/x/a.tmp.sqlite"; Register "/x/c.sqlite"; Register "/x/b.tmp.sqlite"; Unregister "/x/c.sqlite"].
Ltac clean_path := split; [split; cbn; intuition discriminate|split;
  [intros a s E; injection E as <- _; cbn; intuition discriminate
  |intros a s E Hb; match type of E with ?p = _ => apply (f_equal (fun x => rev_string x "")) in E; rewrite rev_app in E; vm_compute in E; injection E as <- _ end;
   cbn in Hb; intuition discriminate]].
Example C64_example : Forall (fun c => one_line (tpath c) /\ trimmed (tpath c)) some_calls /\
  listed_paths some_calls = ["/x/a.tmp.sqlite"; "/x/b.tmp.sqlite"] /\
  contents (after_calls some_files some_calls) tmp_list = Some ("/x/a.tmp.sqlite" ++ String newline "" ++ "/x/b.tmp.sqlite" ++ String newline "") /\
  files (fst (complete_run delete_temps (after_calls some_files some_calls))) = [("/x/c.sqlite", "C")].
Proof.
  split; [|split; [|split]]; try (vm_compute; reflexivity).
  repeat (constructor; [cbn [tpath]; clean_path|]). constructor.
Qed.

(** A path that ends with a blank: another file is deleted, and the listed one is
    not. *)
Theorem C64_blank_refuted : exists d h p q, contents d tmp_list = None /\ Forall (fun c => one_line (tpath c)) h /\
  p <> q /\ listed_paths h = [p] /\ contents d p <> None /\ contents d q <> None /\
  let d' := fst (complete_run delete_temps (after_calls d h)) in contents d' p <> None /\ contents d' q = None.
Proof.
  exists (mkDisk [] [("/x/a ", "A"); ("/x/a", "B")]), [Register "/x/a "], "/x/a ", "/x/a".
  split; [reflexivity|]. split; [repeat constructor; cbn; intuition discriminate|]. repeat split; vm_compute; congruence.
Qed.
Print Assumptions C64_blank_refuted.
(** A path with a newline is two paths. *)
Theorem C64_newline_refuted : exists d p q, contents d tmp_list = None /\ contents d q <> None /\
  listed_paths [Register p] = [p] /\ p <> q /\ contents (fst (complete_run delete_temps (after_calls d [Register p]))) q = None.
Proof.
  exists (mkDisk [] [("b", "B")]), ("a" ++ String newline "b"), "b". repeat split; vm_compute; congruence.
Qed.
Print Assumptions C64_newline_refuted.
(** Unregistering a path when nothing is listed raises FileNotFoundError; so does
    unregistering after the files have been deleted. *)
Theorem C64_unregister_refuted : exists h p, In (Register p) h /\
  snd (complete_run (unregister_temp p) (fst (complete_run delete_temps (after_calls no_disk h)))) = Some (Err FileNotFoundError).
Proof. exists [Register "a"], "a". split; [left; reflexivity|reflexivity]. Qed.
Print Assumptions C64_unregister_refuted.
(** A process that is killed while it unregisters one path takes others off the
    list, whose files are then never deleted. *)
Theorem C64_kill_refuted : exists h p q d', p <> q /\ In p (listed_paths h) /\
  killed (unregister_temp q) 0 (Some "") (after_calls no_disk h) = Some (Some tmp_list, d') /\
  contents (fst (complete_run delete_temps (perform (Write p "P") d'))) p = Some "P".
Proof.
  exists [Register "a"; Register "b"], "a", "b". eexists. split; [discriminate|]. split; [left; reflexivity|]. split; vm_compute; reflexivity.
Qed.
Print Assumptions C64_kill_refuted.

(** ** C77 several programs and the list of temporary files *)

(** Importing the package runs [delete_temps]: a file that is listed for another
    running program is deleted. *)
Theorem C77_import_refuted : exists d p, contents d tmp_list = None /\ one_line p /\ trimmed p /\
  let running := perform (Write p "data base") (after_calls d [Register p]) in
  contents running p <> None /\ contents (fst (complete_run delete_temps running)) p = None.
Proof.
  exists no_disk, "/x/ds.tmp.sqlite". split; [reflexivity|]. assert (X : one_line "/x/ds.tmp.sqlite" /\ trimmed "/x/ds.tmp.sqlite") by clean_path.
  destruct X as [X1 X2]. split; [exact X1|]. split; [exact X2|]. split; vm_compute; congruence.
Qed.
Print Assumptions C77_import_refuted.
(** Files that are not listed are safe, whoever created them and whenever. *)
Theorem C77_import_partial : forall d h q t, contents d tmp_list = None ->
  Forall (fun c => one_line (tpath c) /\ trimmed (tpath c)) h -> q <> tmp_list -> ~ In q (listed_paths h) ->
  contents (fst (complete_run delete_temps (perform (Write q t) (after_calls d h)))) q = Some t.
Proof.
  intros d h q t Hd Hh N1 N2.
  assert (H1 : Forall (fun c => one_line (tpath c)) h) by (eapply Forall_impl; [|exact Hh]; intros c [? _]; auto).
  destruct (calls_list h d [] Hd (Forall_nil _) H1) as (L & F & O). fold (listed_paths h) in L, F.
  assert (T : Forall trimmed (listed_paths h)).
  { apply Forall_forall. intros x Hx. apply C64_listed in Hx. destruct Hx as (h1 & h2 & -> & _). rewrite Forall_forall in Hh.
    apply (Hh (Register x)). apply in_or_app. right. left. reflexivity. }
  assert (L' : lists (perform (Write q t) (after_calls d h)) (listed_paths h)).
  { unfold lists. rewrite contents_write. destruct (String.eqb_spec tmp_list q); [congruence|]. exact L. }
  destruct (delete_list _ (listed_paths h) L' F T) as (_ & _ & _ & D). rewrite (D q N1 N2), contents_write, String.eqb_refl. reflexivity.
Qed.
Print Assumptions C77_import_partial.
Example C77_example : ~ In "/x/new.tmp.sqlite" (listed_paths some_calls) /\
  contents (fst (complete_run delete_temps (perform (Write "/x/new.tmp.sqlite" "N") (after_calls some_files some_calls)))) "/x/new.tmp.sqlite" = Some "N".
Proof. split; [vm_compute; intuition discriminate|vm_compute; reflexivity]. Qed.

(** ** C78 saving a data base *)

(** A save that is not killed replaces the file and touches no other. *)
Theorem C78_save : forall p text d, let r := complete_run (save_sqlite p text) d in
  snd r = Some (Ok tt) /\ contents (fst r) p = Some text /\ contents (fst r) (p ++ ".tmp") = None /\
  forall q, q <> p -> q <> p ++ ".tmp" -> contents (fst r) q = contents d q.
Proof. exact save_run. Qed.
Print Assumptions C78_save.
(** A save that is killed leaves at the path the old file, the new file, or
    nothing - and then the new file has the name with ".tmp" - but never a part of
    a file. *)
Theorem C78_killed_partial : forall p text d n cut hurt d', killed (save_sqlite p text) n cut d = Some (hurt, d') ->
  (contents d' p = contents d p \/ contents d' p = Some text \/ (contents d' p = None /\ contents d' (p ++ ".tmp") = Some text)) /\
  (forall q, q <> p -> q <> p ++ ".tmp" -> contents d' q = contents d q) /\
  (hurt = None \/ hurt = Some (p ++ ".tmp")).
Proof. exact save_killed. Qed.
Print Assumptions C78_killed_partial.
(** The file can disappear. *)
Theorem C78_killed_refuted : exists p text d n d', contents d p <> None /\
  killed (save_sqlite p text) n None d = Some (None, d') /\ contents d' p = None.
Proof.
  exists "x.sqlite", "new", (mkDisk [] [("x.sqlite", "old")]), 2%nat. eexists. split; [discriminate|]. split; vm_compute; reflexivity.
Qed.
Print Assumptions C78_killed_refuted.
Example C78_example : let d := mkDisk [] [("x.sqlite", "old"); ("x.sqlite.tmp", "left over"); ("y", "Y")] in
  files (fst (complete_run (save_sqlite "x.sqlite" "new") d)) = [("x.sqlite", "new"); ("y", "Y")] /\
  (exists d', killed (save_sqlite "x.sqlite" "new") 1 (Some "ne") d = Some (Some "x.sqlite.tmp", d') /\ contents d' "x.sqlite" = Some "old").
Proof. cbv zeta. split; [vm_compute; reflexivity|]. eexists. split; vm_compute; reflexivity. Qed.

(** ** C62, C63 built-in data sets *)

(** In every history of calls and kills that starts with nothing stored, in which
    the server sends the same data whenever it answers, and no kill interrupts the
    writing of one of the files that are read: every call that returns a data set
    returns the right rows.  For a data set without train and test files these are
    the parts of one split of the full data set. *)
Theorem C62_parts_partial : forall show unzip arrange read_full fmul sample g data members train test m sched steps online d es d',
  names_ok g members -> unpacks unzip g data members -> any_order arrange -> str_no "/" (g_name g) -> readable_files read_full g members ->
  columns_fit g -> part_survives show g train -> part_survives show g test ->
  stored_file read_full members (g_full g) m -> sample_ok sample -> int_users m ->
  leave_k_out fmul sample lko10 m sched steps = Done train test ->
  nothing_stored g d -> history show unzip arrange read_full fmul sample g data online d es d' -> Forall (harmless g members) es ->
  Forall (right read_full g members train test) es /\ lko_spec (fun _ => 10) 10 m train test.
Proof.
  intros show unzip arrange read_full fmul sample g data members train test m sched steps online d es d' Hn Hu Ho Hs Hr Hf P1 P2 Sm So Iu Done Hd Hh Hk.
  split.
  - eapply (histories_right show unzip arrange read_full fmul sample g data members train test Hn Hu Ho Hs Hr); eauto.
    intros _. split; [exact Hf|]. split; [exact P1|]. split; [exact P2|]. exists m, sched, steps. auto.
  - eapply (C17_leave_k_out_exact fmul sample lko10 10 m sched steps); eauto. discriminate.
Qed.
Print Assumptions C62_parts_partial.
(** Without kills and with a server that answers, every call that returns
    succeeds. *)
Theorem C62_live_partial : forall show unzip arrange read_full fmul sample g data members train test m sched steps d es d',
  names_ok g members -> unpacks unzip g data members -> any_order arrange -> str_no "/" (g_name g) -> readable_files read_full g members ->
  columns_fit g -> part_survives show g train -> part_survives show g test ->
  stored_file read_full members (g_full g) m -> leave_k_out fmul sample lko10 m sched steps = Done train test ->
  nothing_stored g d -> history show unzip arrange read_full fmul sample g data true d es d' -> Forall no_kill es ->
  Forall succeeded es.
Proof.
  intros show unzip arrange read_full fmul sample g data members train test m sched steps d es d' Hn Hu Ho Hs Hr Hf P1 P2 Sm Done Hd Hh Hk.
  eapply (histories_live show unzip arrange read_full fmul sample g data members train test Hn Hu Ho Hs Hr); eauto.
  intros _. split; [exact Hf|]. split; [exact P1|]. split; [exact P2|]. exists m, sched, steps. auto.
Qed.
Print Assumptions C62_live_partial.

(** A data set without an archive: one user with twelve rows and one with one. *)
Definition bx : config := mkConfig "bx" "ratings.csv" None None ["user"; "item"; "interaction"] false None.
Definition bx_line (i : nat) : string := "7," ++ str_of_Z (Z.of_nat i) ++ ",5" ++ String newline "".
Definition bx_data : string := String.concat "" (map bx_line (seq 1 12)) ++ "8,1,3" ++ String newline "".
Definition bx_read : string -> res mem := read_gen bx.
Definition no_show (_ : Qc) : string := "".
Definition no_zip (_ : string) : option (list (string * string)) := None.
Definition as_listed (l : list string) : list string := l.
Definition bx_members : list (string * string) := [("ratings.csv", bx_data)].
Definition dummy : mem := mem_of_frame (mkFrame [] []).
Definition bx_full : mem := Eval vm_compute in match bx_read bx_data with Ok m => m | Err _ => dummy end.
Definition bx_parts : mem * mem := Eval vm_compute in match leave_k_out exact_mul first_n lko10 bx_full turns 400 with Done a b => (a, b) | _ => (dummy, dummy) end.
Lemma bx_split : leave_k_out exact_mul first_n lko10 bx_full turns 400 = Done (fst bx_parts) (snd bx_parts).
Proof. vm_compute. reflexivity. Qed.
Definition bx_prog (c : call) : prog mem := prog_of no_show no_zip as_listed bx_read exact_mul first_n bx c (Some bx_data) turns 400.
Definition bx_history : disk -> list event -> disk -> Prop := history no_show no_zip as_listed bx_read exact_mul first_n bx bx_data true.
Lemma bx_returns c d d' r : complete_run (bx_prog c) d = (d', Some r) -> happens no_show no_zip as_listed bx_read exact_mul first_n bx bx_data true d (Returned c r) d'.
Proof. intro E. econstructor; [left; reflexivity|exact E]. Qed.
Lemma bx_dies c d n cut hurt d' : killed (bx_prog c) n cut d = Some (hurt, d') -> happens no_show no_zip as_listed bx_read exact_mul first_n bx bx_data true d (Killed c hurt) d'.
Proof. intro E. econstructor; [left; reflexivity|exact E]. Qed.
(** what the n-th call returns *)
Definition result_of (x : disk * option (res mem)) : res mem := match snd x with Some r => r | None => Err GenericException end.
Definition bx_d1 : disk := Eval vm_compute in fst (complete_run (bx_prog CTest) no_disk).
Definition bx_again : mem := Eval vm_compute in match result_of (complete_run (bx_prog CTrain) bx_d1) with Ok m => m | Err _ => dummy end.
Definition bx_events : list event := [Returned CTest (Ok (snd bx_parts)); Killed CFull None; Returned CTrain (Ok bx_again)].
Lemma bx_events_ok : bx_history no_disk bx_events bx_d1.
Proof.
  econstructor; [apply bx_returns; vm_compute; reflexivity|]. econstructor; [apply (bx_dies CFull bx_d1 0 None None bx_d1); vm_compute; reflexivity|].
  econstructor; [apply bx_returns; vm_compute; reflexivity|]. constructor.
Qed.
Lemma bx_names : names_ok bx bx_members.
Proof.
  split; [repeat constructor; intros []|]. intros x [<-|[]]. split; [cbn; intuition discriminate|]. split; [discriminate|]. split; discriminate.
Qed.
Lemma bx_fit : columns_fit bx.
Proof.
  split; [repeat constructor; cbn; intuition discriminate|]. split; [intros x Hx; exact Hx|]. repeat split; cbn; intuition discriminate.
Qed.
Lemma bx_readable : stored_file bx_read bx_members (g_full bx) bx_full.
Proof. exists bx_data. split; [left; reflexivity|vm_compute; reflexivity]. Qed.
Lemma bx_rows r : In r (rows_of bx_full) -> exists n u i x, r = mkRow n [("user", VInt u); ("item", VInt i); ("interaction", VInt x)] /\ Z.abs u <= 2 ^ 53.
Proof.
  intros Hr. unfold bx_full, rows_of in Hr. cbn [m_df f_rows] in Hr.
  repeat (destruct Hr as [<-|Hr]; [do 4 eexists; split; [reflexivity|vm_compute; discriminate]|]). destruct Hr.
Qed.
Lemma bx_int_users : int_users bx_full.
Proof.
  constructor.
  - constructor.
    + constructor.
      * vm_compute. repeat constructor; cbn; intuition discriminate.
      * vm_compute. intuition discriminate.
      * intros r Hr. destruct (bx_rows r Hr) as (n & u & i & x & -> & _). reflexivity.
      * intros r c t Hr Hc. destruct (bx_rows r Hr) as (n & u & i & x & -> & _). cbn in Hc. destruct Hc as [E|[E|[E|[]]]]; injection E as <- <-; eexists; split; reflexivity.
    + vm_compute. repeat constructor; cbn; intuition discriminate.
    + intro c. cbn. intuition.
  - intros c t [<-|[<-|[]]] E; discriminate.
  - cbn. auto.
  - reflexivity.
  - intros r z Hr E. destruct (bx_rows r Hr) as (n & u & i & x & -> & Hu). unfold cell in E. cbn in E. injection E as <-. exact Hu.
  - vm_compute. repeat constructor; cbn; intuition discriminate.
Qed.
Ltac ints := split; [reflexivity|]; split;
  [intros r c Hr Hc; cbn in Hr; cbn in Hc; repeat destruct Hr as [<-|Hr]; try destruct Hr; repeat destruct Hc as [<-|Hc]; try destruct Hc; vm_compute; discriminate
  |intros c Hc; exists DInt; intros l E v Hv; assert (Hv' := in_map Some l v Hv); rewrite E in Hv'; cbn in Hc;
   repeat destruct Hc as [<-|Hc]; try destruct Hc; vm_compute in Hv'; repeat (destruct Hv' as [Hv'|Hv']; [injection Hv' as <-; eexists; reflexivity|]); destruct Hv'].
Lemma bx_survives : part_survives no_show bx (fst bx_parts) /\ part_survives no_show bx (snd bx_parts).
Proof. split; ints. Qed.

Example C62_example : names_ok bx bx_members /\ unpacks no_zip bx bx_data bx_members /\ any_order as_listed /\ str_no "/" (g_name bx) /\
  readable_files bx_read bx bx_members /\ columns_fit bx /\ part_survives no_show bx (fst bx_parts) /\ part_survives no_show bx (snd bx_parts) /\
  stored_file bx_read bx_members (g_full bx) bx_full /\ sample_ok (@first_n Z) /\ int_users bx_full /\
  leave_k_out exact_mul first_n lko10 bx_full turns 400 = Done (fst bx_parts) (snd bx_parts) /\
  nothing_stored bx no_disk /\ bx_history no_disk bx_events bx_d1 /\ Forall (harmless bx bx_members) bx_events /\
  map r_rid (rows_of (fst bx_parts)) = [10; 11] /\ length (rows_of (snd bx_parts)) = 10%nat /\
  map (fun r => cell r "item") (rows_of bx_again) = [Some (VInt 11); Some (VInt 12)].
Proof.
  split; [exact bx_names|]. split; [reflexivity|]. split; [intros l x; tauto|]. split; [cbn; intuition discriminate|].
  split; [intros x [->|[E|E]]; [exists bx_full; exact bx_readable|discriminate|discriminate]|]. split; [exact bx_fit|].
  split; [apply bx_survives|]. split; [apply bx_survives|]. split; [exact bx_readable|]. split; [apply first_n_ok|]. split; [exact bx_int_users|].
  split; [exact bx_split|]. split; [split; [reflexivity|intro x; reflexivity]|]. split; [exact bx_events_ok|].
  split; [repeat constructor|]. repeat split; vm_compute; reflexivity.
Qed.

(** The two parts leave out the rows of users with less than ten rows. *)
Theorem C62_small_users_refuted : exists show unzip arrange read_full fmul sample g data members m es d' a b r,
  unpacks unzip g data members /\ stored_file read_full members (g_full g) m /\
  history show unzip arrange read_full fmul sample g data true no_disk es d' /\ Forall no_kill es /\
  In (Returned CTrain (Ok a)) es /\ In (Returned CTest (Ok b)) es /\ In r (rows_of m) /\
  forall r', In r' (rows_of a ++ rows_of b)%list -> cell r' "user" <> cell r "user".
Proof.
  exists no_show, no_zip, as_listed, bx_read, exact_mul, first_n, bx, bx_data, bx_members, bx_full.
  exists [Returned CTest (Ok (snd bx_parts)); Returned CTrain (Ok bx_again)], bx_d1, bx_again, (snd bx_parts), (mkRow 12 [("user", VInt 8); ("item", VInt 1); ("interaction", VInt 3)]).
  split; [reflexivity|]. split; [exact bx_readable|]. split.
  { econstructor; [apply bx_returns; vm_compute; reflexivity|]. econstructor; [apply bx_returns; vm_compute; reflexivity|]. constructor. }
  split; [repeat constructor|]. split; [right; left; reflexivity|]. split; [left; reflexivity|]. split; [vm_compute; intuition|].
  intros r' Hr. cbn in Hr. repeat destruct Hr as [<-|Hr]; try destruct Hr; vm_compute; discriminate.
Qed.
Print Assumptions C62_small_users_refuted.
(** The first call returns the rows with the record ids of the full data set,
    later calls with new ones. *)
Theorem C62_record_ids_refuted : exists show unzip arrange read_full fmul sample g data es d' a b,
  history show unzip arrange read_full fmul sample g data true no_disk es d' /\
  es = [Returned CTrain (Ok a); Returned CTrain (Ok b)] /\ map r_rid (rows_of a) <> map r_rid (rows_of b).
Proof.
  exists no_show, no_zip, as_listed, bx_read, exact_mul, first_n, bx, bx_data.
  exists [Returned CTrain (Ok (fst bx_parts)); Returned CTrain (Ok bx_again)], bx_d1, (fst bx_parts), bx_again. split.
  { econstructor; [apply bx_returns; vm_compute; reflexivity|]. econstructor; [apply bx_returns; vm_compute; reflexivity|]. constructor. }
  split; [reflexivity|]. vm_compute. discriminate.
Qed.
Print Assumptions C62_record_ids_refuted.

(** *** C63 *)

(** An archive with train and test files, like ml-100k: whatever is killed and
    when, no call ever returns anything but the right data. *)
Theorem C63_archive : forall show unzip arrange read_full fmul sample g data members online d es d',
  names_ok g members -> unpacks unzip g data members -> any_order arrange -> str_no "/" (g_name g) -> readable_files read_full g members ->
  g_unzip g = true -> g_train g <> None -> g_test g <> None ->
  nothing_stored g d -> history show unzip arrange read_full fmul sample g data online d es d' ->
  forall c m, In (Returned c (Ok m)) es ->
  exists x t, In (x, t) members /\ read_full t = Ok m /\
    Some x = match c with CFull => Some (g_full g) | CTrain => g_train g | CTest => g_test g end.
Proof.
  intros show unzip arrange read_full fmul sample g data members online d es d' Hn Hu Ho Hs Hr Hz N1 N2 Hd Hh c m Hin.
  assert (Hk : Forall (harmless g members) es) by (eapply archive_harmless; eauto).
  assert (R : Forall (right read_full g members dummy dummy) es).
  { eapply (histories_right show unzip arrange read_full fmul sample g data members dummy dummy Hn Hu Ho Hs Hr); eauto. intros [E|E]; contradiction. }
  rewrite Forall_forall in R. specialize (R _ Hin). cbn [right] in R. destruct c; cbn [right_data] in R.
  - destruct (g_train g) as [x|]; [|congruence]. destruct R as (t & A & B). eauto.
  - destruct (g_test g) as [x|]; [|congruence]. destruct R as (t & A & B). eauto.
  - destruct R as (t & A & B). eauto.
Qed.
Print Assumptions C63_archive.
(** An archive without them, like ml-1m: as long as no kill interrupts the writing
    of a generated file. *)
Theorem C63_generated_partial : forall show unzip arrange read_full fmul sample g data members train test m sched steps online d es d',
  names_ok g members -> unpacks unzip g data members -> any_order arrange -> str_no "/" (g_name g) -> readable_files read_full g members ->
  columns_fit g -> part_survives show g train -> part_survives show g test ->
  stored_file read_full members (g_full g) m -> leave_k_out fmul sample lko10 m sched steps = Done train test ->
  g_unzip g = true -> nothing_stored g d -> history show unzip arrange read_full fmul sample g data online d es d' ->
  (forall c p, In (Killed c (Some p)) es -> p <> train_gen g /\ p <> test_gen g) ->
  Forall (right read_full g members train test) es.
Proof.
  intros show unzip arrange read_full fmul sample g data members train test m sched steps online d es d' Hn Hu Ho Hs Hr Hf P1 P2 Sm Dn Hz Hd Hh Hk.
  eapply (histories_right show unzip arrange read_full fmul sample g data members train test Hn Hu Ho Hs Hr); eauto.
  - intros _. split; [exact Hf|]. split; [exact P1|]. split; [exact P2|]. exists m, sched, steps. auto.
  - eapply generated_harmless; eauto.
Qed.
Print Assumptions C63_generated_partial.

(** An archive in a folder, and a history with two kills: while the archive is
    written, and between two of the files. *)
Definition ml : config := mkConfig "ml" "u.data" (Some "ua.base") (Some "ua.test") ["user"; "item"; "interaction"] true (Some "ml-100k").
Definition ml_members : list (string * string) := [("README", "text"); ("u.data", bx_data); ("ua.base", bx_line 1); ("ua.test", bx_line 2)].
Definition ml_zip (s : string) : option (list (string * string)) :=
  if String.eqb s "PKzip" then Some (map (fun m => ("ml-100k/" ++ fst m, snd m)) ml_members) else None.
Definition ml_prog (c : call) : prog mem := prog_of no_show ml_zip as_listed bx_read exact_mul first_n ml c (Some "PKzip") turns 400.
Definition ml_after (n : nat) (cut : option string) (d : disk) : option string * disk := match killed (ml_prog CTrain) n cut d with Some x => x | None => (None, d) end.
Definition ml_history := history no_show ml_zip as_listed bx_read exact_mul first_n ml "PKzip" true.
Definition ml_d1 : disk := Eval vm_compute in snd (ml_after 9 None no_disk).
Definition ml_d2 : disk := Eval vm_compute in snd (ml_after 4 (Some "7,") no_disk).
Definition ml_train : mem := Eval vm_compute in match bx_read (bx_line 1) with Ok m => m | Err _ => dummy end.
Example C63_archive_example : names_ok ml ml_members /\ unpacks ml_zip ml "PKzip" ml_members /\ any_order as_listed /\ str_no "/" (g_name ml) /\
  readable_files bx_read ml ml_members /\
  (exists d, ml_history no_disk [Returned CTrain (Ok ml_train)] d /\ dirs d = ["ml"] /\
     map fst (files d) = ["ml/README"; "ml/u.data"; "ml/ua.base"; "ml/ua.test"]) /\
  ml_history no_disk [Killed CTrain None; Returned CTrain (Ok ml_train); Returned CFull (Err FileNotFoundError)] ml_d1 /\
  ml_history no_disk [Killed CTrain (Some "ml/ml-100k/u.data"); Returned CTrain (Err FileNotFoundError)] ml_d2.
Proof.
  split.
  { split; [repeat constructor; cbn; intuition discriminate|]. intros x Hx. cbn in Hx. repeat destruct Hx as [<-|Hx]; try destruct Hx;
      (split; [cbn; intuition discriminate|]); repeat split; discriminate. }
  split; [exists "ml-100k"; split; reflexivity|]. split; [intros l x; tauto|]. split; [cbn; intuition discriminate|]. split.
  { intros x [->|[E|E]]; [|injection E as ->|injection E as ->].
    - exists bx_full, bx_data. split; [cbn; tauto|vm_compute; reflexivity].
    - exists ml_train, (bx_line 1). split; [cbn; tauto|vm_compute; reflexivity].
    - eexists. exists (bx_line 2). split; [cbn; tauto|vm_compute; reflexivity]. }
  split; [|split].
  - eexists. split; [econstructor; [apply (happens_return _ _ _ _ _ _ _ _ _ _ CTrain (Some "PKzip") turns 400); [left; reflexivity|vm_compute; reflexivity]|constructor]|].
    vm_compute. repeat split.
  - econstructor; [apply (happens_kill _ _ _ _ _ _ _ _ _ _ CTrain (Some "PKzip") turns 400 9 None None ml_d1); [left; reflexivity|vm_compute; reflexivity]|].
    econstructor; [apply (happens_return _ _ _ _ _ _ _ _ _ _ CTrain (Some "PKzip") turns 400); [left; reflexivity|vm_compute; reflexivity]|].
    econstructor; [apply (happens_return _ _ _ _ _ _ _ _ _ _ CFull (Some "PKzip") turns 400); [left; reflexivity|vm_compute; reflexivity]|]. constructor.
  - econstructor; [apply (happens_kill _ _ _ _ _ _ _ _ _ _ CTrain (Some "PKzip") turns 400 4 (Some "7,") (Some "ml/ml-100k/u.data") ml_d2); [left; reflexivity|vm_compute; reflexivity]|].
    econstructor; [apply (happens_return _ _ _ _ _ _ _ _ _ _ CTrain (Some "PKzip") turns 400); [left; reflexivity|vm_compute; reflexivity]|]. constructor.
Qed.

(** A kill while a generated file is written: later calls return what was written
    so far as the training data. *)
Theorem C63_generated_refuted : exists show unzip arrange read_full fmul sample g data members m train test sched steps es d' a,
  unpacks unzip g data members /\ stored_file read_full members (g_full g) m /\
  leave_k_out fmul sample lko10 m sched steps = Done train test /\
  history show unzip arrange read_full fmul sample g data true no_disk es d' /\
  es = [Killed CTrain (Some (train_gen g)); Returned CTrain (Ok a)] /\
  length (rows_of a) = 1%nat /\ length (rows_of train) = 2%nat.
Proof.
  exists no_show, no_zip, as_listed, bx_read, exact_mul, first_n, bx, bx_data, bx_members, bx_full, (fst bx_parts), (snd bx_parts), turns, 400%nat.
  eexists. eexists. exists (match bx_read (bx_line 11) with Ok m => m | Err _ => dummy end).
  split; [reflexivity|]. split; [exact bx_readable|]. split; [exact bx_split|]. split.
  { econstructor; [apply (bx_dies CTrain no_disk 2 (Some (bx_line 11)) (Some (train_gen bx))); vm_compute; reflexivity|].
    econstructor; [apply (bx_returns CTrain _ _ (bx_read (bx_line 11))); vm_compute; reflexivity|]. constructor. }
  split; [vm_compute; reflexivity|]. split; vm_compute; reflexivity.
Qed.
Print Assumptions C63_generated_refuted.
(** A kill while a data set without archive is downloaded. *)
Theorem C63_download_refuted : exists show unzip arrange read_full fmul sample g data members m es d' a,
  unpacks unzip g data members /\ stored_file read_full members (g_full g) m /\
  history show unzip arrange read_full fmul sample g data true no_disk es d' /\
  es = [Killed CFull (Some (path_of g (g_full g))); Returned CFull (Ok a)] /\
  length (rows_of a) = 1%nat /\ length (rows_of m) = 13%nat.
Proof.
  exists no_show, no_zip, as_listed, bx_read, exact_mul, first_n, bx, bx_data, bx_members, bx_full.
  eexists. eexists. exists (match bx_read (bx_line 1) with Ok m => m | Err _ => dummy end).
  split; [reflexivity|]. split; [exact bx_readable|]. split.
  { econstructor; [apply (bx_dies CFull no_disk 1 (Some (bx_line 1)) (Some (path_of bx (g_full bx)))); vm_compute; reflexivity|].
    econstructor; [apply (bx_returns CFull _ _ (bx_read (bx_line 1))); vm_compute; reflexivity|]. constructor. }
  split; [vm_compute; reflexivity|]. split; vm_compute; reflexivity.
Qed.
Print Assumptions C63_download_refuted.
(** A kill between the creation of the folder and the first file: no later call
    downloads again, all fail, in whatever order and whatever the server sends. *)
Theorem C63_never_rebuilt : forall show unzip arrange read_full fmul sample g c net sched steps d,
  is_dir d (g_name g) = true ->
  (forall f, Some f = Some (g_full g) \/ Some f = g_train g \/ Some f = g_test g -> contents d (path_of g f) = None) ->
  contents d (train_gen g) = None -> contents d (test_gen g) = None ->
  complete_run (prog_of show unzip arrange read_full fmul sample g c net sched steps) d = (d, Some (Err FileNotFoundError)).
Proof.
  intros show unzip arrange read_full fmul sample g c net sched steps d Hd Hf. apply never_rebuilt; [exact Hd|].
  intros x [<-|[<-|[<-|[]]]] f E; apply Hf; rewrite <- E; auto.
Qed.
Print Assumptions C63_never_rebuilt.
Example C63_never_rebuilt_example : exists d, killed (ml_prog CTrain) 1 None no_disk = Some (None, d) /\
  is_dir d (g_name ml) = true /\ files d = [] /\ complete_run (ml_prog CFull) d = (d, Some (Err FileNotFoundError)).
Proof. eexists. repeat split; vm_compute; reflexivity. Qed.
