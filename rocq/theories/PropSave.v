(** Property C122: saving and loading recommenders. *)
From Coq Require Import String Ascii.
From Coq Require Import List ZArith QArith Qcanon Bool Lia.
From Verif Require Import Py PyFacts MemModel FitModel SaveModel SaveSpec SaveFacts.
Import ListNotations.
Open Scope string_scope.
Open Scope nat_scope.
Open Scope list_scope.

(** three ratings; a recommender on them, with a number as all other attributes *)
Definition s_row (rid u : Z) (i : string) (x : Z) : row :=
  mkRow rid [("user", VInt u); ("item", VStr i); ("interaction", VInt x)].
Definition s_ds : mem := mem_of_frame (mkFrame [("user", DInt); ("item", DObj); ("interaction", DInt)]
  [s_row 0 7 "b" 1; s_row 1 3 "a" 5; s_row 2 7 "a" 3]).
Definition s_ds2 : mem := mem_of_frame (mkFrame [("user", DInt); ("item", DObj); ("interaction", DInt)]
  [s_row 0 4 "x" 2]).
Definition s_empty : mem := mem_of_frame (mkFrame [("user", DInt); ("item", DObj); ("interaction", DInt)] []).
Definition s_any (_ : nat) : bool := true.
(** recommender 0 of kind [k] is fitted on data set 0 *)
Definition s_fitted (k : kind) : list (op nat) :=
  [NewData (InMem s_ds); NewRec k 10; Fit 0 0 false 11 true].

(** *** C122: a recommender that was saved is loaded as it was, whatever the
    program did in between; all recommenders already there stay as they are, and
    the data sets of the loaded one are its own. *)
Theorem C122_load_gives_what_was_saved : forall V storable ops0 i p (w1 : world V) ops,
  Forall own_files ops0 -> Forall own_files ops ->
  let w := run storable ops0 empty_world in
  save storable i p w = (w1, Ok tt) -> Forall (fun o => ~ writes p o) ops ->
  let w2 := run storable ops w1 in
  exists w3 j, load p w2 = (w3, Ok j) /\
    sees w3 j = sees w i /\ sees w i <> None /\
    (forall i', i' < length (w_recs w2) -> i' <> j /\ sees w3 i' = sees w2 i') /\
    (forall i' d, holds w3 j d -> holds w3 i' d -> i' = j).
Proof.
  intros V storable ops0 i p w1 ops H0 H w Hs Hw w2.
  assert (Hv : valid V w) by (apply valid_run; [apply valid_empty|exact H0]).
  assert (Hv1 : valid V w1) by (replace w1 with (fst (save storable i p w)) by (rewrite Hs; reflexivity); apply valid_save; exact Hv).
  assert (Hv2 : valid V w2) by (apply valid_run; assumption).
  unfold save in Hs. destruct (nth_error (w_recs w) i) as [r|] eqn:R; [|discriminate].
  destruct (pickle storable w r) as [x|e] eqn:P; [|discriminate]. injection Hs as <-.
  assert (F : w_files w2 p = Some (Saved x)).
  { unfold w2. rewrite files_kept by assumption. cbn. rewrite String.eqb_refl. reflexivity. }
  destruct (load_saved V storable w r x w2 p Hv (ex_intro _ i R) P Hv2 F) as (w3 & r' & L & Ef & Er & El & [ds Ed] & Nu).
  exists w3, (length (w_recs w2)). split; [exact L|].
  assert (Rj : nth_error (w_recs w3) (length (w_recs w2)) = Some r').
  { rewrite Er, nth_error_app2 by lia. rewrite Nat.sub_diag. reflexivity. }
  split; [|split; [|split]].
  - rewrite !sees_look, Rj, R. cbn. f_equal. exact El.
  - rewrite sees_look, R. discriminate.
  - intros i' Hi. split; [lia|]. rewrite !sees_look, Er, nth_error_app1 by assumption.
    destruct (nth_error (w_recs w2) i') as [q|] eqn:Q; [|reflexivity]. cbn. f_equal. apply look_same.
    intros d Hd. rewrite Ed. apply nth_error_app1. exact (v_uses V w2 Hv2 i' q d Q Hd).
  - intros i' d (a & Ra & Ha) (b & Rb & Hb). rewrite Rj in Ra. injection Ra as <-. apply Nu in Ha.
    rewrite Er in Rb. destruct (lt_dec i' (length (w_recs w2))) as [Hi|Hi].
    + rewrite nth_error_app1 in Rb by assumption. apply (v_uses V w2 Hv2 i' b d Rb) in Hb. lia.
    + apply nth_error_lt in Rb. rewrite app_length in Rb. cbn in Rb. lia.
Qed.
Print Assumptions C122_load_gives_what_was_saved.
(** a neighbourhood model is saved, its data set emptied and a second one fitted;
    the loaded one still has the three ratings *)
Example C122_example : let w := run s_any (s_fitted Knn) empty_world in
  exists w1 w3, save s_any 0 "knn" w = (w1, Ok tt) /\
  load "knn" (run s_any [Change 0 s_empty; NewRec Caser 5; Fit 1 0 false 6 true] w1) = (w3, Ok 2) /\
  option_map (fun s => (see_state s, option_map (option_map (fun x => match x with InMem m => length (rows_of m) | InDb _ => 0 end)) (see_data s)))
    (sees w3 2) = Some (11, Some (Some 3)) /\
  option_map (fun s => option_map (option_map (fun x => match x with InMem m => length (rows_of m) | InDb _ => 0 end)) (see_data s))
    (sees w3 0) = Some (Some (Some 0)).
Proof. do 2 eexists. split; [vm_compute; reflexivity|]. split; [vm_compute; reflexivity|]. split; vm_compute; reflexivity. Qed.

(** Later calls change a loaded recommender only if they fit it or change its own
    data sets. *)
Theorem C122_loaded_stays : forall V storable ops0 p w3 j ops,
  Forall own_files ops0 -> Forall own_files ops ->
  load p (run storable ops0 (@empty_world V)) = (w3, Ok j) ->
  Forall (fun o => ~ alters_rec j o) ops -> (forall d, holds w3 j d -> Forall (fun o => ~ alters_data d o) ops) ->
  sees (run storable ops w3) j = sees w3 j /\ sees w3 j <> None.
Proof.
  intros V storable ops0 p w3 j ops H0 H L Nr Nd.
  assert (Hv : valid V (run storable ops0 empty_world)) by (apply valid_run; [apply valid_empty|exact H0]).
  assert (Hv3 : valid V w3) by (replace w3 with (fst (load p (run storable ops0 empty_world))) by (rewrite L; reflexivity); apply valid_load; exact Hv).
  assert (C := load_cases V p _ Hv). destruct (w_files (run storable ops0 empty_world) p) as [[x| |]|];
    try (destruct C as [e C]; rewrite C in L; discriminate).
  destruct C as (ds & a & s & C & _). rewrite C in L. injection L as <- <-.
  match goal with |- sees (run _ _ ?w) ?k = _ /\ _ => set (w3 := w) in *; set (j := k) in * end.
  assert (R : exists r, nth_error (w_recs w3) j = Some r).
  { unfold w3, j. cbn. rewrite nth_error_app2 by lia. rewrite Nat.sub_diag. cbn. eauto. }
  destruct R as [r R]. destruct (run_keeps V storable ops w3 j r Hv3 H R Nr) as [R' K].
  { intros d Hd. apply Nd. exists r. auto. }
  rewrite !sees_look, R, R'. split; [|discriminate]. cbn. f_equal. apply look_same. exact K.
Qed.
Print Assumptions C122_loaded_stays.
Example C122_loaded_stays_example :
  let w := run s_any (s_fitted Knn ++ [SaveTo 0 "knn"]) empty_world in
  let w3 := fst (load "knn" w) in
  snd (load "knn" w) = Ok 1 /\ holds w3 1 1 /\
  sees (run s_any [Fit 0 0 false 12 true; Change 0 s_ds2; WriteFile "knn" None] w3) 1 = sees w3 1.
Proof. split; [reflexivity|]. split; [eexists; split; [vm_compute; reflexivity|left; reflexivity]|vm_compute; reflexivity]. Qed.

(** Data sets in memory only: a neighbourhood model or Caser can always be saved;
    DMF and CDAE can until a call of fit has made their sampler. *)
Theorem C122_savable_in_memory_partial : forall V storable ops i p s,
  Forall (plain storable) ops ->
  let w := run storable ops (@empty_world V) in
  sees w i = Some s ->
  (snd (save storable i p w) = Ok tt <-> ~ ((see_kind s = Dmf \/ see_kind s = Cdae) /\ trained storable i ops)).
Proof.
  intros V storable ops i p s H w S.
  assert (Ho : Forall own_files ops) by (eapply Forall_impl; [|exact H]; intros o; apply plain_own).
  assert (Hv : valid V w) by (apply valid_run; [apply valid_empty|exact Ho]).
  assert (A : all_mem V storable w).
  { unfold w. clear S Hv w Ho. induction ops as [|o ops IH] using rev_ind.
    - repeat split; try constructor. discriminate.
    - apply Forall_app in H. destruct H as [H1 H2]. inversion_clear H2. rewrite run_app. apply all_mem_step.
      + apply valid_run; [apply valid_empty|]. eapply Forall_impl; [|exact H1]; intros o'; apply plain_own.
      + apply IH. exact H1.
      + exact H. }
  rewrite sees_look in S. destruct (nth_error (w_recs w) i) as [r|] eqn:R; [|discriminate]. injection S as <-. cbn [see_kind look].
  rewrite (saved_iff V storable w i r p Hv A R), <- (point_iff_trained V storable ops Ho i r R).
  split; [intros N [d E]; exact (N d E)|intros N d E; apply N; eauto].
Qed.
Print Assumptions C122_savable_in_memory_partial.
(** an empty data set: fit of CDAE ends before it makes a sampler *)
Example C122_savable_example :
  snd (save s_any 0 "p" (run s_any (s_fitted Caser) empty_world)) = Ok tt /\
  snd (save s_any 0 "p" (run s_any [NewData (InMem s_empty); NewRec Cdae 10; Fit 0 0 false 11 true] empty_world)) = Ok tt /\
  snd (save s_any 0 "p" (run s_any (s_fitted Cdae) empty_world)) = Err TypeError.
Proof. split; [|split]; vm_compute; reflexivity. Qed.

(** DMF and CDAE: after a fit that came to its training, save raises TypeError, and
    it still does whatever is done later. *)
Theorem C122_dmf_cdae_refuted : forall V storable ops0 i d (v : V) s x m' info ops p,
  Forall own_files ops0 -> Forall own_files ops ->
  let w := run storable ops0 empty_world in
  sees w i = Some s -> see_kind s = Dmf \/ see_kind s = Cdae ->
  nth_error (w_data w) d = Some (InMem x) -> begin_fit x false = (m', Ok info) ->
  snd (save storable i p (run storable (Fit i d false v true :: ops) w)) = Err TypeError.
Proof.
  intros V storable ops0 i d v s x m' info ops p H0 H w S K D B.
  assert (Hv : valid V w) by (apply valid_run; [apply valid_empty|exact H0]).
  rewrite sees_look in S. destruct (nth_error (w_recs w) i) as [r|] eqn:R; [|discriminate]. injection S as <-. cbn in K.
  set (w1 := fit i d false v true w).
  assert (R1 : exists r1, nth_error (w_recs w1) i = Some r1 /\ r_sampler r1 = Some (PointOn d)).
  { unfold w1, fit. rewrite R, D. cbn [w_recs]. rewrite set_nth_same by (eapply nth_error_lt; eassumption).
    eexists. split; [reflexivity|]. cbn [r_sampler]. unfold reaches_sampler. rewrite B. cbn [snd]. destruct K as [->| ->]; reflexivity. }
  destruct R1 as (r1 & R1 & S1).
  assert (Hv1 : valid V w1) by (apply valid_fit; exact Hv).
  destruct (point_stays_run V storable ops w1 i r1 d Hv1 H R1 S1) as (r2 & d2 & R2 & S2).
  cbn. apply (point_not_saved V storable _ i r2 d2); auto. apply valid_run; assumption.
Qed.
Print Assumptions C122_dmf_cdae_refuted.
Example C122_dmf_example : exists m' info, begin_fit s_ds false = (m', Ok info) /\ fi_rows info = 3.
Proof. do 2 eexists. split; vm_compute; reflexivity. Qed.

(** With databases: a neighbourhood model can be saved exactly if its attributes
    can be pickled and it has no data set or one in memory. *)
Theorem C122_knn_savable : forall V storable ops i p s,
  Forall own_files ops ->
  let w := run storable ops (@empty_world V) in
  sees w i = Some s -> see_kind s = Knn ->
  (snd (save storable i p w) = Ok tt <->
   storable (see_state s) = true /\ (see_data s = None \/ exists m, see_data s = Some (Some (InMem m)))).
Proof.
  intros V storable ops i p s H w S K.
  assert (Hv : valid V w) by (apply valid_run; [apply valid_empty|exact H]).
  rewrite sees_look in S. destruct (nth_error (w_recs w) i) as [r|] eqn:R; [|discriminate]. injection S as <-.
  cbn [see_kind see_state see_data look] in *.
  assert (Ks := v_kind V w Hv i r R). rewrite K in Ks.
  assert (Sn : r_sampler r = None) by (destruct (r_sampler r) as [[d|d]|]; cbn in Ks; [destruct Ks; discriminate|discriminate|reflexivity]).
  unfold save. rewrite R. assert (C := pickle_cases V storable w r Hv (ex_intro _ i R)).
  destruct (pickle storable w r) as [y|e]; cbn [snd].
  - destruct C as (St & _ & _ & D & _). split; [|reflexivity]. intros _. split; [exact St|].
    destruct (r_data r) as [d|]; [|auto]. destruct D as (m & D & _). right. exists m. cbn. rewrite D. reflexivity.
  - split; [discriminate|]. intros [St D]. exfalso. destruct C as [_ [C|[(d & t & U & C)|[d C]]]]; [congruence| |congruence].
    destruct U as [U|[U|U]]; [|congruence|congruence]. rewrite U in D. cbn in D. rewrite C in D.
    destruct D as [D|[m D]]; discriminate.
Qed.
Print Assumptions C122_knn_savable.

(** Any recommender fitted on a database data set cannot be saved. *)
Theorem C122_database_refuted : forall V storable ops i p s t,
  Forall own_files ops ->
  let w := run storable ops (@empty_world V) in
  sees w i = Some s -> see_data s = Some (Some (InDb t)) ->
  snd (save storable i p w) = Err TypeError.
Proof.
  intros V storable ops i p s t H w S D.
  assert (Hv : valid V w) by (apply valid_run; [apply valid_empty|exact H]).
  rewrite sees_look in S. destruct (nth_error (w_recs w) i) as [r|] eqn:R; [|discriminate]. injection S as <-.
  cbn [see_data look] in D. unfold save. rewrite R. assert (C := pickle_cases V storable w r Hv (ex_intro _ i R)).
  destruct (pickle storable w r) as [y|e]; cbn [snd].
  - destruct C as (_ & _ & _ & C & _). destruct (r_data r) as [d|]; [|discriminate]. destruct C as (m & C & _).
    cbn in D. rewrite C in D. discriminate.
  - destruct C as [-> _]. reflexivity.
Qed.
Print Assumptions C122_database_refuted.
(** fitted on a database: TypeError; fitted again in memory: saved *)
Example C122_database_example :
  let w := run s_any [NewData (InDb 4); NewData (InMem s_ds); NewRec Knn 1; Fit 0 0 false 2 true] empty_world in
  option_map see_data (sees w 0) = Some (Some (Some (InDb 4))) /\
  snd (save s_any 0 "p" w) = Err TypeError /\
  snd (save s_any 0 "p" (run s_any [Fit 0 1 false 3 true] w)) = Ok tt.
Proof. split; [|split]; vm_compute; reflexivity. Qed.

(** A save, successful or not, changes no recommender, no data set and no other file. *)
Theorem C122_save_changes_one_file : forall V storable i p (w : world V) i' q,
  sees (fst (save storable i p w)) i' = sees w i' /\
  (q <> p -> w_files (fst (save storable i p w)) q = w_files w q).
Proof.
  intros V storable i p w i' q. destruct (save_frame V storable i p w) as (D & R & F). split; [|apply F].
  rewrite !sees_look, R. unfold look. rewrite D. reflexivity.
Qed.
Print Assumptions C122_save_changes_one_file.

(** But a save that fails destroys the model that was in the file. *)
Theorem C122_failed_save_refuted : exists (ops : list (op nat)) i p j,
  let w := run s_any ops empty_world in
  snd (load p w) = Ok j /\
  snd (save s_any i p w) = Err TypeError /\
  snd (load p (fst (save s_any i p w))) = Err GenericException.
Proof.
  exists [NewData (InMem s_ds); NewRec Dmf 10; SaveTo 0 "model"; Fit 0 0 false 11 true], 0, "model", 1.
  vm_compute. auto.
Qed.
Print Assumptions C122_failed_save_refuted.
