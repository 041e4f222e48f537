(** Facts about the loggers of recommenders. *)
From Coq Require Import String Ascii.
From Coq Require Import List Bool Arith Lia.
From Verif Require Import Py PyFacts LogModel LogSpec.
Import ListNotations.
Open Scope string_scope.
Open Scope list_scope.

(** ** Texts *)
Lemma length_append a b : String.length (a ++ b)%string = (String.length a + String.length b)%nat.
Proof. induction a as [|x a IH]; [reflexivity|]. cbn [append String.length]. rewrite IH. reflexivity. Qed.
Lemma append_same : forall a b x y, String.length a = String.length b -> (a ++ x = b ++ y)%string -> a = b /\ x = y.
Proof.
  induction a as [|c a IH]; intros [|d b] x y L E; try discriminate L; [split; [reflexivity|exact E]|].
  cbn [append] in E. injection E as -> E. injection L as L. destruct (IH b x y L E) as [-> ->]. auto.
Qed.
Lemma append_tail a b x y : String.length x = String.length y -> (a ++ x = b ++ y)%string -> a = b /\ x = y.
Proof.
  intros L E. apply append_same; [|exact E]. pose proof (f_equal String.length E) as H. rewrite !length_append in H. lia.
Qed.
Lemma two_loggers a b : console_logger a <> file_logger b.
Proof. intro E. apply append_tail in E; [|reflexivity]. destruct E as [_ E]. discriminate. Qed.
Lemma console_logger_inj a b : console_logger a = console_logger b -> a = b.
Proof. intro E. apply append_tail in E; [tauto|reflexivity]. Qed.
Lemma file_logger_inj a b : file_logger a = file_logger b -> a = b.
Proof. intro E. apply append_tail in E; [tauto|reflexivity]. Qed.
Lemma log_path_inj n c n' c' : String.length n = String.length n' -> log_path n c = log_path n' c' -> n = n' /\ c = c'.
Proof.
  intros L E. unfold log_path in E. apply append_same in E; [|reflexivity]. destruct E as [_ E]. apply append_same in E; [|exact L]. destruct E as [-> E].
  apply append_same in E; [|reflexivity]. destruct E as [_ E]. apply append_tail in E; [|reflexivity]. tauto.
Qed.

(** ** Loggers *)
Lemma str_reflects : reflects String.eqb. Proof. intros a b. apply String.eqb_eq. Qed.
Lemma handlers_set n l g n' : handlers (set_handlers n l g) n' = if String.eqb n n' then l else handlers g n'.
Proof.
  unfold handlers, set_handlers. cbn [lg_loggers]. destruct (String.eqb_spec n n') as [->|N].
  - rewrite (assoc_set_same _ str_reflects). reflexivity.
  - rewrite (assoc_set_other _ str_reflects); [reflexivity|congruence].
Qed.
Lemma contents_set ls con fs p l p' : contents (mkLogs ls con (assoc_set String.eqb p l fs)) p' = if String.eqb p p' then l else contents (mkLogs ls con fs) p'.
Proof.
  unfold contents. cbn [lg_files]. destruct (String.eqb_spec p p') as [->|N].
  - rewrite (assoc_set_same _ str_reflects). reflexivity.
  - rewrite (assoc_set_other _ str_reflects); [reflexivity|congruence].
Qed.
Lemma emit_all x l : forall g, let g' := fold_left (emit x) l g in
  lg_loggers g' = lg_loggers g /\
  lg_console g' = lg_console g ++ repeat x (length (filter (fun h => match h with Console => true | ToFile _ => false end) l)) /\
  forall p, contents g' p = contents g p ++ repeat x (length (filter (fun h => match h with Console => false | ToFile q => String.eqb q p end) l)).
Proof.
  induction l as [|h l IH]; intro g; cbn [fold_left filter length repeat].
  - repeat split; intros; rewrite app_nil_r; reflexivity.
  - destruct (IH (emit x g h)) as (A & B & C). cbv zeta. rewrite A, B. destruct h as [|q]; cbn [emit lg_loggers lg_console length repeat].
    + split; [reflexivity|]. split; [rewrite <- app_assoc; reflexivity|]. intro p. rewrite C. reflexivity.
    + split; [reflexivity|]. split; [reflexivity|]. intro p. rewrite C. cbn [emit]. rewrite contents_set. destruct (String.eqb_spec q p) as [->|N]; cbn [length repeat].
      * rewrite <- app_assoc. reflexivity.
      * reflexivity.
Qed.

(** ** All events *)
Lemma over_snoc L es e : over_events L (es ++ [e]) = over_events L es ++ at_event L (es ++ [e]) (length es).
Proof.
  unfold over_events. rewrite app_length, Nat.add_1_r, seq_S, flat_map_app. cbn [flat_map Nat.add]. rewrite app_nil_r. f_equal.
  rewrite !flat_map_concat_map. f_equal. apply map_ext_in. intros i Hi. apply in_seq in Hi. unfold at_event.
  rewrite nth_error_app1 by lia. rewrite firstn_app. replace (i - length es)%nat with 0%nat by lia. cbn [firstn]. rewrite app_nil_r. reflexivity.
Qed.
Lemma at_last L es e : at_event L (es ++ [e]) (length es) =
  match e with New _ _ _ _ => [] | Say k v msg con file => match nth_error (made_by es) k with Some m => L (made_by es) k m v msg con file | None => [] end end.
Proof.
  unfold at_event. rewrite nth_error_app2, Nat.sub_diag by lia. cbn [nth_error]. rewrite firstn_app, Nat.sub_diag, firstn_all. cbn [firstn]. rewrite app_nil_r. reflexivity.
Qed.
Lemma made_snoc es e : made_by (es ++ [e]) = made_by es ++ match e with New c now v f => [(c, now, v, f)] | _ => [] end.
Proof. unfold made_by. rewrite flat_map_app. cbn [flat_map]. rewrite app_nil_r. reflexivity. Qed.

Definition of_made (m : made) : recommender := let '(c, _, v, f) := m in mkRecommender c v f.
Definition of_class (c : string) (m : made) : bool := let '(c', _, _, _) := m in String.eqb c' c.
Definition filed (c : string) (m : made) : bool := let '(c', _, _, f) := m in f && String.eqb c' c.
Definition path_of (m : made) : string := let '(c, now, _, _) := m in log_path now c.
Record holds (es : list event) (s : list recommender * logs) : Prop := {
  h_made : fst s = map of_made (made_by es);
  h_con : forall c, handlers (snd s) (console_logger c) = if existsb (of_class c) (made_by es) then [Console] else [];
  h_file : forall c, handlers (snd s) (file_logger c) = map (fun m => ToFile (path_of m)) (filter (filed c) (made_by es));
  h_console : lg_console (snd s) = over_events on_console es;
  h_files : forall p, contents (snd s) p = over_events (shared p) es }.
Lemma handlers_same g g' : lg_loggers g' = lg_loggers g -> forall n, handlers g' n = handlers g n.
Proof. intros E n. unfold handlers. rewrite E. reflexivity. Qed.
Lemma contents_same g g' : lg_files g' = lg_files g -> forall n, contents g' n = contents g n.
Proof. intros E n. unfold contents. rewrite E. reflexivity. Qed.

Lemma holds_new es s c now v f : holds es s -> holds (es ++ [New c now v f]) (step (New c now v f) s).
Proof.
  intros [A B C D E]. destruct s as [rs g]. cbn [fst snd] in *. cbn [step]. unfold new_recommender.
  set (g1 := set_handlers (console_logger c) [] g). set (g2 := set_handlers (console_logger c) (handlers g1 (console_logger c) ++ [Console]) g1).
  assert (H2 : forall n, handlers g2 n = if String.eqb (console_logger c) n then [Console] else handlers g n).
  { intro n. unfold g2, g1. rewrite !handlers_set, String.eqb_refl. destruct (String.eqb (console_logger c) n); reflexivity. }
  assert (F2 : forall p, contents g2 p = contents g p) by (intro p; apply contents_same; reflexivity).
  assert (K : forall c', (if String.eqb (console_logger c) (console_logger c') then [Console] else handlers g (console_logger c')) =
                         if existsb (of_class c') (made_by (es ++ [New c now v f])) then [Console] else []).
  { intro c'. rewrite made_snoc, existsb_app. cbn [existsb of_class]. rewrite orb_false_r.
    destruct (String.eqb_spec (console_logger c) (console_logger c')) as [X|X].
    - apply console_logger_inj in X. subst c'. rewrite String.eqb_refl, orb_true_r. reflexivity.
    - destruct (String.eqb_spec c c') as [->|Y]; [contradiction|]. rewrite orb_false_r. apply B. }
  assert (Nf : forall c', String.eqb (console_logger c) (file_logger c') = false) by (intro c'; apply String.eqb_neq, two_loggers).
  assert (Fi : forall c', filter (filed c') (made_by (es ++ [New c now v f])) = filter (filed c') (made_by es) ++ (if f && String.eqb c c' then [(c, now, v, f)] else [])).
  { intro c'. rewrite made_snoc, filter_app. cbn [filter filed]. reflexivity. }
  destruct f.
  - set (g3 := mkLogs (lg_loggers g2) (lg_console g2) (assoc_set String.eqb (log_path now c) (contents g2 (log_path now c)) (lg_files g2))).
    assert (H3 : forall n, handlers g3 n = handlers g2 n) by (intro n; apply handlers_same; reflexivity).
    assert (F3 : forall p, contents g3 p = contents g2 p).
    { intro p. unfold g3. rewrite contents_set. destruct (String.eqb_spec (log_path now c) p) as [->|_]; [reflexivity|apply contents_same; reflexivity]. }
    constructor; cbn [fst snd].
    + rewrite made_snoc, map_app, A. reflexivity.
    + intro c'. rewrite handlers_set. destruct (String.eqb_spec (file_logger c) (console_logger c')) as [X|_]; [exfalso; exact (two_loggers _ _ (eq_sym X))|].
      rewrite H3, H2. apply K.
    + intro c'. rewrite handlers_set, !H3, !H2, !Nf, Fi, !C. cbn [andb]. destruct (String.eqb_spec c c') as [->|X].
      * rewrite String.eqb_refl, map_app. reflexivity.
      * destruct (String.eqb_spec (file_logger c) (file_logger c')) as [Y|_]; [apply file_logger_inj in Y; contradiction|]. rewrite app_nil_r. reflexivity.
    + rewrite over_snoc, at_last, app_nil_r. exact D.
    + intro p. rewrite over_snoc, at_last, app_nil_r. rewrite <- E, <- F2, <- F3. apply contents_same. reflexivity.
  - constructor; cbn [fst snd].
    + rewrite made_snoc, map_app, A. reflexivity.
    + intro c'. rewrite H2. apply K.
    + intro c'. rewrite H2, Nf, Fi. cbn [andb]. rewrite app_nil_r. apply C.
    + rewrite over_snoc, at_last, app_nil_r. exact D.
    + intro p. rewrite over_snoc, at_last, app_nil_r, F2. apply E.
Qed.
Lemma writers_paths ms c p : length (filter (fun h => match h with Console => false | ToFile q => String.eqb q p end) (map (fun m => ToFile (path_of m)) (filter (filed c) ms))) = length (writers ms c p).
Proof.
  unfold writers. induction ms as [|[[[c' now] v] f] ms IH]; [reflexivity|]. cbn [filter filed]. destruct (f && String.eqb c' c)%bool; cbn [andb map filter]; [|exact IH].
  cbn [path_of]. unfold log_path. cbn [filter map]. destruct (String.eqb _ p); cbn [length]; rewrite IH; reflexivity.
Qed.
Lemma no_console ms c : filter (fun h => match h with Console => true | ToFile _ => false end) (map (fun m => ToFile (path_of m)) (filter (filed c) ms)) = [].
Proof. induction (filter (filed c) ms) as [|m l IH]; [reflexivity|exact IH]. Qed.

Lemma holds_say es s k v msg con file : holds es s -> holds (es ++ [Say k v msg con file]) (step (Say k v msg con file) s).
Proof.
  intros [A B C D E]. destruct s as [rs g]. cbn [fst snd] in *. cbn [step]. rewrite A, nth_error_map.
  assert (Mk : made_by (es ++ [Say k v msg con file]) = made_by es) by (rewrite made_snoc; apply app_nil_r).
  destruct (nth_error (made_by es) k) as [[[[c now] vb] f]|] eqn:Ek; cbn [option_map].
  2:{ constructor; cbn [fst snd]; rewrite ?Mk; auto; intros; rewrite over_snoc, at_last, Ek, app_nil_r; auto. }
  cbn [of_made]. unfold say. cbn [rl_verbose rl_class rl_file].
  destruct vb; cbn [negb].
  2:{ constructor; cbn [fst snd]; rewrite ?Mk; auto; intros; rewrite over_snoc, at_last, Ek; cbn [on_console shared andb]; rewrite app_nil_r; auto. }
  assert (Ec : existsb (of_class c) (made_by es) = true).
  { apply existsb_exists. exists (c, now, true, f). split; [apply nth_error_In in Ek; exact Ek|]. apply String.eqb_refl. }
  set (g1 := if con then log_to (console_logger c) v msg g else g).
  assert (G1 : lg_loggers g1 = lg_loggers g /\ lg_console g1 = lg_console g ++ (if con then [(v, console_logger c, msg)] else []) /\ forall p, contents g1 p = contents g p).
  { unfold g1. destruct con; [|rewrite app_nil_r; auto]. unfold log_to. destruct (emit_all (v, console_logger c, msg) (handlers g (console_logger c)) g) as (X & Y & Z).
    rewrite X, Y. split; [reflexivity|]. rewrite B, Ec in *. split; [reflexivity|]. intro p. rewrite Z. cbn. apply app_nil_r. }
  destruct G1 as (L1 & O1 & F1).
  set (g2 := if f && file then log_to (file_logger c) v msg g1 else g1).
  assert (G2 : lg_loggers g2 = lg_loggers g /\ lg_console g2 = lg_console g1 /\
    forall p, contents g2 p = contents g p ++ (if f && file then repeat (v, file_logger c, msg) (length (writers (made_by es) c p)) else [])).
  { unfold g2. destruct (f && file)%bool; [|split; [exact L1|]; split; [reflexivity|]; intro p; rewrite app_nil_r; apply F1].
    unfold log_to. destruct (emit_all (v, file_logger c, msg) (handlers g1 (file_logger c)) g1) as (X & Y & Z).
    rewrite X, Y. split; [exact L1|]. rewrite (handlers_same g g1 L1), C, no_console in *. cbn [length repeat]. split; [apply app_nil_r|].
    intro p. rewrite Z, F1, writers_paths. reflexivity. }
  destruct G2 as (L2 & O2 & F2). constructor; cbn [fst snd]; rewrite ?Mk.
  - reflexivity.
  - intro c'. rewrite (handlers_same g g2 L2). apply B.
  - intro c'. rewrite (handlers_same g g2 L2). apply C.
  - rewrite O2, O1, D, over_snoc, at_last, Ek. reflexivity.
  - intro p. rewrite F2, E, over_snoc, at_last, Ek. reflexivity.
Qed.
Theorem holds_all es : holds es (run_events es ([], no_logs)).
Proof.
  induction es as [|e es IH] using rev_ind.
  - constructor; reflexivity.
  - unfold run_events. rewrite fold_left_app. cbn [fold_left]. fold (run_events es ([], no_logs)). destruct e; [apply holds_new|apply holds_say]; exact IH.
Qed.

(** ** One recommender of a class with a file *)
Lemma filter_none {A} (P : A -> bool) l : (forall x, In x l -> P x = false) -> filter P l = [].
Proof. induction l as [|y l IH]; intro H; [reflexivity|]. cbn [filter]. rewrite (H y (or_introl eq_refl)). apply IH. intros x Hx. apply H. right. exact Hx. Qed.
Lemma filter_one {A} (P : A -> bool) : forall l k x, nth_error l k = Some x -> P x = true -> (forall j y, nth_error l j = Some y -> j <> k -> P y = false) -> filter P l = [x].
Proof.
  induction l as [|y l IH]; intros [|k] x E Px H; try discriminate; cbn [filter].
  - injection E as ->. rewrite Px, filter_none; [reflexivity|]. intros z Hz. apply In_nth_error in Hz. destruct Hz as [j Hj]. apply (H (S j)); [exact Hj|discriminate].
  - rewrite (H 0%nat y eq_refl) by discriminate. apply (IH k); auto. intros j z Hj N. apply (H (S j)); [exact Hj|congruence].
Qed.
Lemma made_prefix es i k m : nth_error (made_by (firstn i es)) k = Some m -> nth_error (made_by es) k = Some m.
Proof.
  intro E. assert (H : made_by es = made_by (firstn i es) ++ made_by (skipn i es)) by (unfold made_by; rewrite <- flat_map_app, firstn_skipn; reflexivity).
  rewrite H, nth_error_app1; [exact E|]. apply nth_error_Some. congruence.
Qed.
Lemma own_file es k0 c now v : times_ok es -> nth_error (made_by es) k0 = Some (c, now, v, true) ->
  (forall k now' v', nth_error (made_by es) k = Some (c, now', v', true) -> k = k0) ->
  over_events (shared (log_path now c)) es = over_events (own k0) es.
Proof.
  intros T E0 U. unfold over_events. rewrite !flat_map_concat_map. f_equal. apply map_ext. intro i. unfold at_event.
  destruct (nth_error es i) as [[c1 n1 v1 f1|k lv msg con file]|]; try reflexivity. cbv zeta.
  set (ms := made_by (firstn i es)). destruct (nth_error ms k) as [[[[c2 n2] v2] f2]|] eqn:Ek; [|reflexivity]. cbn [shared own].
  destruct v2, f2, file; cbn [andb]; rewrite ?andb_false_r; try reflexivity; rewrite ?andb_true_r.
  assert (Tm : forall j m, nth_error ms j = Some m -> let '(_, n, _, _) := m in String.length n = 19%nat).
  { intros j m Hj. apply made_prefix in Hj. apply nth_error_In in Hj. unfold times_ok in T. rewrite Forall_forall in T. exact (T m Hj). }
  assert (T0 : String.length now = 19%nat).
  { apply nth_error_In in E0. unfold times_ok in T. rewrite Forall_forall in T. exact (T _ E0). }
  destruct (Nat.eqb_spec k k0) as [->|N].
  - assert (X := made_prefix _ _ _ _ Ek). rewrite E0 in X. injection X as <- <- ->.
    unfold writers. rewrite (filter_one _ ms k0 (c, now, true, true) Ek); [reflexivity| |].
    + cbn. rewrite String.eqb_refl. cbn [andb]. apply String.eqb_refl.
    + intros j [[[c' n'] v'] f'] Hj Nj. destruct f'; [|reflexivity]. destruct (String.eqb_spec c' c) as [->|_]; [|reflexivity]. exfalso. apply Nj. exact (U j n' v' (made_prefix _ _ _ _ Hj)).
  - assert (Nc : c2 <> c) by (intros ->; apply N; exact (U k n2 true (made_prefix _ _ _ _ Ek))).
    unfold writers. rewrite filter_none; [reflexivity|]. intros [[[c' n'] v'] f'] Hm. apply In_nth_error in Hm. destruct Hm as [j Hj].
    destruct f'; [|reflexivity]. destruct (String.eqb_spec c' c2) as [->|_]; [|reflexivity]. cbn [andb]. apply String.eqb_neq. intro P.
    apply (log_path_inj n' c2 now c) in P; [destruct P; contradiction|]. pose proof (Tm j _ Hj) as L. cbv beta iota in L. rewrite L, T0. reflexivity.
Qed.
