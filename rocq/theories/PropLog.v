(** C121: the log file of a recommender. *)
From Coq Require Import String Ascii.
From Coq Require Import List Bool.
From Verif Require Import Py LogModel LogSpec LogFacts.
Import ListNotations.
Open Scope string_scope.
Open Scope list_scope.

Definition after (es : list event) : logs := snd (run_events es ([], no_logs)).

(** The console has each message of a verbose recommender once, in order, whatever
    recommenders were made before and after. *)
Theorem C121_console : forall es, lg_console (after es) = over_events on_console es.
Proof. intro es. exact (h_console _ _ (holds_all es)). Qed.
Print Assumptions C121_console.

(** What is in a file: the messages of all recommenders of a class that has the file. *)
Theorem C121_files : forall es path, contents (after es) path = over_events (shared path) es.
Proof. intros es path. exact (h_files _ _ (holds_all es) path). Qed.
Print Assumptions C121_files.

(** *** C121, for the only recommender of its class that has a log file: the file has its
    messages, once each and in order. *)
Theorem C121_own_messages_partial : forall es k c now v, times_ok es ->
  nth_error (made_by es) k = Some (c, now, v, true) ->
  (forall k' now' v', nth_error (made_by es) k' = Some (c, now', v', true) -> k' = k) ->
  contents (after es) ("drecpy_" ++ now ++ "_" ++ c ++ ".log")%string = over_events (own k) es.
Proof. intros es k c now v T E U. rewrite C121_files. exact (own_file es k c now v T E U). Qed.
Print Assumptions C121_own_messages_partial.
Definition t1 : string := "2026-11-16_20-30-00".
Definition t2 : string := "2026-11-16_20-30-01".
Definition program1 : list event :=
  [New "CDAE" t1 true true; New "DMF" t1 true true; Say 0 Info "a" true true; New "CDAE" t2 true false;
   Say 2 Info "b" true true; Say 1 Warning "c" true true; Say 0 Info "d" false true; Say 0 Error "e" true false; New "DMF" t2 false false; Say 3 Info "f" true true].
Example C121_example : times_ok program1 /\ nth_error (made_by program1) 0 = Some ("CDAE", t1, true, true) /\
  (forall k' now' v', nth_error (made_by program1) k' = Some ("CDAE", now', v', true) -> k' = 0%nat) /\
  contents (after program1) "drecpy_2026-11-16_20-30-00_CDAE.log" = [(Info, "CDAE_FLOGGER", "a"); (Info, "CDAE_FLOGGER", "d")] /\
  lg_console (after program1) = [(Info, "CDAE_CLOGGER", "a"); (Info, "CDAE_CLOGGER", "b"); (Warning, "DMF_CLOGGER", "c"); (Error, "CDAE_CLOGGER", "e")].
Proof.
  split; [repeat constructor|]. split; [reflexivity|]. split.
  - intros [|[|[|[|[|k]]]]] now' v' E; try discriminate; reflexivity.
  - split; vm_compute; reflexivity.
Qed.

(** The property for all programs: the file of each recommender has its own messages. *)
Definition own_messages : Prop := forall es k c now v, times_ok es -> nth_error (made_by es) k = Some (c, now, v, true) ->
  contents (after es) ("drecpy_" ++ now ++ "_" ++ c ++ ".log")%string = over_events (own k) es.
(** A message of the second recommender of a class is in the file of the first one, too. *)
Theorem C121_other_messages_refuted : exists es k c now, times_ok es /\ nth_error (made_by es) k = Some (c, now, true, true) /\
  over_events (own k) es = [] /\ contents (after es) ("drecpy_" ++ now ++ "_" ++ c ++ ".log")%string = [(Info, "DMF_FLOGGER", "a")].
Proof.
  exists [New "DMF" t1 true true; New "DMF" t2 true true; Say 1 Info "a" true true], 0%nat, "DMF", t1.
  split; [repeat constructor|]. split; [reflexivity|]. split; vm_compute; reflexivity.
Qed.
Print Assumptions C121_other_messages_refuted.
(** With two recommenders of a class made in the same second, each message is in their
    file twice. *)
Theorem C121_twice_refuted : exists es k c now, times_ok es /\ nth_error (made_by es) k = Some (c, now, true, true) /\
  over_events (own k) es = [(Info, "DMF_FLOGGER", "a")] /\
  contents (after es) ("drecpy_" ++ now ++ "_" ++ c ++ ".log")%string = [(Info, "DMF_FLOGGER", "a"); (Info, "DMF_FLOGGER", "a")].
Proof.
  exists [New "DMF" t1 true true; New "DMF" t1 true true; Say 1 Info "a" true true], 1%nat, "DMF", t1.
  split; [repeat constructor|]. split; [reflexivity|]. split; vm_compute; reflexivity.
Qed.
Print Assumptions C121_twice_refuted.
Theorem C121_own_messages_refuted : ~ own_messages.
Proof.
  intro H. destruct C121_other_messages_refuted as (es & k & c & now & T & E & O & X). specialize (H es k c now true T E). rewrite O, X in H. discriminate.
Qed.
Print Assumptions C121_own_messages_refuted.
