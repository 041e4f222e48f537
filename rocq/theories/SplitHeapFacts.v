(** The source of a split is left alone. *)
From Coq Require Import String Ascii.
From Coq Require Import List ZArith QArith Qcanon Bool Lia Permutation.
From Verif Require Import Py MemModel MemHeap MemHeapSpec MemHeapFacts SplitHeap.
Import ListNotations.
Open Scope string_scope.
Open Scope Z_scope.

Definition copying (o : hop) : Prop :=
  match o with HSelect _ true | HUnique _ true | HDrop _ _ true => True | _ => False end.

Lemma copying_step ms i m o : nth_error ms i = Some m -> copying o ->
  exists new, sstep ms (i, o) = (ms ++ new)%list /\ new = match snd (effect m o) with Some x => [x] | None => [] end.
Proof.
  intros E C. rewrite (sstep_upd ms i o m E).
  assert (F : fst (effect m o) = m) by (destruct o as [| ? [] | ? ? [] | ? [] | | | | | ]; try contradiction; reflexivity).
  rewrite F. eexists. split; [|reflexivity]. f_equal.
  rewrite <- (upd_id i ms m) at 2. f_equal. symmetry. apply nth_error_nth. exact E.
Qed.

Lemma copying_run os : forall ms i m, nth_error ms i = Some m -> Forall copying os ->
  exists new, srun ms (map (pair i) os) = (ms ++ new)%list.
Proof.
  induction os as [|o os IH]; intros ms i m E F; simpl.
  - exists []. rewrite app_nil_r. reflexivity.
  - inversion F; subst. destruct (copying_step ms i m o E H1) as (new & S & _).
    destruct (IH (ms ++ new)%list i m) as (new' & S'); auto.
    { rewrite nth_error_app1; auto. apply nth_error_Some. congruence. }
    exists (new ++ new')%list. unfold srun in *. simpl. rewrite S, S', app_assoc. reflexivity.
Qed.

Lemma source_kept m0 history i m before test gone : nth_error (views (hrun (w_init m0) history)) i = Some m ->
  Forall copying before ->
  exists new, views (hrun (hrun (w_init m0) history) (map (pair i) (before ++ [HDrop test true true; HDrop gone false true]))) =
    (views (hrun (w_init m0) history) ++ new ++ [drop m test true; drop m gone false])%list.
Proof.
  intros E F. unfold hrun. rewrite <- fold_left_app. fold (hrun (w_init m0) (history ++ map (pair i) (before ++ [HDrop test true true; HDrop gone false true]))).
  rewrite heap_is_values. rewrite heap_is_values in E. fold (hrun (w_init m0) history). rewrite heap_is_values.
  unfold srun. rewrite fold_left_app, map_app, fold_left_app. fold (srun [m0] history).
  fold (srun (srun [m0] history) (map (pair i) before)).
  destruct (copying_run before _ i m E F) as (new & S). rewrite S. exists new. simpl.
  assert (L : forall z, nth_error (srun [m0] history ++ z)%list i = Some m).
  { intros z. rewrite nth_error_app1; auto. apply nth_error_Some. congruence. }
  destruct (copying_step _ i m (HDrop test true true) (L new) I) as (n1 & S1 & E1).
  rewrite S1. rewrite <- app_assoc.
  destruct (copying_step _ i m (HDrop gone false true) (L (new ++ n1)%list) I) as (n2 & S2 & E2).
  rewrite S2, E1, E2. cbn [effect snd]. rewrite <- !app_assoc. reflexivity.
Qed.

Lemma lko_calls_split us rem test : exists before, Forall copying before /\
  lko_calls us rem test = (before ++ [HDrop test true true; HDrop (rem ++ test) false true])%list.
Proof.
  exists (HUnique (Some ["user"]) true :: map (fun u => HSelect ("user == " ++ str_of_value u) true) us).
  split; [|reflexivity]. constructor; [exact I|]. apply Forall_map, Forall_forall. intros; exact I.
Qed.
Lemma ms_calls_split us rem test : exists before, Forall copying before /\
  ms_calls us rem test = (before ++ [HDrop test true true; HDrop (rem ++ test) false true])%list.
Proof.
  exists (HUnique (Some ["user"]) true :: HUnique (Some ["item"]) true :: map (fun u => HSelect ("user == " ++ str_of_value u) true) us).
  split; [|reflexivity]. constructor; [exact I|]. constructor; [exact I|]. apply Forall_map, Forall_forall. intros; exact I.
Qed.

Lemma keeps m0 history i m before test gone : nth_error (views (hrun (w_init m0) history)) i = Some m ->
  Forall copying before ->
  split_keeps m0 history i (before ++ [HDrop test true true; HDrop gone false true]) (drop m gone false) (drop m test true).
Proof.
  intros E F. destruct (source_kept m0 history i m before test gone E F) as (new & V). unfold split_keeps.
  set (w := hrun _ (map (pair i) _)) in *. set (n := length (views (hrun (w_init m0) history))).
  assert (Hi : (i < n)%nat) by (apply nth_error_Some; congruence).
  exists (n + length new)%nat, (S (n + length new)). repeat (split; [lia|]).
  rewrite V. split; [|split; [|split]].
  - rewrite app_assoc, nth_error_app2 by (rewrite app_length; unfold n; lia).
    rewrite app_length. fold n. rewrite Nat.sub_diag. reflexivity.
  - rewrite app_assoc, nth_error_app2 by (rewrite app_length; unfold n; lia).
    rewrite app_length. fold n. replace (S (n + length new) - (n + length new))%nat with 1%nat by lia. reflexivity.
  - intros j x Hj. rewrite nth_error_app1; auto. apply nth_error_Some. congruence.
  - intros more j x Hm Hj.
    assert (W : w = hrun (w_init m0) (history ++ map (pair i) (before ++ [HDrop test true true; HDrop gone false true])))
      by (unfold w, hrun; rewrite fold_left_app; reflexivity).
    rewrite W. apply isolation; auto. rewrite <- W, V. exact Hj.
Qed.
