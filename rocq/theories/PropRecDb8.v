(** C120: training DMF and CDAE on a data set in a database returns, or not.

    As in PropRecDb7.v; [f] is the fuel of the searches for samples. *)
From Coq Require Import String Ascii.
From Coq Require Import List ZArith QArith Qcanon Bool Permutation Lia.
From Verif Require Import Py PyFacts MemModel MemSpec RankModel RankSpec KnnModel KnnSpec FitModel SampSpec
  DbModel DbSpec DbFacts7 DbFacts8 DbFacts13 DbFacts15 DbCheck DbExamples DbGenModel DbGenSpec DbGenSpec2 DbGenFacts6 TwinSpec TwinFacts5 TwinCheck PropTwin
  RecDbModel RecDbModel2 RecDbSpec RecDbSpec2 RecDbFacts2 RecDbFacts6 RecDbFacts8 RecDbModel7 RecDbSpec7 RecDbFacts18 RecDbFacts19 PropRecDb PropRecDb7.
Import ListNotations.
Open Scope string_scope.
Open Scope Z_scope.
Open Scope list_scope.

(** *** C120.  Training DMF returns if there is a negative pair to be found, or if none of
    the draws asks for one; what it returns does not depend on the fuel. *)
Theorem C120_dmf_returns : forall inode ords w b mb i m0 m tu ti t neg dr lu li use_nce epochs batch_size n,
  both inode w b mb -> mb i = Some m0 -> trained_on m0 m tu ti -> numeric m0 -> safe inode w b (OAssign i) ->
  (forall k rows, Permutation (ords k rows) rows) -> thr_ok t ->
  rich (dd_null dr) -> rich (dd_neg dr) -> rich (dd_pos dr) ->
  (exists u k, negative_pair (obs m) (n_distinct "user" m0) (n_distinct "item" m0) t u k) \/
  (forall k, (k < epochs * batch_size)%nat -> ~ (1 < (neg + 1) * dd_label dr k)%Qc) ->
  exists f0 s o, forall f, (f0 <= f)%nat ->
    db_dmf_fit inode ords f neg dr lu li false use_nce (thr_text t) epochs batch_size i (n, w) = (s, Some o).
Proof.
  intros inode ords w b mb i m0 m tu ti t neg dr lu li use_nce epochs batch_size n B Hi T Nm Sf Po Tk R1 R2 R3 H.
  destruct (the_twin inode w b mb i m0 B Hi Nm Sf) as (d & Hb & Tw & Cd).
  exact (dmf_returns inode ords Po w b i d m0 m tu ti (both_reaches _ _ _ _ B) Sf Hb Tw T Nm Cd t Tk neg dr lu li R1 R2 R3 epochs batch_size n use_nce H).
Qed.
Print Assumptions C120_dmf_returns.
(** The same for CDAE. *)
Theorem C120_cdae_returns : forall inode ords w b mb i m0 m tu ti l th neg dr lu q rnd epochs batch_size n,
  both inode w b mb -> mb i = Some m0 -> trained_on m0 m tu ti -> numeric m0 -> safe inode w b (OAssign i) ->
  (forall k rows, Permutation (ords k rows) rows) -> thr_ok (Some l) ->
  rich (dd_null dr) -> rich (dd_neg dr) -> rich (dd_pos dr) ->
  (exists u k, negative_pair (obs m) (n_distinct "user" m0) (n_distinct "item" m0) (Some l) u k) \/
  (forall k, (k < epochs * batch_size)%nat -> ~ (1 < (neg + 1) * dd_label dr k)%Qc) ->
  exists f0 s o, forall f, (f0 <= f)%nat ->
    db_cdae_fit inode ords f neg dr lu false (Some (lit_text l, th)) q rnd epochs batch_size i (n, w) = (s, Some o).
Proof.
  intros inode ords w b mb i m0 m tu ti l th neg dr lu q rnd epochs batch_size n B Hi T Nm Sf Po Tk R1 R2 R3 H.
  destruct (the_twin inode w b mb i m0 B Hi Nm Sf) as (d & Hb & Tw & Cd).
  exact (cdae_returns inode ords Po w b i d m0 m tu ti (both_reaches _ _ _ _ B) Sf Hb Tw T Nm Cd (Some l) Tk neg dr lu 0 R1 R2 R3 epochs batch_size n l th q rnd eq_refl H).
Qed.
Print Assumptions C120_cdae_returns.

(** If there is no negative pair and a draw asks for one, training never returns; it may
    raise an exception before, for the reasons of C119. *)
Lemma asked_for k epochs batch_size : (k < epochs * batch_size)%nat -> exists e j, (e < epochs)%nat /\ (j < batch_size)%nat /\ (k = e * batch_size + j)%nat.
Proof.
  intro L. assert (Nb : batch_size <> 0%nat) by nia. exists (k / batch_size)%nat, (k mod batch_size)%nat.
  split; [apply Nat.div_lt_upper_bound; [exact Nb|lia]|]. split; [apply Nat.mod_upper_bound; exact Nb|].
  rewrite (Nat.div_mod k batch_size Nb) at 1. lia.
Qed.
Lemma no_such_sample es nu np t neg draws xs j x : samples_for es nu np t neg draws xs -> nth_error draws j = Some x -> (1 < (neg + 1) * x)%Qc ->
  exists u k, negative_pair es nu np t u k.
Proof.
  intros S. revert j. induction S as [|y v draws xs Hy _ IH]; intros [|j] E L; try discriminate.
  - injection E as ->. destruct v as [[u k] v]. destruct Hy as [Hn _]. destruct (Hn L) as [_ H]. eauto.
  - exact (IH j E L).
Qed.
Theorem C120_dmf_hangs : forall inode ords w b mb i m0 m tu ti t neg dr lu li use_nce epochs batch_size n k f,
  both inode w b mb -> mb i = Some m0 -> trained_on m0 m tu ti -> numeric m0 -> safe inode w b (OAssign i) ->
  (forall k rows, Permutation (ords k rows) rows) -> thr_ok t ->
  (forall u k, ~ negative_pair (obs m) (n_distinct "user" m0) (n_distinct "item" m0) t u k) ->
  (k < epochs * batch_size)%nat -> (1 < (neg + 1) * dd_label dr k)%Qc ->
  (exists u k x, In (u, k, x) (obs m) /\ reaches_threshold t x) -> use_nce = false \/ (forall lo, ~ right_range (obs m) lo lo) ->
  snd (db_dmf_fit inode ords f neg dr lu li false use_nce (thr_text t) epochs batch_size i (n, w)) = None.
Proof.
  intros inode ords w b mb i m0 m tu ti t neg dr lu li use_nce epochs batch_size n k f B Hi T Nm Sf Po Tk No L G (u & k0 & x & Hx & Rx) Fl.
  destruct (db_dmf_fit inode ords f neg dr lu li false use_nce (thr_text t) epochs batch_size i (n, w)) as [s [[l|e]|]] eqn:E; [| |reflexivity]; exfalso.
  - destruct (C119_dmf_batches inode ords w b mb i m0 m tu ti t f neg dr lu li use_nce epochs batch_size n s l B Hi T Nm Sf Po Tk E) as [Ll Hl].
    destruct (asked_for k epochs batch_size L) as (e & j & Le & Lj & ->). destruct (nth_error l e) as [y|] eqn:Ey; [|apply nth_error_None in Ey; lia].
    destruct (Hl e y Ey) as (xs & Ss & _). destruct (no_such_sample _ _ _ _ _ _ _ j (dd_label dr (e * batch_size + j)) Ss) as (u' & k' & H); [apply seq_map_nth; exact Lj|exact G|].
    exact (No u' k' H).
  - destruct (C119_dmf_errors inode ords w b mb i m0 m tu ti t f neg dr lu li use_nce epochs batch_size n s e B Hi T Nm Sf Po Tk E) as [H|[U [lo H]]].
    + exact (H u k0 x Hx Rx).
    + destruct Fl as [F|F]; [congruence|exact (F lo H)].
Qed.
Print Assumptions C120_dmf_hangs.
Theorem C120_cdae_hangs : forall inode ords w b mb i m0 m tu ti l th neg dr lu q rnd epochs batch_size n k f,
  both inode w b mb -> mb i = Some m0 -> trained_on m0 m tu ti -> numeric m0 -> safe inode w b (OAssign i) ->
  (forall k rows, Permutation (ords k rows) rows) -> thr_ok (Some l) -> lit_num l = Some th ->
  (forall u k, ~ negative_pair (obs m) (n_distinct "user" m0) (n_distinct "item" m0) (Some l) u k) ->
  (k < epochs * batch_size)%nat -> (1 < (neg + 1) * dd_label dr k)%Qc ->
  (exists u k x, In (u, k, x) (obs m) /\ (th <= x)%Qc) -> q <> 1%Qc ->
  snd (db_cdae_fit inode ords f neg dr lu false (Some (lit_text l, th)) q rnd epochs batch_size i (n, w)) = None.
Proof.
  intros inode ords w b mb i m0 m tu ti l th neg dr lu q rnd epochs batch_size n k f B Hi T Nm Sf Po Tk Et No L G (u & k0 & x & Hx & Rx) Nq.
  destruct (db_cdae_fit inode ords f neg dr lu false (Some (lit_text l, th)) q rnd epochs batch_size i (n, w)) as [s [[r|e]|]] eqn:E; [| |reflexivity]; exfalso.
  - destruct (C119_cdae_batches inode ords w b mb i m0 m tu ti l th f neg dr lu q rnd epochs batch_size n s r B Hi T Nm Sf Po Tk Et E) as [Ll Hl].
    destruct (asked_for k epochs batch_size L) as (e & j & Le & Lj & ->). destruct (nth_error r e) as [y|] eqn:Ey; [|apply nth_error_None in Ey; lia].
    destruct (Hl e y Ey) as (xs & Ss & _). destruct (no_such_sample _ _ _ _ _ _ _ j (dd_label dr (e * batch_size + j)) Ss) as (u' & k' & H); [apply seq_map_nth; exact Lj|exact G|].
    exact (No u' k' H).
  - destruct (C119_cdae_errors inode ords w b mb i m0 m tu ti l th f neg dr lu q rnd epochs batch_size n s e B Hi T Nm Sf Po Tk Et E) as [H|[Q _]].
    + exact (Qcle_not_lt _ _ Rx (H u k0 x Hx)).
    + contradiction.
Qed.
Print Assumptions C120_cdae_hangs.

(** ** Streams with every word again and again, where every third draw asks for a negative. *)
Definition draws20 : dbdraws := mkDbDraws (fun k => Q2Qc (Z.of_nat (k mod 3) # 2)) all_words all_words all_words.
Definition dmf20 (f : nat) (rows : list trow) (t : option slit) :=
  db_dmf_fit disk ords7 f (Qc_of_Z 1) draws20 0 0 false false (thr_text t) 2 3 0 (0%nat, dbs [new7 rows]).
Definition cdae20 (f : nat) (rows : list trow) (l : slit) (th : Qc) :=
  db_cdae_fit disk ords7 f (Qc_of_Z 1) draws20 0 false (Some (lit_text l, th)) (Q2Qc (1 # 4)) rnd19 2 3 0 (0%nat, dbs [new7 rows]).
Definition plain20 (es : list (Z * Z * Qc)) : list (Z * Z * Q) := map (fun x => (fst x, this (snd x))) es.
Lemma plain20_in es u k x : In (u, k, x) es -> In (u, k, this x) (plain20 es).
Proof. intro H. exact (in_map (fun x => (fst x, this (snd x))) es (u, k, x) H). Qed.
Lemma pair20 rows t u k : 0 <= u < Z.of_nat (n_distinct "user" (mem7 rows)) -> 0 <= k < Z.of_nat (n_distinct "item" (mem7 rows)) ->
  existsb (fun x => (fst (fst x) =? u) && (snd (fst x) =? k))%bool (plain20 (obs (trained7 rows))) = false ->
  negative_pair (obs (trained7 rows)) (n_distinct "user" (mem7 rows)) (n_distinct "item" (mem7 rows)) t u k.
Proof.
  intros Hu Hk H. split; [exact Hu|]. split; [exact Hk|]. left. intros x Hx. apply plain20_in in Hx.
  assert (existsb (fun x => (fst (fst x) =? u) && (snd (fst x) =? k))%bool (plain20 (obs (trained7 rows))) = true); [|congruence].
  apply existsb_exists. exists (u, k, this x). cbn [fst snd]. rewrite !Z.eqb_refl. auto.
Qed.
(** User 0 has no row with item 2.  The searches need more than 8 steps, and 80 will do. *)
Definition batches20 : list (list (list Q) * list (list Q) * list Q) :=
  [([[3; 5; 0]; [3; 5; 0]; [1; 0; 5]], [[3; 2; 1]; [3; 2; 1]; [5; 4; 0]], [3; 3; 0]);
   ([[2; 4; 0]; [1; 0; 5]; [2; 4; 0]], [[5; 4; 0]; [0; 0; 5]; [0; 0; 5]], [4; 4; 0])]%Q.
Example C120_returns_example : hypotheses19 rows8 (Some (LInt 2)) /\ rich all_words /\
  negative_pair (obs (trained7 rows8)) (n_distinct "user" (mem7 rows8)) (n_distinct "item" (mem7 rows8)) (Some (LInt 2)) 0 2 /\
  bt19 (snd (dmf20 8 rows8 (Some (LInt 2)))) = None /\
  bt19 (snd (dmf20 80 rows8 (Some (LInt 2)))) = Some (Ok batches20) /\ bt19 (snd (dmf20 300 rows8 (Some (LInt 2)))) = Some (Ok batches20) /\
  cd19 (snd (cdae20 8 rows8 (LInt 2) (Qc_of_Z 2))) = None /\
  cd19 (snd (cdae20 80 rows8 (LInt 2) (Qc_of_Z 2))) <> None /\
  cd19 (snd (cdae20 80 rows8 (LInt 2) (Qc_of_Z 2))) = cd19 (snd (cdae20 300 rows8 (LInt 2) (Qc_of_Z 2))).
Proof.
  split; [split; [exact facts7_rows8|split; [exact ords7_ok|apply thr19; vm_compute; discriminate]]|]. split; [exact all_words_rich|].
  split; [apply pair20; [vm_compute; split; [discriminate|reflexivity]|vm_compute; split; [discriminate|reflexivity]|vm_compute; reflexivity]|].
  split; [vm_compute; reflexivity|]. split; [vm_compute; reflexivity|]. split; [vm_compute; reflexivity|]. split; [vm_compute; reflexivity|].
  split; [vm_compute; discriminate|vm_compute; reflexivity].
Qed.
(** A data set where every user rated every item. *)
Definition rows20 : list trow := [row6 0 "b" 7 3; row6 1 "b" 8 2; row6 2 "c" 7 4; row6 3 "c" 8 5].
Lemma facts7_rows20 : facts7 rows20. Proof. by_facts7. Qed.
Lemma rows20_full t : (forall x, In x [3; 2; 4; 5] -> ~ misses_threshold t (Qc_of_Z x)) ->
  forall u k, ~ negative_pair (obs (trained7 rows20)) (n_distinct "user" (mem7 rows20)) (n_distinct "item" (mem7 rows20)) t u k.
Proof.
  intros H u k (Hu & Hk & D).
  assert (E : obs (trained7 rows20) = map (fun x => (fst x, Qc_of_Z (snd x))) [(0, 0, 3); (0, 1, 2); (1, 0, 4); (1, 1, 5)]) by reflexivity.
  assert (Nu : n_distinct "user" (mem7 rows20) = 2%nat) by (vm_compute; reflexivity).
  assert (Ni : n_distinct "item" (mem7 rows20) = 2%nat) by (vm_compute; reflexivity).
  rewrite E in D. rewrite Nu in Hu. rewrite Ni in Hk. cbn [map fst snd] in D. destruct D as [D|(x & D & M)].
  - assert (Cu : u = 0 \/ u = 1) by lia. assert (Ck : k = 0 \/ k = 1) by lia.
    destruct Cu as [-> | ->], Ck as [-> | ->]; [apply (D (Qc_of_Z 3))|apply (D (Qc_of_Z 2))|apply (D (Qc_of_Z 4))|apply (D (Qc_of_Z 5))]; simpl; auto.
  - assert (Hx : exists z, In z [3; 2; 4; 5] /\ x = Qc_of_Z z).
    { destruct D as [D|[D|[D|[D|[]]]]]; injection D as _ _ <-; eexists; (split; [|reflexivity]); simpl; auto. }
    destruct Hx as (z & Hz & ->). exact (H z Hz M).
Qed.
Example C120_hangs_example : hypotheses19 rows20 None /\ hypotheses19 rows20 (Some (LInt 2)) /\ lit_num (LInt 2) = Some (Qc_of_Z 2) /\
  (forall u k, ~ negative_pair (obs (trained7 rows20)) (n_distinct "user" (mem7 rows20)) (n_distinct "item" (mem7 rows20)) None u k) /\
  (forall u k, ~ negative_pair (obs (trained7 rows20)) (n_distinct "user" (mem7 rows20)) (n_distinct "item" (mem7 rows20)) (Some (LInt 2)) u k) /\
  (1 < (Qc_of_Z 1 + 1) * dd_label draws20 2)%Qc /\ In (1, 1, Qc_of_Z 5) (obs (trained7 rows20)) /\
  (forall f, snd (dmf20 f rows20 None) = None) /\ (forall f, snd (cdae20 f rows20 (LInt 2) (Qc_of_Z 2)) = None).
Proof.
  assert (A : hypotheses19 rows20 None) by (split; [exact facts7_rows20|split; [exact ords7_ok|exact Logic.I]]).
  assert (B : hypotheses19 rows20 (Some (LInt 2))) by (split; [exact facts7_rows20|split; [exact ords7_ok|apply thr19; vm_compute; discriminate]]).
  assert (C : forall u k, ~ negative_pair (obs (trained7 rows20)) (n_distinct "user" (mem7 rows20)) (n_distinct "item" (mem7 rows20)) None u k) by (apply rows20_full; intros x _ []).
  assert (D : forall u k, ~ negative_pair (obs (trained7 rows20)) (n_distinct "user" (mem7 rows20)) (n_distinct "item" (mem7 rows20)) (Some (LInt 2)) u k).
  { apply rows20_full. intros x Hx (th & Et & L). injection Et as <-. apply Qclt_not_le in L. apply L. destruct Hx as [<-|[<-|[<-|[<-|[]]]]]; vm_compute; discriminate. }
  assert (F : (1 < (Qc_of_Z 1 + 1) * dd_label draws20 2)%Qc) by (vm_compute; reflexivity).
  assert (G : In (1, 1, Qc_of_Z 5) (obs (trained7 rows20))).
  { assert (E : obs (trained7 rows20) = map (fun x => (fst x, Qc_of_Z (snd x))) [(0, 0, 3); (0, 1, 2); (1, 0, 4); (1, 1, 5)]) by reflexivity. rewrite E. simpl. auto. }
  split; [exact A|]. split; [exact B|]. split; [reflexivity|]. split; [exact C|]. split; [exact D|]. split; [exact F|]. split; [exact G|]. split; intro f.
  - destruct A as ((A1 & A2 & A3 & A4 & A5) & A6 & A7).
    apply (C120_dmf_hangs disk ords7 _ _ _ 0 _ _ _ _ None (Qc_of_Z 1) draws20 0 0 false 2 3 0 2 f A1 A2 A3 A4 A5 A6 A7 C ltac:(lia) F); [|left; reflexivity].
    exists 1, 1, (Qc_of_Z 5). split; [exact G|exact Logic.I].
  - destruct B as ((A1 & A2 & A3 & A4 & A5) & A6 & A7).
    apply (C120_cdae_hangs disk ords7 _ _ _ 0 _ _ _ _ (LInt 2) (Qc_of_Z 2) (Qc_of_Z 1) draws20 0 (Q2Qc (1 # 4)) rnd19 2 3 0 2 f A1 A2 A3 A4 A5 A6 A7 eq_refl D ltac:(lia) F).
    + exists 1, 1, (Qc_of_Z 5). split; [exact G|vm_compute; discriminate].
    + intro X. apply (f_equal this) in X. vm_compute in X. discriminate.
Qed.
