(** Facts about file programs and the list of temporary files. *)
From Coq Require Import String Ascii.
From Coq Require Import List ZArith QArith Qcanon Bool Lia.
From Verif Require Import Py PyFacts MemModel DbModel CsvModel CsvSpec CsvFacts FileModel FileSpec.
Import ListNotations.
Open Scope string_scope.
Open Scope Z_scope.

(** ** Disks *)
Lemma contents_unlink l p q : assoc String.eqb q (unlink p l) = if String.eqb q p then None else assoc String.eqb q l.
Proof.
  unfold unlink. induction l as [|[x y] l IH]; [cbn; destruct (String.eqb q p); reflexivity|]. cbn [filter fst assoc].
  destruct (String.eqb_spec x p) as [->|E']; cbn [negb].
  - rewrite IH. destruct (String.eqb_spec q p); reflexivity.
  - cbn [assoc]. destruct (String.eqb_spec q x) as [->|E2]; [|exact IH]. destruct (String.eqb_spec x p); [congruence|reflexivity].
Qed.
Lemma contents_put l p t q : assoc String.eqb q (put_file p t l) = if String.eqb q p then Some t else assoc String.eqb q l.
Proof. unfold put_file. cbn [assoc]. destruct (String.eqb_spec q p) as [->|E]; [reflexivity|]. rewrite contents_unlink. destruct (String.eqb_spec q p); [congruence|reflexivity]. Qed.
Lemma contents_write d p t q : contents (perform (Write p t) d) q = if String.eqb q p then Some t else contents d q.
Proof. unfold contents at 1. cbn [perform files]. apply contents_put. Qed.
Lemma contents_append d p t q : contents (perform (Append p t) d) q = if String.eqb q p then Some (old d p ++ t) else contents d q.
Proof. unfold contents at 1. cbn [perform files]. apply contents_put. Qed.
Lemma contents_remove d p q : contents (perform (Remove p) d) q = if String.eqb q p then None else contents d q.
Proof. unfold contents at 1. cbn [perform files]. apply contents_unlink. Qed.
Lemma contents_rename d p r q : contents (perform (Rename p r) d) q =
  match contents d p with
  | Some t => if String.eqb q r then Some t else if String.eqb q p then None else contents d q
  | None => contents d q
  end.
Proof.
  cbn [perform]. destruct (contents d p) as [t|]; [|reflexivity]. unfold contents at 1. cbn [files].
  rewrite contents_put. destruct (String.eqb q r); [reflexivity|]. apply contents_unlink.
Qed.
Lemma contents_mkdir d p q : contents (perform (MkDir p) d) q = contents d q.
Proof. reflexivity. Qed.
Lemma contents_rmdir d p q : contents (perform (RmDir p) d) q = contents d q.
Proof. reflexivity. Qed.
Lemma run_performs {A} os (p : prog A) : forall d, complete_run (performs os p) d = complete_run p (fold_left (fun d o => perform o d) os d).
Proof. induction os as [|o os IH]; intro d; [reflexivity|]. cbn. apply IH. Qed.

(** ** strip() *)
Lemma app_assoc_s s t u : (s ++ t) ++ u = s ++ (t ++ u).
Proof. induction s as [|a s IH]; cbn; congruence. Qed.
Lemma rev_acc s : forall acc, rev_string s acc = rev_string s "" ++ acc.
Proof.
  induction s as [|a s IH]; intro acc; [reflexivity|]. cbn [rev_string]. rewrite IH, (IH (String a "")), app_assoc_s. reflexivity.
Qed.
Lemma rev_app s : forall t, rev_string (s ++ t) "" = rev_string t "" ++ rev_string s "".
Proof.
  induction s as [|a s IH]; intro t; [cbn; rewrite app_empty_r; reflexivity|]. cbn [append rev_string].
  rewrite rev_acc, IH, (rev_acc s (String a "")). rewrite app_assoc_s. reflexivity.
Qed.
Lemma rev_rev s : rev_string (rev_string s "") "" = s.
Proof.
  induction s as [|a s IH]; [reflexivity|]. cbn [rev_string]. rewrite (rev_acc s (String a "")), rev_app, IH. reflexivity.
Qed.
Lemma lstrip_keep f s : (forall a u, s = String a u -> f a = false) -> lstrip f s = s.
Proof. destruct s as [|a s]; [reflexivity|]. intro H. cbn [lstrip]. rewrite (H a s eq_refl). reflexivity. Qed.
Lemma rev_first s a u : rev_string s "" = String a u -> s = rev_string u "" ++ String a "".
Proof. intro E. rewrite <- (rev_rev s), E. cbn [rev_string]. apply rev_acc. Qed.
(** a line of the list, without its newline *)
Lemma strip_line f p : f newline = true -> (forall a s, p = String a s -> f a = false) -> (forall a s, p = s ++ String a "" -> f a = false) ->
  strip f (with_newline p) = p.
Proof.
  intros N H1 H2. unfold strip, with_newline. destruct p as [|a p].
  - cbn. rewrite N. reflexivity.
  - rewrite (lstrip_keep f (String a p ++ String newline "")).
    2: { intros b u E. cbn in E. injection E as <- _. eapply H1. reflexivity. }
    rewrite rev_app. change (rev_string (String newline "") "" ++ rev_string (String a p) "") with (String newline (rev_string (String a p) "")).
    cbn [lstrip]. rewrite N.
    rewrite lstrip_keep; [apply (rev_rev (String a p))|]. intros b u E. apply rev_first in E. eapply H2. exact E.
Qed.
Lemma str_no_first c p a s : str_no c p -> p = String a s -> a <> c.
Proof. intros H ->. destruct H. auto. Qed.
Lemma str_no_last c p a s : str_no c p -> p = s ++ String a "" -> a <> c.
Proof. intros H ->. induction s as [|b s IH]; cbn in H; [tauto|]. apply IH. tauto. Qed.
Lemma strip_newline p : one_line p -> strip (fun c => Ascii.eqb c nl) (with_newline p) = p.
Proof.
  intros [N _]. apply strip_line; [reflexivity| |].
  - intros a s E. apply Ascii.eqb_neq. exact (str_no_first newline p a s N E).
  - intros a s E. apply Ascii.eqb_neq. exact (str_no_last newline p a s N E).
Qed.
Lemma blank_in a : blank a = existsb (Ascii.eqb a) blanks.
Proof. destruct a as [b0 b1 b2 b3 b4 b5 b6 b7]; destruct b0, b1, b2, b3, b4, b5, b6, b7; vm_compute; reflexivity. Qed.
Lemma strip_blanks p : trimmed p -> strip blank (with_newline p) = p.
Proof.
  intros [H1 H2].
  assert (G : forall a, ~ In a blanks -> blank a = false).
  { intros a N. rewrite blank_in. destruct (existsb (Ascii.eqb a) blanks) eqn:E; [|reflexivity]. destruct N. apply existsb_exists in E.
    destruct E as (x & Hx & Ex). apply Ascii.eqb_eq in Ex. subst. exact Hx. }
  apply strip_line; [reflexivity| |]; intros a s E; apply G; eauto.
Qed.

(** ** The list *)
Definition list_text (l : list string) : string := String.concat "" (map with_newline l).
Definition list_file (l : list string) : option string := match l with [] => None | _ => Some (list_text l) end.
Lemma lines_list l : Forall one_line l -> lines (list_text l) = map with_newline l.
Proof.
  unfold list_text. induction l as [|p l IH]; intro F; [reflexivity|]. inversion F as [|? ? [N _] F']; subst. cbn [map]. rewrite concat_cons.
  rewrite lines_app_newline by exact N. rewrite IH by exact F'. reflexivity.
Qed.
Lemma list_text_app l p : list_text (l ++ [p])%list = list_text l ++ with_newline p.
Proof.
  unfold list_text. induction l as [|x l IH]; [cbn; reflexivity|]. cbn [map app]. rewrite !concat_cons, IH. rewrite app_assoc_s. reflexivity.
Qed.
Lemma filter_map {A B} (h : A -> B) f (l : list A) : filter f (map h l) = map h (filter (fun x => f (h x)) l).
Proof. induction l as [|a l IH]; [reflexivity|]. cbn. destruct (f (h a)); cbn; rewrite IH; reflexivity. Qed.

(** The list file on the disk says which paths are listed. *)
Definition lists (d : disk) (l : list string) : Prop := contents d tmp_list = list_file l.

Lemma register_once d l p : lists d l -> Forall one_line l ->
  let r := complete_run (tprog (Register p)) d in
  lists (fst r) (l ++ [p])%list /\ snd r = Some (Ok tt) /\ forall q, q <> tmp_list -> contents (fst r) q = contents d q.
Proof.
  intros L F. cbn [tprog register_temp complete_run fst snd]. split; [|split; [reflexivity|]].
  - unfold lists. rewrite contents_append, String.eqb_refl. unfold old. rewrite L.
    destruct l as [|x l]; [reflexivity|]. cbn [list_file app]. change (x :: l ++ [p])%list with ((x :: l) ++ [p])%list. rewrite list_text_app. reflexivity.
  - intros q N. rewrite contents_append. destruct (String.eqb_spec q tmp_list); [congruence|reflexivity].
Qed.
Lemma unregister_once d l p : lists d l -> Forall one_line l ->
  let r := complete_run (tprog (Unregister p)) d in
  lists (fst r) (filter (fun q => negb (String.eqb q p)) l) /\
  snd r = Some (if match l with [] => true | _ => false end then Err FileNotFoundError else Ok tt) /\
  forall q, q <> tmp_list -> contents (fst r) q = contents d q.
Proof.
  intros L F. cbn [tprog]. unfold unregister_temp. cbn [complete_run]. unfold lists in *. rewrite L.
  destruct l as [|x l].
  - cbn [list_file complete_run fst snd filter]. auto.
  - cbn [list_file]. rewrite lines_list by exact F. rewrite filter_map.
    rewrite (filter_ext_in (fun y => negb (String.eqb (strip (fun c => Ascii.eqb c nl) (with_newline y)) p)) (fun y => negb (String.eqb y p))).
    2: { intros y Hy. rewrite Forall_forall in F. rewrite strip_newline by auto. reflexivity. }
    destruct (filter (fun y => negb (String.eqb y p)) (x :: l)) as [|y k].
    + cbn [map complete_run fst snd]. split; [|split; [reflexivity|]].
      * rewrite contents_remove, String.eqb_refl. reflexivity.
      * intros q N. rewrite contents_remove, contents_write. destruct (String.eqb_spec q tmp_list); [congruence|reflexivity].
    + cbn [map complete_run fst snd]. split; [|split; [reflexivity|]].
      * rewrite contents_write, String.eqb_refl. reflexivity.
      * intros q N. rewrite contents_write. destruct (String.eqb_spec q tmp_list); [congruence|reflexivity].
Qed.
Lemma list_after_in l c q : In q (list_after l c) -> In q l \/ q = tpath c.
Proof.
  destruct c as [p|p]; cbn.
  - rewrite in_app_iff. cbn. intuition.
  - intro H. apply filter_In in H. tauto.
Qed.
Lemma calls_list h : forall d l, lists d l -> Forall one_line l -> Forall (fun c => one_line (tpath c)) h ->
  lists (after_calls d h) (fold_left list_after h l) /\ Forall one_line (fold_left list_after h l) /\
  forall q, q <> tmp_list -> contents (after_calls d h) q = contents d q.
Proof.
  induction h as [|c h IH]; intros d l L F H; [repeat split; auto|]. inversion H as [|? ? Hc Hh]; subst. cbn [after_calls fold_left].
  assert (F' : Forall one_line (list_after l c)).
  { apply Forall_forall. intros q Hq. destruct (list_after_in l c q Hq) as [Hq'| ->]; [rewrite Forall_forall in F; auto|exact Hc]. }
  assert (L' : lists (fst (complete_run (tprog c) d)) (list_after l c) /\ forall q, q <> tmp_list -> contents (fst (complete_run (tprog c) d)) q = contents d q).
  { destruct c as [p|p].
    - destruct (register_once d l p L F) as (? & ? & ?). auto.
    - destruct (unregister_once d l p L F) as (? & ? & ?). auto. }
  destruct L' as [L' O']. destruct (IH _ _ L' F' Hh) as (A & B & C). split; [exact A|]. split; [exact B|].
  intros q N. fold (after_calls (fst (complete_run (tprog c) d)) h). rewrite C by exact N. auto.
Qed.

Lemma removes_contents ps : forall d q, contents (fold_left (fun d o => perform o d) (map Remove ps) d) q = if in_list q ps then None else contents d q.
Proof.
  induction ps as [|p ps IH]; intros d q; [reflexivity|]. cbn [map fold_left in_list existsb]. rewrite IH, contents_remove. fold (in_list q ps).
  destruct (in_list q ps), (String.eqb q p); reflexivity.
Qed.
Lemma in_list_true q l : in_list q l = true <-> In q l.
Proof.
  unfold in_list. rewrite existsb_exists. split.
  - intros (x & Hx & E). apply String.eqb_eq in E. subst. exact Hx.
  - intro H. exists q. split; [exact H|]. apply String.eqb_refl.
Qed.
Lemma delete_list d l : lists d l -> Forall one_line l -> Forall trimmed l ->
  let r := complete_run delete_temps d in
  snd r = Some (Ok tt) /\ contents (fst r) tmp_list = None /\
  (forall q, In q l -> contents (fst r) q = None) /\
  (forall q, q <> tmp_list -> ~ In q l -> contents (fst r) q = contents d q).
Proof.
  intros L F T. unfold delete_temps. cbn [complete_run]. unfold lists in L. rewrite L. destruct l as [|x l].
  - cbn [list_file complete_run fst snd]. repeat split; auto. intros q [].
  - cbn [list_file]. rewrite lines_list by exact F. rewrite map_map.
    rewrite (map_ext_in (fun y => Remove (strip blank (with_newline y))) Remove).
    2: { intros y Hy. rewrite Forall_forall in T. rewrite strip_blanks by auto. reflexivity. }
    rewrite run_performs. cbn [complete_run fst snd]. split; [reflexivity|]. split; [|split].
    + rewrite contents_remove, String.eqb_refl. reflexivity.
    + intros q Hq. rewrite contents_remove. destruct (String.eqb q tmp_list); [reflexivity|]. rewrite removes_contents.
      apply in_list_true in Hq. rewrite Hq. reflexivity.
    + intros q N Hq. rewrite contents_remove. destruct (String.eqb_spec q tmp_list); [congruence|]. rewrite removes_contents.
      destruct (in_list q (x :: l)) eqn:E; [|reflexivity]. apply in_list_true in E. contradiction.
Qed.

(** ** Saving a database *)
Lemma tmp_other p : p ++ ".tmp" <> p.
Proof. induction p as [|a p IH]; [discriminate|]. cbn. intro E. injection E as E. auto. Qed.
Lemma save_run p text d : let r := complete_run (save_sqlite p text) d in
  snd r = Some (Ok tt) /\ contents (fst r) p = Some text /\ contents (fst r) (p ++ ".tmp") = None /\
  forall q, q <> p -> q <> p ++ ".tmp" -> contents (fst r) q = contents d q.
Proof.
  unfold save_sqlite. cbn [complete_run]. rewrite run_performs. cbn [complete_run]. rewrite run_performs.
  set (d1 := fold_left _ _ d). set (d2 := perform (Write _ _) d1). set (d3 := fold_left _ _ d2).
  assert (E1 : forall q, q <> p ++ ".tmp" -> contents d1 q = contents d q).
  { intros q N. subst d1. destruct (contents d (p ++ ".tmp")); cbn [fold_left]; [|reflexivity]. rewrite contents_remove.
    destruct (String.eqb_spec q (p ++ ".tmp")); [congruence|reflexivity]. }
  assert (E3 : forall q, q <> p -> contents d3 q = contents d2 q).
  { intros q N. subst d3. destruct (contents d2 p); cbn [fold_left]; [|reflexivity]. rewrite contents_remove.
    destruct (String.eqb_spec q p); [congruence|reflexivity]. }
  assert (E3' : contents d3 (p ++ ".tmp") = Some text).
  { rewrite E3 by apply tmp_other. subst d2. rewrite contents_write, String.eqb_refl. reflexivity. }
  cbn [complete_run fst snd]. split; [reflexivity|]. split; [|split].
  - rewrite contents_rename, E3', String.eqb_refl. reflexivity.
  - rewrite contents_rename, E3'. destruct (String.eqb_spec (p ++ ".tmp") p) as [E|_]; [destruct (tmp_other p E)|]. rewrite String.eqb_refl. reflexivity.
  - intros q N1 N2. rewrite contents_rename, E3'. destruct (String.eqb_spec q p); [congruence|]. destruct (String.eqb_spec q (p ++ ".tmp")); [congruence|].
    rewrite E3 by exact N1. subst d2. rewrite contents_write. destruct (String.eqb_spec q (p ++ ".tmp")); [congruence|]. apply E1. exact N2.
Qed.
Lemma torn_write p text d cut o d' : option_map (fun x => (Some (fst x), snd x)) (torn (Write p text) d cut) = Some (o, d') ->
  exists part, d' = perform (Write p part) d /\ o = Some p.
Proof. cbn [torn]. destruct (prefix_b cut text); cbn; intro E; inversion E; subst. exists cut. auto. Qed.
(** killed at any point: the file holds the old text, the new text, or is
    missing - and then the new text is under the temporary name *)
Lemma save_killed p text d n cut o d' : killed (save_sqlite p text) n cut d = Some (o, d') ->
  (contents d' p = contents d p \/ contents d' p = Some text \/ (contents d' p = None /\ contents d' (p ++ ".tmp") = Some text)) /\
  (forall q, q <> p -> q <> p ++ ".tmp" -> contents d' q = contents d q) /\
  (o = None \/ o = Some (p ++ ".tmp")).
Proof.
  intro K.
  assert (G : forall d0 n0, (forall q, q <> p ++ ".tmp" -> contents d0 q = contents d q) ->
    killed (Do (Write (p ++ ".tmp") text) (See (fun d' => performs (match contents d' p with Some _ => [Remove p] | None => [] end)
                           (Do (Rename (p ++ ".tmp") p) (Ret (Ok tt)))))) n0 cut d0 = Some (o, d') ->
    (contents d' p = contents d p \/ contents d' p = Some text \/ (contents d' p = None /\ contents d' (p ++ ".tmp") = Some text)) /\
    (forall q, q <> p -> q <> p ++ ".tmp" -> contents d' q = contents d q) /\ (o = None \/ o = Some (p ++ ".tmp"))).
  { intros d0 n0 E0 K0. assert (NT := tmp_other p). destruct n0 as [|n0].
    { cbn [killed] in K0. destruct cut as [cut|].
      - apply torn_write in K0. destruct K0 as (part & -> & ->). rewrite contents_write. destruct (String.eqb_spec p (p ++ ".tmp")); [congruence|].
        rewrite E0 by congruence. split; [auto|]. split; [|auto]. intros q N1 N2. rewrite contents_write. destruct (String.eqb_spec q (p ++ ".tmp")); [congruence|]. auto.
      - inversion K0; subst. split; [rewrite E0 by congruence; auto|]. auto. }
    cbn [killed] in K0. set (d2 := perform _ d0) in *.
    assert (E2 : forall q, q <> p ++ ".tmp" -> contents d2 q = contents d q).
    { intros q N. subst d2. rewrite contents_write. destruct (String.eqb_spec q (p ++ ".tmp")); [congruence|]. auto. }
    assert (E2' : contents d2 (p ++ ".tmp") = Some text) by (subst d2; rewrite contents_write, String.eqb_refl; reflexivity).
    assert (R : forall d3 n3, (contents d3 p = None \/ contents d3 p = contents d p) -> contents d3 (p ++ ".tmp") = Some text ->
      (forall q, q <> p -> q <> p ++ ".tmp" -> contents d3 q = contents d q) ->
      killed (Do (Rename (p ++ ".tmp") p) (Ret (Ok tt))) n3 cut d3 = Some (o, d') ->
      (contents d' p = contents d p \/ contents d' p = Some text \/ (contents d' p = None /\ contents d' (p ++ ".tmp") = Some text)) /\
      (forall q, q <> p -> q <> p ++ ".tmp" -> contents d' q = contents d q) /\ (o = None \/ o = Some (p ++ ".tmp"))).
    { intros d3 n3 A B C K3. destruct n3 as [|n3].
      - cbn [killed torn] in K3. destruct cut; [discriminate|]. inversion K3; subst. split; [|auto]. destruct A; auto.
      - cbn [killed] in K3. destruct n3; [|discriminate]. destruct cut; [discriminate|]. 
        assert (D : d' = perform (Rename (p ++ ".tmp") p) d3) by congruence. assert (o = None) by congruence. rewrite D. split; [|split; [|auto]].
        + right. left. rewrite contents_rename, B, String.eqb_refl. reflexivity.
        + intros q N1 N2. rewrite contents_rename, B. destruct (String.eqb_spec q p); [congruence|]. destruct (String.eqb_spec q (p ++ ".tmp")); [congruence|]. auto. }
    destruct (contents d2 p) eqn:E; cbn [performs] in K0.
    - destruct n0 as [|n0].
      + cbn [killed torn] in K0. destruct cut; [discriminate|]. inversion K0; subst. rewrite <- (E2 p) by congruence. split; [|auto]. auto.
      + cbn [killed] in K0. eapply R; [| | |exact K0].
        * left. rewrite contents_remove, String.eqb_refl. reflexivity.
        * rewrite contents_remove. destruct (String.eqb_spec (p ++ ".tmp") p); [congruence|exact E2'].
        * intros q N1 N2. rewrite contents_remove. destruct (String.eqb_spec q p); [congruence|auto].
    - eapply R; [| | |exact K0]; auto. }
  unfold save_sqlite in K. cbn [killed] in K. destruct (contents d (p ++ ".tmp")) eqn:E; cbn [performs] in K.
  - destruct n as [|n].
    + cbn [killed torn] in K. destruct cut; [discriminate|]. inversion K; subst. auto.
    + cbn [killed] in K. eapply G; [|exact K]. intros q N. rewrite contents_remove. destruct (String.eqb_spec q (p ++ ".tmp")); [congruence|reflexivity].
  - eapply G; [|exact K]. auto.
Qed.
