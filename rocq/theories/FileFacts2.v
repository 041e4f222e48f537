(** Facts about the files of built-in data sets: what every history of calls and
    kills leaves on the disk. *)
From Coq Require Import String Ascii.
From Coq Require Import List ZArith QArith Qcanon Bool Lia.
From Verif Require Import Py PyFacts MemModel MemSpec DbModel CsvModel CsvSpec CsvFacts CsvFacts4 Conc SplitModel SplitSpec SplitFacts4 FileModel FileSpec FileFacts.
Import ListNotations.
Open Scope string_scope.
Open Scope Z_scope.

(** ** Programs that keep an invariant, killed or not *)
Section Inv.
Context {A : Type}.
Variable I : disk -> Prop.
Variable H : string -> Prop.       (* the files whose writing must not be interrupted *)
Fixpoint keeps (Q : disk -> res A -> Prop) (p : prog A) (d : disk) : Prop :=
  match p with
  | Ret r => I d /\ Q d r
  | Hang => I d
  | Do o k => I d /\ (forall part q d', torn o d part = Some (q, d') -> ~ H q -> I d') /\ keeps Q k (perform o d)
  | See k => keeps Q (k d) d
  end.
Lemma keeps_run Q p : forall d d' r, keeps Q p d -> complete_run p d = (d', Some r) -> I d' /\ Q d' r.
Proof.
  induction p as [r0| |o k IH|k IH]; intros d d' r K E; cbn in K, E.
  - injection E as <- <-. exact K.
  - discriminate.
  - eapply IH; [|exact E]. tauto.
  - eapply IH; [|exact E]. exact K.
Qed.
Lemma keeps_killed Q p : forall d n cut hurt d', keeps Q p d -> killed p n cut d = Some (hurt, d') ->
  (forall q, hurt = Some q -> ~ H q) -> I d'.
Proof.
  induction p as [r0| |o k IH|k IH]; intros d n cut hurt d' K E N; cbn [keeps killed] in K, E.
  - destruct n, cut; try discriminate. injection E as <- <-. tauto.
  - destruct n, cut; try discriminate. injection E as <- <-. exact K.
  - destruct K as (K1 & K2 & K3). destruct n as [|n].
    + destruct cut as [part|].
      * destruct (torn o d part) as [[q d1]|] eqn:Et; [|discriminate]. cbn in E. injection E as <- <-. apply (K2 part q d1 Et). apply N. reflexivity.
      * injection E as <- <-. exact K1.
    + eapply IH; eauto.
  - eapply IH; eauto.
Qed.
Lemma keeps_weaken (Q Q' : disk -> res A -> Prop) p : (forall d r, I d -> Q d r -> Q' d r) -> forall d, keeps Q p d -> keeps Q' p d.
Proof. intro W. induction p as [r| |o k IH|k IH]; intros d K; cbn in *; try tauto; firstorder. Qed.
End Inv.
Lemma keeps_bind {A B} (I : disk -> Prop) (H : string -> Prop) (Q : disk -> res A -> Prop) (Q' : disk -> res B -> Prop) p f : 
  (forall d a, I d -> Q d (Ok a) -> keeps I H Q' (f a) d) -> (forall d e, I d -> Q d (Err e) -> Q' d (Err e)) ->
  forall d, keeps I H Q p d -> keeps I H Q' (pbind p f) d.
Proof.
  intros F E. induction p as [[a|e]| |o k IH|k IH]; intros d K; cbn in K |- *.
  - destruct K. auto.
  - destruct K. auto.
  - exact K.
  - destruct K as (? & ? & ?). auto.
  - auto.
Qed.

Lemma str_no_app_inv c s t : str_no c (s ++ t) -> str_no c s /\ str_no c t.
Proof. induction s as [|a s IH]; cbn; intuition. Qed.
Lemma app_same s : forall t u : string, s ++ t = s ++ u -> t = u.
Proof. induction s as [|a s IH]; intros t u E; [exact E|]. cbn in E. injection E as E. auto. Qed.
Lemma app_longer s : forall t a, s ++ String a t <> s.
Proof. induction s as [|b s IH]; intros t a E; [discriminate|]. cbn in E. injection E as E. exact (IH _ _ E). Qed.
Lemma eqb_no a b : a <> b -> String.eqb a b = false.
Proof. intro N. destruct (String.eqb_spec a b); [contradiction|reflexivity]. Qed.
Lemma drop_prefix_some a : forall b f, drop_prefix a b = Some f <-> b = a ++ f.
Proof.
  induction a as [|x a IH]; intros b f; cbn [drop_prefix append].
  - split; [intro E; injection E as ->; reflexivity|intros ->; reflexivity].
  - destruct b as [|y b]; [split; discriminate|]. destruct (Ascii.eqb_spec x y) as [->|N].
    + rewrite IH. split; [intros ->; reflexivity|]. intro E. injection E. auto.
    + split; [discriminate|]. intro E. injection E as E1 E2. congruence.
Qed.
Lemma listing_in dir l f : In f (listing dir l) <-> exists t, In (dir ++ "/" ++ f, t) l.
Proof.
  induction l as [|[p t] l IH]; cbn [listing]; [split; [intros []|intros (t & [])]|].
  destruct (drop_prefix (dir ++ "/") p) as [x|] eqn:E.
  - apply drop_prefix_some in E. rewrite app_assoc_s in E. subst p. cbn [In]. rewrite IH. split.
    + intros [->|(t' & Ht)]; [exists t; auto|exists t'; auto].
    + intros (t' & [Et|Ht]); [left|right; eauto]. injection Et as Et _. apply app_same in Et. apply (app_same "/") in Et. auto.
  - rewrite IH. split; [intros (t' & Ht); exists t'; right; exact Ht|]. intros (t' & [Et|Ht]); [|eauto]. injection Et as Ep _.
    assert (D : drop_prefix (dir ++ "/") p = Some f) by (apply drop_prefix_some; rewrite app_assoc_s; exact Ep). rewrite D in E. discriminate.
Qed.
Lemma contents_in d p t : In (p, t) (files d) -> contents d p <> None.
Proof.
  unfold contents. induction (files d) as [|[x y] l IH]; [intros []|]. intros [E|Hin]; cbn [assoc].
  - injection E as -> ->. rewrite String.eqb_refl. discriminate.
  - destruct (String.eqb p x); [discriminate|auto].
Qed.
Lemma in_contents d p t : contents d p = Some t -> In (p, t) (files d).
Proof.
  unfold contents. induction (files d) as [|[x y] l IH]; [discriminate|]. cbn [assoc].
  destruct (String.eqb_spec p x) as [->|N]; [intro E; injection E as ->; left; reflexivity|right; auto].
Qed.

Lemma assoc_member {B} (l : list (string * B)) x t : NoDup (map fst l) -> In (x, t) l -> assoc String.eqb x l = Some t.
Proof.
  induction l as [|[a b] l IH]; intros ND Hin; [destruct Hin|]. cbn [map fst] in ND. inversion ND as [|? ? N ND']; subst. cbn [assoc].
  destruct Hin as [E|Hin]; [injection E as -> ->; rewrite String.eqb_refl; reflexivity|].
  destruct (String.eqb_spec x a) as [->|Na]; [|auto]. destruct N. apply in_map_iff. exists (a, t). auto.
Qed.

Section Files.
Variable unzip : string -> option (list (string * string)).
Variable arrange : list string -> list string.
Variable g : config.
Variable data : string.
Variable members : list (string * string).
Variable T1 T2 : string.           (* the generated files *)
Hypothesis Hnames : names_ok g members.
Hypothesis Hunpack : unpacks unzip g data members.
Hypothesis Harrange : forall l x, In x (arrange l) <-> In x l.
Hypothesis Hslash : str_no "/" (g_name g).

Notation root x := (path_of g x).
Definition roots_ok (d : disk) : Prop := forall x t, In (x, t) members -> contents d (root x) = None \/ contents d (root x) = Some t.
Definition gens_ok (d : disk) : Prop :=
  (contents d (train_gen g) = None \/ contents d (train_gen g) = Some T1) /\ (contents d (test_gen g) = None \/ contents d (test_gen g) = Some T2).
Definition stored (d : disk) : Prop := is_dir d (g_name g) = true /\ roots_ok d /\ gens_ok d.
Definition full (d : disk) : Prop := stored d /\ forall x t, In (x, t) members -> contents d (root x) = Some t.
Definition K (d : disk) : Prop := nothing_stored g d \/ stored d.
Definition H (p : string) : Prop := important g members p.

Lemma root_eq x y : root x = root y -> x = y.
Proof. unfold path_of, join. intro E. apply app_same in E. apply (app_same "/") in E. exact E. Qed.
Lemma root_ne x y : x <> y -> String.eqb (root x) (root y) = false.
Proof. intro N. apply eqb_no. intro E. apply N. apply root_eq. exact E. Qed.
Lemma member_slash x t : In (x, t) members -> str_no "/" x.
Proof. intro Hin. destruct Hnames as [_ N]. apply (N x). apply in_map_iff. exists (x, t). auto. Qed.
Lemma slash_no f x y : str_no "/" y -> f ++ "/" ++ x <> y.
Proof. intros N E. subst y. apply str_no_app_inv in N. destruct N as [_ N]. cbn in N. tauto. Qed.
Lemma gen_slash s : str_no "/" s -> str_no "/" (g_name g ++ s).
Proof. intro N. apply str_no_app; auto. Qed.
Lemma train_test : g_name g ++ "_train.gen" <> g_name g ++ "_test.gen".
Proof. intro E. apply app_same in E. discriminate. Qed.
Lemma zip_gen s : g_name g ++ "_" ++ s <> "tmp.zip".
Proof.
  intro E. assert (N : str_no "_" "tmp.zip") by (cbn; intuition discriminate). rewrite <- E in N. apply str_no_app_inv in N. destruct N as [_ N]. cbn in N. tauto.
Qed.

(** the paths that are not important *)
Definition aside (p : string) : Prop := (forall x t, In (x, t) members -> root x <> p) /\ train_gen g <> p /\ test_gen g <> p.
Lemma aside_not_H p : aside p -> ~ H p.
Proof.
  intros (A & B & C) (x & -> & [Hx|[->| ->]]).
  - apply in_map_iff in Hx. destruct Hx as ([x' t] & E & Hx). cbn in E. subst x'. exact (A x t Hx eq_refl).
  - apply B. reflexivity.
  - apply C. reflexivity.
Qed.
Lemma zip_aside : aside (tmp_zip g).
Proof.
  unfold tmp_zip. split; [|split].
  - intros x t Hx E. apply root_eq in E. destruct Hnames as [_ N]. destruct (N x) as (_ & Nx & _); [apply in_map_iff; exists (x, t); auto|]. auto.
  - intro E. apply root_eq in E. exact (zip_gen _ E).
  - intro E. apply root_eq in E. exact (zip_gen _ E).
Qed.
Lemma sub_aside f x : aside (root (f ++ "/" ++ x)).
Proof.
  split; [|split].
  - intros y t Hy E. apply root_eq in E. symmetry in E. exact (slash_no f x y (member_slash y t Hy) E).
  - intro E. apply root_eq in E. symmetry in E. revert E. apply slash_no. apply gen_slash. cbn. intuition discriminate.
  - intro E. apply root_eq in E. symmetry in E. revert E. apply slash_no. apply gen_slash. cbn. intuition discriminate.
Qed.
Lemma stored_same d d' : is_dir d' (g_name g) = true -> stored d ->
  (forall p, ~ aside p -> contents d' p = contents d p) -> stored d'.
Proof.
  intros Hd (_ & R & G) S. split; [exact Hd|]. split.
  - intros x t Hx. rewrite S; [auto|]. intros (A & _). exact (A x t Hx eq_refl).
  - split; rewrite S; try apply G; intros (A & B & C); congruence.
Qed.
Lemma write_aside d p t : aside p -> stored d -> stored (perform (Write p t) d).
Proof.
  intros A S. apply (stored_same d); [apply S|exact S|]. intros q Nq. rewrite contents_write. destruct (String.eqb_spec q p) as [->|]; [contradiction|reflexivity].
Qed.
Lemma remove_aside d p : aside p -> stored d -> stored (perform (Remove p) d).
Proof.
  intros A S. apply (stored_same d); [apply S|exact S|]. intros q Nq. rewrite contents_remove. destruct (String.eqb_spec q p) as [->|]; [contradiction|reflexivity].
Qed.
Lemma mkdir_stored d p : stored d -> stored (perform (MkDir p) d).
Proof.
  intros S. apply (stored_same d); [|exact S|reflexivity]. unfold is_dir, in_list. cbn [perform dirs existsb]. destruct S as [S _]. unfold is_dir, in_list in S. rewrite S. apply orb_true_r.
Qed.
Lemma rmdir_stored d p : p <> g_name g -> stored d -> stored (perform (RmDir p) d).
Proof.
  intros N S. apply (stored_same d); [|exact S|reflexivity]. unfold is_dir. apply in_list_true. cbn [perform dirs]. apply filter_In. destruct S as [S _].
  apply in_list_true in S. split; [exact S|]. destruct (String.eqb_spec (g_name g) p); [congruence|reflexivity].
Qed.
Lemma torn_write_aside d p t part q d' : aside p -> stored d -> torn (Write p t) d part = Some (q, d') -> stored d'.
Proof.
  intros A S. cbn [torn]. destruct (prefix_b part t); [|discriminate]. intro E. injection E as <- <-. exact (write_aside d p part A S).
Qed.

(** ** Moving the files out of the folder *)
Section Folder.
Variable f : string.
Notation sub x := (join (root f) x).
Lemma sub_root x : sub x = root (f ++ "/" ++ x).
Proof. unfold path_of, join. rewrite !app_assoc_s. reflexivity. Qed.
Definition subs_ok (d : disk) : Prop := forall x t, In (x, t) members -> contents d (sub x) = None \/ contents d (sub x) = Some t.
Lemma sub_eq x y : sub x = sub y -> x = y.
Proof. rewrite !sub_root. intro E. apply root_eq in E. apply app_same in E. apply (app_same "/") in E. exact E. Qed.
Lemma root_sub x y : str_no "/" x -> root x <> sub y.
Proof. intros N. rewrite sub_root. intro E. apply root_eq in E. symmetry in E. exact (slash_no f y x N E). Qed.

Lemma rename_step d x t : In (x, t) members -> stored d -> subs_ok d ->
  let d' := perform (Rename (sub x) (root x)) d in stored d' /\ subs_ok d' /\
  (forall y u, In (y, u) members -> contents d (root y) = Some u \/ (y = x /\ contents d (sub y) = Some u) -> contents d' (root y) = Some u) /\
  (forall y, str_no "/" y -> y <> x -> contents d' (sub y) = contents d (sub y)).
Proof.
  intros Hx S B d'. assert (C : forall q, contents d' q = match contents d (sub x) with
    | Some t => if String.eqb q (root x) then Some t else if String.eqb q (sub x) then None else contents d q | None => contents d q end)
    by (intro q; apply contents_rename).
  assert (Dir : dirs d' = dirs d) by (subst d'; cbn [perform]; destruct (contents d (sub x)); reflexivity).
  assert (U : forall y u, In (y, u) members -> y = x -> u = t).
  { intros y u Hy ->. destruct Hnames as [ND _]. clear - ND Hx Hy. induction members as [|[a b] l IH]; [destruct Hx|]. cbn [map fst] in ND. inversion ND as [|? ? N ND']; subst.
    destruct Hx as [E|Hx], Hy as [E'|Hy]; try congruence.
    - injection E as -> ->. destruct N. apply in_map_iff. exists (x, u). auto.
    - injection E' as -> ->. destruct N. apply in_map_iff. exists (x, t). auto.
    - auto. }
  assert (Nx := member_slash x t Hx).
  destruct (contents d (sub x)) as [s|] eqn:Es.
  - assert (s = t) by (destruct (B x t Hx); congruence). subst s. split; [|split; [|split]].
    + destruct S as (S1 & S2 & S3 & S4). split; [unfold is_dir; rewrite Dir; exact S1|]. split; [|split].
      * intros y u Hy. rewrite C. destruct (String.eqb_spec (root y) (root x)) as [E|E]; [apply root_eq in E; rewrite (U y u Hy E); auto|].
        rewrite eqb_no by (apply root_sub; exact (member_slash y u Hy)). auto.
      * rewrite C. rewrite eqb_no.
        2: { intro E. unfold train_gen in E. apply root_eq in E. destruct Hnames as [_ N]. destruct (N x) as (_ & _ & Nt & _); [apply in_map_iff; exists (x, t); auto|]. auto. }
        rewrite eqb_no by (apply root_sub; apply gen_slash; cbn; intuition discriminate). exact S3.
      * rewrite C. rewrite eqb_no.
        2: { intro E. unfold test_gen in E. apply root_eq in E. destruct Hnames as [_ N]. destruct (N x) as (_ & _ & _ & Nt); [apply in_map_iff; exists (x, t); auto|]. auto. }
        rewrite eqb_no by (apply root_sub; apply gen_slash; cbn; intuition discriminate). exact S4.
    + intros y u Hy. rewrite C. rewrite eqb_no by (intro E; symmetry in E; revert E; apply root_sub; exact Nx).
      destruct (String.eqb (sub y) (sub x)); auto.
    + intros y u Hy Hc. rewrite C. destruct (String.eqb_spec (root y) (root x)) as [E|E]; [apply root_eq in E; rewrite (U y u Hy E); reflexivity|].
      rewrite eqb_no by (apply root_sub; exact (member_slash y u Hy)). destruct Hc as [Hc|[-> _]]; [exact Hc|congruence].
    + intros y _ Ny. rewrite C. rewrite eqb_no by (intro E; symmetry in E; revert E; apply root_sub; exact Nx).
      rewrite eqb_no by (intro E; apply sub_eq in E; contradiction). reflexivity.
  - split; [|split; [|split]].
    + apply (stored_same d); [unfold is_dir; rewrite Dir; apply S|exact S|intros q _; apply C].
    + intros y u Hy. rewrite C. auto.
    + intros y u Hy [Hc|[-> Hc]]; [rewrite C; exact Hc|congruence].
    + intros y _ _. apply C.
Qed.
(** each file is in its place or in the folder and still to be moved *)
Definition to_move (xs : list string) (d : disk) : Prop :=
  forall x t, In (x, t) members -> contents d (root x) = Some t \/ (In x xs /\ contents d (sub x) = Some t).
Lemma rename_loop (Q : disk -> res unit -> Prop) k (live : Prop) :
  (forall d, stored d -> (live -> full d) -> keeps K H Q k d) ->
  forall xs d, (forall x, In x xs -> In x (map fst members)) -> stored d -> subs_ok d -> (live -> to_move xs d) ->
  keeps K H Q (performs (map (fun x => Rename (sub x) (root x)) xs) k) d.
Proof.
  intros Hk. induction xs as [|x xs IH]; intros d Hin S B L.
  - cbn [map performs]. apply Hk; [exact S|]. intro lv. split; [exact S|]. intros y u Hy. destruct (L lv y u Hy) as [E|[[] _]]. exact E.
  - cbn [map performs keeps]. split; [right; exact S|]. split; [intros part q d' E; discriminate|].
    assert (Hx := Hin x (or_introl eq_refl)). apply in_map_iff in Hx. destruct Hx as ([x' t] & Ex & Hx). cbn in Ex. subst x'.
    destruct (rename_step d x t Hx S B) as (S' & B' & M & O). apply IH; auto.
    + intros y Hy. apply Hin. right. exact Hy.
    + intros lv y u Hy. destruct (L lv y u Hy) as [E|[[<-|Hi] E]].
      * left. apply (M y u Hy). auto.
      * left. apply (M x u Hy). auto.
      * destruct (String.eqb_spec y x) as [->|Ny]; [left; apply (M x u Hy); auto|]. right. split; [exact Hi|]. rewrite (O y (member_slash y u Hy) Ny). exact E.
Qed.
(** what is in the folder while the archive is unpacked *)
Definition folder_ok (done : list (string * string)) (d : disk) : Prop :=
  forall y, contents d (sub y) = assoc String.eqb y done.
Lemma write_loop (Q : disk -> res unit -> Prop) k : forall ms done d, NoDup (map fst (done ++ ms)) ->
  (forall d', stored d' -> dirs d' = dirs d -> folder_ok (done ++ ms) d' -> keeps K H Q k d') ->
  stored d -> folder_ok done d ->
  keeps K H Q (performs (map (fun m => Write (root (f ++ "/" ++ fst m)) (snd m)) ms) k) d.
Proof.
  induction ms as [|[x t] ms IH]; intros done d ND Hk S F.
  - cbn [map performs]. apply Hk; auto. rewrite app_nil_r. exact F.
  - cbn [map performs keeps fst snd]. split; [right; exact S|]. split.
    + intros part q d' E _. right. eapply torn_write_aside; [apply sub_aside|exact S|exact E].
    + apply (IH (done ++ [(x, t)])%list).
      * rewrite <- app_assoc. exact ND.
      * intros d' S' E' F'. apply Hk; [exact S'|rewrite E'; reflexivity|]. rewrite <- app_assoc in F'. exact F'.
      * apply write_aside; [apply sub_aside|exact S].
      * intro y. rewrite contents_write, <- sub_root.
        assert (G : forall l, ~ In x (map fst l) -> assoc String.eqb y (l ++ [(x, t)])%list = if String.eqb y x then Some t else assoc String.eqb y l).
        { induction l as [|[a b] l IHl]; intro N; cbn [app assoc]; [destruct (String.eqb y x); reflexivity|].
          cbn [map fst In] in N. destruct (String.eqb_spec y a) as [->|Na]; [rewrite eqb_no by tauto; reflexivity|]. apply IHl. tauto. }
        rewrite G.
        -- destruct (String.eqb_spec y x) as [Ey|Ny]; [rewrite Ey, String.eqb_refl; reflexivity|].
           rewrite eqb_no by (intro E; apply sub_eq in E; contradiction). apply F.
        -- intro Hi. rewrite map_app in ND. cbn [map fst] in ND. apply NoDup_remove_2 in ND. apply ND. apply in_or_app. left. exact Hi.
Qed.
End Folder.

(** ** The calls *)
Definition live_net (net : option string) : Prop := net = Some data.
Lemma download_keeps net d : (net = Some data \/ net = None) -> nothing_stored g d -> (net <> None -> members <> []) ->
  keeps K H (fun d' r => (r = Ok tt -> stored d') /\ (net <> None -> r = Ok tt /\ full d')) (download unzip arrange g net) d.
Proof.
  intros Hnet Hd Hm. unfold download. destruct net as [s|].
  2: { cbn [keeps]. split; [left; exact Hd|]. split; [discriminate|congruence]. }
  destruct Hnet as [E|E]; [|discriminate]. injection E as ->. specialize (Hm ltac:(discriminate)).
  cbn [keeps]. destruct Hd as [Hd1 Hd2]. rewrite Hd1. cbn [performs keeps].
  split; [left; split; assumption|]. split; [intros part q d' E; discriminate|].
  set (d1 := perform (MkDir (g_name g)) d).
  assert (C1 : forall x, contents d1 (root x) = None) by (intro x; apply Hd2).
  assert (S1 : stored d1).
  { split; [unfold d1, is_dir, in_list; cbn; rewrite String.eqb_refl; reflexivity|]. split; [intros x t _; left; apply C1|]. split; left; apply C1. }
  unfold unpacks in Hunpack. destruct (g_unzip g).
  - destruct Hunpack as (f & Ef & Eu). rewrite Eu, Ef. cbn [keeps]. split; [right; exact S1|]. split.
    { intros part q d' E _. right. eapply torn_write_aside; [apply zip_aside|exact S1|exact E]. }
    set (d2 := perform (Write (tmp_zip g) data) d1). assert (S2 : stored d2) by (apply write_aside; [apply zip_aside|exact S1]).
    assert (Ne : exists a l, listing f (map (fun m => (f ++ "/" ++ fst m, snd m)) members) = a :: l).
    { destruct members as [|[x t] l]; [congruence|]. assert (Hin : In x (listing f (map (fun m => (f ++ "/" ++ fst m, snd m)) ((x, t) :: l)))).
      { apply listing_in. exists t. left. reflexivity. }
      destruct (listing f _) as [|a l']; [destruct Hin|]. eauto. }
    destruct Ne as (a & l & El). rewrite El. cbn [performs keeps]. split; [right; exact S2|]. split; [intros part q d' E; discriminate|].
    set (d3 := perform (MkDir (root f)) d2). assert (S3 : stored d3) by (apply mkdir_stored; exact S2).
    rewrite map_map. cbn [fst snd]. apply (write_loop f _ _ members []).
    + exact (proj1 Hnames).
    + cbn [app]. intros d4 S4 E4 F4. cbn [keeps].
      assert (Dir : is_dir d4 (root f) = true).
      { unfold is_dir. rewrite E4. unfold in_list, d3. cbn. rewrite String.eqb_refl. reflexivity. }
      rewrite Dir. apply (rename_loop f _ _ True).
      * intros d5 S5 L5. specialize (L5 Logic.I). cbn [keeps]. split; [right; exact S5|]. split; [intros part q d' E; discriminate|].
        assert (Nr : root f <> g_name g) by (unfold path_of, join; apply (app_longer (g_name g))).
        assert (S6 := rmdir_stored d5 (root f) Nr S5). split; [right; exact S6|]. split; [intros part q d' E; discriminate|].
        assert (S7 := remove_aside _ (tmp_zip g) zip_aside S6). split; [right; exact S7|]. split; [auto|]. intros _. split; [reflexivity|].
        split; [exact S7|]. intros x t Hx. rewrite contents_remove, eqb_no by (apply (proj1 zip_aside) with (t := t); exact Hx). apply L5. exact Hx.
      * intros x Hx. apply (proj1 (Harrange _ _)) in Hx. apply listing_in in Hx. destruct Hx as (t & Hx). apply contents_in in Hx.
        specialize (F4 x). unfold join in F4. rewrite F4 in Hx. clear - Hx. induction members as [|[p q] r IH]; [destruct (Hx eq_refl)|]. cbn [assoc] in Hx.
        destruct (String.eqb_spec x p) as [->|N]; [left; reflexivity|right; auto].
      * exact S4.
      * intros x t Hx. right. rewrite (F4 x). apply assoc_member; [exact (proj1 Hnames)|exact Hx].
      * intros _ x t Hx. right. assert (E : contents d4 (join (root f) x) = Some t) by (rewrite (F4 x); apply assoc_member; [exact (proj1 Hnames)|exact Hx]).
        split; [|exact E]. apply (proj2 (Harrange _ _)). apply listing_in. exists t. apply in_contents. exact E.
    + exact S3.
    + intro y. cbn [assoc]. unfold d3. rewrite contents_mkdir. unfold d2. rewrite contents_write. rewrite sub_root. unfold tmp_zip. rewrite root_ne; [apply C1|].
      apply slash_no. cbn. intuition discriminate.
  - cbn [keeps]. split; [right; exact S1|].
    assert (W : H (root (g_full g))).
    { exists (g_full g). split; [reflexivity|]. left. rewrite Hunpack. left. reflexivity. }
    split.
    { intros part q d' E N. cbn [torn] in E. destruct (prefix_b part data); [|discriminate]. injection E as <- <-. destruct (N W). }
    assert (S2 : stored (perform (Write (root (g_full g)) data) d1) /\ forall x t, In (x, t) members -> contents (perform (Write (root (g_full g)) data) d1) (root x) = Some t).
    { assert (G : forall x t, In (x, t) members -> contents (perform (Write (root (g_full g)) data) d1) (root x) = Some t).
      { intros x t Hx. rewrite Hunpack in Hx. destruct Hx as [E|[]]. injection E as <- <-. rewrite contents_write, String.eqb_refl. reflexivity. }
      assert (Nf : g_full g <> g_name g ++ "_train.gen" /\ g_full g <> g_name g ++ "_test.gen").
      { destruct Hnames as [_ N]. destruct (N (g_full g)) as (_ & _ & N1 & N2); [rewrite Hunpack; left; reflexivity|]. auto. }
      split; [|exact G]. split; [apply S1|]. split; [intros x t Hx; right; auto|].
      destruct Nf as [Nf1 Nf2]. split; left; rewrite contents_write.
      - unfold train_gen. rewrite root_ne by congruence. apply C1.
      - unfold test_gen. rewrite root_ne by congruence. apply C1. }
    destruct S2 as [S2 F2]. split; [right; exact S2|]. split; [auto|]. intros _. split; [reflexivity|]. split; assumption.
Qed.
End Files.
