(** Facts about saved and loaded recommenders. *)
From Coq Require Import String Ascii.
From Coq Require Import List ZArith Bool Lia.
From Verif Require Import Py PyFacts MemModel FitModel SaveModel SaveSpec.
Import ListNotations.
Open Scope nat_scope.
Open Scope list_scope.

Lemma set_nth_length {A} n (x : A) l : length (set_nth n x l) = length l.
Proof.
  unfold set_nth. rewrite app_length.
  assert (L : length (firstn n l) + length (skipn n l) = length l) by (rewrite <- app_length, firstn_skipn; reflexivity).
  destruct (skipn n l); cbn in *; lia.
Qed.
Lemma set_nth_same {A} (x : A) l : forall n, n < length l -> nth_error (set_nth n x l) n = Some x.
Proof.
  induction l as [|a l IH]; intros n H; cbn in H; [lia|]. destruct n as [|n]; [reflexivity|].
  cbn. apply IH. lia.
Qed.
Lemma set_nth_other {A} (x : A) l : forall n k, k <> n -> nth_error (set_nth n x l) k = nth_error l k.
Proof.
  induction l as [|a l IH]; intros n k H.
  - destruct n, k; reflexivity.
  - destruct n as [|n], k as [|k]; cbn; try reflexivity; try lia.
    apply IH. lia.
Qed.
Lemma nth_error_lt {A} (l : list A) n x : nth_error l n = Some x -> n < length l.
Proof. intros H. apply nth_error_Some. congruence. Qed.

Section Facts.
Variable V : Type.
Variable storable : V -> bool.
Notation world := (world V).
Notation robj := (robj V).
Notation op := (op V).

Definition uses (r : robj) (d : nat) : Prop :=
  r_data r = Some d \/ r_sampler r = Some (PointOn d) \/ r_sampler r = Some (ListOn d).
Definition fits_kind (k : kind) (s : option sampler) : Prop :=
  match s with
  | None => True
  | Some (PointOn _) => k = Dmf \/ k = Cdae
  | Some (ListOn _) => k = Caser
  end.
Record valid (w : world) : Prop := mkValid {
  v_uses : forall i r d, nth_error (w_recs w) i = Some r -> uses r d -> d < length (w_data w);
  v_kind : forall i r, nth_error (w_recs w) i = Some r -> fits_kind (r_kind r) (r_sampler r);
  v_file : forall p x, w_files w p = Some (Saved x) -> s_sampler x <> NoSampler -> s_kind x = Caser }.

Lemma valid_empty : valid empty_world.
Proof.
  split.
  - intros [|i] r d H; discriminate.
  - intros [|i] r H; discriminate.
  - intros p x H; discriminate.
Qed.

(** ** save *)
Lemma pickle_cases w r : valid w -> (exists i, nth_error (w_recs w) i = Some r) ->
  match pickle storable w r with
  | Ok x => storable (r_state r) = true /\ s_kind x = r_kind r /\ s_state x = r_state r /\
            match r_data r with
            | None => s_data x = None
            | Some d => exists m, nth_error (w_data w) d = Some (InMem m) /\ s_data x = Some m
            end /\
            match r_sampler r with
            | None => s_sampler x = NoSampler
            | Some (PointOn _) => False
            | Some (ListOn d) =>
                if match r_data r with Some d' => d =? d' | None => false end then s_sampler x = OnSame
                else exists m, nth_error (w_data w) d = Some (InMem m) /\ s_sampler x = OnOther m
            end
  | Err e => e = TypeError /\
      (storable (r_state r) = false \/ (exists d t, uses r d /\ nth_error (w_data w) d = Some (InDb t)) \/
       exists d, r_sampler r = Some (PointOn d))
  end.
Proof.
  intros Hv [i Hi]. assert (U := v_uses w Hv i r). unfold pickle.
  destruct (storable (r_state r)) eqn:S; [|auto].
  assert (P : forall d, uses r d -> (exists m, nth_error (w_data w) d = Some (InMem m) /\ pickle_data w d = Ok m) \/
              (exists t, nth_error (w_data w) d = Some (InDb t) /\ pickle_data w d = Err TypeError)).
  { intros d Hd. apply U in Hd; [|assumption]. unfold pickle_data. apply nth_error_Some in Hd.
    destruct (nth_error (w_data w) d) as [[m|t]|]; [eauto|eauto|congruence]. }
  assert (Q : match r_data r with
              | None => True
              | Some d => (exists m, nth_error (w_data w) d = Some (InMem m) /\ pickle_data w d = Ok m) \/
              (exists t, nth_error (w_data w) d = Some (InDb t) /\ pickle_data w d = Err TypeError)
              end).
  { destruct (r_data r) eqn:D; [|exact Logic.I]. apply P. left. exact D. }
  destruct (r_data r) as [d|] eqn:D.
  - destruct Q as [[m [N E]]|[t [N E]]]; rewrite E; cbn [bind].
    + destruct (r_sampler r) as [[e|e]|] eqn:Es.
      * split; [reflexivity|]. right; right. eauto.
      * destruct (e =? d) eqn:X; [cbn; repeat split; eauto|].
        destruct (P e) as [[m' [N' E']]|[t [N' E']]]; [right; right; exact Es| |]; rewrite E'; cbn [bind].
        -- cbn. repeat split; eauto.
        -- split; [reflexivity|]. right; left. exists e, t. split; [right; right; exact Es|exact N'].
      * cbn. repeat split; eauto.
    + split; [reflexivity|]. right; left. exists d, t. split; [left; exact D|exact N].
  - cbn [bind]. destruct (r_sampler r) as [[e|e]|] eqn:Es.
    + split; [reflexivity|]. right; right. eauto.
    + destruct (P e) as [[m' [N' E']]|[t [N' E']]]; [right; right; exact Es| |]; rewrite E'; cbn [bind].
      * cbn. repeat split; eauto.
      * split; [reflexivity|]. right; left. exists e, t. split; [right; right; exact Es|exact N'].
    + cbn. repeat split; eauto.
Qed.

Lemma save_frame i p (w : world) : let w1 := fst (save storable i p w) in
  w_data w1 = w_data w /\ w_recs w1 = w_recs w /\ forall q, q <> p -> w_files w1 q = w_files w q.
Proof.
  unfold save. destruct (nth_error (w_recs w) i) as [r|]; [|cbn; auto].
  destruct (pickle storable w r); cbn; repeat split; intros q Hq; apply String.eqb_neq in Hq; rewrite Hq; reflexivity.
Qed.

(** ** Every call keeps worlds valid *)
Lemma valid_set_file p f w : valid w -> (forall x, f = Some (Saved x) -> s_sampler x <> NoSampler -> s_kind x = Caser) ->
  valid (set_file p f w).
Proof.
  intros [U K F] H. split; [exact U|exact K|]. cbn. intros q x. destruct (String.eqb q p); [apply H|apply F].
Qed.
Lemma valid_save i p w : valid w -> valid (fst (save storable i p w)).
Proof.
  intros Hv. unfold save. destruct (nth_error (w_recs w) i) as [r|] eqn:R; [|exact Hv].
  assert (P := pickle_cases w r Hv (ex_intro _ i R)). destruct (pickle storable w r) as [x|e]; cbn [fst].
  - apply valid_set_file; [exact Hv|]. intros y [= <-] N. destruct P as (_ & Ek & _ & _ & Es).
    rewrite Ek. assert (K := v_kind w Hv i r R). destruct (r_sampler r) as [[d|d]|]; [contradiction|exact K|contradiction].
  - apply valid_set_file; [exact Hv|discriminate].
Qed.
Lemma load_cases p (w : world) : valid w ->
  match w_files w p with
  | Some (Saved x) => exists ds a s,
      load p w = (mkWorld (w_data w ++ ds) (w_recs w ++ [mkRec (s_kind x) (s_state x) a s]) (w_files w), Ok (length (w_recs w))) /\
      a = match s_data x with None => None | Some _ => Some (length (w_data w)) end /\
      match s_data x with None => True | Some m => nth_error ds 0 = Some (InMem m) end /\
      match s_sampler x with
      | NoSampler => s = None
      | OnSame => s = option_map ListOn a
      | OnOther m => exists k, s = Some (ListOn (length (w_data w) + k)) /\ nth_error ds k = Some (InMem m) /\
                     (s_data x <> None -> k <> 0)
      end
  | _ => exists e, load p w = (w, Err e)
  end.
Proof.
  intros _. unfold load. destruct (w_files w p) as [[x| |]|]; eauto.
  destruct (s_data x) as [m|] eqn:D, (s_sampler x) as [| |m'] eqn:S; do 3 eexists; (split; [reflexivity|]);
    (split; [reflexivity|]); (split; [cbn; auto|]); try reflexivity.
  - exists 1. cbn. repeat split. discriminate.
  - exists 0. cbn. repeat split. congruence.
Qed.
Lemma valid_load p w : valid w -> valid (fst (load p w)).
Proof.
  intros Hv. assert (L := load_cases p w Hv). destruct (w_files w p) as [[x| |]|] eqn:F;
    try (destruct L as [e ->]; exact Hv).
  destruct L as (ds & a & s & -> & Ea & Dm & Sm). cbn [fst]. split; cbn [w_data w_recs w_files].
  - intros i r d H Hu. rewrite app_length.
    destruct (lt_dec i (length (w_recs w))) as [Hi|Hi].
    + rewrite nth_error_app1 in H by assumption. apply (v_uses w Hv i r d H) in Hu. lia.
    + rewrite nth_error_app2 in H by lia. destruct (i - length (w_recs w)) as [|[|j]]; try discriminate.
      injection H as <-. unfold uses in Hu. cbn in Hu.
      assert (Z : match s_data x with None => True | Some _ => 0 < length ds end).
      { destruct (s_data x); [|exact Logic.I]. apply nth_error_lt in Dm. exact Dm. }
      destruct Hu as [Hu|Hu].
      * subst a. destruct (s_data x); [|discriminate]. injection Hu as <-. lia.
      * destruct (s_sampler x) as [| |m'].
        -- subst s. destruct Hu; discriminate.
        -- subst s a. destruct (s_data x); cbn in Hu; destruct Hu as [Hu|Hu]; try discriminate. injection Hu as <-. lia.
        -- destruct Sm as (k & -> & N & _). destruct Hu as [Hu|Hu]; [discriminate|]. injection Hu as <-.
           apply nth_error_lt in N. lia.
  - intros i r H. destruct (lt_dec i (length (w_recs w))) as [Hi|Hi].
    + rewrite nth_error_app1 in H by assumption. exact (v_kind w Hv i r H).
    + rewrite nth_error_app2 in H by lia. destruct (i - length (w_recs w)) as [|[|j]]; try discriminate.
      injection H as <-. cbn. assert (K := v_file w Hv p x F).
      destruct (s_sampler x) as [| |m'].
      * subst s. exact Logic.I.
      * subst s. destruct a; cbn; [apply K; discriminate|exact Logic.I].
      * destruct Sm as (k & -> & _). cbn. apply K. discriminate.
  - exact (v_file w Hv).
Qed.

Lemma fit_cases i d copy v reach (w : world) :
  (nth_error (w_recs w) i = None \/ nth_error (w_data w) d = None) /\ fit i d copy v reach w = w \/
  exists r x x', nth_error (w_recs w) i = Some r /\ nth_error (w_data w) d = Some x /\
    match x, x' with
    | InMem m, InMem m' => m' = fst (begin_fit m copy)
    | InDb t, InDb t' => t = t'
    | _, _ => False
    end /\
    fit i d copy v reach w =
      mkWorld (set_nth d x' (w_data w))
        (set_nth i (mkRec (r_kind r) v (Some d)
          (if reaches_sampler x copy reach
           then match sampler_of (r_kind r) d with Some s => Some s | None => r_sampler r end
           else r_sampler r)) (w_recs w)) (w_files w).
Proof.
  unfold fit. destruct (nth_error (w_recs w) i) as [r|] eqn:R; [|auto].
  destruct (nth_error (w_data w) d) as [x|] eqn:D; [|auto]. right.
  destruct x as [m|t]; (exists r; eexists; eexists; split; [reflexivity|split; [reflexivity|split; [|reflexivity]]]); reflexivity.
Qed.
Lemma valid_fit i d copy v reach w : valid w -> valid (fit i d copy v reach w).
Proof.
  intros Hv. destruct (fit_cases i d copy v reach w) as [[_ ->]|(r & x & x' & R & D & _ & ->)]; [exact Hv|].
  split; cbn [w_data w_recs w_files].
  - intros j s e H Hu. rewrite set_nth_length. destruct (Nat.eq_dec j i) as [->|N].
    + rewrite set_nth_same in H by (eapply nth_error_lt; eassumption). injection H as <-.
      assert (Hd := nth_error_lt _ _ _ D). unfold uses in Hu. cbn in Hu.
      destruct Hu as [[= <-]|Hu]; [exact Hd|].
      assert (O : r_sampler r = Some (PointOn e) \/ r_sampler r = Some (ListOn e) -> e < length (w_data w)).
      { intros O. apply (v_uses w Hv i r e R). right. exact O. }
      destruct (reaches_sampler x copy reach); [|auto].
      destruct (r_kind r); cbn in Hu; auto; destruct Hu as [Hu|Hu]; try discriminate; injection Hu as <-; exact Hd.
    + rewrite set_nth_other in H by assumption. exact (v_uses w Hv j s e H Hu).
  - intros j s H. destruct (Nat.eq_dec j i) as [->|N].
    + rewrite set_nth_same in H by (eapply nth_error_lt; eassumption). injection H as <-. cbn.
      assert (K := v_kind w Hv i r R). destruct (reaches_sampler x copy reach); [|exact K].
      destruct (r_kind r); cbn; auto.
    + rewrite set_nth_other in H by assumption. exact (v_kind w Hv j s H).
  - exact (v_file w Hv).
Qed.
Lemma change_cases d m (w : world) : change d m w = w \/
  (exists m0, nth_error (w_data w) d = Some (InMem m0)) /\ change d m w = mkWorld (set_nth d (InMem m) (w_data w)) (w_recs w) (w_files w).
Proof. unfold change. destruct (nth_error (w_data w) d) as [[m0|t]|]; eauto. Qed.
Lemma valid_step w o : valid w -> own_files o -> valid (step storable w o).
Proof.
  intros Hv Ho. destruct o as [x|k v|i d c v b|d m|i p|p|p f]; cbn [step].
  - split; cbn; [|exact (v_kind w Hv)|exact (v_file w Hv)].
    intros i r d H Hu. rewrite app_length. apply (v_uses w Hv i r d H) in Hu. lia.
  - split; cbn; [| |exact (v_file w Hv)].
    + intros i r d H Hu. destruct (lt_dec i (length (w_recs w))) as [Hi|Hi].
      * rewrite nth_error_app1 in H by assumption. exact (v_uses w Hv i r d H Hu).
      * rewrite nth_error_app2 in H by lia. destruct (i - length (w_recs w)) as [|[|j]]; try discriminate.
        injection H as <-. destruct Hu as [Hu|[Hu|Hu]]; discriminate.
    + intros i r H. destruct (lt_dec i (length (w_recs w))) as [Hi|Hi].
      * rewrite nth_error_app1 in H by assumption. exact (v_kind w Hv i r H).
      * rewrite nth_error_app2 in H by lia. destruct (i - length (w_recs w)) as [|[|j]]; try discriminate.
        injection H as <-. exact Logic.I.
  - apply valid_fit; exact Hv.
  - destruct (change_cases d m w) as [->|[_ ->]]; [exact Hv|]. split; cbn; [|exact (v_kind w Hv)|exact (v_file w Hv)].
    intros i r e H Hu. rewrite set_nth_length. exact (v_uses w Hv i r e H Hu).
  - apply valid_save; exact Hv.
  - apply valid_load; exact Hv.
  - apply valid_set_file; [exact Hv|]. intros x ->. contradiction.
Qed.
Lemma valid_run ops : forall w, valid w -> Forall own_files ops -> valid (run storable ops w).
Proof.
  induction ops as [|o ops IH]; intros w Hv H; [exact Hv|]. inversion_clear H. apply IH; [|assumption].
  apply valid_step; assumption.
Qed.

(** ** What a recommender looks like *)
Definition look (w : world) (r : robj) : seen V :=
  mkSeen (r_kind r) (r_state r)
    (option_map (nth_error (w_data w)) (r_data r))
    (option_map (fun s =>
       let '(point, d) := match s with PointOn d => (true, d) | ListOn d => (false, d) end in
       (point, nth_error (w_data w) d,
        match r_data r with Some d' => Nat.eqb d d' | None => false end)) (r_sampler r)).
Lemma sees_look w i : sees w i = option_map (look w) (nth_error (w_recs w) i).
Proof. unfold sees, look. destruct (nth_error (w_recs w) i); reflexivity. Qed.
Lemma look_same w w' r : (forall d, uses r d -> nth_error (w_data w') d = nth_error (w_data w) d) -> look w' r = look w r.
Proof.
  intros H. unfold look. f_equal.
  - destruct (r_data r) as [d|] eqn:D; [|reflexivity]. cbn. f_equal. apply H. left. exact D.
  - destruct (r_sampler r) as [[d|d]|] eqn:S; [| |reflexivity]; cbn; do 3 f_equal; apply H; unfold uses; auto.
Qed.

(** A call that does not alter a recommender or its data sets *)
Lemma step_keeps w o j r : valid w -> nth_error (w_recs w) j = Some r ->
  ~ alters_rec j o -> (forall d, uses r d -> ~ alters_data d o) ->
  nth_error (w_recs (step storable w o)) j = Some r /\
  forall d, uses r d -> nth_error (w_data (step storable w o)) d = nth_error (w_data w) d.
Proof.
  intros Hv R Nr Nd. assert (L := nth_error_lt _ _ _ R). assert (U := fun d => v_uses w Hv j r d R).
  destruct o as [x|k v|i d c v b|d m|i p|p|p f]; cbn [step].
  - cbn. split; [exact R|]. intros d Hd. apply nth_error_app1. auto.
  - cbn. split; [|reflexivity]. rewrite nth_error_app1; assumption.
  - cbn in Nr, Nd. destruct (fit_cases i d c v b w) as [[_ ->]|(r0 & x & x' & R0 & D & _ & ->)]; [auto|]. cbn. split.
    + rewrite set_nth_other; auto.
    + intros e He. apply set_nth_other. intros ->. exact (Nd d He eq_refl).
  - cbn in Nd. destruct (change_cases d m w) as [->|[_ ->]]; [auto|]. cbn. split; [exact R|].
    intros e He. apply set_nth_other. intros ->. exact (Nd d He eq_refl).
  - destruct (save_frame i p w) as (-> & -> & _). auto.
  - assert (C := load_cases p w Hv). destruct (w_files w p) as [[x| |]|]; try (destruct C as [e ->]; auto).
    destruct C as (ds & a & s & -> & _). cbn. split; [rewrite nth_error_app1; assumption|].
    intros d Hd. apply nth_error_app1. auto.
  - cbn. auto.
Qed.
Lemma run_keeps ops : forall w j r, valid w -> Forall own_files ops -> nth_error (w_recs w) j = Some r ->
  Forall (fun o => ~ alters_rec j o) ops -> (forall d, uses r d -> Forall (fun o => ~ alters_data d o) ops) ->
  nth_error (w_recs (run storable ops w)) j = Some r /\
  forall d, uses r d -> nth_error (w_data (run storable ops w)) d = nth_error (w_data w) d.
Proof.
  induction ops as [|o ops IH]; intros w j r Hv Ho R Nr Nd; [auto|]. inversion_clear Ho. inversion_clear Nr.
  destruct (step_keeps w o j r Hv R) as [R' K]; [assumption|intros d Hd; apply Nd in Hd; inversion Hd; assumption|].
  destruct (IH (step storable w o) j r) as [R'' K'].
  - apply valid_step; assumption.
  - assumption.
  - exact R'.
  - assumption.
  - intros d Hd. apply Nd in Hd. inversion Hd; assumption.
  - split; [exact R''|]. intros d Hd. cbn. etransitivity; [apply K'; exact Hd|apply K; exact Hd].
Qed.

(** ** load after save *)
Lemma files_kept p ops : forall w, valid w -> Forall (fun o => ~ writes p o) ops -> Forall own_files ops ->
  w_files (run storable ops w) p = w_files w p.
Proof.
  induction ops as [|o ops IH]; intros w Hv H Ho; [reflexivity|]. inversion_clear H. inversion_clear Ho.
  cbn. transitivity (w_files (step storable w o) p); [apply IH; [apply valid_step|..]; assumption|].
  destruct o as [x|k v|i d c v b|d m|i q|q|q f]; cbn [step]; try reflexivity.
  - destruct (fit_cases i d c v b w) as [[_ ->]|(r0 & x & x' & R0 & D & _ & ->)]; reflexivity.
  - destruct (change_cases d m w) as [->|[_ ->]]; reflexivity.
  - apply save_frame. cbn in H0. congruence.
  - assert (C := load_cases q w Hv). destruct (w_files w q) as [[x| |]|]; try (destruct C as [e ->]; reflexivity).
    destruct C as (ds & a & s & -> & _). reflexivity.
  - cbn in H0 |- *. replace (String.eqb p q) with false; [reflexivity|]. symmetry. apply String.eqb_neq. congruence.
Qed.
Lemma load_saved w r x w2 p : valid w -> (exists i, nth_error (w_recs w) i = Some r) -> pickle storable w r = Ok x ->
  valid w2 -> w_files w2 p = Some (Saved x) ->
  exists w3 r', load p w2 = (w3, Ok (length (w_recs w2))) /\ w_files w3 = w_files w2 /\
    w_recs w3 = w_recs w2 ++ [r'] /\ look w3 r' = look w r /\
    (exists ds, w_data w3 = w_data w2 ++ ds) /\ (forall d, uses r' d -> length (w_data w2) <= d).
Proof.
  intros Hv Hr P Hv2 F. assert (C := pickle_cases w r Hv Hr). rewrite P in C. destruct C as (_ & Ek & Et & Ed & Es).
  assert (L := load_cases p w2 Hv2). rewrite F in L. destruct L as (ds & a & s & -> & Ea & Dm & Sm).
  do 2 eexists. split; [reflexivity|]. cbn [w_files w_recs w_data]. split; [reflexivity|]. split; [reflexivity|].
  assert (App : forall k y, nth_error ds k = Some y -> nth_error (w_data w2 ++ ds) (length (w_data w2) + k) = Some y).
  { intros k y H. rewrite nth_error_app2 by lia. rewrite Nat.add_comm, Nat.add_sub. exact H. }
  split; [|split; [eauto|]].
  - unfold look. cbn [r_kind r_state r_data r_sampler]. rewrite Ek, Et. f_equal.
    + destruct (r_data r) as [d|].
      * destruct Ed as (m & N & E). rewrite E in *. subst a. cbn [option_map w_data]. rewrite N. f_equal.
        rewrite <- (Nat.add_0_r (length (w_data w2))). apply App. exact Dm.
      * rewrite Ed in *. subst a. reflexivity.
    + destruct (r_sampler r) as [[e|e]|]; [contradiction| |rewrite Es in Sm; subst s; reflexivity].
      destruct (match r_data r with Some d' => e =? d' | None => false end) eqn:X.
      * rewrite Es in Sm. destruct (r_data r) as [d|]; [|discriminate]. destruct Ed as (m & N & E). rewrite E in *.
        subst a s. cbn [option_map w_data]. apply Nat.eqb_eq in X. subst e. rewrite N, !Nat.eqb_refl.
        apply App in Dm. rewrite Nat.add_0_r in Dm. rewrite Dm. reflexivity.
      * destruct Es as (m & N & E). rewrite E in Sm. destruct Sm as (k & -> & Nk & K). cbn [option_map w_data].
        rewrite N, (App k _ Nk). do 2 f_equal. subst a. destruct (r_data r) as [d|].
        -- destruct Ed as (m' & _ & E'). rewrite E' in *. rewrite X || idtac.
           assert (k <> 0) by (apply K; discriminate). apply Nat.eqb_neq. lia.
        -- rewrite Ed. reflexivity.
  - intros d [H|[H|H]]; cbn in H.
    + subst a. destruct (s_data x); [|discriminate]. injection H as <-. lia.
    + destruct (s_sampler x); [subst s; discriminate| |destruct Sm as (k & -> & _); discriminate].
      subst s. destruct a; discriminate.
    + destruct (s_sampler x); [subst s; discriminate| |destruct Sm as (k & -> & _); injection H as <-; lia].
      subst s a. destruct (s_data x); [|discriminate]. injection H as <-. lia.
Qed.

(** ** Point samplers stay *)
Lemma point_stays w o i r d : valid w -> own_files o -> nth_error (w_recs w) i = Some r -> r_sampler r = Some (PointOn d) ->
  exists r' d', nth_error (w_recs (step storable w o)) i = Some r' /\ r_sampler r' = Some (PointOn d').
Proof.
  intros Hv Ho R S. destruct o as [x|k v|j e c v b|e m|j p|p|p f]; cbn [step].
  - cbn. eauto.
  - cbn. exists r, d. split; [|exact S]. rewrite nth_error_app1; [exact R|eapply nth_error_lt; eassumption].
  - destruct (fit_cases j e c v b w) as [[_ ->]|(r0 & x & x' & R0 & D & _ & ->)]; [eauto|]. cbn.
    destruct (Nat.eq_dec i j) as [<-|N].
    + rewrite R in R0. injection R0 as <-. rewrite set_nth_same by (eapply nth_error_lt; eassumption).
      assert (K := v_kind w Hv i r R). rewrite S in K. cbn in K.
      destruct (reaches_sampler x c b); [|exists (mkRec (r_kind r) v (Some e) (r_sampler r)), d; auto].
      eexists. exists e. split; [reflexivity|]. cbn. destruct K as [->| ->]; reflexivity.
    + rewrite set_nth_other by assumption. eauto.
  - destruct (change_cases e m w) as [->|[_ ->]]; cbn; eauto.
  - destruct (save_frame j p w) as (_ & -> & _). eauto.
  - assert (C := load_cases p w Hv). destruct (w_files w p) as [[x| |]|]; try (destruct C as [e ->]; cbn; eauto).
    destruct C as (ds & a & s & -> & _). cbn. exists r, d. split; [|exact S].
    rewrite nth_error_app1; [exact R|eapply nth_error_lt; eassumption].
  - cbn. eauto.
Qed.
Lemma point_stays_run ops : forall w i r d, valid w -> Forall own_files ops -> nth_error (w_recs w) i = Some r ->
  r_sampler r = Some (PointOn d) ->
  exists r' d', nth_error (w_recs (run storable ops w)) i = Some r' /\ r_sampler r' = Some (PointOn d').
Proof.
  induction ops as [|o ops IH]; intros w i r d Hv Ho R S; [eauto|]. inversion_clear Ho.
  destruct (point_stays w o i r d Hv) as (r' & d' & R' & S'); [assumption..|].
  apply (IH (step storable w o) i r' d'); [apply valid_step|..]; assumption.
Qed.
Lemma point_not_saved w i r d p : valid w -> nth_error (w_recs w) i = Some r -> r_sampler r = Some (PointOn d) ->
  snd (save storable i p w) = Err TypeError.
Proof.
  intros Hv R S. unfold save. rewrite R. assert (C := pickle_cases w r Hv (ex_intro _ i R)).
  destruct (pickle storable w r) as [x|e]; cbn.
  - rewrite S in C. destruct C as (_ & _ & _ & _ & []).
  - destruct C as [-> _]. reflexivity.
Qed.

(** ** Histories in memory *)
Definition all_mem (w : world) : Prop :=
  Forall (fun x => match x with InMem _ => True | InDb _ => False end) (w_data w) /\
  Forall (fun r => storable (r_state r) = true) (w_recs w) /\
  (forall p x, w_files w p = Some (Saved x) -> storable (s_state x) = true).
Lemma Forall_set_nth {A} (P : A -> Prop) n x l : Forall P l -> P x -> Forall P (set_nth n x l).
Proof.
  intros H Hx. unfold set_nth. apply Forall_app. rewrite <- (firstn_skipn n l) in H. apply Forall_app in H.
  destruct H as [H1 H2]. split; [exact H1|]. destruct (skipn n l); [constructor|]. inversion_clear H2. constructor; assumption.
Qed.
Lemma plain_own o : plain storable o -> own_files o.
Proof. destruct o as [[m|t]|k v|i d c v b|d m|i p|p|p [[x| |]|]]; cbn; auto. Qed.
Lemma all_mem_step w o : valid w -> all_mem w -> plain storable o -> all_mem (step storable w o).
Proof.
  intros Hv (D & R & F) Ho. destruct o as [x|k v|i d c v b|d m|i p|p|p f]; cbn [step plain] in *.
  - split; [|split; assumption]. apply Forall_app. split; [exact D|]. destruct x; [|contradiction]. repeat constructor.
  - split; [assumption|split; [|assumption]]. apply Forall_app. split; [exact R|]. repeat constructor. exact Ho.
  - destruct (fit_cases i d c v b w) as [[_ ->]|(r0 & x & x' & R0 & Dx & E & ->)]; [repeat split; assumption|].
    split; [|split; [|assumption]]; cbn.
    + apply Forall_set_nth; [exact D|]. rewrite Forall_forall in D. assert (Y := D x (nth_error_In _ _ Dx)).
      destruct x; [|contradiction]. destruct x'; [exact Logic.I|contradiction].
    + apply Forall_set_nth; [exact R|]. exact Ho.
  - destruct (change_cases d m w) as [->|[_ ->]]; [repeat split; assumption|]. split; [|split; assumption].
    apply Forall_set_nth; [exact D|exact Logic.I].
  - unfold save. destruct (nth_error (w_recs w) i) as [r|] eqn:Er; [|repeat split; assumption].
    assert (C := pickle_cases w r Hv (ex_intro _ i Er)). destruct (pickle storable w r) as [x|e]; cbn [fst].
    + split; [exact D|split; [exact R|]]. cbn. intros q y. destruct (String.eqb q p); [|apply F].
      intros [= <-]. destruct C as (S & _ & -> & _). exact S.
    + split; [exact D|split; [exact R|]]. cbn. intros q y. destruct (String.eqb q p); [discriminate|apply F].
  - assert (C := load_cases p w Hv). destruct (w_files w p) as [[x| |]|] eqn:Fp; try (destruct C as [e ->]; repeat split; assumption).
    assert (Sx := F p x Fp). unfold load. rewrite Fp.
    destruct (s_data x), (s_sampler x); cbn; (split; [|split; [|exact F]]); apply Forall_app; split; auto; repeat constructor; exact Sx.
  - split; [exact D|split; [exact R|]]. cbn. intros q y. destruct (String.eqb q p); [|apply F].
    intros ->. contradiction.
Qed.

(** In memory a recommender cannot be saved exactly when it holds a point sampler. *)
Lemma saved_iff w i r p : valid w -> all_mem w -> nth_error (w_recs w) i = Some r ->
  (snd (save storable i p w) = Ok tt <-> forall d, r_sampler r <> Some (PointOn d)).
Proof.
  intros Hv (D & R & F) Hr. unfold save. rewrite Hr. assert (C := pickle_cases w r Hv (ex_intro _ i Hr)).
  destruct (pickle storable w r) as [x|e]; cbn.
  - split; [|reflexivity]. intros _ d E. destruct C as (_ & _ & _ & _ & C). rewrite E in C. contradiction.
  - split; [discriminate|]. intros N. exfalso. destruct C as [_ [C|[(d & t & _ & C)|[d C]]]].
    + rewrite Forall_forall in R. rewrite (R r (nth_error_In _ _ Hr)) in C. discriminate.
    + rewrite Forall_forall in D. exact (D _ (nth_error_In _ _ C)).
    + exact (N d C).
Qed.

Lemma reaches_iff x c b : reaches_sampler x c b = true <->
  c = false /\ b = true /\ match x with InMem m => exists m' info, begin_fit m false = (m', Ok info) | InDb _ => True end.
Proof.
  unfold reaches_sampler. destruct x as [m|t].
  - destruct c.
    + cbn. split; [discriminate|]. intros [H _]. discriminate.
    + destruct (begin_fit m false) as [m' [info|e]] eqn:B; cbn.
      * split; [intros ->; eauto 6|]. intros (_ & -> & _). reflexivity.
      * split; [discriminate|]. intros (_ & _ & m1 & i1 & H). discriminate.
  - destruct c; split; try discriminate; [intros [H _]; discriminate|intros ->; auto|intros (_ & -> & _); reflexivity].
Qed.
Lemma trained_app i ops o : trained storable i (ops ++ [o]) <->
  trained storable i ops \/
  (exists d x v, o = Fit i d false v true /\ i < length (w_recs (run storable ops empty_world)) /\
     nth_error (w_data (run storable ops empty_world)) d = Some x /\ reaches_sampler x false true = true).
Proof.
  split.
  - intros (bef & d & x & c & v & b & aft & E & H). cbv zeta in H.
    destruct (rev aft) as [|o' aft'] eqn:A.
    + apply (f_equal (@rev _)) in A. rewrite rev_involutive in A. cbn in A. subst aft.
      apply app_inj_tail in E. destruct E as [-> ->]. right. destruct H as (L & Nx & -> & -> & M).
      exists d, x, v. repeat split; auto. apply reaches_iff. auto.
    + apply (f_equal (@rev _)) in A. rewrite rev_involutive in A. cbn in A. subst aft.
      change (bef ++ Fit i d c v b :: rev aft' ++ [o']) with (bef ++ (Fit i d c v b :: rev aft') ++ [o']) in E.
      rewrite app_assoc in E. apply app_inj_tail in E. destruct E as [-> ->]. left.
      exists bef, d, x, c, v, b, (rev aft'). split; [reflexivity|exact H].
  - intros [(bef & d & x & c & v & b & aft & -> & H)|(d & x & v & -> & L & Nx & M)].
    + exists bef, d, x, c, v, b, (aft ++ [o]). split; [rewrite <- app_assoc; reflexivity|exact H].
    + exists ops, d, x, false, v, true, []. split; [reflexivity|]. cbv zeta. apply reaches_iff in M.
      destruct M as (_ & _ & M). auto.
Qed.
Lemma run_app ops o (w : world) : run storable (ops ++ [o]) w = step storable (run storable ops w) o.
Proof. unfold run. rewrite fold_left_app. reflexivity. Qed.

(** A point sampler is there exactly after a training. *)
Lemma point_iff_trained ops : Forall own_files ops -> forall i r, nth_error (w_recs (run storable ops empty_world)) i = Some r ->
  ((exists d, r_sampler r = Some (PointOn d)) <-> (r_kind r = Dmf \/ r_kind r = Cdae) /\ trained storable i ops).
Proof.
  induction ops as [|o ops IH] using rev_ind; intros Ho i r R.
  - destruct i; discriminate.
  - apply Forall_app in Ho. destruct Ho as [Ho O1]. inversion_clear O1. rename H into Oo. clear H0.
    specialize (IH Ho). assert (Hv := valid_run ops empty_world valid_empty Ho).
    rewrite run_app in R. rewrite trained_app. set (w := run storable ops empty_world) in *.
    (* a call that is not a fit of i and leaves the recommender alone *)
    assert (Same : nth_error (w_recs w) i = Some r -> (forall d x v, o = Fit i d false v true -> nth_error (w_data w) d = Some x -> reaches_sampler x false true = true -> False) ->
       ((exists d, r_sampler r = Some (PointOn d)) <-> (r_kind r = Dmf \/ r_kind r = Cdae) /\
          (trained storable i ops \/ (exists d x v, o = Fit i d false v true /\ i < length (w_recs w) /\
             nth_error (w_data w) d = Some x /\ reaches_sampler x false true = true)))).
    { intros R0 N. rewrite (IH i r R0). split; [intros [A B]; auto|]. intros [A [B|(d & x & v & E & _ & Nx & M)]]; [auto|].
      exfalso. exact (N d x v E Nx M). }
    (* a recommender that is new *)
    assert (New : nth_error (w_recs w) i = None -> ~ trained storable i ops).
    { intros N (bef & d & x & c & v & b & aft & E & H). cbv zeta in H. destruct H as (L & _).
      assert (G : forall l w1, valid w1 -> Forall own_files l -> length (w_recs w1) <= length (w_recs (run storable l w1))).
      { clear. induction l as [|o l IHl]; intros w1 Hv1 Hl; [cbn; lia|]. inversion_clear Hl.
        apply Nat.le_trans with (length (w_recs (step storable w1 o))).
        - destruct o as [x|k v|j e c v b|e m|j p|p|p f]; cbn [step]; try (cbn; rewrite ?app_length; lia).
          + destruct (fit_cases j e c v b w1) as [[_ ->]|(r0 & x & x' & R0 & D & _ & ->)]; [lia|cbn]. rewrite set_nth_length. lia.
          + destruct (change_cases e m w1) as [->|[_ ->]]; cbn; lia.
          + destruct (save_frame j p w1) as (_ & -> & _). lia.
          + assert (C := load_cases p w1 Hv1). destruct (w_files w1 p) as [[x| |]|]; try (destruct C as [e ->]; cbn; lia).
            destruct C as (ds & a & s & -> & _). cbn. rewrite app_length. lia.
        - apply IHl; [apply valid_step; assumption|assumption]. }
      assert (Ob : Forall own_files bef) by (rewrite E in Ho; apply Forall_app in Ho; tauto).
      assert (Oa : Forall own_files (Fit i d c v b :: aft)) by (rewrite E in Ho; apply Forall_app in Ho; tauto).
      specialize (G (Fit i d c v b :: aft) (run storable bef empty_world) (valid_run bef _ valid_empty Ob) Oa).
      apply nth_error_None in N. unfold w in N. rewrite E in N. unfold run in N, G, L. rewrite fold_left_app in N. lia. }
    destruct o as [x|k v|j e c v b|e m|j p|p|p f]; cbn [step] in R.
    + apply Same; [exact R|discriminate].
    + cbn in R. destruct (lt_dec i (length (w_recs w))) as [Hi|Hi].
      * rewrite nth_error_app1 in R by assumption. apply Same; [exact R|discriminate].
      * rewrite nth_error_app2 in R by lia. destruct (i - length (w_recs w)) as [|[|q]]; try discriminate.
        injection R as <-. cbn. split; [intros [d H]; discriminate|]. intros [_ [T|(d & x & v' & H & _)]]; [|discriminate].
        exfalso. apply New; [|exact T]. apply nth_error_None. lia.
    + destruct (fit_cases j e c v b w) as [[No Eq]|(r0 & x & x' & R0 & D & _ & Eq)]; rewrite Eq in R.
      * apply Same; [exact R|]. intros d y v' [= -> -> -> -> ->] Ny M. rewrite R, Ny in No. destruct No; discriminate.
      * cbn in R. destruct (Nat.eq_dec i j) as [<-|N].
        -- rewrite set_nth_same in R by (eapply nth_error_lt; eassumption). injection R as <-. cbn [r_sampler r_kind].
           destruct (reaches_sampler x c b) eqn:M.
           ++ assert (M' := M). apply reaches_iff in M'. destruct M' as (-> & -> & _). split.
              ** intros [d H]. split; [|right; exists e, x, v; repeat split; auto; eapply nth_error_lt; eassumption].
                 destruct (r_kind r0) eqn:K; cbn in H; auto; [|discriminate].
                 assert (Z := v_kind w Hv i r0 R0). rewrite H, K in Z. exact Z.
              ** intros [[K|K] _]; rewrite K; cbn; eauto.
           ++ rewrite (IH i r0 R0). split; [intros [A B]; auto|]. intros [A [B|(d & y & v' & E & _ & Ny & M')]]; [auto|].
              exfalso. injection E as -> -> -> ->. rewrite D in Ny. injection Ny as ->. congruence.
        -- rewrite set_nth_other in R by assumption. apply Same; [exact R|]. intros d y v' [= -> -> -> -> ->]. congruence.
    + destruct (change_cases e m w) as [Eq|[_ Eq]]; rewrite Eq in R; (apply Same; [exact R|discriminate]).
    + destruct (save_frame j p w) as (_ & Eq & _). rewrite Eq in R. apply Same; [exact R|discriminate].
    + assert (C := load_cases p w Hv). destruct (w_files w p) as [[x| |]|] eqn:Fp;
        try (destruct C as [e C]; rewrite C in R; apply Same; [exact R|discriminate]).
      destruct C as (ds & a & s & C & Ea & _ & Sm). rewrite C in R. cbn in R.
      destruct (lt_dec i (length (w_recs w))) as [Hi|Hi].
      * rewrite nth_error_app1 in R by assumption. apply Same; [exact R|discriminate].
      * rewrite nth_error_app2 in R by lia. destruct (i - length (w_recs w)) as [|[|q]]; try discriminate.
        injection R as <-. cbn. split.
        -- intros [d ->]. exfalso. destruct (s_sampler x); [discriminate| |destruct Sm as (k & Sm & _); discriminate].
           destruct a; discriminate.
        -- intros [_ [T|(d & y & v' & H & _)]]; [|discriminate]. exfalso. apply New; [|exact T]. apply nth_error_None. lia.
    + apply Same; [exact R|discriminate].
Qed.
End Facts.
