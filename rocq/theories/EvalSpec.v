(** Vocabulary of the evaluation properties. *)
From Coq Require Import String Ascii.
From Coq Require Import List ZArith QArith Qcanon Reals Bool Permutation.
From Verif Require Import Py MemModel MemSpec EvalModel.
Import ListNotations.
Open Scope string_scope.
Open Scope Z_scope.

(** ** Averages *)
Definition sum (l : list R) : R := fold_right Rplus 0%R l.
Definition average (l : list R) : R := match l with [] => 0%R | _ => (sum l / INR (length l))%R end.
(** the values of a metric on the cases where it has one *)
Definition metric_values (m : metric) (k : Z) (cs : list case) : list R :=
  flat_map (fun c => match mc_call m c k with Ok v => [v] | Err _ => [] end) cs.
(** the cases of the evaluated users *)
Definition evaluated_cases (xs : list (res (option case))) : list case :=
  flat_map (fun x => match x with Ok (Some c) => [c] | _ => [] end) xs.

(** ** Data sets with integer ids *)
Record int_data (m : mem) : Prop := {
  in_wf : wf_mem m;
  in_ids : id_types m;
  in_cols : forall c, In c ["user"; "item"; "interaction"] -> In c (m_columns m);
  in_user : col_type m "user" = Ok DInt;
  in_item : col_type m "item" = Ok DInt;
  in_value : exists ty, col_type m "interaction" = Ok ty /\ ty <> DObj;
  in_small : forall c, In c ["user"; "item"; "interaction"] -> small_col m c }.

(** a threshold is a number, and the process gets its text *)
Definition threshold_ok (t : slit) : Prop := exists ty, ty <> DObj /\ lit_ok "interaction" ty t.
Definition liked (t : slit) (r : row) : bool := sat1 (mkCond "interaction" Ge t) r.
Definition disliked (t : slit) (r : row) : bool := sat1 (mkCond "interaction" Lt t) r.
Definition rows_for (u : Z) (m : mem) : list row := filter (user_is u) (rows_of m).
Definition item_of (r : row) : value := match cell r "item" with Some v => v | None => VInt 0 end.
(** the items a user likes in the test data, and in the training data if that is
    another data set *)
Definition liked_items (md : model) (train_ev : bool) (mt : mem) (t : slit) (u : Z) : list value :=
  map item_of (filter (liked t) (rows_for u mt) ++
               if train_ev then [] else filter (liked t) (rows_for u (md_ds md)))%list.
Definition n_distinct_items (l : list value) : Z := Z.of_nat (length (nodup value_eq_dec l)).

(** interaction of the first row of the user with an item; 0 without such a row *)
Definition relevance (u : Z) (m : mem) (i : value) : Qc :=
  match find (fun r => val_eqb (item_of r) i) (rows_for u m) with
  | Some r => interaction_of r
  | None => 0%Qc
  end.

(** What is known of the generator: sample returns elements at distinct positions,
    shuffle a permutation. *)
Record rng_ok (g : rng) : Prop := {
  ro_pos : forall n k, (k <= n)%nat -> length (rg_pos g n k) = k /\ NoDup (rg_pos g n k) /\ forall p, In p (rg_pos g n k) -> (p < n)%nat;
  ro_neg : forall n k, (k <= n)%nat -> length (rg_neg g n k) = k /\ NoDup (rg_neg g n k) /\ forall p, In p (rg_neg g n k) -> (p < n)%nat;
  ro_shuffle : forall n, Permutation (rg_shuffle g n) (seq 0 n) }.
(** every number of a range is drawn again and again *)
Definition draws_all (g : rng) : Prop :=
  forall n k z, 0 < n -> 0 <= z < n -> exists k', (k <= k')%nat /\ Z.of_nat (rg_draw g k') mod n = z.

(** all of a list, or a number of its elements *)
Definition chosen {A} (n : option Z) (all some : list A) : Prop :=
  match n with
  | None => some = all
  | Some n => Z.of_nat (length some) = n /\ exists rest, Permutation all (some ++ rest)
  end.

(** The negatives of a user with [n_pos] positives: disliked rows, then generated
    internal ids, [n] together if they are generated. *)
Record negatives_ok fmul (md : model) (train_ev : bool) (mt : mem) (a : re_args) (t : slit) (u : Z) (n_pos : nat)
  (N : list row) (G : list value) : Prop := {
  no_all : e_nneg a = None -> N = filter (disliked t) (rows_for u mt) /\ G = [];
  no_some : forall nn, e_nneg a = Some nn ->
     chosen (Some (Z.min (neg_count fmul nn n_pos) (Z.of_nat (length (filter (disliked t) (rows_for u mt))))))
            (filter (disliked t) (rows_for u mt)) N;
  no_none : e_gen a = false -> G = [];
  no_count : forall nn, e_nneg a = Some nn -> e_gen a = true -> Z.of_nat (length N + length G) = neg_count fmul nn n_pos;
  no_nodup : NoDup G;
  no_new : forall g, In g G -> (exists z, g = VInt z /\ 0 <= z < Z.of_nat (md_items md)) /\
     ~ In g (liked_items md train_ev mt t u) /\ ~ In g (map item_of N) }.

(** The item the processes single out: a positive with the lowest interaction. *)
Definition best_ok (P : list row) (b : option value) : Prop :=
  match b with
  | None => P = []
  | Some i => exists r, In r P /\ same_value i (item_of r) /\ forall r', In r' P -> (interaction_of r <= interaction_of r')%Qc
  end.
Definition relevancies_ok (u : Z) (mt : mem) (items : list value) (rels : list (value * Q)) : Prop :=
  (forall i q, In (i, q) rels -> In i items /\ q = this (relevance u mt i)) /\
  (forall i, In i items -> exists j q, In (j, q) rels /\ val_eqb i j = true).

(** A user of the ranking evaluation. *)
Definition ranked fmul (md : model) (train_ev : bool) (mt : mem) (a : re_args) (t : slit) (u : Z) (c : case) : Prop :=
  exists P N G all shuffled,
    chosen (e_npos a) (filter (liked t) (rows_for u mt)) P /\
    negatives_ok fmul md train_ev mt a t u (length P) N G /\
    Forall2 same_value all (map item_of P ++ map item_of N ++ G) /\
    Permutation all shuffled /\ all <> [] /\
    md_rank md (VInt u) shuffled (e_novelty a) = Ok (c_recs c) /\
    Forall2 same_value (c_rel c) (map item_of P) /\
    best_ok P (c_best c) /\
    relevancies_ok u mt shuffled (c_rels c).

(** number of positives that are used *)
Definition n_positives (a : re_args) (t : slit) (u : Z) (mt : mem) : nat :=
  match e_npos a with Some n => Z.to_nat n | None => length (filter (liked t) (rows_for u mt)) end.
(** Why a user is skipped: too few positives, nothing to rank, or too few items
    left to generate negatives from. *)
Inductive skipped fmul (md : model) (train_ev : bool) (mt : mem) (a : re_args) (t : slit) (u : Z) : Prop :=
| sk_pos n : e_npos a = Some n -> Z.of_nat (length (filter (liked t) (rows_for u mt))) < n ->
    skipped fmul md train_ev mt a t u
| sk_empty : filter (liked t) (rows_for u mt) = [] ->
    match e_nneg a with
    | None => filter (disliked t) (rows_for u mt) = []
    | Some nn => neg_count fmul nn 0 <= 0 \/ (e_gen a = false /\ filter (disliked t) (rows_for u mt) = [])
    end -> skipped fmul md train_ev mt a t u
| sk_neg nn : e_nneg a = Some nn -> e_gen a = true ->
    Z.of_nat (md_items md) - n_distinct_items (liked_items md train_ev mt t u) < neg_count fmul nn (n_positives a t u mt) ->
    skipped fmul md train_ev mt a t u.

(** What the task of a user ends with: metrics are evaluated, the user is skipped,
    or the model's rank raises. *)
Definition user_outcome fmul (md : model) (train_ev : bool) (mt : mem) (a : re_args) (t : slit) (u : value)
  (x : res (option case)) : Prop :=
  exists z, u = VInt z /\
  match x with
  | Ok (Some c) => ranked fmul md train_ev mt a t z c
  | Ok None => skipped fmul md train_ev mt a t z
  | Err e => exists items, md_rank md u items (e_novelty a) = Err e
  end.

(** The same for the recommendation evaluation. *)
Definition recommended (md : model) (mt : mem) (a : rc_args) (t : slit) (u : Z) (c : case) : Prop :=
  exists P n,
    chosen (r_npos a) (filter (liked t) (rows_for u mt)) P /\ P <> [] /\
    (In n (r_k a) /\ forall k, In k (r_k a) -> k <= n) /\
    md_recommend md (VInt u) n (r_novelty a) (r_low a) = Ok (c_recs c) /\
    Forall2 same_value (c_rel c) (map item_of P) /\
    best_ok P (c_best c) /\
    relevancies_ok u mt (c_rel c ++ c_recs c) (c_rels c).

(** What the task of a user ends with: metrics are evaluated, the user has too few
    liked items, or recommend raises. *)
Definition rec_outcome (md : model) (mt : mem) (a : rc_args) (t : slit) (u : value) (x : res (option case)) : Prop :=
  exists z, u = VInt z /\
  match x with
  | Ok (Some c) => recommended md mt a t z c
  | Ok None => filter (liked t) (rows_for z mt) = [] \/
      exists n, r_npos a = Some n /\ Z.of_nat (length (filter (liked t) (rows_for z mt))) < n
  | Err e => r_k a = [] \/ exists n, In n (r_k a) /\ md_recommend md u n (r_novelty a) (r_low a) = Err e
  end.
(** ids as the processes can look them up in the test data *)
Definition int_id (v : value) : Prop := exists z, same_value v (VInt z) /\ Z.abs z <= 2 ^ 53.
Definition int_recs (md : model) : Prop :=
  forall u n novelty low recs, md_recommend md u n novelty low = Ok recs -> Forall int_id recs.
(** products of positive numbers are not negative *)
Definition mul_nonneg (fmul : Z -> Qc -> Qc) : Prop := forall n q, 0 <= n -> (0 < q)%Qc -> (0 <= fmul n q)%Qc.

(** the distinct elements in order of first appearance *)
Fixpoint appearing (l : list value) : list value :=
  match l with [] => [] | v :: l' => v :: remove value_eq_dec v (appearing l') end.
(** the first [n] users of the test data *)
Definition first_users (n : option Z) (m : mem) : list value :=
  let us := appearing (column "user" (rows_of m)) in
  match n with None => us | Some n => firstn (Z.to_nat n) us end.

(** a regression metric over (prediction, true value) pairs *)
Definition scored_pairs (md : model) (skip count_none : bool) (rows : list row) : list (Qc * Qc) :=
  flat_map (fun r => match cell r "user", cell r "item" with
                     | Some u, Some i => match md_predict md u i skip with
                                         | Ok (Some p) => [(p, interaction_of r)]
                                         | Ok None => if count_none then [(0%Qc, interaction_of r)] else []
                                         | Err _ => []
                                         end
                     | _, _ => []
                     end) rows.
(** the model takes 5.0 for 5 (numpy turns ints into floats when a row is read
    together with a float column) *)
Definition blind (md : model) (skip : bool) (m : mem) : Prop :=
  forall r u i u' i', In r (rows_of m) -> cell r "user" = Some u -> cell r "item" = Some i ->
    same_value u' u -> same_value i' i -> md_predict md u' i' skip = md_predict md u i skip.

(** test data of a predictive evaluation *)
Record pe_data (m : mem) : Prop := {
  pd_wf : wf_mem m;
  pd_cols : forall c, In c ["user"; "item"; "interaction"] -> In c (m_columns m);
  pd_value : exists ty, col_type m "interaction" = Ok ty /\ ty <> DObj;
  pd_small : forall c, In c ["user"; "item"; "interaction"] -> small_col m c }.
(** predict raises for no row (as with skip_errors) *)
Definition predicts (md : model) (skip : bool) (m : mem) : Prop :=
  forall r u i, In r (rows_of m) -> cell r "user" = Some u -> cell r "item" = Some i -> exists p, md_predict md u i skip = Ok p.
(** the first [n] of them *)
Definition first_pairs (n : option Z) (l : list (Qc * Qc)) : list (Qc * Qc) :=
  match n with None => l | Some n => firstn (Z.to_nat n) l end.
Definition true_values (l : list (Qc * Qc)) : list R := map (fun p => R_of (snd p)) l.
Definition predictions (l : list (Qc * Qc)) : list R := map (fun p => R_of (fst p)) l.
(** both data sets have integer ids, or the test data has text ids *)
Definition id_match (m mt : mem) (c : string) : Prop :=
  col_type mt c = Ok DObj \/ (col_type m c = Ok DInt /\ col_type mt c = Ok DInt).
