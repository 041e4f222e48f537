(** Model of the samplers: DRecPy/Sampler/point_sampler.py, list_sampler.py and the
    generators they pull from (mem_dataset.py:101-163), on in-memory data sets.
    Definitions only.

    Randomness: a generator of the module random is a stream of numbers,
    [s : nat -> nat], with the position of the next draw.  Every sequence of
    results of randint and choice is one of these streams.  [uniform] draws are a
    separate stream of fractions in [0, 1).  A loop that may run for ever takes
    fuel; [None] means that it has not returned after that many rounds. *)
From Coq Require Import String Ascii.
From Coq Require Import List ZArith QArith Qcanon Qround Bool.
From Verif Require Import Py MemModel KnnModel SplitModel.
Import ListNotations.
Open Scope string_scope.
Open Scope Z_scope.

(** rng.randint(a, b): both ends included, ValueError for an empty range *)
Definition randint (s : nat -> nat) (k : nat) (a b : Z) : res Z :=
  if b <? a then Err ValueError else Ok (a + Z.of_nat (s k) mod (b - a + 1)).

(** rng.choice(l): IndexError for an empty list *)
Definition choice {A} (s : nat -> nat) (k : nat) (l : list A) : res A :=
  match nth_error l (s k mod length l) with Some x => Ok x | None => Err IndexError end.

(** A Python generator object: not started, suspended at a yield with the
    position of its random stream, or finished (an exception finishes it). *)
Inductive gen := Fresh | At (k : nat) | Dead.

(** [self.max(c)] of an integer column, used as bound of randint.  An empty
    column gives NaN, which randint refuses. *)
Definition max_id (m : mem) (c : string) : res Z :=
  v <- mem_max m c ;;
  match v with Some (VInt z) => Ok z | _ => Err ValueError end.

(** [df[c] == z] for one row *)
Definition id_is (c : string) (z : Z) (r : row) : bool :=
  match cell r c with Some v => val_eqb v (VInt z) | None => false end.

(** ** mem_dataset.py:113-129, _select_random_generator *)

(** mem_dataset.py:125: [zip(df_columns, tmp_df.iloc[idx, :])].  The columns of the
    data set are paired with the cells of the row by position; a row taken with
    iloc has one common dtype. *)
Definition random_record (m : mem) (r : row) : list (string * value) :=
  combine (df_columns (m_columns m))
          (map (fun p => upcast (common_type (map snd (f_types (m_df m)))) (snd p)) (r_cells r)).

(** the fields a sampler reads from the record: uid and iid as int (127-128) *)
Definition field (rec : list (string * value)) (c : string) : res value :=
  match assoc String.eqb c rec with Some v => Ok v | None => Err KeyError end.
Definition read_triple (rec : list (string * value)) : res (Z * Z * value) :=
  vu <- field rec "uid" ;; u <- int_value vu ;;
  vi <- field rec "iid" ;; i <- int_value vi ;;
  x <- field rec "interaction" ;; Ok (u, i, x).

(** mem_dataset.py:120-129, the loop up to the next yield: the chosen row *)
Fixpoint pos_loop (fuel : nat) (max_uid : Z) (rows : list row) (s : nat -> nat) (k : nat) : option (res row * nat) :=
  match fuel with
  | O => None
  | S fuel' =>
      match randint s k 0 max_uid with
      | Err e => Some (Err e, k)
      | Ok u =>
          match filter (id_is "uid" u) rows with
          | [] => pos_loop fuel' max_uid rows s (S k)
          | tmp => Some (idx <- randint s (S k) 0 (Z.of_nat (length tmp) - 1) ;;
                         match nth_error tmp (Z.to_nat idx) with Some r => Ok r | None => Err IndexError end, S (S k))
          end
      end
  end.

(** one pull: the assert (114) runs on the first one; [inl None] is an exhausted
    generator, for which next() gives its default *)
Definition pos_next (fuel : nat) (m : mem) (f : frame) (s : nat -> nat) (g : gen) : option (res (option row) * gen) :=
  match g with
  | Dead => Some (Ok None, Dead)
  | _ =>
      match f_rows f, max_id m "uid" with
      | [], _ => Some (Err AssertionError, Dead)
      | _, Err e => Some (Err e, Dead)
      | _, Ok mu =>
          match pos_loop fuel mu (f_rows f) s (match g with At k => k | _ => O end) with
          | None => None
          | Some (Err e, _) => Some (Err e, Dead)
          | Some (Ok r, k) => Some (Ok (Some r), At k)
          end
      end
  end.

(** ** mem_dataset.py:131-163, null_interaction_pair_generator

    With a threshold, line 143 passes a data frame where a query text is expected.
    [_apply_query] takes the printed table as the query (386) and raises, since no
    table parses as "column operator value"; the bare except (145) then leaves
    [existing_null_pair_gen = None].  The branch 155-157 is never taken. *)
Definition select_by_frame (f : frame) : res frame := Err GenericException.
Definition existing_pairs (m : mem) (threshold : option string) : option frame :=
  match threshold with
  | None => None
  | Some t => match (f <- apply_query m ("interaction < " ++ t) ;; select_by_frame f) with
              | Ok f => Some f
              | Err _ => None
              end
  end.

(** mem_dataset.py:154-163, the else branch of the loop up to the next yield *)
Definition observed_pair (m : mem) (u i : Z) : bool :=
  existsb (fun r => id_is "uid" u r && id_is "iid" i r) (rows_of m).
Fixpoint null_loop (fuel : nat) (m : mem) (mu mi : Z) (s : nat -> nat) (k : nat) : option (res (Z * Z) * nat) :=
  match fuel with
  | O => None
  | S fuel' =>
      match (u <- randint s k 0 mu ;; i <- randint s (S k) 0 mi ;; Ok (u, i)) with
      | Err e => Some (Err e, k)
      | Ok (u, i) => if observed_pair m u i then null_loop fuel' m mu mi s (S (S k))
                     else Some (Ok (u, i), S (S k))
      end
  end.

(** one pull *)
Definition null_next (fuel : nat) (m : mem) (threshold : option string) (s : nat -> nat) (g : gen)
  : option (res (option (Z * Z)) * gen) :=
  match g with
  | Dead => Some (Ok None, Dead)
  | _ =>
      if negb (m_ids m) || Nat.eqb (mem_len m) 0 then Some (Err AssertionError, Dead) else
      match existing_pairs m threshold with
      | Some _ => None   (* never: see above *)
      | None =>
          match max_id m "uid", max_id m "iid" with
          | Err e, _ | _, Err e => Some (Err e, Dead)
          | Ok mu, Ok mi =>
              match null_loop fuel m mu mi s (match g with At k => k | _ => O end) with
              | None => None
              | Some (Err e, _) => Some (Err e, Dead)
              | Some (Ok p, k) => Some (Ok (Some p), At k)
              end
          end
      end
  end.

(** the first [n] pairs of the generator *)
Fixpoint null_take (n fuel : nat) (m : mem) (threshold : option string) (s : nat -> nat) (g : gen)
  : option (res (list (Z * Z))) :=
  match n with
  | O => Some (Ok [])
  | S n' =>
      match null_next fuel m threshold s g with
      | None => None
      | Some (Err e, _) => Some (Err e)
      | Some (Ok None, _) => Some (Ok [])
      | Some (Ok (Some p), g') =>
          match null_take n' fuel m threshold s g' with
          | Some (Ok l) => Some (Ok (p :: l))
          | x => x
          end
      end
  end.

(** ** PointSampler *)

(** point_sampler.py:19-43; mem_dataset.py:101-110.  The frame holds the rows the
    positive samples are drawn from. *)
Record point := mkPoint { pt_m : mem; pt_neg : Qc; pt_thr : option string; pt_pos : frame }.
Definition point_init (m : mem) (neg_ratio : Qc) (threshold : option string) : res point :=
  if negb (m_ids m) then Err AssertionError else
  if Nat.eqb (mem_len m) 0 then Err AssertionError else
  match threshold with
  | None => Ok (mkPoint m neg_ratio None (m_df m))
  | Some t => f <- apply_query m ("interaction >= " ++ t) ;; Ok (mkPoint m neg_ratio (Some t) f)
  end.

(** random streams: choice of the label, negative pairs, positive rows *)
Record draws := mkDraws { dr_label : nat -> Qc; dr_null : nat -> nat; dr_pos : nat -> nat }.
Record pstate := mkPst { ps_k : nat; ps_null : gen; ps_pos : gen }.
Definition pst0 := mkPst O Fresh Fresh.

(** a sampled triple; None where Python returns None *)
Definition triple : Type := option Z * option Z * option value.

(** point_sampler.py:74-84.  The default has three elements and is unpacked into
    two names. *)
Definition sample_negative (fuel : nat) (p : point) (d : draws) (st : pstate) : option (res triple * pstate) :=
  match null_next fuel (pt_m p) (pt_thr p) (dr_null d) (ps_null st) with
  | None => None
  | Some (x, g) =>
      Some (match x with
            | Err e => Err e
            | Ok None => Err ValueError
            | Ok (Some (u, i)) => Ok (Some u, Some i, Some (VInt 0))
            end, mkPst (ps_k st) g (ps_pos st))
  end.

(** point_sampler.py:86-96 *)
Definition sample_positive (fuel : nat) (p : point) (d : draws) (st : pstate) : option (res triple * pstate) :=
  match pos_next fuel (pt_m p) (pt_pos p) (dr_pos d) (ps_pos st) with
  | None => None
  | Some (x, g) =>
      Some (match x with
            | Err e => Err e
            | Ok None => Ok (None, None, None)
            | Ok (Some r) => t <- read_triple (random_record (pt_m p) r) ;;
                             let '(u, i, v) := t in Ok (Some u, Some i, Some v)
            end, mkPst (ps_k st) (ps_null st) g)
  end.

(** point_sampler.py:59: [self.rng.uniform(0, self.neg_ratio + 1) > 1] *)
Definition Qcgtb (a b : Qc) : bool := Qcltb b a.
Definition is_null (p : point) (d : draws) (k : nat) : bool :=
  Qcgtb (0 + (pt_neg p + 1 - 0) * dr_label d k)%Qc 1.

(** point_sampler.py:56-62 for n >= 0 (a negative n never leaves the loop) *)
Fixpoint sample (n fuel : nat) (p : point) (d : draws) (st : pstate) : option (res (list triple) * pstate) :=
  match n with
  | O => Some (Ok [], st)
  | S n' =>
      let st1 := mkPst (S (ps_k st)) (ps_null st) (ps_pos st) in
      match (if is_null p d (ps_k st) then sample_negative fuel p d st1 else sample_positive fuel p d st1) with
      | None => None
      | Some (Err e, st2) => Some (Err e, st2)
      | Some (Ok t, st2) =>
          match sample n' fuel p d st2 with
          | None => None
          | Some (Err e, st3) => Some (Err e, st3)
          | Some (Ok l, st3) => Some (Ok (t :: l), st3)
          end
      end
  end.

(** several calls of sample(n) on one sampler, exceptions caught by the caller *)
Fixpoint samples (ns : list nat) (fuel : nat) (p : point) (d : draws) (st : pstate) : option (list (res (list triple))) :=
  match ns with
  | [] => Some []
  | n :: ns' =>
      match sample n fuel p d st with
      | None => None
      | Some (x, st') => match samples ns' fuel p d st' with Some l => Some (x :: l) | None => None end
      end
  end.

(** ** ListSampler *)

Record ls_args := mkLs {
  l_groups : list string; l_neg : Z; l_targets : option Z; l_negcol : string; l_thr : option string;
  l_sort : option string; l_min : Z; l_max : option Z }.

(** the asserts of list_sampler.py:36-60 *)
Definition ls_check (m : mem) (a : ls_args) : bool :=
  m_ids m &&
  match l_targets a with Some t => (0 <? t) && col_in m (l_negcol a) | None => true end &&
  match l_sort a with Some c => col_in m c | None => true end &&
  match l_max a with Some x => l_min a <=? x | None => true end.

(** list_sampler.py:62-73.  unique_groups: a group given by one column is a value,
    turned into a list of one value at line 98. *)
Record lsampler := mkLsS { ls_m : mem; ls_a : ls_args; ls_uniq : list (list value); ls_negs : list value }.
Definition ls_init (m : mem) (a : ls_args) : res lsampler :=
  if negb (ls_check m a) then Err AssertionError else
  ug <- unique m (Some (l_groups a)) ;;
  gs <- values ug (Some (l_groups a)) ;;
  ns <- distinct_values m (l_negcol a) ;;
  Ok (mkLsS m a gs (dedup val_eqb ns)).

Definition record := list (string * value).

(** list_sampler.py:99-100 *)
Definition group_query (cols : list string) (g : list value) : string :=
  String.concat "," (map (fun p => fst p ++ " == " ++ str_of_value (snd p)) (combine cols g)).

(** list_sampler.py:96-105: the positive records of a group *)
Definition group_rows (ls : lsampler) (g : list value) : res mem :=
  mg <- select (ls_m ls) (group_query (l_groups (ls_a ls)) g) ;;
  match l_thr (ls_a ls) with
  | None => Ok mg
  | Some t => select mg ("interaction >= " ++ t)
  end.

(** list_sampler.py:115-117: stable sort by the sort column *)
Definition rec_leb (c : string) (a b : record) : bool :=
  match assoc String.eqb c a, assoc String.eqb c b with
  | Some x, Some y => match val_ltb y x with Some true => false | _ => true end
  | _, _ => true
  end.
Definition sort_records (a : ls_args) (l : list record) : list record :=
  match l_sort a with None => l | Some c => sort_by (rec_leb c) l end.

(** l[i:j] for 0 <= i <= j *)
Definition slice {A} (i j : Z) (l : list A) : list A := firstn (Z.to_nat (j - i)) (skipn (Z.to_nat i) l).

(** what one sample is: positives, targets and negatives (n_targets given), or
    positives alone *)
Inductive gsample := Seq (pos : list record) | Tri (pos targets : list record) (negs : list value).

Section ListSampler.
(** rng.sample(set, n) at position k of the stream: n distinct elements *)
Variable pick : nat -> list value -> nat -> list value.
Variable s : nat -> nat.

(** list_sampler.py:120-126 *)
Definition padding (a : ls_args) (n : Z) (k : nat) : res (option Z) :=
  match l_max a with
  | None => Ok None
  | Some mx =>
      if mx <? n then
        p <- randint s k 0 (match l_targets a with None => n - mx | Some t => n - mx - t end) ;; Ok (Some p)
      else Ok None
  end.

(** the eligible negative ids, list_sampler.py:132 *)
Definition eligible (ls : lsampler) (all : list record) : res (list value) :=
  ids <- mapM (fun r => field r (l_negcol (ls_a ls))) all ;;
  Ok (filter (fun v => negb (mem_b val_eqb v ids)) (ls_negs ls)).

(** One round of the while loop (list_sampler.py:95-152): [None] is [continue] (or
    the raise, depending on the number of tries); draw number k chooses the group,
    k+1 the padding, k+2 the negatives. *)
Definition attempt (ls : lsampler) (k : nat) : res (option gsample) :=
  let a := ls_a ls in
  g <- choice s k (ls_uniq ls) ;;
  mp <- group_rows ls g ;;
  let n := Z.of_nat (mem_len mp) in
  if (n <? l_min a) || match l_targets a with Some t => n <? l_min a + t | None => false end then Ok None else
  recs <- values_dict mp None ;;
  let all := sort_records a recs in
  p <- padding a n (k + 1) ;;
  let pos := match p, l_max a with Some p, Some mx => slice p (p + mx) all | _, _ => all end in
  match l_targets a with
  | None => Ok (Some (Seq pos))
  | Some t =>
      el <- eligible ls all ;;
      let '(tg, pos') :=
        match p, l_max a with
        | Some p, Some mx => (slice (p + mx) (p + mx + t) all, pos)
        | _, _ => (skipn (Z.to_nat t) pos, firstn (Z.to_nat t) pos)
        end in
      let nn := l_neg a * Z.of_nat (length tg) in
      if Z.of_nat (length el) <? nn then Ok None else
      if nn <? 0 then Err ValueError else
      Ok (Some (Tri pos' tg (pick (k + 2) el (Z.to_nat nn))))
  end.

(** the while loop: at most 21 rounds (list_sampler.py:33, 107-111, 145-149) *)
Fixpoint tries (left : nat) (ls : lsampler) (k : nat) : res (gsample * nat) :=
  x <- attempt ls k ;;
  match x with
  | Some g => Ok (g, (k + 3)%nat)
  | None => match left with O => Err GenericException | S l => tries l ls (k + 3) end
  end.

(** list_sampler.py:89-154 *)
Fixpoint sample_groups (n : nat) (ls : lsampler) (k : nat) : res (list gsample) :=
  match n with
  | O => Ok []
  | S n' => x <- tries 20 ls k ;; let '(g, k') := x in
            l <- sample_groups n' ls k' ;; Ok (g :: l)
  end.
End ListSampler.
