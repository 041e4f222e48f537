(** Model of the generators and item vectors of the database data sets,
    DRecPy/Dataset/db_dataset.py:131-232, and of PointSampler
    (DRecPy/Sampler/point_sampler.py) on a database data set.  Definitions only.

    Randomness is a stream of numbers, as in SampModel; with seed=None two
    generators share the random numbers of the module, which is one more pair of
    streams.  A loop that may run for ever takes fuel; a result [None] means that
    the call has not returned.  Cursors that stay open between two pulls do not
    lock the tables here. *)
From Coq Require Import String Ascii.
From Coq Require Import List ZArith QArith Qcanon Bool.
From Verif Require Import Py MemModel KnnModel SplitModel SampModel DbModel.
Import ListNotations.
Open Scope string_scope.
Open Scope Z_scope.

(** Computations on the shared state that may raise or not return. *)
Definition F (A : Type) := world -> world * option (res A).
Definition runs {A} (m : M A) : F A := fun w => let '(w', r) := m w in (w', Some r).
Definition hangs {A} : F A := fun w => (w, None).
Definition fthen {A B} (m : F A) (f : A -> F B) : F B :=
  fun w => match m w with
           | (w', Some (Ok a)) => f a w'
           | (w', Some (Err e)) => (w', Some (Err e))
           | (w', None) => (w', None)
           end.
Notation "x <~~ m ;; k" := (fthen m (fun x => k)) (at level 61, m at next level, right associativity).
(** try: ... except: None *)
Definition attempt {A} (m : F A) : F (option A) :=
  fun w => match m w with
           | (w', Some (Ok a)) => (w', Some (Ok (Some a)))
           | (w', Some (Err _)) => (w', Some (Ok None))
           | (w', None) => (w', None)
           end.

Section Gen.
Variable inode : string -> nat.

(** [c.execute(self._build_new_state(self._parse_query(q)))] (179-182, 187, 229-231) *)
Definition rows_where (i : nat) (q : string) : M (list trow) :=
  x <~ self i ;;
  conds <~ lift (parse_query x q) ;;
  r <~ query inode x (src_of (new_state x conds)) ;;
  ret (snd r).

(** db_dataset.py:163-166 and 208-211: a copy restricted by a query *)
Definition filtered_copy (i : nat) (q : string) : M nat :=
  j <~ copy inode i ;;
  y <~ self j ;;
  conds <~ lift (parse_query y q) ;;
  _ <~ update_state inode j (new_state y conds) ;;
  ret j.

(** ** db_dataset.py:169-195, _select_random_generator *)

(** A generator object on data set [j]: not started, suspended at the yield with
    the largest uid and the position of its stream, or finished. *)
Inductive rgen := RNew (j : nat) | RAt (j : nat) (max_uid : Z) (k : nat) | REnd.

(** lines 177-195: the loop up to the next yield *)
Fixpoint rand_loop (fuel : nat) (ord : list trow -> list trow) (s : nat -> nat) (j : nat) (max_uid : Z) (k : nat)
  : F (trow * nat) :=
  match fuel with
  | O => hangs
  | S fuel' =>
      u <~~ runs (lift (randint s k 0 max_uid)) ;;
      rows <~~ runs (rows_where j ("uid == " ++ str_of_Z u)) ;;
      if Nat.eqb (length rows) 0 then rand_loop fuel' ord s j max_uid (S k) else
      idx <~~ runs (lift (randint s (S k) 0 (Z.of_nat (length rows) - 1))) ;;
      x <~~ runs (self j) ;;
      match nth_error (ord rows) (Z.to_nat idx) with
      | Some r => runs (ret (zip_row x r, S (S k)))
      | None => rand_loop fuel' ord s j max_uid (S (S k))
      end
  end.

(** lines 170-176, on the first pull *)
Definition rand_start (g : rgen) : M (nat * Z * nat) :=
  match g with
  | RNew j =>
      n <~ ds_len j ;;
      if Nat.eqb n 0 then raise AssertionError else
      m <~ db_max inode j "uid" ;;
      match m with Some (VInt z) => ret (j, z, O) | _ => raise TypeError end
  | RAt j mu k => ret (j, mu, k)
  | REnd => raise GenericException
  end.

(** One pull: the record ([None] for a finished generator) and the generator
    afterwards. *)
Definition rand_next (fuel : nat) (ord : list trow -> list trow) (s : nat -> nat) (g : rgen)
  : world -> world * option (res (option trow) * rgen) :=
  fun w =>
  match g with
  | REnd => (w, Some (Ok None, REnd))
  | _ =>
      match (st <~~ runs (rand_start g) ;;
             let '(j, mu, k) := st in
             r <~~ rand_loop fuel ord s j mu k ;;
             runs (ret (fst r, RAt j mu (snd r)))) w with
      | (w', None) => (w', None)
      | (w', Some (Err e)) => (w', Some (Err e, REnd))
      | (w', Some (Ok (rec, g'))) => (w', Some (Ok (Some rec), g'))
      end
  end.

(** db_dataset.py:157-167, select_random_generator *)
Definition random_generator (i : nat) (q : option string) : M rgen :=
  x <~ self i ;;
  if negb (i_ids x) then raise AssertionError else
  match q with
  | None => ret (RNew i)
  | Some t => j <~ filtered_copy i t ;; ret (RNew j)
  end.

(** the first [n] records *)
Fixpoint rand_take (n fuel : nat) (ord : list trow -> list trow) (s : nat -> nat) (g : rgen) : F (list trow) :=
  match n with
  | O => runs (ret [])
  | S n' => fun w =>
      match rand_next fuel ord s g w with
      | (w', None) => (w', None)
      | (w', Some (Err e, _)) => (w', Some (Err e))
      | (w', Some (Ok None, _)) => (w', Some (Ok []))
      | (w', Some (Ok (Some r), g')) => (l <~~ rand_take n' fuel ord s g' ;; runs (ret (r :: l))) w'
      end
  end.

(** ** db_dataset.py:197-232, null_interaction_pair_generator *)

(** [NAt i max_uid max_iid negative k]: [negative] is the copy with the rows below
    the threshold and its generator, [k] the position of the stream. *)
Inductive ngen :=
| NNew (i : nat) (threshold : option string)
| NAt (i : nat) (max_uid max_iid : Z) (negative : option (nat * rgen)) (k : nat)
| NEnd.

(** a pair as yielded: two numbers, or two cells of a record *)
Definition pair := (option value * option value)%type.
Definition record_pair (r : trow) : res pair :=
  u <- pick_cell r "uid" ;; i <- pick_cell r "iid" ;; Ok (u, i).

(** next(g) inside the generator; a finished [g] raises *)
Definition rand_pull (fuel : nat) (ord : list trow -> list trow) (s : nat -> nat) (g : rgen) : F (trow * rgen) :=
  fun w =>
  match rand_next fuel ord s g w with
  | (w', None) => (w', None)
  | (w', Some (Err e, _)) => (w', Some (Err e))
  | (w', Some (Ok None, _)) => (w', Some (Err GenericException))
  | (w', Some (Ok (Some r), g')) => (w', Some (Ok (r, g')))
  end.

(** lines 198-219: the asserts, the generator of existing pairs and the bounds *)
Definition max_of (i : nat) (c : string) : M Z :=
  m <~ db_max inode i c ;;
  match m with Some (VInt z) => ret z | _ => raise TypeError end.
Definition null_start (fuel : nat) (ord : list trow -> list trow) (s2 : nat -> nat) (i : nat) (threshold : option string)
  : F (Z * Z * option (nat * rgen)) :=
  _ <~~ runs (x <~ self i ;; n <~ ds_len i ;; if negb (i_ids x) || Nat.eqb n 0 then raise AssertionError else ret tt)%bool ;;
  neg <~~ match threshold with
         | None => runs (ret None)
         | Some t => attempt (j <~~ runs (filtered_copy i ("interaction < " ++ t)) ;;
                              rg <~~ rand_pull fuel ord s2 (RNew j) ;;
                              runs (ret (j, snd rg)))
         end ;;
  mu <~~ runs (max_of i "uid") ;;
  mi <~~ runs (max_of i "iid") ;;
  runs (ret (mu, mi, neg)).

(** lines 223-224: is an existing pair taken?  The second component is the position
    of the next draw. *)
Definition takes_existing (s : nat -> nat) (mu mi : Z) (neg : option (nat * rgen)) (k : nat)
  : M (option (nat * rgen) * nat) :=
  match neg with
  | None => ret (None, k)
  | Some (j, g) =>
      n <~ ds_len j ;;
      c <~ lift (randint s k 0 (mu * mi + Z.of_nat n)) ;;
      ret (if mu * mi <=? c then Some (j, g) else None, S k)
  end.
(** lines 227-231: a random pair and the rows with it *)
Definition draw_pair (s : nat -> nat) (i : nat) (mu mi : Z) (k : nat) : M (Z * Z * list trow) :=
  u <~ lift (randint s k 0 mu) ;;
  v <~ lift (randint s (S k) 0 mi) ;;
  rows <~ rows_where i ("uid == " ++ str_of_Z u ++ ", iid == " ++ str_of_Z v) ;;
  ret (u, v, rows).
(** lines 222-232: the loop up to the next yield *)
Fixpoint pair_loop (fuel : nat) (ord : list trow -> list trow) (s s2 : nat -> nat) (i : nat) (mu mi : Z)
  (neg : option (nat * rgen)) (k : nat) : F (pair * option (nat * rgen) * nat) :=
  match fuel with
  | O => hangs
  | S fuel' =>
      ek <~~ runs (takes_existing s mu mi neg k) ;;
      match fst ek with
      | Some (j, g) =>
          rg <~~ rand_pull fuel' ord s2 g ;;
          p <~~ runs (lift (record_pair (fst rg))) ;;
          runs (ret (p, Some (j, snd rg), snd ek))
      | None =>
          uvr <~~ runs (draw_pair s i mu mi (snd ek)) ;;
          let '(u, v, rows) := uvr in
          match rows with
          | [] => runs (ret ((Some (VInt u), Some (VInt v)), neg, S (S (snd ek))))
          | _ => pair_loop fuel' ord s s2 i mu mi neg (S (S (snd ek)))
          end
      end
  end.

(** one pull *)
Definition null_next (fuel : nat) (ord : list trow -> list trow) (s s2 : nat -> nat) (g : ngen)
  : world -> world * option (res (option pair) * ngen) :=
  fun w =>
  let go i mu mi neg k :=
    r <~~ pair_loop fuel ord s s2 i mu mi neg k ;;
    let '(p, neg', k') := r in runs (ret (p, NAt i mu mi neg' k')) in
  match g with
  | NEnd => (w, Some (Ok None, NEnd))
  | _ =>
      match (match g with
             | NNew i t => st <~~ null_start fuel ord s2 i t ;;
                           let '(mu, mi, neg) := st in go i mu mi neg O
             | NAt i mu mi neg k => go i mu mi neg k
             | NEnd => runs (raise GenericException)
             end) w with
      | (w', None) => (w', None)
      | (w', Some (Err e)) => (w', Some (Err e, NEnd))
      | (w', Some (Ok (p, g'))) => (w', Some (Ok (Some p), g'))
      end
  end.

(** the first [n] pairs *)
Fixpoint null_take (n fuel : nat) (ord : list trow -> list trow) (s s2 : nat -> nat) (g : ngen) : F (list pair) :=
  match n with
  | O => runs (ret [])
  | S n' => fun w =>
      match null_next fuel ord s s2 g w with
      | (w', None) => (w', None)
      | (w', Some (Err e, _)) => (w', Some (Err e))
      | (w', Some (Ok None, _)) => (w', Some (Ok []))
      | (w', Some (Ok (Some p), g')) => (l <~~ null_take n' fuel ord s s2 g' ;; runs (ret (p :: l))) w'
      end
  end.

(** ** PointSampler on a database data set, point_sampler.py:19-96 *)

(** the streams: labels, unobserved pairs, existing pairs, positive records *)
Record dbdraws := mkDbDraws { dd_label : nat -> Qc; dd_null : nat -> nat; dd_neg : nat -> nat; dd_pos : nat -> nat }.
Record dbpoint := mkDbPoint { dp_k : nat; dp_null : ngen; dp_pos : rgen }.

(** point_sampler.py:19-43; making the generator of pairs runs none of its code *)
Definition db_point_init (i : nat) (threshold : option string) : M dbpoint :=
  x <~ self i ;;
  if negb (i_ids x) then raise AssertionError else
  g <~ random_generator i (option_map (fun t => "interaction >= " ++ t) threshold) ;;
  ret (mkDbPoint O (NNew i threshold) g).

(** a sampled triple, with None where Python has None *)
Definition dbtriple := (option value * option value * option value)%type.

(** point_sampler.py:74-84: the default has three elements, two names *)
Definition db_sample_negative (fuel : nat) (ord : list trow -> list trow) (d : dbdraws) (p : dbpoint)
  : world -> world * option (res dbtriple * dbpoint) :=
  fun w =>
  match null_next fuel ord (dd_null d) (dd_neg d) (dp_null p) w with
  | (w', None) => (w', None)
  | (w', Some (x, g)) =>
      (w', Some (match x with
                 | Err e => Err e
                 | Ok None => Err ValueError
                 | Ok (Some (u, i)) => Ok (u, i, Some (VInt 0))
                 end, mkDbPoint (dp_k p) g (dp_pos p)))
  end.
(** point_sampler.py:86-96 *)
Definition db_sample_positive (fuel : nat) (ord : list trow -> list trow) (d : dbdraws) (p : dbpoint)
  : world -> world * option (res dbtriple * dbpoint) :=
  fun w =>
  match rand_next fuel ord (dd_pos d) (dp_pos p) w with
  | (w', None) => (w', None)
  | (w', Some (x, g)) =>
      (w', Some (match x with
                 | Err e => Err e
                 | Ok None => Ok (None, None, None)
                 | Ok (Some r) => t <- record_pair r ;; v <- pick_cell r "interaction" ;; Ok (fst t, snd t, v)
                 end, mkDbPoint (dp_k p) (dp_null p) g))
  end.

(** point_sampler.py:56-62 for n >= 0 *)
Fixpoint db_sample (n fuel : nat) (ord : list trow -> list trow) (neg : Qc) (d : dbdraws) (p : dbpoint)
  : world -> world * option (res (list dbtriple) * dbpoint) :=
  fun w =>
  match n with
  | O => (w, Some (Ok [], p))
  | S n' =>
      let p1 := mkDbPoint (S (dp_k p)) (dp_null p) (dp_pos p) in
      match (if Qcgtb (0 + (neg + 1 - 0) * dd_label d (dp_k p))%Qc 1
             then db_sample_negative fuel ord d p1 w else db_sample_positive fuel ord d p1 w) with
      | (w', None) => (w', None)
      | (w', Some (Err e, p2)) => (w', Some (Err e, p2))
      | (w', Some (Ok t, p2)) =>
          match db_sample n' fuel ord neg d p2 w' with
          | (w'', Some (Ok l, p3)) => (w'', Some (Ok (t :: l), p3))
          | x => x
          end
      end
  end.

(** ** db_dataset.py:131-155, select_item_interaction_vec.  The cache of item
    vectors of the data set is passed in and returned. *)
Definition item_vec (ord : list trow -> list trow) (i : nat) (iid : Z) (cache : list (Z * list Qc))
  : M (list Qc * list (Z * list Qc)) :=
  x <~ self i ;;
  if negb (i_ids x) then raise AssertionError else
  u <~ db_iid_to_item inode i iid ;;
  match u with
  | None => raise AssertionError
  | Some _ =>
    match assoc Z.eqb iid cache with
    | Some v => ret (v, cache)
    | None =>
        m <~ db_max inode i "uid" ;;
        j <~ select inode i ("iid == " ++ str_of_Z iid) true ;;
        rows <~ values inode ord j (Some ["uid"; "interaction"]) false ;;
        es <~ lift (mapM vec_entry rows) ;;
        match m with
        | Some (VInt k) =>
            if forallb (fun e => (fst e <=? k) && (0 <=? fst e))%bool es then
              let v := dense (Z.to_nat (k + 1)) es in
              ret (v, (iid, v) :: (if Nat.ltb 1000 (length cache) then [] else cache))
            else raise ValueError
        | _ => raise TypeError
        end
    end
  end.
End Gen.
