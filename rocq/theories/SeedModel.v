(** Model of where the random numbers of recommenders come from:
    DRecPy/Recommender/recommender_abc.py:58, 74-75 (the constructor), the random
    choices of a fit (cdae.py:35-45, 63; dmf.py:47-62; caser.py:47-75) and the
    generators of DRecPy/Sampler/point_sampler.py:32-42, list_sampler.py:69 and
    DRecPy/Dataset/mem_dataset.py:114-115, 135-136.  Definitions only.

    A generator is known by where it started and how many numbers it has given.
    What a fit computes from its data and random numbers is an arbitrary function. *)
From Coq Require Import List ZArith Bool.
Import ListNotations.

Inductive kind := Knn | Dmf | Cdae | Caser.

(** A generator started from a seed, or from the operating system for the n-th time *)
Inductive origin := Seeded (s : Z) | Entropy (n : nat).
Definition generator : Type := origin * nat.

(** recommender_abc.py:58, 74: the attributes seed and _rng *)
Record rec := mkRec { r_kind : kind; r_seed : option Z; r_rng : generator }.

(** TensorFlow's generator (tf.random.set_seed), the one of Python's random module,
    the recommenders, and how often the operating system was asked *)
Record world := mkWorld { w_tf : generator; w_global : generator; w_recs : list rec; w_asked : nat }.
Definition world0 : world := mkWorld (Entropy 0, 0) (Entropy 1, 0) [] 2.

(** random.Random(seed), tf.random.set_seed(seed): None asks the operating system *)
Definition start (seed : option Z) (asked : nat) : generator :=
  match seed with Some s => (Seeded s, 0) | None => (Entropy asked, 0) end.
Definition asks (seed : option Z) : nat := match seed with Some _ => 0 | None => 1 end.

Section Program.
Variables (raw tfraw data result : Type).
(** the numbers of a generator of Python and of TensorFlow *)
Variable py : origin -> nat -> raw.
Variable tf : origin -> nat -> tfraw.
Definition rest {A} (f : origin -> nat -> A) (g : generator) : nat -> A := fun n => f (fst g) (snd g + n).

(** The generators of a sampler.  PointSampler: labels, negative pairs, positive
    records (point_sampler.py:32-42); for a seed three generators started alike, else
    the last two draw from the random module.  ListSampler: the first one. *)
Inductive sampler :=
| WithSeed (labels nulls positives : nat -> raw)
| WithoutSeed (labels module : nat -> raw).
(** Random numbers a fit can draw: initial weights and dropout, corruption of CDAE,
    the sampler *)
Record inputs := mkInputs { in_tf : nat -> tfraw; in_rng : nat -> raw; in_sampler : sampler }.

(** What a fit of a network leads to, and how many numbers it takes from TensorFlow,
    from _rng and from the random module; a fit of a neighbourhood model takes none *)
Variable train : kind -> data -> inputs -> result * (nat * nat * nat).
Variable knn : data -> result.

Definition sampler_of (seed : option Z) (asked : nat) (global : generator) : sampler :=
  match seed with
  | Some s => WithSeed (py (Seeded s)) (py (Seeded s)) (py (Seeded s))
  | None => WithoutSeed (py (Entropy asked)) (rest py global)
  end.
Definition inputs_of (w : world) (r : rec) : inputs :=
  mkInputs (rest tf (w_tf w)) (rest py (r_rng r)) (sampler_of (r_seed r) (w_asked w) (w_global w)).

Definition ahead (g : generator) (n : nat) : generator := (fst g, snd g + n).
Fixpoint set_nth {A} (n : nat) (x : A) (l : list A) : list A :=
  match n, l with
  | _, [] => []
  | O, _ :: l' => x :: l'
  | S n', y :: l' => y :: set_nth n' x l'
  end.

(** A program makes recommenders, fits them, and uses and seeds the two global
    generators itself *)
Inductive op :=
| Make (k : kind) (seed : option Z)
| Fit (i : nat) (d : data)
| UseTf (n : nat)
| SeedTf (seed : option Z)
| UseRandom (n : nat)
| SeedRandom (seed : option Z).

Definition step (w : world) (o : op) : world * option result :=
  match o with
  | Make k seed =>      (* recommender_abc.py:74-75: first _rng, then set_seed *)
      let asked := w_asked w + asks seed in
      (mkWorld (start seed asked) (w_global w) (w_recs w ++ [mkRec k seed (start seed (w_asked w))]) (asked + asks seed), None)
  | Fit i d =>
      match nth_error (w_recs w) i with
      | None => (w, None)
      | Some r =>
          match r_kind r with
          | Knn => (w, Some (knn d))
          | k =>
              let '(x, (t, c, g)) := train k d (inputs_of w r) in
              let g := match r_seed r with Some _ => 0 | None => g end in
              (mkWorld (ahead (w_tf w) t) (ahead (w_global w) g)
                 (set_nth i (mkRec k (r_seed r) (ahead (r_rng r) c)) (w_recs w)) (w_asked w + asks (r_seed r)), Some x)
          end
      end
  | UseTf n => (mkWorld (ahead (w_tf w) n) (w_global w) (w_recs w) (w_asked w), None)
  | SeedTf s => (mkWorld (start s (w_asked w)) (w_global w) (w_recs w) (w_asked w + asks s), None)
  | UseRandom n => (mkWorld (w_tf w) (ahead (w_global w) n) (w_recs w) (w_asked w), None)
  | SeedRandom s => (mkWorld (w_tf w) (start s (w_asked w)) (w_recs w) (w_asked w + asks s), None)
  end.
Definition run (os : list op) (w : world) : world := fold_left (fun w o => fst (step w o)) os w.
(** what the last operation of a program gives *)
Definition after (os : list op) (o : op) : option result := snd (step (run os world0) o).
End Program.
