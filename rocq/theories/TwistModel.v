(** Model of how CPython's random.Random turns the words of its Mersenne Twister into
    the numbers that DRecPy/Sampler/point_sampler.py:32-42, 59 and
    DRecPy/Dataset/mem_dataset.py:114-122 draw.  A sampler with a seed has three
    generators with that seed, so all three read the same words.  Definitions only.

    [w n] is word number n, 32 bits; which words a seed gives is left open. *)
From Coq Require Import ZArith QArith Qcanon.
Open Scope Z_scope.

(** Random.random(): 27 bits of a word and 26 bits of the next one *)
Definition random01 (w0 w1 : Z) : Qc :=
  Q2Qc ((w0 / 2 ^ 5 * 2 ^ 26 + w1 / 2 ^ 6) # (2 ^ 53)%positive).
(** Random.getrandbits(k), 1 <= k <= 32: the first k bits of a word *)
Definition getrandbits (k w0 : Z) : Z := w0 / 2 ^ (32 - k).
(** int.bit_length *)
Definition bit_length (n : Z) : Z := if n =? 0 then 0 else Z.log2 n + 1.
(** Random._randbelow(n), which is randint(0, n - 1): words from position k on are read
    until one gives a number below n; the number and the next position *)
Fixpoint randbelow (fuel : nat) (n : Z) (w : nat -> Z) (k : nat) : option (Z * nat) :=
  match fuel with
  | O => None
  | S fuel' =>
      let v := getrandbits (bit_length n) (w k) in
      if v <? n then Some (v, S k) else randbelow fuel' n w (S k)
  end.
