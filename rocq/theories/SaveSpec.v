(** What users see of a saved and loaded recommender. *)
From Coq Require Import String Ascii.
From Coq Require Import List ZArith Bool.
From Verif Require Import Py MemModel FitModel SaveModel.
Import ListNotations.
Open Scope list_scope.

Section Look.
Variable V : Type.

(** Everything that the answers of a recommender can depend on: its class, its
    attributes, the data set, and the sampler with its data set. *)
Record seen := mkSeen {
  see_kind : kind;
  see_state : V;
  see_data : option (option dset);
  see_sampler : option (bool * option dset * bool) }.   (* point sampler?, data set, same as the recommender's? *)
Definition sees (w : world V) (i : nat) : option seen :=
  match nth_error (w_recs w) i with
  | None => None
  | Some r =>
      Some (mkSeen (r_kind r) (r_state r)
        (option_map (nth_error (w_data w)) (r_data r))
        (option_map (fun s =>
           let '(point, d) := match s with PointOn d => (true, d) | ListOn d => (false, d) end in
           (point, nth_error (w_data w) d,
            match r_data r with Some d' => Nat.eqb d d' | None => false end)) (r_sampler r)))
  end.

(** The data sets that a recommender holds *)
Definition holds (w : world V) (i d : nat) : Prop :=
  exists r, nth_error (w_recs w) i = Some r /\
    (r_data r = Some d \/ r_sampler r = Some (PointOn d) \/ r_sampler r = Some (ListOn d)).

(** A call that writes the file [p] *)
Definition writes (p : string) (o : op V) : Prop :=
  match o with SaveTo _ q => q = p | WriteFile q _ => q = p | _ => False end.
(** A call that changes recommender [i] or data set [d] *)
Definition alters_rec (i : nat) (o : op V) : Prop :=
  match o with Fit j _ _ _ _ => j = i | _ => False end.
Definition alters_data (d : nat) (o : op V) : Prop :=
  match o with Fit _ e _ _ _ => e = d | Change e _ => e = d | _ => False end.
(** A fit of recommender [i] that gets past _pre_fit, in a history *)
Definition trained (storable : V -> bool) (i : nat) (ops : list (op V)) : Prop :=
  exists before d x copy v reach after,
    ops = before ++ Fit i d copy v reach :: after /\
    let w := run storable before empty_world in
    i < length (w_recs w) /\ nth_error (w_data w) d = Some x /\
    copy = false /\ reach = true /\
    match x with InMem m => exists m' info, begin_fit m false = (m', Ok info) | InDb _ => True end.
(** A history with data sets in memory and attributes that can be pickled only *)
Definition plain (storable : V -> bool) (o : op V) : Prop :=
  match o with
  | NewData (InDb _) => False
  | NewRec _ v => storable v = true
  | Fit _ _ _ v _ => storable v = true
  | WriteFile _ (Some (Saved x)) => False
  | _ => True
  end.
(** No file of a saved recommender is put in place by others *)
Definition own_files (o : op V) : Prop := match o with WriteFile _ (Some (Saved _)) => False | _ => True end.
End Look.
Arguments mkSeen {V}. Arguments see_kind {V}. Arguments see_state {V}. Arguments see_data {V}. Arguments see_sampler {V}.
Arguments sees {V}. Arguments holds {V}. Arguments writes {V}. Arguments alters_rec {V}. Arguments alters_data {V}.
Arguments trained {V}. Arguments plain {V}. Arguments own_files {V}.
