(** Vocabulary of the property of constructors. *)
From Coq Require Import String Ascii.
From Coq Require Import List ZArith Bool.
From Verif Require Import Py MakeModel.
Import ListNotations.
Open Scope string_scope.
Open Scope list_scope.

(** The argument of that name is one of the given values, or not given. *)
Definition given (kw : kwds) (name : string) (a : arg) : Prop := assoc String.eqb name kw = Some a.
Definition one_of (kw : kwds) (name : string) (names : list string) : Prop :=
  forall a, given kw name a -> exists s, a = AStr s /\ In s names.

(** The layers a factors argument of DMF stands for: nothing or None is [64, 32]. *)
Inductive layers (kw : kwds) (name : string) : list Z -> Prop :=
| default_layers : (forall a, given kw name a -> a = ANone) -> layers kw name [64; 32]%Z
| given_layers l : given kw name (AList l) -> layers kw name l.

(** The documented values *)
Definition supported (c : cls) (kw : kwds) : Prop :=
  match c with
  | UserKNN | ItemKNN =>
      one_of kw "sim_metric" ["adjusted_cosine"; "cosine"; "cosine_cf"; "jaccard"; "msd"; "pearson"] /\
      one_of kw "aggregation" ["mean"; "weighted_mean"]
  | CDAE => one_of kw "loss" ["mse"; "bce"]
  | DMF => exists u i n, layers kw "user_factors" (u ++ [n]) /\ layers kw "item_factors" (i ++ [n])
  | Caser => True
  end.

(** The program without the constructor calls that raise; their log files *)
Inductive erased : list call -> list call -> Prop :=
| erased_nil : erased [] []
| erased_raising c b kw now xs ys : ~ supported c kw -> erased xs ys -> erased (Construct c b kw now :: xs) ys
| erased_keep x xs ys : (forall c b kw now, x = Construct c b kw now -> supported c kw) -> erased xs ys -> erased (x :: xs) (x :: ys).
Definition raising_file (xs : list call) (path : string) : Prop :=
  exists c b kw now, In (Construct c b kw now) xs /\ ~ supported c kw /\ b_log_file b = true /\
    path = ("drecpy_" ++ now ++ "_" ++ class_name c ++ ".log")%string.
