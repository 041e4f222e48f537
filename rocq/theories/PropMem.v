(** Properties C01 to C15: the in-memory data set. *)
From Coq Require Import String Ascii.
From Coq Require Import List ZArith QArith Qcanon Bool Lia Permutation Sorted.
From Verif Require Import Py PyFacts MemModel MemSpec MemFacts MemFacts2 MemFacts3 MemFacts4 MemFacts5 MemFacts6 MemFacts7.
From Verif Require Import MemHeap MemHeapSpec MemHeapFacts.
Import ListNotations.
Open Scope string_scope.
Open Scope Z_scope.

(** *** A concrete data set used in the examples *)
Definition q15 : Qc := Q2Qc (3 # 2).
Definition ex_row (rid u : Z) (i : string) (x : Qc) : row :=
  mkRow rid [("user", VInt u); ("item", VStr i); ("interaction", VFlt x)].
Definition ex : mem := mem_of_frame (mkFrame [("user", DInt); ("item", DObj); ("interaction", DFloat)]
  [ex_row 0 7 "a" (Qc_of_Z 1); ex_row 1 5 "b" (Qc_of_Z 2); ex_row 2 7 "b" (Qc_of_Z 3);
   ex_row 3 5 "b" q15; ex_row 4 9 "c" (Qc_of_Z 4)]).

Lemma ex_wf : wf_mem ex.
Proof.
  constructor.
  - constructor.
    + simpl. repeat constructor; simpl; intuition discriminate.
    + simpl. intuition discriminate.
    + simpl. intros r H. intuition; subst; reflexivity.
    + simpl. intros r c t Hr Hc. intuition; subst;
      match goal with H : (_, _) = (_, _) |- _ => injection H as <- <- end; eexists; split; reflexivity.
  - simpl. repeat constructor; simpl; intuition discriminate.
  - simpl. intros c. intuition.
Qed.

(** *** C01 *)
Theorem C01_select_exact : forall m cs,
  wf_mem m -> id_types m -> cs <> [] -> Forall (cond_ok m) cs -> Forall (direct m) cs ->
  select m (query_text cs) = Ok (set_rows (mem_copy m) (filter (sat cs) (rows_of m))) /\
  select_inplace m (query_text cs) = Ok (set_rows m (filter (sat cs) (rows_of m))).
Proof. exact select_exact. Qed.
Print Assumptions C01_select_exact.

Example C01_example :
  let cs := [mkCond "user" Ge (LInt 6); mkCond "interaction" Lt (LDec false "3" "5"); mkCond "item" Ne (LText "a")] in
  query_text cs = "user >= 6, interaction < 3.5, item != 'a'" /\
  wf_mem ex /\ id_types ex /\ Forall (cond_ok ex) cs /\ Forall (direct ex) cs /\
  filter (sat cs) (rows_of ex) = [ex_row 2 7 "b" (Qc_of_Z 3)].
Proof.
  assert (S : forall c, small_col ex c).
  { intros c r z H E. simpl in H. unfold cell in E.
    intuition; subst; simpl in E;
    repeat match type of E with context [if ?b then _ else _] => destruct b end;
    try discriminate; injection E as <-; vm_compute; discriminate. }
  repeat apply conj.
  - reflexivity.
  - apply ex_wf.
  - intros c t H. simpl in H. intuition; subst; discriminate.
  - assert (PU : plain "user" /\ plain "interaction" /\ plain "item").
    { repeat split; discriminate. }
    destruct PU as [P1 [P2 P3]].
    apply Forall_cons; [|apply Forall_cons; [|apply Forall_cons; [|apply Forall_nil]]];
    unfold cond_ok; cbn [sc_col sc_lit];
    (split; [simpl; tauto|]; split; [assumption|]; split; [apply S|]; eexists; split; [reflexivity|]).
    + apply lo_int; [simpl; intuition discriminate|discriminate|vm_compute; discriminate].
    + apply lo_dec; try reflexivity; try discriminate. simpl; intuition discriminate.
    + apply lo_text; auto; [simpl; intuition discriminate|]. simpl. repeat split; discriminate.
  - apply Forall_cons; [|apply Forall_cons; [|apply Forall_cons; [|apply Forall_nil]]]; intros H; discriminate H.
  - vm_compute. reflexivity.
Qed.

(** *** C02 *)
Theorem C02_queries_compose : forall m q1 q2 m1 m2,
  select m q1 = Ok m1 -> select m q2 = Ok m2 ->
  exists m12, select m1 q2 = Ok m12 /\ select m2 q1 = Ok m12 /\ select m (q1 ++ ", " ++ q2) = Ok m12.
Proof. exact queries_compose. Qed.
Print Assumptions C02_queries_compose.

Example C02_example : exists m1 m2,
  select ex "user == 5" = Ok m1 /\ select ex "interaction > 1.5, item == 'b'" = Ok m2 /\
  mem_len m1 = 2%nat /\ mem_len m2 = 2%nat.
Proof. eexists; eexists; split; [vm_compute; reflexivity|]; split; [vm_compute; reflexivity|]; split; reflexivity. Qed.

(** *** C03: the object-level model, in which copies share frames, shows the same
    data sets as a list of separate values; and no call on other data sets
    changes what a data set shows. *)
Theorem C03_copies_behave_as_separate_values : forall m history,
  views (hrun (w_init m) history) = srun [m] history.
Proof. exact heap_is_values. Qed.
Print Assumptions C03_copies_behave_as_separate_values.

Theorem C03_other_data_sets_unchanged : forall m history more j x,
  Forall (fun call => fst call <> j) more ->
  nth_error (views (hrun (w_init m) history)) j = Some x ->
  nth_error (views (hrun (hrun (w_init m) history) more)) j = Some x.
Proof. exact isolation. Qed.
Print Assumptions C03_other_data_sets_unchanged.

(** ds; c = ds.copy(); c.assign_internal_ids(); c.apply(...); d = c.select(...);
    c.drop(..., copy=False): five calls, three data sets, two of them share a frame
    at the start; ds is as at the start. *)
Example C03_example :
  let h := [(0%nat, HCopy); (1%nat, HAssign); (1%nat, HApply "interaction" (fun _ => Ok (VInt 1)));
            (1%nat, HSelect "user == 5" true); (1%nat, HDrop [0; 1] false false)] in
  let v := views (hrun (w_init ex) h) in
  length v = 3%nat /\ nth_error v 0 = Some ex /\
  option_map mem_len (nth_error v 1) = Some 3%nat /\ option_map mem_len (nth_error v 2) = Some 2%nat /\
  map i_df (w_insts (hrun (w_init ex) (firstn 1 h))) = [0; 0]%nat.
Proof. vm_compute. repeat split. Qed.

(** *** C04 *)
Theorem C04_drop_partitions : forall m ids,
  drop m ids true = set_rows (mem_copy m) (filter (listed ids) (rows_of m)) /\
  drop m ids false = set_rows (mem_copy m) (filter (fun r => negb (listed ids r)) (rows_of m)) /\
  drop_inplace m ids true = set_rows m (filter (listed ids) (rows_of m)) /\
  drop_inplace m ids false = set_rows m (filter (fun r => negb (listed ids r)) (rows_of m)) /\
  Permutation (rows_of m) (rows_of (drop m ids true) ++ rows_of (drop m ids false)).
Proof. exact drop_spec. Qed.
Print Assumptions C04_drop_partitions.

Example C04_example : map r_rid (rows_of (drop ex [3; 0; 77; 3] true)) = [0; 3] /\
                      map r_rid (rows_of (drop ex [3; 0; 77; 3] false)) = [1; 2; 4].
Proof. vm_compute. split; reflexivity. Qed.

(** *** C05 *)
Theorem C05_unique_first_rows : forall m cs,
  wf_mem m -> cs <> [] -> NoDup cs -> ~ In "rid" cs -> (forall c, In c cs -> In c (m_columns m)) ->
  exists m' ps, unique m (Some cs) = Ok m' /\ m_columns m' = (cs ++ ["rid"])%list /\
    StronglySorted lt ps /\
    (forall p, In p ps <-> exists r, nth_error (rows_of m) p = Some r /\
        forall q r', (q < p)%nat -> nth_error (rows_of m) q = Some r' -> ~ agree cs r r') /\
    Forall2 (fun p r' => exists r, nth_error (rows_of m) p = Some r /\ r_rid r' = r_rid r /\ agree cs r' r)
      ps (rows_of m') /\
    count_unique m (Some cs) = Ok (length ps).
Proof. exact unique_spec. Qed.
Print Assumptions C05_unique_first_rows.

Example C05_example : exists m', unique ex (Some ["item"; "user"]) = Ok m' /\
  map r_rid (rows_of m') = [0; 1; 2; 4] /\ count_unique ex (Some ["item"; "user"]) = Ok 4%nat.
Proof. eexists. split; [vm_compute; reflexivity|]. split; vm_compute; reflexivity. Qed.

(** *** C06 *)
Theorem C06_max_attained_bound : forall m c t,
  wf_mem m -> In c (m_columns m) -> col_type m c = Ok t -> t <> DObj -> rows_of m <> [] ->
  exists v r, mem_max m c = Ok (Some v) /\ In r (rows_of m) /\ row_val r c = Some v /\
    forall r' v', In r' (rows_of m) -> row_val r' c = Some v' -> (num v' <= num v)%Qc.
Proof. exact max_spec. Qed.
Print Assumptions C06_max_attained_bound.

Theorem C06_min_attained_bound : forall m c t,
  wf_mem m -> In c (m_columns m) -> col_type m c = Ok t -> t <> DObj -> rows_of m <> [] ->
  exists v r, mem_min m c = Ok (Some v) /\ In r (rows_of m) /\ row_val r c = Some v /\
    forall r' v', In r' (rows_of m) -> row_val r' c = Some v' -> (num v <= num v')%Qc.
Proof. exact min_spec. Qed.
Print Assumptions C06_min_attained_bound.

Example C06_example : mem_max ex "interaction" = Ok (Some (VFlt (Qc_of_Z 4))) /\
  mem_min ex "user" = Ok (Some (VInt 5)) /\ col_type ex "interaction" = Ok DFloat.
Proof. vm_compute. repeat split. Qed.

(** *** C07 *)
Theorem C07_ids_are_a_numbering : forall m tu ti,
  wf_mem m -> col_type m "user" = Ok tu -> col_type m "item" = Ok ti -> tu <> DFloat -> ti <> DFloat ->
  exists m', assign_internal_ids m = Ok m' /\
    numbering (user_to_uid m') (uid_to_user m') (fun v => type_of v = tu) (column "user" (rows_of m)) /\
    numbering (item_to_iid m') (iid_to_item m') (fun v => type_of v = ti) (column "item" (rows_of m)) /\
    Forall2 (fun r r' => r_rid r' = r_rid r /\
               (forall c, c <> "uid" -> c <> "iid" -> cell r' c = cell r c) /\
               (exists u k, cell r "user" = Some u /\ user_to_uid m' u = Ok (Some k) /\ cell r' "uid" = Some (VInt k)) /\
               (exists i k, cell r "item" = Some i /\ item_to_iid m' i = Ok (Some k) /\ cell r' "iid" = Some (VInt k)))
      (rows_of m) (rows_of m').
Proof. exact assign_spec. Qed.
Print Assumptions C07_ids_are_a_numbering.

Example C07_example : exists m', assign_internal_ids ex = Ok m' /\
  map (user_to_uid m') [VInt 7; VInt 5; VInt 9; VInt 8] = [Ok (Some 0); Ok (Some 1); Ok (Some 2); Ok None] /\
  map (iid_to_item m') [0; 1; 2; 3; -1] = [Ok (Some (VStr "a")); Ok (Some (VStr "b")); Ok (Some (VStr "c")); Ok None; Ok None].
Proof. eexists. split; [reflexivity|]. vm_compute. split; reflexivity. Qed.

(** *** C08 *)
Theorem C08_remove_undoes_assign : forall m tu ti,
  wf_mem m -> ~ In "uid" (m_columns m) -> ~ In "iid" (m_columns m) ->
  col_type m "user" = Ok tu -> col_type m "item" = Ok ti ->
  exists ma mr, assign_internal_ids m = Ok ma /\ remove_internal_ids ma = Ok mr /\
    m_columns mr = m_columns m /\ m_df mr = m_df m /\ m_ids mr = false /\
    (forall v, user_to_uid mr v = Err AssertionError /\ item_to_iid mr v = Err AssertionError) /\
    (forall k, uid_to_user mr k = Err AssertionError /\ iid_to_item mr k = Err AssertionError) /\
    assign_internal_ids ma = Ok ma.
Proof. exact remove_undoes. Qed.
Print Assumptions C08_remove_undoes_assign.

Example C08_example : exists ma, assign_internal_ids ex = Ok ma /\
  m_columns ma = ["user"; "item"; "interaction"; "rid"; "uid"; "iid"] /\ ma <> ex /\
  ~ In "uid" (m_columns ex) /\ ~ In "iid" (m_columns ex).
Proof.
  eexists. split; [reflexivity|]. split; [reflexivity|]. split; [discriminate|].
  split; simpl; intuition discriminate.
Qed.

(** *** C09: integer ids, any query text *)
Theorem C09_raw_queries_integer_ids_partial : forall m q m1,
  m_ids m = false -> ~ In "uid" (m_columns m) -> ~ In "iid" (m_columns m) ->
  col_type m "user" = Ok DInt -> col_type m "item" = Ok DInt -> select m q = Ok m1 ->
  exists ma m2, assign_internal_ids m = Ok ma /\ select ma q = Ok m2 /\
    Forall2 same_raw (rows_of m1) (rows_of m2).
Proof. exact select_assigned_int. Qed.
Print Assumptions C09_raw_queries_integer_ids_partial.

(** text ids, the operators == and != *)
Theorem C09_raw_queries_text_ids_partial : forall m cs tu ti,
  wf_mem m -> m_ids m = false -> ~ In "uid" (m_columns m) -> ~ In "iid" (m_columns m) -> id_types m ->
  col_type m "user" = Ok tu -> col_type m "item" = Ok ti ->
  cs <> [] -> Forall (cond_ok m) cs -> Forall (raw_ok m) cs ->
  exists m1 ma m2, select m (query_text cs) = Ok m1 /\ assign_internal_ids m = Ok ma /\
    select ma (query_text cs) = Ok m2 /\
    rows_of m1 = filter (sat cs) (rows_of m) /\ Forall2 same_raw (rows_of m1) (rows_of m2).
Proof. exact select_assigned_conds. Qed.
Print Assumptions C09_raw_queries_text_ids_partial.

(** users "b" and "a" *)
Definition ex_text : mem := mem_of_frame (mkFrame [("user", DObj); ("item", DInt); ("interaction", DInt)]
  [mkRow 0 [("user", VStr "b"); ("item", VInt 1); ("interaction", VInt 1)];
   mkRow 1 [("user", VStr "a"); ("item", VInt 1); ("interaction", VInt 2)]]).
Lemma ex_text_wf : wf_mem ex_text.
Proof.
  constructor.
  - constructor.
    + simpl. repeat constructor; simpl; intuition discriminate.
    + simpl. intuition discriminate.
    + simpl. intros r H. intuition; subst; reflexivity.
    + simpl. intros r c t Hr Hc. intuition; subst;
      match goal with H : (_, _) = (_, _) |- _ => injection H as <- <- end; eexists; split; reflexivity.
  - simpl. repeat constructor; simpl; intuition discriminate.
  - simpl. intros c. intuition.
Qed.

(** With text ids, range comparisons compare internal ids once they are assigned. *)
Theorem C09_text_range_query_refuted : exists m q m1 ma m2,
  wf_mem m /\ m_ids m = false /\ select m q = Ok m1 /\ assign_internal_ids m = Ok ma /\ select ma q = Ok m2 /\
  map r_rid (rows_of m1) <> map r_rid (rows_of m2).
Proof.
  exists ex_text, "user < 'b'". eexists. eexists. eexists.
  split; [apply ex_text_wf|]. split; [reflexivity|]. split; [vm_compute; reflexivity|].
  split; [reflexivity|]. split; [vm_compute; reflexivity|]. vm_compute. discriminate.
Qed.
Print Assumptions C09_text_range_query_refuted.

(** With float ids, no raw id is ever found once internal ids are assigned. *)
Theorem C09_float_id_query_refuted : exists m q m1 ma m2,
  col_type m "user" = Ok DFloat /\ select m q = Ok m1 /\ assign_internal_ids m = Ok ma /\ select ma q = Ok m2 /\
  rows_of m1 = rows_of m /\ rows_of m <> [] /\ rows_of m2 = [].
Proof.
  exists (mem_of_frame (mkFrame [("user", DFloat); ("item", DInt); ("interaction", DInt)]
    [mkRow 0 [("user", VFlt q15); ("item", VInt 1); ("interaction", VInt 1)]])), "user == 1.5".
  eexists. eexists. eexists. split; [reflexivity|]. split; [vm_compute; reflexivity|]. split; [reflexivity|].
  split; [vm_compute; reflexivity|]. split; [vm_compute; reflexivity|]. split; [discriminate|reflexivity].
Qed.
Print Assumptions C09_float_id_query_refuted.

Example C09_example : exists m1, select ex_text "user != 'b', interaction > 1" = Ok m1 /\
  mem_len m1 = 1%nat /\ m_ids ex_text = false /\ col_type ex_text "user" = Ok DObj /\
  Forall (raw_ok ex_text) [mkCond "user" Ne (LText "b"); mkCond "interaction" Gt (LInt 1)].
Proof.
  eexists. split; [vm_compute; reflexivity|]. split; [reflexivity|]. split; [reflexivity|]. split; [reflexivity|].
  apply Forall_cons; [intros _; right; split; [reflexivity|right; reflexivity]|].
  apply Forall_cons; [|apply Forall_nil]. simpl. intros H. exfalso. simpl in H. intuition discriminate.
Qed.

(** *** C10 *)
Theorem C10_select_by_formatted_id_partial : forall m u,
  wf_mem m -> id_types m -> In "user" (m_columns m) -> col_type m "user" = Ok DInt ->
  small_col m "user" -> Z.abs u <= 2 ^ 53 ->
  select m ("user == " ++ str_of_Z u) = Ok (set_rows (mem_copy m) (filter (user_is u) (rows_of m))).
Proof. exact select_user_exact. Qed.
Print Assumptions C10_select_by_formatted_id_partial.

Example C10_example : ("user == " ++ str_of_Z 7) = "user == 7" /\
  map r_rid (filter (user_is 7) (rows_of ex)) = [0; 2].
Proof. split; reflexivity. Qed.

(** ids beyond 2^53 are conflated *)
Theorem C10_large_ids_refuted : exists m u m',
  col_type m "user" = Ok DInt /\ In (VInt u) (column "user" (rows_of m)) /\
  select m ("user == " ++ str_of_Z u) = Ok m' /\ rows_of m' <> filter (user_is u) (rows_of m).
Proof.
  exists (mem_of_frame (mkFrame [("user", DInt)]
    [mkRow 0 [("user", VInt 9007199254740992)]; mkRow 1 [("user", VInt 9007199254740993)]])), 9007199254740993.
  eexists. split; [reflexivity|]. split; [simpl; auto|]. split; [vm_compute; reflexivity|]. vm_compute. discriminate.
Qed.
Print Assumptions C10_large_ids_refuted.

(** text ids: the formatted query raises *)
Theorem C10_text_ids_refuted : exists m s,
  wf_mem m /\ In (VStr s) (column "user" (rows_of m)) /\ select m ("user == " ++ s) = Err NameError.
Proof. exists ex_text, "a". split; [apply ex_text_wf|]. split; [simpl; auto|]. vm_compute. reflexivity. Qed.
Print Assumptions C10_text_ids_refuted.

(** *** C11 *)
Theorem C11_vectors_sum_interactions : forall m tu ti tx,
  wf_mem m -> col_type m "user" = Ok tu -> col_type m "item" = Ok ti ->
  col_type m "interaction" = Ok tx -> tx <> DObj -> rows_of m <> [] -> m_cache m = None ->
  exists ma, assign_internal_ids m = Ok ma /\
    (forall u, 0 <= u < Z.of_nat (n_distinct "user" m) ->
       exists vec m', user_vec ma u = (Ok vec, m') /\ user_vec_spec (rows_of ma) (n_distinct "item" m) u vec) /\
    (forall i, 0 <= i < Z.of_nat (n_distinct "item" m) ->
       exists vec m', item_vec ma i = (Ok vec, m') /\ item_vec_spec (rows_of ma) (n_distinct "user" m) i vec).
Proof. exact vec_after_assign. Qed.
Print Assumptions C11_vectors_sum_interactions.

Definition ex_ids : mem := match assign_internal_ids ex with Ok m => m | Err _ => ex end.
Example C11_example : n_distinct "user" ex = 3%nat /\ n_distinct "item" ex = 3%nat /\
  fst (user_vec ex_ids 1) = Ok [0%Qc; Q2Qc (7 # 2); 0%Qc] /\
  fst (item_vec ex_ids 1) = Ok [Qc_of_Z 3; Q2Qc (7 # 2); 0%Qc].
Proof. vm_compute. repeat split. Qed.

(** *** C12 *)
Theorem C12_vectors_current_partial : forall m tu ti tx ops,
  wf_mem m -> col_type m "user" = Ok tu -> col_type m "item" = Ok ti ->
  col_type m "interaction" = Ok tx -> tx <> DObj -> rows_of m <> [] -> m_cache m = None ->
  (2 <= n_distinct "user" m)%nat -> Forall vop_ok ops ->
  exists ma, assign_internal_ids m = Ok ma /\
    (forall u, 0 <= u < Z.of_nat (n_distinct "user" m) ->
       exists vec, fst (user_vec (vrun ma ops) u) = Ok vec /\
                   user_vec_spec (rows_of (vrun ma ops)) (n_distinct "item" m) u vec) /\
    (forall i, 0 <= i < Z.of_nat (n_distinct "item" m) ->
       exists vec, fst (item_vec (vrun ma ops) i) = Ok vec /\
                   item_vec_spec (rows_of (vrun ma ops)) (n_distinct "user" m) i vec).
Proof. exact vec_current. Qed.
Print Assumptions C12_vectors_current_partial.

Example C12_example :
  let ops := [ReadU 0; MapInteraction (fun v => Ok (VFlt (num v * Qc_of_Z 2)%Qc)); ReadI 2] in
  Forall vop_ok ops /\ (2 <= n_distinct "user" ex)%nat /\
  fst (user_vec (vrun ex_ids ops) 1) = Ok [0%Qc; Qc_of_Z 7; 0%Qc].
Proof.
  split; [|split; [vm_compute; lia|vm_compute; reflexivity]].
  repeat constructor. intros v v' H. injection H as <-. discriminate.
Qed.

(** After rows were dropped in place the old vector is still returned. *)
Theorem C12_stale_after_drop_refuted : exists m u vec,
  m_ids m = true /\ fst (user_vec (drop_inplace (snd (user_vec m u)) [0] false) u) = Ok vec /\
  ~ user_vec_spec (rows_of (drop_inplace (snd (user_vec m u)) [0] false)) (length vec) u vec.
Proof.
  exists ex_ids, 0. eexists. split; [reflexivity|]. split; [vm_compute; reflexivity|].
  intros [_ H]. specialize (H 0 ltac:(simpl; lia)). vm_compute in H. discriminate.
Qed.
Print Assumptions C12_stale_after_drop_refuted.

(** After a select the remaining internal ids have gaps and a valid id fails. *)
Theorem C12_gap_after_select_refuted : exists m q m' u v,
  select m q = Ok m' /\ uid_to_user m' u = Ok (Some v) /\ In v (column "user" (rows_of m')) /\
  exists e, fst (user_vec m' u) = Err e.
Proof.
  exists ex_ids, "user == 9". eexists. exists 2. eexists. split; [vm_compute; reflexivity|].
  split; [vm_compute; reflexivity|]. split; [vm_compute; auto|]. eexists. vm_compute. reflexivity.
Qed.
Print Assumptions C12_gap_after_select_refuted.

(** One user: the second read of an item vector fails. *)
Theorem C12_single_user_refuted : exists m i,
  (exists vec, fst (item_vec m i) = Ok vec) /\
  exists e, fst (item_vec (snd (item_vec m i)) i) = Err e.
Proof.
  exists (match assign_internal_ids (mem_of_frame (mkFrame [("user", DInt); ("item", DInt); ("interaction", DInt)]
     [mkRow 0 [("user", VInt 3); ("item", VInt 1); ("interaction", VInt 5)];
      mkRow 1 [("user", VInt 3); ("item", VInt 2); ("interaction", VInt 4)]])) with Ok m => m | Err _ => ex end), 1.
  split; eexists; vm_compute; reflexivity.
Qed.
Print Assumptions C12_single_user_refuted.

(** *** C13 *)
Theorem C13_apply_rewrites_one_column : forall m c f t,
  wf_mem m -> In c (m_columns m) -> ~ In c read_only -> rows_of m <> [] ->
  (forall r v, In r (rows_of m) -> cell r c = Some v -> exists v', f v = Ok v' /\ type_of v' = t) ->
  let m' := snd (apply_col m c f) in
  m_columns m' = m_columns m /\
  Forall2 (fun r r' => r_rid r' = r_rid r /\ (forall d, d <> c -> cell r' d = cell r d) /\
             exists v v', cell r c = Some v /\ f v = Ok v' /\ cell r' c = Some v')
    (rows_of m) (rows_of m') /\
  (c <> "interaction" \/ m_cache m = None -> fst (apply_col m c f) = Ok tt).
Proof. exact apply_spec. Qed.
Print Assumptions C13_apply_rewrites_one_column.

Theorem C13_reserved_columns_refused : forall m c f,
  In c ["rid"; "uid"; "iid"; "user"; "item"] -> exists e, apply_col m c f = (Err e, m).
Proof. exact apply_reserved. Qed.
Print Assumptions C13_reserved_columns_refused.

Theorem C13_raising_function_changes_nothing : forall m c f r v e,
  In r (rows_of m) -> cell r c = Some v -> f v = Err e -> exists e', apply_col m c f = (Err e', m).
Proof. exact apply_raises. Qed.
Print Assumptions C13_raising_function_changes_nothing.

Theorem C13_apply_composes : forall m c f g t,
  rows_of m <> [] -> fst (apply_col m c f) = Ok tt ->
  (forall r v w, In r (rows_of m) -> cell r c = Some v -> f v = Ok w -> type_of w = t) ->
  (forall r v w, In r (rows_of m) -> cell r c = Some v -> f v = Ok w -> exists x, g w = Ok x) ->
  apply_col (snd (apply_col m c f)) c g = apply_col m c (fun v => w <- f v ;; g w).
Proof. exact apply_compose. Qed.
Print Assumptions C13_apply_composes.

Example C13_example :
  let f := fun v => Ok (VFlt (num v + 1)%Qc) in
  fst (apply_col ex "interaction" f) = Ok tt /\
  column "interaction" (rows_of (snd (apply_col ex "interaction" f))) =
    [VFlt (Qc_of_Z 2); VFlt (Qc_of_Z 3); VFlt (Qc_of_Z 4); VFlt (Q2Qc (5 # 2)); VFlt (Qc_of_Z 5)].
Proof. vm_compute. repeat split. Qed.

(** *** C14 *)
Theorem C14_select_one_is_first : forall m q cs m' vs,
  select m q = Ok m' -> values m' cs = Ok vs -> select_one m q cs = Ok (hd_error vs).
Proof. exact select_one_first. Qed.
Print Assumptions C14_select_one_is_first.

Theorem C14_exists_iff_not_empty : forall m q m',
  wf_mem m -> select m q = Ok m' -> exists_q m q = Ok (negb (Nat.eqb (mem_len m') 0)).
Proof. exact exists_iff. Qed.
Print Assumptions C14_exists_iff_not_empty.

Theorem C14_values_are_the_rows : forall m cs,
  wf_mem m -> (forall c, In c cs -> In c (m_columns m)) -> (forall c, In c cs -> small_col m c) ->
  exists vs, values m (Some cs) = Ok vs /\ values_dict m (Some cs) = Ok (map (combine cs) vs) /\
    Forall2 (fun r v => Forall2 (fun c x => exists y, row_val r c = Some y /\ same_value x y) cs v) (rows_of m) vs.
Proof. exact values_ok. Qed.
Print Assumptions C14_values_are_the_rows.

Example C14_example : exists m',
  select ex "interaction < 3" = Ok m' /\
  values m' (Some ["rid"; "item"]) = Ok [[VInt 0; VStr "a"]; [VInt 1; VStr "b"]; [VInt 3; VStr "b"]] /\
  select_one ex "interaction < 3" (Some ["rid"; "item"]) = Ok (Some [VInt 0; VStr "a"]) /\
  exists_q ex "interaction > 100" = Ok false.
Proof. eexists. split; [vm_compute; reflexivity|]. repeat split; vm_compute; reflexivity. Qed.

(** *** C15: with the default, save writes every non-id column of every row *)
Theorem C15_save_all_columns_partial : forall m,
  wf_mem m -> exists lines, save_lines m None = Ok lines /\
  Forall2 (fun r line => Forall2 (fun c x => row_val r c = Some x) (filter not_id (m_columns m)) line)
          (rows_of m) lines.
Proof. exact (fun m => save_ok m None). Qed.
Print Assumptions C15_save_all_columns_partial.

(** The requested columns are ignored. *)
Theorem C15_requested_columns_refuted : exists m cs lines,
  wf_mem m /\ (forall c, In c cs -> In c (m_columns m)) /\ save_lines m (Some cs) = Ok lines /\
  ~ Forall2 (fun r line => Forall2 (fun c x => row_val r c = Some x) cs line) (rows_of m) lines.
Proof.
  exists ex, ["item"]. eexists. split; [apply ex_wf|]. split; [simpl; intuition|]. split; [vm_compute; reflexivity|].
  intros H. inversion H as [|r line rs ls H1 H2 E1 E2]; subst. inversion H1 as [|c x cs xs H3 H4]; subst. inversion H4.
Qed.
Print Assumptions C15_requested_columns_refuted.

Example C15_example : save_lines ex_ids None = save_lines ex None /\
  option_map (@hd_error _) (match save_lines ex None with Ok l => Some l | _ => None end) =
    Some (Some [VInt 7; VStr "a"; VFlt (Qc_of_Z 1)]).
Proof. vm_compute. split; reflexivity. Qed.
