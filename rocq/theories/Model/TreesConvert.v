(** Model of the tree converter: emlearn/trees.py, flatten_tree .. encode_child.

    Polymorphic in
      [T] thresholds (numpy float64, or the Python int 0 of the dummy node),
      [V] one output row [tree.value[i][0]] (class proportions or regression value),
      [L] a converted leaf.  *)
From Coq Require Import ZArith List Bool.
From Verif.Base Require Import Res.
Import ListNotations.
Open Scope Z_scope.
Open Scope res_scope.

(** The arrays of sklearn's [Tree] object used by flatten_tree (trees.py:48-150):
    parallel arrays indexed by node number; [sk_value] is [tree.value], an array of shape
    (node_count, n_outputs, n_classes) - the last axis is abstracted by [V]. *)
Record sktree (T V : Type) : Type := mk_sktree {
  sk_node_count : Z;
  sk_left : list Z;
  sk_right : list Z;
  sk_feature : list Z;
  sk_threshold : list T;
  sk_value : list (list V);
  sk_outputs : Z            (* tree.value.shape[1] *)
}.
Arguments sk_node_count {T V}. Arguments sk_left {T V}. Arguments sk_right {T V}.
Arguments sk_feature {T V}. Arguments sk_threshold {T V}. Arguments sk_value {T V}.
Arguments sk_outputs {T V}. Arguments mk_sktree {T V}.

(** A decision node [feature, value, left_child, right_child] (trees.py:43-47). *)
Record dnode (T : Type) : Type := mk_dnode {
  d_feature : Z; d_value : T; d_left : Z; d_right : Z }.
Arguments d_feature {T}. Arguments d_value {T}. Arguments d_left {T}. Arguments d_right {T}.
Arguments mk_dnode {T}.

(** Python dict with integer keys: association list, latest binding first. *)
Definition pydict := list (Z * Z).
Fixpoint dict_find (m : pydict) (k : Z) : option Z :=
  match m with
  | [] => None
  | (k', v) :: m' => if k =? k' then Some v else dict_find m' k
  end.
Definition dict_get (m : pydict) (k : Z) : res Z :=
  match dict_find m k with Some v => Ret v | None => Err KeyError_ end.

(** Python sets of integers, as lists. *)
Definition set_mem (x : Z) (s : list Z) : bool := existsb (Z.eqb x) s.
Definition set_diff (a b : list Z) : list Z := filter (fun x => negb (set_mem x b)) a.
Definition set_is_empty (s : list Z) : bool := match s with [] => true | _ => false end.

(** trees.py:173-201  assert_node_references_valid(nodes, leaves, roots).
    The check after [invalid_leaves_right] tests [invalid_leaves_left] again (trees.py:197-198),
    as in the code. *)
Definition assert_node_references_valid {T L} (nodes : list (dnode T)) (leaves : list L)
    (roots : list Z) : res unit :=
  let left_children := map d_left (filter (fun n => 0 <=? d_left n) nodes) in
  let right_children := map d_right (filter (fun n => 0 <=? d_right n) nodes) in
  let node_idxs := zrange (zlen nodes) in
  do* py_assert (set_is_empty (set_diff left_children node_idxs));
  do* py_assert (set_is_empty (set_diff right_children node_idxs));
  do* py_assert (set_is_empty (set_diff node_idxs (left_children ++ right_children ++ roots)));
  let left_leaves := map (fun n => - d_left n - 1) (filter (fun n => d_left n <? 0) nodes) in
  let right_leaves := map (fun n => - d_right n - 1) (filter (fun n => d_right n <? 0) nodes) in
  let leaf_idxs := zrange (zlen leaves) in
  let invalid_leaves_left := set_diff left_leaves leaf_idxs in
  do* py_assert (set_is_empty invalid_leaves_left);
  let invalid_leaves_right := set_diff right_leaves leaf_idxs in
  do* py_assert (set_is_empty invalid_leaves_left);
  do* py_assert (set_is_empty (set_diff leaf_idxs (left_leaves ++ right_leaves)));
  Ret tt.

Section Flatten.
Context {T V L : Type}.
(** The Python integer 0 used as threshold of the dummy node (trees.py:115). *)
Variable t_zero : T.
(** Leaf conversion: numpy.argmax / value[0][0] / quantize_probabilities_into_byte
    (trees.py:62-69).  May raise. *)
Variable mk_leaf : V -> res L.

(** trees.py:55-76  add_leaf(idx), threading the list leaf_nodes. *)
Definition add_leaf (t : sktree T V) (leaf_nodes : list L) (idx : Z) : res (Z * list L) :=
  let* value := pyget (sk_value t) idx in
  do* py_assert (zlen value =? 1);
  let* v0 := pyget value 0 in
  let* val := mk_leaf v0 in
  let leaf_idx := zlen leaf_nodes in
  let encoded := - leaf_idx - 1 in
  do* py_assert (encoded <=? -1);
  Ret (encoded, leaf_nodes ++ [val]).

(** trees.py:90-95  process_child(idx): [and] short-circuits. *)
Definition process_child (t : sktree T V) (leaf_nodes : list L) (idx : Z)
  : res (Z * list L) :=
  let* l := pyget (sk_left t) idx in
  let* is_leaf := (if l =? -1 then let* r := pyget (sk_right t) idx in Ret (r =? -1)
                   else Ret false) in
  if (is_leaf : bool) then add_leaf t leaf_nodes idx else Ret (idx, leaf_nodes).

(** Loop state: decision_nodes, leaf_nodes, decision_node_mapping. *)
Definition fstate := (list (dnode T) * list L * pydict)%type.

(** trees.py:97-100  add_decision_node(node). *)
Definition add_decision_node (st : fstate) (node_no : Z) (node : dnode T) : fstate :=
  let '(dn, ln, m) := st in (dn ++ [node], ln, (node_no, zlen dn) :: m).

(** trees.py:105-128  body of the main loop. [n_zipped] is len(zipped). *)
Definition flatten_step (t : sktree T V) (n_zipped : Z) (st : fstate)
    (item : Z * (Z * Z * Z * T)) : res fstate :=
  let '(node_no, (lft, rgt, feature, th)) := item in
  let '(dn, ln, m) := st in
  if n_zipped =? 1 then
    do* py_assert (lft =? -1);
    do* py_assert (rgt =? -1);
    do* py_assert (node_no =? 0);
    let* (leaf_idx, ln') := add_leaf t ln 0 in
    Ret (add_decision_node (dn, ln', m) node_no (mk_dnode 0 t_zero leaf_idx leaf_idx))
  else if (lft =? -1) && (rgt =? -1) then Ret st
  else
    let* (left', ln1) := process_child t ln lft in
    let* (right', ln2) := process_child t ln1 rgt in
    Ret (add_decision_node (dn, ln2, m) node_no (mk_dnode feature th left' right')).

(** trees.py:131-135  second loop: replace sklearn numbers of decision nodes. *)
Definition fix_ref (m : pydict) (c : Z) : res Z := if 0 <=? c then dict_get m c else Ret c.
Definition fix_node (m : pydict) (n : dnode T) : res (dnode T) :=
  let* l := fix_ref m (d_left n) in
  let* r := fix_ref m (d_right n) in
  Ret (mk_dnode (d_feature n) (d_value n) l r).

(** trees.py:104  zip(children_left, children_right, feature, threshold, value): stops at the
    shortest. The value column is only used through tree.value[idx]. *)
Definition zip_tree (t : sktree T V) : list (Z * Z * Z * T) :=
  map fst (combine (combine (combine (combine (sk_left t) (sk_right t)) (sk_feature t))
                     (sk_threshold t)) (sk_value t)).

Definition enumerate {A} (l : list A) : list (Z * A) := combine (zrange (zlen l)) l.

(** trees.py:48-150  flatten_tree *)
Definition flatten_tree (t : sktree T V) : res (list (dnode T) * list L) :=
  do* py_assert (sk_node_count t =? zlen (sk_value t));
  do* py_assert (sk_outputs t =? 1);
  let zipped := zip_tree t in
  let* (dn, ln, m) := foldM (flatten_step t (zlen zipped)) ([], [], []) (enumerate zipped) in
  let* dn' := mapM (fix_node m) dn in
  let total_nodes := zlen dn' + zlen ln in
  do* (if zlen zipped =? 1 then
         do* py_assert (total_nodes =? 2);
         do* py_assert (zlen dn' =? 1);
         py_assert (zlen ln =? 1)
       else py_assert (total_nodes =? sk_node_count t));
  do* assert_node_references_valid dn' ln [0];
  Ret (dn', ln).

(** trees.py:222-230  offsetting the references of one tree inside the forest. *)
Definition offset_ref (node_off leaf_off c : Z) : Z :=
  if 0 <=? c then c + node_off else c - leaf_off.
Definition offset_node (node_off leaf_off : Z) (n : dnode T) : dnode T :=
  mk_dnode (d_feature n) (d_value n)
    (offset_ref node_off leaf_off (d_left n)) (offset_ref node_off leaf_off (d_right n)).

(** A forest: (nodes, roots, leaves). *)
Definition forest := (list (dnode T) * list Z * list L)%type.

(** trees.py:204-207 *)
Definition assert_forest_valid (f : forest) : res unit :=
  let '(nodes, roots, leaves) := f in assert_node_references_valid nodes leaves roots.

(** trees.py:217-241  one iteration of the loop over trees. decision_nodes_offset and
    leaf_nodes_offset are always the lengths of the accumulated lists, but are kept as
    separate variables, as in the code. *)
Definition fforest_state := (list (dnode T) * list Z * list L * Z * Z)%type.
Definition flatten_forest_step (st : fforest_state) (t : sktree T V) : res fforest_state :=
  let '(fnodes, roots, fleaves, noff, loff) := st in
  let* (dn, ln) := flatten_tree t in
  let root := 0 + noff in
  let dn' := map (offset_node noff loff) dn in
  let st' := (fnodes ++ dn', roots ++ [root], fleaves ++ ln, noff + zlen dn, loff + zlen ln) in
  let '(fnodes', roots', fleaves', _, _) := st' in
  do* assert_forest_valid (fnodes', roots', fleaves');
  Ret st'.

(** trees.py:210-247  flatten_forest *)
Definition flatten_forest (trees : list (sktree T V)) : res forest :=
  let* (fnodes, roots, fleaves, _, _) := foldM flatten_forest_step ([], [], [], 0, 0) trees in
  let f := (fnodes, roots, fleaves) in
  do* assert_forest_valid f;
  Ret f.

(** numpy.array_equal on leaves *)
Variable leaf_eqb : L -> L -> bool.

(** trees.py:253-257  find_array_index *)
Fixpoint find_array_index_from (i : Z) (l : list L) (target : L) : option Z :=
  match l with
  | [] => None
  | a :: l' => if leaf_eqb target a then Some i else find_array_index_from (i + 1) l' target
  end.
Definition find_array_index (l : list L) (target : L) : option Z :=
  find_array_index_from 0 l target.

(** trees.py:260-275  de-duplication loop: state (unique_leaves, remap_leaves). *)
Definition dedup_step (st : list L * pydict) (item : Z * L) : list L * pydict :=
  let '(unique, remap) := st in
  let '(old_idx, node) := item in
  let old_encoded := - old_idx - 1 in
  let '(new_idx, unique') :=
    match find_array_index unique node with
    | None => (zlen unique, unique ++ [node])
    | Some found => (found, unique)
    end in
  (unique', (old_encoded, - new_idx - 1) :: remap).

Definition dict_get_default (m : pydict) (k : Z) (d : Z) : Z :=
  match dict_find m k with Some v => v | None => d end.

(** trees.py:281-283 *)
Definition remap_node (m : pydict) (n : dnode T) : dnode T :=
  mk_dnode (d_feature n) (d_value n)
    (dict_get_default m (d_left n) (d_left n)) (dict_get_default m (d_right n) (d_right n)).

(** trees.py:250-288  remove_duplicate_leaves; the division by len(nodes) (trees.py:278)
    raises for an empty forest. *)
Definition remove_duplicate_leaves (f : forest) : res forest :=
  let '(nodes, roots, leaves) := f in
  let '(unique, remap) := fold_left dedup_step (enumerate leaves) ([], []) in
  do* (if zlen nodes =? 0 then Err ZeroDivisionError_ else Ret tt);
  let nodes' := map (remap_node remap) nodes in
  let f' := (nodes', roots, unique) in
  do* assert_forest_valid f';
  Ret f'.

(** trees.py:722-723 (Wrapper.__init__): the conversion pipeline. *)
Definition convert_forest (trees : list (sktree T V)) : res forest :=
  let* f := flatten_forest trees in remove_duplicate_leaves f.

End Flatten.

(** trees.py:291-293  assert_valid_child (child_max = 2**15, inclusive). *)
Definition assert_valid_child (value : Z) : res unit :=
  do* py_assert (- 2 ^ 15 <=? value);
  py_assert (value <=? 2 ^ 15).

(** trees.py:295-307  encode_child *)
Definition encode_child (index child : Z) : res Z :=
  let* encoded :=
    (if 0 <=? child then
       do* py_assert (index <=? child);
       let e := child - index in
       do* py_assert (0 <=? e);
       Ret e
     else Ret child) in
  do* assert_valid_child encoded;
  Ret encoded.
