(** What the C text written by save() of a tree model should define and compute. *)
From Coq Require Import String ZArith List Bool Reals.
From Flocq Require Import Core BinarySingleNaN.
From Verif.Base Require Import Res CInt Float.
From Verif.Model Require Import Text Common TreesConvert TreesC TreesWrapper Neighbors NeighborsRun TreesRun NetRun SaveText SaveNetText.
From Verif.Spec Require Import CgenSpec CTextSpec SaveNetSpec.
Import ListNotations.
Open Scope Z_scope.

(** NAME_tree_i *)
Definition tree_fn (name : list Z) (i : Z) (w : list Z) : Prop := exists ds, int_literal ds i /\ w = name ++ txt "_tree_" ++ ds.
(** NAME_tree_0, NAME_tree_1, ..., NAME_tree_(n-1) *)
Definition tree_fns (name : list Z) (n : Z) (ws : list (list Z)) : Prop :=
  Z.of_nat (length ws) = n /\ forall i w, nth_error ws (Z.to_nat i) = Some w -> 0 <= i -> tree_fn name i w.
(** The functions a user calls. *)
Definition entry_points (name : list Z) (classifier include_proba : bool) : list (list Z) :=
  if classifier && include_proba then [name ++ txt "_predict"; name ++ txt "_predict_proba"] else [name ++ txt "_predict"].
(** The number returned by a function of return type int32_t. *)
Definition int32_ret (t : list Z) : option Z := let? z := int_lit t in Some (to_int32 z).
(** In the file [t], function NAME_tree_i, a function of [ctype] features, does [run]. *)
Definition tree_does {K X V} (cst : list Z -> option K) (ret : list Z -> option V) (lt : X -> K -> bool)
    (t name ctype : list Z) (i : Z) (run : list X -> option V) : Prop :=
  exists w rest code, tree_fn name i w /\ In (w, rest) (definitions t) /\ tree_function ctype rest = Some code /\
    forall features, exec int_lit cst ret lt features code = run features.

(** The tree model [name] a C program that includes the file [t] gets: the initialised EmlTrees struct with the arrays its
    pointers point to. Each member has the width of its C type. *)
Definition node_of (row : list Z) : option cnode :=
  match row with [f; v; l; r] => Some (mk_cnode (to_int8 f) (to_int16 v) (to_int16 l) (to_int16 r)) | _ => None end.
Definition pointed {A} (read : list tok -> option A) (t : list Z) (field : list tok) : option A :=
  let? n := field_name field in let? rest := lookup_def n (definitions t) in read rest.
Definition load_trees (t name : list Z) : option eml_trees :=
  let? rest := lookup_def name (definitions t) in
  let? fields := struct_def rest in
  match fields with
  | [n_nodes; nodes; n_trees; tree_roots; n_leaves; leaves; leaf_bits; n_features; n_classes] =>
      let? a := field_int n_nodes in
      let? rows := pointed int_table t nodes in let? ns := opt_all node_of rows in
      let? b := field_int n_trees in
      let? rs := pointed int_array t tree_roots in
      let? c := field_int n_leaves in
      let? ls := pointed int_array t leaves in
      let? d := field_int leaf_bits in let? e := field_int n_features in let? g := field_int n_classes in
      Some (mk_eml_trees (to_int32 a) ns (to_int32 b) (map to_int32 rs) (to_int32 c) (map to_uint8 ls) (to_int8 d) (to_int8 e) (to_int8 g))
  | _ => None
  end.
(** What the functions of a loadable model call, and with what. *)
Definition calls_library (name : list Z) (classifier include_proba : bool) : list (list Z * list (list tok)) :=
  let self := [P 38; W name] in
  let row := [[W (txt "features")]; [W (txt "features_length")]] in
  if classifier then
    (txt "eml_trees_predict", self :: row) ::
    (if include_proba then [(txt "eml_trees_predict_proba", self :: row ++ [[W (txt "out")]; [W (txt "out_length")]])] else [])
  else [(txt "eml_trees_regress1", self :: row)].
(** The nearest neighbours model [name] a C program that includes the file [t] gets. *)
Definition load_neighbors (t name : list Z) : option neighbors_model :=
  let? rest := lookup_def name (definitions t) in
  let? fields := struct_def rest in
  match fields with
  | [n_features; n_items; max_items; data; labels; k] =>
      let? a := field_int n_features in let? b := field_int n_items in let? c := field_int max_items in
      let? ds := pointed int_array t data in let? ls := pointed int_array t labels in
      let? d := field_int k in
      Some (mk_neighbors (to_uint16 a) (to_int16 b) (to_int16 c) (map to_int16 ds) (map to_int16 ls) (to_int16 d))
  | _ => None
  end.

(** ** save(name, file) *)
(** os.path.splitext(os.path.basename(f))[0] for a file that is not hidden is its stem: f is DIR/STEM.EXT, with DIR/ and .EXT
    optional. *)
Definition stem_of (f s : list Z) : Prop :=
  s <> [] /\ hd_error s <> Some 46 /\ ~ In 47 s /\
  exists dir ext, (dir = [] \/ exists d, dir = d ++ [47]) /\ (ext = [] /\ ~ In 46 s \/ exists e, ext = 46 :: e /\ ~ In 46 e /\ ~ In 47 e) /\ f = dir ++ s ++ ext.
Definition saves (gen : list Z -> res (list Z)) (writable : list Z -> bool) (name file : option (list Z)) (fs : list Z -> option (list Z))
    (r : res (list Z)) (fs' : list Z -> option (list Z)) : Prop :=
  let named n := name = Some n \/ name = None /\ exists f, file = Some f /\ forall s, stem_of f s -> n = s in
  (forall p, file <> Some p -> fs' p = fs p) /\
  (forall e, r = Err e -> fs' = fs) /\
  (forall code, r = Ret code ->
     (exists n, gen n = Ret code /\ named n) /\
     (forall f, file = Some f -> f <> [] -> writable f = true /\ fs' f = Some code) /\
     (file = None -> fs' = fs)) /\
  (name = None -> file = None -> exists e, r = Err e) /\
  (forall n code, name = Some n \/ name = None /\ (exists f, file = Some f /\ stem_of f n) -> gen n = Ret code ->
     (forall f, file = Some f -> writable f = true) -> r = Ret code).
(** ** Identifiers *)
Definition starts_with (name x : list Z) : Prop := exists s, x = name ++ s.
(** [t] is the file of some model saved under [name]. *)
Inductive saved_as (name : list Z) (t : list Z) : Prop :=
| saved_inline classifier method dtype lb trees nf n w c pr :
    wrapper_init classifier method dtype lb trees nf n = Ret w -> In method [None; Some MInline] -> 0 <= n ->
    save_code w = Ret c -> trees_text w name pr = Ret t -> saved_as name t
| saved_loadable classifier dtype lb trees nf n w m pr :
    wrapper_init classifier (Some MLoadable) dtype lb trees nf n = Ret w -> In dtype [None; Some DInt16] ->
    save_loadable w = Ret m -> trees_text w name pr = Ret t -> saved_as name t
| saved_neighbors metric weights method data labels nf k m :
    knn_init metric weights method data labels k = Ret m -> Forall (fun row => zlen row = nf) data ->
    neighbors_text data nf labels k name = Ret t -> saved_as name t
| saved_net expf logf tanhf ls m :
    save_compiled expf logf tanhf ls = Ret m -> int32_sizes ls -> net_text ls name = Ret t -> saved_as name t.
