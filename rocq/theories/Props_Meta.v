(** Property theorems: metadata documents (C29, C30, C31, C37, C50, C72). *)
From Verif Require Import Hier Spec SpecMeta StoreFacts NodeFacts Props_Chunk Props_Store.
Local Open Scope Z_scope.

(** Metadata with every field set, used by the examples. *)
Definition ex_full : array_meta :=
  ArrayMeta [5; 7] (Extended (B "https://ext") (B "datetime") (Some (DInt IB8 Big)))
    (B "regular") [2; 3] (B ".") RowMajor (Some (JInt (-3)))
    [ExtMeta (B "https://e1") false (Some [(B "k", JArr [JBool true; JNull])])]
    [(B "a", JObj [(B "x", JInt 1); (B "y", JStr (B "q""t"))]); (B "b", JFloat (B "1.5e3"))]
    (CGzip 4).
Definition ex_full_fs : fs := fst (create_array ex_hier ex_fs0 (B "d/e") ex_full).
(** n nested arrays. *)
Definition nested (n : nat) : json := Nat.iter n (fun j => JArr [j]) JNull.
Definition ex_deep : array_meta :=
  ArrayMeta [5] (Core DBool) (B "regular") [2] (B "/") RowMajor None [] [(B "a", nested 127)] CRaw.

(** C29 *)
Theorem C29_metadata_persists_partial :
  forall H s path m s',
  meta_value m -> nesting_ok m -> no_raw (am_dtype m) -> ~ requires_extension (am_exts m) ->
  create_array H s path m = (s', Ok tt) ->
  exists m', get_array_metadata H s' path = Ok m' /\ same_meta m m'.
Proof. exact created_metadata. Qed.
Print Assumptions C29_metadata_persists_partial.

(** The claim is false without each of the three restrictions. *)
Theorem C29_raw_type_refuted :
  forall H s path m n s',
  meta_value m -> nesting_ok m -> is_u64 n -> am_dtype m = Core (DRaw n) ->
  create_array H s path m = (s', Ok tt) -> get_array_metadata H s' path = Err InvalidData.
Proof. exact create_raw_unreadable. Qed.
Print Assumptions C29_raw_type_refuted.

Theorem C29_required_extension_refuted :
  forall H s path m s',
  meta_value m -> nesting_ok m -> no_raw (am_dtype m) -> requires_extension (am_exts m) ->
  create_array H s path m = (s', Ok tt) -> get_array_metadata H s' path = Err Other.
Proof. exact created_required. Qed.
Print Assumptions C29_required_extension_refuted.

Theorem C29_deep_nesting_refuted :
  exists H s path m s', meta_value m /\ no_raw (am_dtype m) /\ ~ requires_extension (am_exts m)
  /\ create_array H s path m = (s', Ok tt)
  /\ get_array_metadata H s' path = Err InvalidData
  /\ list_attributes H s' path = Err InvalidData.
Proof.
  exists ex_hier, ex_fs0, (B "d"), ex_deep, (fst (create_array ex_hier ex_fs0 (B "d") ex_deep)).
  split.
  { split; [split; repeat constructor; vm_compute; done|]. split; [done|].
    split; [split; vm_compute; reflexivity|]. split; [constructor|done]. }
  split; [done|]. split; [by intros (e & He%elem_of_nil & _)|].
  split; [apply injective_projections; [reflexivity|vm_compute; reflexivity]|]. split; vm_compute; reflexivity.
Qed.
Print Assumptions C29_deep_nesting_refuted.

Example C29_example :
  meta_value ex_full /\ nesting_ok ex_full /\ no_raw (am_dtype ex_full)
  /\ ~ requires_extension (am_exts ex_full)
  /\ snd (create_array ex_hier ex_fs0 (B "d/e") ex_full) = Ok tt
  /\ get_array_metadata ex_hier ex_full_fs (B "/d//e/") = Ok ex_full.
Proof.
  split.
  { split; [split; repeat constructor; vm_compute; done|]. split; [intros v [= <-]; split; vm_compute; done|].
    split; [split; vm_compute; reflexivity|]. split; [|done].
    apply Forall_cons_2; [|constructor]. split; [done|]. intros c [= <-]. split; vm_compute; reflexivity. }
  split.
  { split; [intros v [= <-]; vm_compute; lia|]. split; [vm_compute; lia|].
    apply Forall_cons_2; [|constructor]. intros c [= <-]. vm_compute. lia. }
  split; [done|].
  split; [intros (e & He%elem_of_list_singleton & Hm); by subst|].
  split; vm_compute; reflexivity.
Qed.

(** C30: one update, for a node (array or group) with a readable document. *)
Theorem C30_attributes_merge_partial :
  forall H s path attrs doc old,
  node_document H s path = Ok doc -> list_attributes H s path = Ok old ->
  value_ok (JObj attrs) -> (jdepth (JObj attrs) <= 126)%nat ->
  exists s' new, set_attributes H s path attrs = (s', Ok tt)
  /\ list_attributes H s' path = Ok new /\ overridden old attrs new.
Proof. exact set_attributes_once. Qed.
Print Assumptions C30_attributes_merge_partial.

(** Any sequence of updates: the last one that mentions a key decides. *)
Theorem C30_attribute_updates_partial :
  forall H path us s doc old,
  node_document H s path = Ok doc -> list_attributes H s path = Ok old ->
  Forall (fun u => value_ok (JObj u) /\ (jdepth (JObj u) <= 126)%nat) us ->
  exists s' new, set_many H s path us = (s', map (fun _ => Ok tt) us)
  /\ list_attributes H s' path = Ok new /\ forall k, mget k new = latest k old us.
Proof. exact set_many_read. Qed.
Print Assumptions C30_attribute_updates_partial.

(** Nodes the library created have such a document. *)
Theorem C30_created_nodes :
  forall H s path s',
  (forall m, meta_value m -> nesting_ok m -> create_array H s path m = (s', Ok tt) ->
     (exists doc, node_document H s' path = Ok doc)
     /\ list_attributes H s' path = Ok (am_attrs m))
  /\ (wf_fs s -> plain (hy_base H) -> plain path -> good_suffix (ep_suffix (hy_ep H)) ->
      node_key H s path = Err NotFound -> create_group H s path = (s', Ok tt) ->
     (exists doc, node_document H s' path = Ok doc) /\ list_attributes H s' path = Ok []).
Proof. exact created_nodes. Qed.
Print Assumptions C30_created_nodes.

(** Too deep an attribute is accepted and makes the node unreadable. *)
Theorem C30_deep_attribute_refuted :
  exists H s path doc attrs s', node_document H s path = Ok doc
  /\ list_attributes H s path = Ok [] /\ value_ok (JObj attrs)
  /\ set_attributes H s path attrs = (s', Ok tt)
  /\ list_attributes H s' path = Err InvalidData
  /\ get_array_metadata H s path = Ok ex_meta
  /\ get_array_metadata H s' path = Err InvalidData.
Proof.
  exists ex_hier, ex_fs, ex_path. eexists. exists [(B "a", nested 127)],
    (fst (set_attributes ex_hier ex_fs ex_path [(B "a", nested 127)])).
  split; [vm_compute; reflexivity|]. split; [vm_compute; reflexivity|].
  split; [split; vm_compute; reflexivity|].
  split; [apply injective_projections; [reflexivity|vm_compute; reflexivity]|].
  split; [vm_compute; reflexivity|]. split; vm_compute; reflexivity.
Qed.
Print Assumptions C30_deep_attribute_refuted.

Example C30_example :
  let upd : jmap := [(B "a", JObj [(B "z", JNull)]); (B "c", JInt 7)] in
  let s' := fst (set_attributes ex_hier ex_full_fs (B "d/e") upd) in
  (exists doc, node_document ex_hier ex_full_fs (B "d/e") = Ok doc)
  /\ list_attributes ex_hier ex_full_fs (B "d/e") = Ok (am_attrs ex_full)
  /\ value_ok (JObj upd) /\ (jdepth (JObj upd) <= 126)%nat
  /\ list_attributes ex_hier s' (B "d/e")
     = Ok [(B "a", JObj [(B "z", JNull)]); (B "b", JFloat (B "1.5e3")); (B "c", JInt 7)].
Proof.
  split; [eexists; vm_compute; reflexivity|]. split; [vm_compute; reflexivity|].
  split; [split; vm_compute; reflexivity|]. split; [vm_compute; lia|]. vm_compute. reflexivity.
Qed.

(** C31: exactly the file of the node's document changes, and in it only the
    attributes. *)
Theorem C31_update_preserves_rest_partial :
  forall H s path attrs doc,
  node_document H s path = Ok doc -> value_ok (JObj attrs) -> (jdepth (JObj attrs) <= 126)%nat ->
  exists s' p doc', set_attributes H s path attrs = (s', Ok tt)
  /\ one_file_changed s s' p
  /\ (exists k cs, node_key H s path = Ok k /\ key_comps (hy_base H) k = Ok cs /\ walk s [] cs = Ok p)
  /\ node_document H s' path = Ok doc'
  /\ (forall k, k <> ATTRIBUTES_NAME -> mget k doc' = mget k doc).
Proof. exact set_attributes_rest. Qed.
Print Assumptions C31_update_preserves_rest_partial.

(** Array metadata: the same but for the attributes.  The document must be an
    object: C72_positional_refuted. *)
Theorem C31_array_metadata_partial :
  forall H s path attrs m doc,
  get_array_metadata H s path = Ok m -> node_document H s path = Ok doc ->
  value_ok (JObj attrs) -> (jdepth (JObj attrs) <= 126)%nat ->
  exists s' a, set_attributes H s path attrs = (s', Ok tt)
  /\ get_array_metadata H s' path = Ok (with_attrs m a) /\ overridden (am_attrs m) attrs a.
Proof. exact set_attributes_meta. Qed.
Print Assumptions C31_array_metadata_partial.

(** A document with members the library does not know, in the file system. *)
Definition ex_foreign : fs :=
  <[[B "srv"; B "h"; B "meta"] := Dir]> (<[[B "srv"; B "h"; B "meta"; B "root"] := Dir]>
  (<[[B "srv"; B "h"; B "meta"; B "root"; B "g.group.json"]
     := File (B "{""z"":[1,{}],""attributes"":{""k"":1,""j"":2,""k"":3}, ""extensions"":[]}")]> ex_fs0)).
Example C31_example :
  let upd : jmap := [(B "j", JStr (B "new"))] in
  (exists doc, node_document ex_hier ex_foreign (B "g") = Ok doc)
  /\ list_attributes ex_hier ex_foreign (B "g") = Ok [(B "j", JInt 2); (B "k", JInt 3)]
  /\ value_ok (JObj upd)
  /\ st_get (hy_base ex_hier) (fst (set_attributes ex_hier ex_foreign (B "g") upd))
       (gkey ex_hier (B "g"))
     = Ok (Some (B "{""attributes"":{""j"":""new"",""k"":3},""extensions"":[],""z"":[1,{}]}"))
  /\ get_array_metadata ex_hier ex_fs ex_path = Ok ex_meta
  /\ get_array_metadata ex_hier (fst (set_attributes ex_hier ex_fs ex_path upd)) ex_path
     = Ok (with_attrs ex_meta upd).
Proof.
  split; [eexists; vm_compute; reflexivity|]. split; [vm_compute; reflexivity|].
  split; [split; vm_compute; reflexivity|]. split; [vm_compute; reflexivity|].
  split; vm_compute; reflexivity.
Qed.

(** C72: the attributes in the metadata of an array are the ones
    list_attributes lists, if its document is an object. *)
Theorem C72_same_attributes_partial :
  forall H s path m doc,
  get_array_metadata H s path = Ok m -> node_document H s path = Ok doc ->
  list_attributes H s path = Ok (am_attrs m).
Proof. exact get_meta_attrs. Qed.
Print Assumptions C72_same_attributes_partial.
(** get_array_metadata also reads an array with the members' values in order.
    list_attributes finds no attributes in it and set_attributes refuses it. *)
Definition ex_positional : fs :=
  <[[B "srv"; B "h"; B "meta"] := Dir]> (<[[B "srv"; B "h"; B "meta"; B "root"] := Dir]>
  (<[[B "srv"; B "h"; B "meta"; B "root"; B "p.array.json"]
     := File (B "[[10,20],""<f4"",[""regular"",[2,3],""/""],""C"",null,[],{""unit"":""mm""}]")]> ex_fs0)).
Theorem C72_positional_refuted :
  exists H s path m attrs,
  wf_fs s /\ value_ok (JObj attrs)
  /\ get_array_metadata H s path = Ok m /\ am_attrs m = [(B "unit", JStr (B "mm"))]
  /\ list_attributes H s path = Ok []
  /\ set_attributes H s path attrs = (s, Err InvalidData).
Proof.
  exists ex_hier, ex_positional, (B "p").
  exists (ArrayMeta [10; 20] (Core (DFloat FB4 Little)) (B "regular") [2; 3] (B "/") RowMajor
            None [] [(B "unit", JStr (B "mm"))] CRaw), [(B "unit", JStr (B "um"))].
  split; [apply wf_check_ok; vm_compute; reflexivity|]. split; [split; vm_compute; reflexivity|].
  repeat split; vm_compute; reflexivity.
Qed.
Print Assumptions C72_positional_refuted.
Example C72_example :
  exists doc, node_document ex_hier ex_fs ex_path = Ok doc /\ get_array_metadata ex_hier ex_fs ex_path = Ok ex_meta.
Proof. eexists. split; vm_compute; reflexivity. Qed.

(** C37 *)
Theorem C37_required_extensions :
  forall H s path text m,
  st_get (hy_base H) s (akey H path) = Ok (Some text) -> from_text dec_meta text = Ok m ->
  (requires_extension (am_exts m) -> get_array_metadata H s path = Err Other)
  /\ (~ requires_extension (am_exts m) -> get_array_metadata H s path = Ok m).
Proof. exact required_extensions. Qed.
Print Assumptions C37_required_extensions.

Theorem C37_entry_point_extensions :
  forall V base s text e,
  open_read s (comps (path_join base ENTRY_POINT_KEY)) = Ok text -> from_text dec_ep text = Ok e ->
  V (version_str e) = Some true ->
  (requires_extension (ep_exts e) ->
     open_hier V base s = Err Other /\ open_or_create V base s = (s, Err Other))
  /\ (~ requires_extension (ep_exts e) ->
     open_hier V base s = Ok (Hier base e) /\ open_or_create V base s = (s, Ok (Hier base e))).
Proof. exact entry_extensions. Qed.
Print Assumptions C37_entry_point_extensions.

(** Every list of extensions is read as it was written (must_understand
    included), so the premises above hold of every document the library wrote. *)
Theorem C37_extensions_read_back :
  forall m e,
  (meta_value m -> nesting_ok m -> no_raw (am_dtype m) ->
     exists m', from_text dec_meta (print (enc_meta m)) = Ok m' /\ am_exts m' = am_exts m)
  /\ (ep_typed e -> exts_nesting_ok (ep_exts e) ->
     from_text dec_ep (print (enc_ep e)) = Ok e).
Proof. exact extensions_read_back. Qed.
Print Assumptions C37_extensions_read_back.

Example C37_example :
  let exts := [ExtMeta (B "https://e1") false None; ExtMeta (B "https://e2") true (Some [])] in
  let m := ArrayMeta [5] (Core DBool) (B "regular") [2] (B "/") RowMajor None exts [] CRaw in
  let s := fst (create_array ex_hier ex_fs0 (B "d") m) in
  let e := EntryPoint (ep_format ep_default) (ep_encoding ep_default) (B ".json") exts in
  let s2 : fs := <[[B "srv"; B "h"; B "zarr.json"] := File (print (enc_ep e))]> ex_fs0 in
  requires_extension exts /\ ~ requires_extension (take 1 exts)
  /\ version_str e = B "3.0"
  /\ get_array_metadata ex_hier s (B "d") = Err Other
  /\ open_hier (fun _ => Some true) (B "/srv/h") ex_fs0 = Ok ex_hier
  /\ open_hier (fun _ => Some true) (B "/srv/h") s2 = Err Other.
Proof.
  split; [eexists; split; [right; left|done]|].
  split; [intros (e & He%elem_of_list_singleton & Hm); by subst|].
  do 3 (split; [vm_compute; reflexivity|]). vm_compute. reflexivity.
Qed.

(** C50, for arrays created through the library and after attribute updates. *)
Theorem C50_usable_partial :
  forall H s path m s',
  meta_value m -> nesting_ok m -> no_raw (am_dtype m) -> usable m -> ~ requires_extension (am_exts m) ->
  create_array H s path m = (s', Ok tt) ->
  exists m', get_array_metadata H s' path = Ok m' /\ usable m'
  /\ forall attrs, value_ok (JObj attrs) -> (jdepth (JObj attrs) <= 126)%nat ->
     exists s2 m2, set_attributes H s' path attrs = (s2, Ok tt)
     /\ get_array_metadata H s2 path = Ok m2 /\ usable m2.
Proof. exact create_usable. Qed.
Print Assumptions C50_usable_partial.

Theorem C50_usable_grid :
  forall p m, meta_typed m -> usable m -> Forall (fun d => d + 1 < two64) (am_shape m) ->
  (exists e, grid_extent p m = Ok e) /\ forall pos, exists b, in_bounds p m pos = Ok b.
Proof. exact usable_grid. Qed.
Print Assumptions C50_usable_grid.

(** Stored documents are not checked: a zero chunk extent makes the bounds
    check panic, and a chunk shape of lower rank makes it ignore coordinates. *)
Theorem C50_usable_refuted :
  exists H s path m m2,
  get_array_metadata H s path = Ok m /\ ~ usable m /\ in_bounds Release m [0] = Panic
  /\ get_array_metadata H s (B "x") = Ok m2 /\ ~ usable m2
  /\ in_bounds Release m2 [0; 999] = Ok true.
Proof.
  pose (mk := fun sh cs => ArrayMeta sh (Core DBool) (B "regular") cs (B "/") RowMajor None [] [] CRaw).
  exists ex_hier,
    (fst (create_array ex_hier (fst (create_array ex_hier ex_fs0 (B "d") (mk [5] [0]))) (B "x")
            (mk [5; 5] [2]))),
    (B "d"), (mk [5] [0]), (mk [5; 5] [2]).
  split; [vm_compute; reflexivity|].
  split; [intros [_ U]; apply list.Forall_cons in U as [U _]; by apply Z.lt_irrefl in U|].
  split; [vm_compute; reflexivity|]. split; [vm_compute; reflexivity|].
  split; [by intros [U _]|]. vm_compute. reflexivity.
Qed.
Print Assumptions C50_usable_refuted.

Example C50_example :
  usable ex_full /\ meta_typed ex_full /\ Forall (fun d => d + 1 < two64) (am_shape ex_full).
Proof.
  split; [split; [done|by repeat constructor]|].
  split; [split; repeat constructor; vm_compute; done|]. repeat constructor; vm_compute; done.
Qed.
