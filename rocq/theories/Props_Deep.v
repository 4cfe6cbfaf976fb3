(** Property theorems: attribute updates of any nesting (C31). *)
From Verif Require Import Json MetaJson Hier Spec SpecMeta SpecJson FSFacts NodeFacts DeepFacts Props_Chunk Props_Store Props_Meta.
Local Open Scope Z_scope.

(** C31 for updates of any nesting: the file of the node's document still holds
    a JSON text (RFC 8259) with all the other members of the document, and no
    other file changes.  [norm] keeps the last of the members of one name. *)
Theorem C31_stored_document :
  forall H s path attrs doc,
  node_document H s path = Ok doc -> value_ok (JObj attrs) ->
  exists s' p text v doc', set_attributes H s path attrs = (s', Ok tt)
  /\ one_file_changed s s' p
  /\ (exists k cs, node_key H s path = Ok k /\ key_comps (hy_base H) k = Ok cs /\ walk s [] cs = Ok p)
  /\ file_at s' p = Some text /\ json_says text v /\ norm v = JObj doc'
  /\ (forall k, k <> ATTRIBUTES_NAME -> mget k doc' = mget k doc).
Proof. exact set_attributes_text. Qed.
Print Assumptions C31_stored_document.

(** But the library does not read it back if it is nested more than 127 deep:
    after an accepted update the array has no metadata. *)
Theorem C31_metadata_kept_refuted :
  exists H s path m attrs s', get_array_metadata H s path = Ok m /\ value_ok (JObj attrs)
  /\ set_attributes H s path attrs = (s', Ok tt) /\ get_array_metadata H s' path = Err InvalidData.
Proof.
  destruct C30_deep_attribute_refuted as (H & s & path & doc & attrs & s' & _ & _ & V & E & _ & G & G').
  by exists H, s, path, ex_meta, attrs, s'.
Qed.
Print Assumptions C31_metadata_kept_refuted.

Example C31_example_deep : (exists doc, node_document ex_hier ex_fs ex_path = Ok doc) /\ value_ok (JObj [(B "a", nested 127)])
  /\ (127 < jdepth (JObj [(B "a", nested 127)]))%nat.
Proof. split; [eexists; vm_compute; reflexivity|]. split; [split; vm_compute; reflexivity|vm_compute; lia]. Qed.
