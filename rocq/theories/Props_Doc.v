(** Property theorems: JSON documents, whoever wrote them (C67). *)
From Verif Require Import Json MetaJson Hier Spec SpecMeta SpecJson SpecDoc BaseFacts FSFacts StoreFacts JsonGrammar DocFacts
  Props_Chunk Props_Store Props_Hier.
Local Open Scope Z_scope.

(** C67.  The texts the library accepts as JSON are those of the grammar of
    RFC 8259 that nest no deeper than its parser goes, and the value it reads
    is the one the grammar gives. *)
Theorem C67_json :
  forall text v, parse text = Some v <-> json_says text v /\ (jdepth v <= 127)%nat.
Proof. exact parse_json_says. Qed.
Print Assumptions C67_json.
(** Its strings are well-formed UTF-8: the encodings of a sequence of Unicode
    scalar values.  A text with any other string in it is not read. *)
Theorem C67_utf8 :
  forall s, utf8_ok s = true <-> utf8_text s.
Proof. exact utf8_ok_text. Qed.
Print Assumptions C67_utf8.
(** é in UTF-8 and in Latin-1. *)
Example C67_utf8_example :
  parse (quote :: map byte_of_Z [195; 169] ++ [quote]) = Some (JStr (map byte_of_Z [195; 169]))
  /\ utf8_text (map byte_of_Z [195; 169])
  /\ parse (quote :: map byte_of_Z [233] ++ [quote]) = None
  /\ ~ utf8_text (map byte_of_Z [233]).
Proof.
  split; [vm_compute; reflexivity|]. split; [apply C67_utf8; vm_compute; reflexivity|].
  split; [vm_compute; reflexivity|]. intros E%C67_utf8. vm_compute in E. done.
Qed.

(** get_array_metadata: the array document of the node decides, and only what
    it says ([array_says]).  The panic is that of C28. *)
Theorem C67_array :
  forall H s path, wf_fs s -> plain (hy_base H) -> slash ∉ strip_dot (ep_suffix (hy_ep H)) -> plain path ->
  (file_at s (document H "array" path) = None -> get_array_metadata H s path = Err NotFound)
  /\ forall text, file_at s (document H "array" path) = Some text ->
     (forall m, reads_as array_says text m ->
        (requires_extension (am_exts m) -> get_array_metadata H s path = Err Other)
        /\ (~ requires_extension (am_exts m) -> get_array_metadata H s path = Ok m))
     /\ ((forall m, ~ reads_as array_says text m) ->
         get_array_metadata H s path = Err InvalidData
         \/ names_bad_type text /\ get_array_metadata H s path = Panic).
Proof. exact array_document. Qed.
Print Assumptions C67_array.

(** list_attributes: the array document, or else the group document. *)
Theorem C67_attributes :
  forall H s path, wf_fs s -> plain (hy_base H) -> slash ∉ strip_dot (ep_suffix (hy_ep H)) -> plain path ->
  let doc := match file_at s (document H "array" path) with
             | Some t => Some t
             | None => file_at s (document H "group" path)
             end in
  (doc = None -> list_attributes H s path = Err NotFound)
  /\ forall text, doc = Some text ->
     (forall a, reads_as attributes_say text a -> list_attributes H s path = Ok a)
     /\ ((forall a, ~ reads_as attributes_say text a) -> list_attributes H s path = Err InvalidData).
Proof. exact attrs_document. Qed.
Print Assumptions C67_attributes.

(** open, and open_or_create where an entry point is: a hierarchy whose version
    the library does not support ([V]: the matcher of the semver crate), or
    that needs an extension, is refused, and nothing is changed. *)
Theorem C67_entry_point :
  forall V base s, wf_fs s -> plain base ->
  (file_at s (pieces base ++ [B "zarr.json"]) = None -> exists e, open_hier V base s = Err e)
  /\ forall text, file_at s (pieces base ++ [B "zarr.json"]) = Some text ->
     (forall e, reads_as entry_says text e ->
        (requires_extension (ep_exts e) -> open_hier V base s = Err Other)
        /\ (~ requires_extension (ep_exts e) -> forall v, version_of (ep_format e) v ->
              open_hier V base s = match V v with
                                   | Some true => Ok (Hier base e)
                                   | Some false => Err Other
                                   | None => Err InvalidData
                                   end))
     /\ ((forall e, ~ reads_as entry_says text e) -> open_hier V base s = Err InvalidData)
     /\ open_or_create V base s = (s, open_hier V base s).
Proof. exact entry_doc. Qed.
Print Assumptions C67_entry_point.
Theorem C67_entry_point_missing :
  forall V base s, wf_fs s -> plain base ->
  node_at s (pieces base ++ [B "zarr.json"]) = None -> (forall k, file_at s (take k (pieces base)) = None) ->
  open_hier V base s = Err NotFound.
Proof. exact entry_missing. Qed.
Print Assumptions C67_entry_point_missing.

(** Documents another program may have written. *)
Definition ex_array_doc : bytes := B
"{ ""extra"" : [1.5e3, {""a"":null}], ""attributes"":{""z"":1,""b"":2,""z"":[3]},
   ""extensions"":[], ""fill_value"":null , ""chunk_memory_layout"":""C"",
   ""chunk_grid"":{""separator"":""\/"",""chunk_shape"":[2,3], ""type"":""regular""},
   ""data_type"":""<f4"", ""shape"":[10,20]}".
Definition ex_array_said : array_meta :=
  ArrayMeta [10; 20] (Core (DFloat FB4 Little)) (B "regular") [2; 3] (B "/") RowMajor
            None [] [(B "b", JInt 2); (B "z", JArr [JInt 3])] CRaw.
Definition ex_entry_doc (version : string) : bytes := B
"{""extensions"" : [],
  ""metadata_key_suffix"":"".json"", ""metadata_encoding"":""x"",
  ""zarr_format"":""https://example.org/" ++ B version ++ B """}".
Definition ex_doc_fs : fs :=
  <[[B "srv"; B "h"; B "zarr.json"] := File (ex_entry_doc "4.0")]>
  (<[[B "srv"; B "h"; B "meta"] := Dir]> (<[[B "srv"; B "h"; B "meta"; B "root"] := Dir]>
  (<[[B "srv"; B "h"; B "meta"; B "root"; B "doc.array.json"] := File ex_array_doc]>
  (<[[B "srv"; B "h"; B "meta"; B "root"; B "bad.array.json"] := File (B "{""shape"":[1]}")]> ex_fs0)))).
Example C67_example :
  (exists j, json_says ex_array_doc j /\ (jdepth j <= 127)%nat)
  /\ wf_fs ex_doc_fs /\ plain (hy_base ex_hier) /\ slash ∉ strip_dot (ep_suffix (hy_ep ex_hier)) /\ plain (B "doc")
  /\ file_at ex_doc_fs (document ex_hier "array" (B "doc")) = Some ex_array_doc
  /\ reads_as array_says ex_array_doc ex_array_said /\ ~ requires_extension (am_exts ex_array_said)
  /\ (forall m, ~ reads_as array_says (B "{""shape"":[1]}") m)
  /\ file_at ex_doc_fs (document ex_hier "array" (B "bad")) = Some (B "{""shape"":[1]}")
  /\ get_array_metadata ex_hier ex_doc_fs (B "bad") = Err InvalidData
  /\ reads_as attributes_say ex_array_doc [(B "b", JInt 2); (B "z", JArr [JInt 3])]
  /\ (exists e, reads_as entry_says (ex_entry_doc "4.0") e /\ ~ requires_extension (ep_exts e)
      /\ version_of (ep_format e) (B "4.0"))
  /\ open_hier ex_versions (B "/srv/h") ex_doc_fs = Err Other
  /\ (exists e, reads_as entry_says (ex_entry_doc "3.0") e /\ version_of (ep_format e) (B "3.0")
      /\ open_hier ex_versions (B "/srv/h") (<[[B "srv"; B "h"; B "zarr.json"] := File (ex_entry_doc "3.0")]> ex_doc_fs)
         = Ok (Hier (B "/srv/h") e)).
Proof.
  assert (forall l : list ext_meta, l = [] -> ~ requires_extension l) as NE.
  { intros l -> (e & I & _). by apply elem_of_nil in I. }
  split. { eexists. apply C67_json. vm_compute. reflexivity. }
  split; [apply wf_check_ok; vm_compute; reflexivity|].
  split; [apply plain_check; vm_compute; reflexivity|].
  split; [vm_compute; set_solver|]. split; [apply plain_check; vm_compute; reflexivity|].
  split; [vm_compute; reflexivity|].
  split; [apply (read_iff dec_meta array_says _ _ meta_iff); vm_compute; reflexivity|].
  split; [by apply NE|].
  split. { intros m Hm%(read_iff dec_meta array_says _ _ meta_iff). vm_compute in Hm. done. }
  split; [vm_compute; reflexivity|]. split; [vm_compute; reflexivity|].
  split; [apply (read_iff dec_attrs attributes_say _ _ attrs_iff); vm_compute; reflexivity|].
  split.
  { eexists (EntryPoint (B "https://example.org/4.0") (B "x") (B ".json") []).
    split; [apply (read_iff dec_ep entry_says _ _ ep_iff); vm_compute; reflexivity|]. split; [by apply NE|].
    apply version_iff. vm_compute. reflexivity. }
  split; [vm_compute; reflexivity|].
  eexists (EntryPoint (B "https://example.org/3.0") (B "x") (B ".json") []).
  split; [apply (read_iff dec_ep entry_says _ _ ep_iff); vm_compute; reflexivity|].
  split; [apply version_iff; vm_compute; reflexivity|]. vm_compute. reflexivity.
Qed.
(** The same array, written as the values of its members in order. *)
Example C67_positional :
  let text := B "[[10,20],""<f4"",[""regular"",[2,3],""/""],{""C"":null},null,[],{""z"":1,""b"":2,""z"":[3]},[""raw"",null]]" in
  (exists j l, json_says text j /\ j = JArr l) /\ reads_as array_says text ex_array_said
  /\ reads_as entry_says (B "[""x/3.0"",""x"","".json"",[[""ext"",false,null]]]")
       (EntryPoint (B "x/3.0") (B "x") (B ".json") [ExtMeta (B "ext") false None]).
Proof.
  split. { eexists _, _. split; [apply C67_json; vm_compute; reflexivity|reflexivity]. }
  split; [apply (read_iff dec_meta array_says _ _ meta_iff); vm_compute; reflexivity|].
  apply (read_iff dec_ep entry_says _ _ ep_iff). vm_compute. reflexivity.
Qed.
