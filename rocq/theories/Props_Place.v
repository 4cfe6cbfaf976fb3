(** Property theorems: chunks and documents are where the format puts them (C78). *)
From Verif Require Import Json MetaJson Hier Spec SpecMeta SpecDoc SpecPlace BaseFacts FSFacts StoreFacts PlaceFacts
  Props_Chunk Props_Store Props_Hier.
Local Open Scope Z_scope.

(** C78.  A grid position has exactly one text: its numbers in decimal
    notation with the separator between them. *)
Theorem C78_position_text :
  forall sep pos, pos_ok pos ->
  exists w, position_text sep pos w /\ forall w', position_text sep pos w' -> w' = w.
Proof. exact one_position_text. Qed.
Print Assumptions C78_position_text.

(** The chunk is in the file of the name that the format gives it
    ([chunk_file]): a write puts the encoded chunk there and touches no other
    file, *)
Theorem C78_chunk_written :
  forall H s path, wf_fs s -> plain (hy_base H) -> plain path ->
  forall C h t m ck s' w, plain (am_sep m) -> pos_ok (ck_pos ck) -> position_text (am_sep m) (ck_pos ck) w ->
  write_chunk C h H s t path m ck = (s', Ok tt) ->
  file_at s' (chunk_file H path w) = Some (fst (encode_chunk C h t m ck))
  /\ forall q, q <> chunk_file H path w -> file_at s' q = file_at s q.
Proof. exact chunk_written. Qed.
Print Assumptions C78_chunk_written.
(** a read returns what that file says, whoever wrote it, *)
Theorem C78_chunk_read :
  forall H s path, wf_fs s -> plain (hy_base H) -> plain path ->
  forall C h t m pos w, plain (am_sep m) -> pos_ok pos -> position_text (am_sep m) pos w ->
  in_bounds (h_prof h) m pos = Ok true ->
  read_chunk C h H s t path m pos
  = match file_at s (chunk_file H path w) with
    | None => Ok None
    | Some content => c ← decode_chunk C h t m content pos; Ok (Some c)
    end.
Proof. exact chunk_read. Qed.
Print Assumptions C78_chunk_read.
(** a deletion removes that file and no other, *)
Theorem C78_chunk_deleted :
  forall H s path, wf_fs s -> plain (hy_base H) -> plain path ->
  forall m pos s' b w, plain (am_sep m) -> pos_ok pos -> position_text (am_sep m) pos w ->
  delete_chunk H s path m pos = (s', Ok b) ->
  file_at s' (chunk_file H path w) = None
  /\ forall q, q <> chunk_file H path w -> file_at s' q = file_at s q.
Proof. exact chunk_deleted. Qed.
Print Assumptions C78_chunk_deleted.
(** and its URI names it. *)
Theorem C78_chunk_uri :
  forall H path, plain (hy_base H) -> plain path ->
  forall m pos w, plain (am_sep m) -> pos_ok pos -> position_text (am_sep m) pos w ->
  exists p, get_chunk_uri H path m pos = Ok (B "file://" ++ p) /\ pieces p = chunk_file H path w.
Proof. exact chunk_uri. Qed.
Print Assumptions C78_chunk_uri.

(** A new array is one new document, of the name the format gives it
    ([document]), and it says what the metadata says: reading it by the format
    ([array_says]) gives an array with the same metadata. *)
Theorem C78_array_written :
  forall H s path, wf_fs s -> plain (hy_base H) -> plain path -> slash ∉ strip_dot (ep_suffix (hy_ep H)) ->
  forall m s', meta_value m -> nesting_ok m -> no_raw (am_dtype m) ->
  create_array H s path m = (s', Ok tt) ->
  (forall q, q <> document H "array" path -> file_at s' q = file_at s q)
  /\ exists text m', file_at s' (document H "array" path) = Some text /\ reads_as array_says text m' /\ same_meta m m'.
Proof. exact array_written. Qed.
Print Assumptions C78_array_written.
(** So is a new group, without attributes, *)
Theorem C78_group_written :
  forall H s path, wf_fs s -> plain (hy_base H) -> plain path -> slash ∉ strip_dot (ep_suffix (hy_ep H)) ->
  forall s', file_at s (document H "group" path) = None ->
  create_group H s path = (s', Ok tt) ->
  (forall q, q <> document H "group" path -> file_at s' q = file_at s q)
  /\ exists text, file_at s' (document H "group" path) = Some text /\ reads_as attributes_say text [].
Proof. exact group_written. Qed.
Print Assumptions C78_group_written.
(** and a new hierarchy, where no file is in the way: its entry point names
    version 3.0 of the protocol. *)
Theorem C78_entry_written :
  forall V base s, wf_fs s -> plain base -> V (B "3.0") = Some true ->
  node_at s (pieces base ++ [B "zarr.json"]) = None -> (forall k, file_at s (take k (pieces base)) = None) ->
  exists s' H text, open_or_create V base s = (s', Ok H)
  /\ (forall q, q <> pieces base ++ [B "zarr.json"] -> file_at s' q = file_at s q)
  /\ file_at s' (pieces base ++ [B "zarr.json"]) = Some text
  /\ reads_as entry_says text (EntryPoint (B "https://purl.org/zarr/spec/protocol/core/3.0")
       (B "https://purl.org/zarr/spec/protocol/core/3.0") (B ".json") []).
Proof. exact entry_written. Qed.
Print Assumptions C78_entry_written.

(** Chunk (1, 10) of the array a/b in /srv/h, and its documents.  (The
    hypotheses on metadata are those of C29; see C29_example.) *)
Example C78_example :
  position_text (B "/") [1; 10] (B "1/10")
  /\ chunk_file ex_hier ex_path (B "1/10")
     = [B "srv"; B "h"; B "data"; B "root"; B "a"; B "b"; B "c1"; B "10"]
  /\ position_text (am_sep ex_meta) [1; 1] (B "1/1")
  /\ snd (write_chunk ex_codec ex_host ex_hier ex_fs RI16 ex_path ex_meta (Chunk [1; 1] ex_data)) = Ok tt
  /\ file_at ex_fs1 [B "srv"; B "h"; B "data"; B "root"; B "a"; B "b"; B "c1"; B "1"] = Some ex_bytes
  /\ snd (delete_chunk ex_hier ex_fs1 ex_path ex_meta [1; 1]) = Ok true
  /\ document ex_hier "array" ex_path = [B "srv"; B "h"; B "meta"; B "root"; B "a"; B "b.array.json"]
  /\ file_at ex_fs0 (document ex_hier "group" (B "g")) = None
  /\ snd (create_group ex_hier ex_fs0 (B "g")) = Ok tt
  /\ node_at ex_fs0 [B "new"; B "zarr.json"] = None
  /\ (forall k, file_at ex_fs0 (take k (pieces (B "/new"))) = None).
Proof.
  assert (D : forall z w, 0 <= z -> show_nat z = w -> decimal z w) by (intros z w Z <-; by apply show_decimal).
  split. { apply (next_position (B "/") 1 (B "1") 10 [] (B "10")); [by apply D|]. constructor. by apply D. }
  split; [vm_compute; reflexivity|].
  split. { apply (next_position (am_sep ex_meta) 1 (B "1") 1 [] (B "1")); [by apply D|]. constructor. by apply D. }
  do 7 (split; [vm_compute; reflexivity|]).
  change (pieces (B "/new")) with [B "new"]. intros [|[|k]]; vm_compute; reflexivity.
Qed.
