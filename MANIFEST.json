{
 "claims": [
  {
   "property": "C01",
   "status": "proved",
   "theorems": [
    "C01_chunk_roundtrip",
    "C01_raw_lossless"
   ],
   "note": "For every codec that is lossless (premise, proved for the built-in raw compressor). Reading by value and into a caller chunk."
  },
  {
   "property": "C02",
   "status": "proved",
   "theorems": [
    "C02_raw_layout",
    "C02_encoding_unique"
   ],
   "note": "Byte groups characterised by an independent big/little-endian value specification, which determines them uniquely."
  },
  {
   "property": "C03",
   "status": "proved",
   "theorems": [
    "C03_short_rejected",
    "C03_long_enough_accepted"
   ],
   "note": "Raw compressor; both directions, and independence of trailing bytes."
  },
  {
   "property": "C04",
   "status": "proved",
   "theorems": [
    "C04_wrong_type_rejected",
    "C04_right_type_accepted"
   ],
   "note": "Acceptance is stated for codecs that do not themselves produce InvalidInput (proved for raw)."
  },
  {
   "property": "C05",
   "status": "partial",
   "theorems": [
    "C05_wrong_length_rejected_partial",
    "C05_right_length_accepted",
    "C05_wrong_length_rejected_refuted"
   ],
   "note": "Proved for buffers below 2^32 elements; refuted beyond (element count is truncated with `as u32`), witness of 2^32+1 elements for a 1-element chunk."
  },
  {
   "property": "C06",
   "status": "partial",
   "theorems": [
    "C06_rejected_write_partial",
    "C06_rejected_write_refuted"
   ],
   "note": "False as stated: a rejected write empties the chunk file first (C06_rejected_write_refuted: for every writable location the chunk is unreadable afterwards). Proved: nothing else changes."
  },
  {
   "property": "C07",
   "status": "proved",
   "theorems": [
    "C07_write_then_read"
   ],
   "note": "For every path string and file-system state. Lossless codec as premise (proved for raw)."
  },
  {
   "property": "C08",
   "status": "proved",
   "theorems": [
    "C08_write_frame"
   ],
   "note": "'..'-free paths, separators without digits, 'c' and '..' components (the default '/' and '.' qualify)."
  },
  {
   "property": "C09",
   "status": "proved",
   "theorems": [
    "C09_array_is_a_map",
    "C09_fresh_array_has_no_chunks"
   ],
   "note": "Any history; initial state without chunks and without file-system obstacles (a fresh array qualifies, C09_fresh_array_has_no_chunks). Codec premises proved for raw."
  },
  {
   "property": "C10",
   "status": "proved",
   "theorems": [
    "C10_delete_chunk",
    "C10_delete_accepted"
   ],
   "note": "'..'-free paths."
  },
  {
   "property": "C11",
   "status": "proved",
   "theorems": [
    "C11_chunk_files_distinct",
    "C11_chunk_keys_distinct",
    "C11_separator_premise_needed"
   ],
   "note": "At the level of files (any two arrays) and of key strings; counterexamples for the excluded separators."
  },
  {
   "property": "C12",
   "status": "proved",
   "theorems": [
    "C12_metadata_keys_distinct",
    "C12_metadata_vs_chunk_keys",
    "C12_entry_point_key_distinct"
   ],
   "note": "Including the entry point document."
  },
  {
   "property": "C13",
   "status": "proved",
   "theorems": [
    "C13_equivalent_paths_chunks",
    "C13_equivalent_paths_nodes",
    "C13_equivalent_paths_list"
   ],
   "note": "All operations except the textual chunk URI; list_nodes for '..'-free paths, in a metadata tree that holds documents only (C35_documents_only), and suffixes of at most 11 bytes that start with a dot."
  },
  {
   "property": "C14",
   "status": "partial",
   "theorems": [
    "C14_writes_contained_partial",
    "C14_reads_contained_partial",
    "C14_net_escape_rejected",
    "C14_contained_refuted"
   ],
   "note": "False as stated: get_path only checks the final depth, so '../../../other' escapes (witness: deletes and creates files outside). Proved for every path that never climbs above the base, and net-negative keys are rejected."
  },
  {
   "property": "C15",
   "status": "partial",
   "theorems": [
    "C15_grid_extent_partial",
    "C15_grid_extent_exact",
    "C15_in_bounds_complete",
    "C15_grid_extent_refuted",
    "C15_overflow_refuted"
   ],
   "note": "False as stated: u64_ceil_div is one too large when the chunk extent divides the extent plus one (refutation with witness). Proved: the exact value in every dimension, the full claim in the unaffected dimensions, no chunk with voxels is out of bounds."
  },
  {
   "property": "C16",
   "status": "partial",
   "theorems": [
    "C16_coord_iter_partial",
    "C16_coord_iter_created",
    "C16_rank_zero_refuted"
   ],
   "note": "Proved for arrays of at least one dimension; refuted for zero dimensions (the single chunk is not visited). Premises: the far corner of the box and the end of its part inside the array plus one chunk extent fit in u64, fewer than 2^64-1 positions."
  },
  {
   "property": "C17",
   "status": "partial",
   "theorems": [
    "C17_bounded_iter_partial",
    "C17_extra_position_refuted"
   ],
   "note": "Proved: nothing missed, nothing repeated, lexicographic order; nothing extra when box and array overlap. Refuted otherwise (witness: shape [10], chunk [4], box at 13)."
  },
  {
   "property": "C18",
   "status": "partial",
   "theorems": [
    "C18_remaining_length_partial",
    "C18_after_end_refuted"
   ],
   "note": "Proved up to the end of the iteration; refuted after the end (debug panic, restart) and for zero dimensions."
  },
  {
   "property": "C19",
   "status": "proved",
   "theorems": [
    "C19_intersect",
    "C19_union",
    "C19_is_empty",
    "C19_translate",
    "C19_translate_underflow"
   ],
   "note": "Boxes with u64 corners."
  },
  {
   "property": "C20",
   "status": "proved",
   "theorems": [
    "C20_chunk_layout"
   ],
   "note": "Chunks whose bounds fit in u64 (the conversion multiplies position and extent)."
  },
  {
   "property": "C21",
   "status": "partial",
   "theorems": [
    "C21_region_read_partial",
    "C21_overflow_debug",
    "C21_overflow_release",
    "C21_overflow_refuted",
    "C21_border_debug",
    "C21_border_release",
    "C21_border_refuted"
   ],
   "note": "Proved for arrays of at least one dimension and boxes whose corners fit in u64, including the overhang of border chunks; false for zero dimensions (C25) and for boxes whose far corner overflows u64: those never succeed in a debug build, and in a release build a successful read has the fill value everywhere, whatever is stored (both for every such box). False too, in the same two ways, for boxes whose part inside the array ends less than one chunk extent below 2^64 (C21_border theorems), even though they lie in the array. Left out: an array extent of 2^64-1, and a release build when that end plus one chunk is exactly 2^64."
  },
  {
   "property": "C22",
   "status": "partial",
   "theorems": [
    "C22_region_write_partial",
    "C22_read_back_partial",
    "C22_overflow_debug",
    "C22_overflow_refuted",
    "C22_border_debug",
    "C22_border_release",
    "C22_border_refuted"
   ],
   "note": "Proved for arrays of at least one dimension, boxes whose corners fit in u64 and '..'-free paths, with frame and read-back; false for zero dimensions (C25) and for boxes whose far corner overflows u64 (a debug build refuses all of them and changes nothing; a release build reports writes done that are not), and for boxes whose part inside the array ends less than one chunk extent below 2^64 (a debug build refuses them, a release build changes nothing and reports success). Left out as in C21."
  },
  {
   "property": "C23",
   "status": "partial",
   "theorems": [
    "C23_read_into_view_partial",
    "C23_read_into_view_refuted"
   ],
   "note": "False as stated: where a chunk is absent the view keeps its previous contents (refutation). Proved: equal to a fresh read where the chunk exists, unchanged where it is absent, whatever the chunk buffer."
  },
  {
   "property": "C24",
   "status": "partial",
   "theorems": [
    "C24_read_no_panic_partial",
    "C24_write_no_panic_partial",
    "C24_no_panic_refuted"
   ],
   "note": "False as stated (reads beyond the array, writes at an offset of the wrong rank). Proved for every box that overlaps the array, with codecs that do not panic."
  },
  {
   "property": "C25",
   "status": "partial",
   "theorems": [
    "C25_rank_zero_refuted"
   ],
   "note": "False as stated: proved that a write to a zero-dimensional array changes nothing and a read returns the fill value (the refutation is universal)."
  },
  {
   "property": "C26",
   "status": "partial",
   "theorems": [
    "C26_fill_value_partial",
    "C26_fill_in_range",
    "C26_half_refuted",
    "C26_absent_reads_fill_partial",
    "C26_new_chunk_fill_partial"
   ],
   "note": "Proved for every type but f16 with an independent IEEE round-to-nearest specification for integers; non-integer literals are a parameter. Refuted for f16 (taken as a bit pattern)."
  },
  {
   "property": "C27",
   "status": "partial",
   "theorems": [
    "C27_dtype_roundtrip_partial",
    "C27_raw_roundtrip_refuted"
   ],
   "note": "Proved for all types but raw; refuted for every raw type."
  },
  {
   "property": "C28",
   "status": "partial",
   "theorems": [
    "C28_parse_panics_exactly_refuted",
    "C28_parse_no_panic_partial"
   ],
   "note": "False as stated; exact characterisation of the panicking strings, and no panic for any string of length other than 3."
  },
  {
   "property": "C29",
   "status": "partial",
   "theorems": [
    "C29_metadata_persists_partial",
    "C29_raw_type_refuted",
    "C29_required_extension_refuted",
    "C29_deep_nesting_refuted"
   ],
   "note": "Proved for every file-system state and path string, metadata without raw data types, without required extensions and within serde_json's 127 nesting levels (a null fill value reads as none). Refuted for each of the three exclusions, universally for the first two."
  },
  {
   "property": "C30",
   "status": "partial",
   "theorems": [
    "C30_attributes_merge_partial",
    "C30_attribute_updates_partial",
    "C30_created_nodes",
    "C30_deep_attribute_refuted"
   ],
   "note": "Single updates and every sequence of updates, arrays and groups, any readable document, updates nested at most 126 levels. Refuted for deeper ones, which are accepted and make the node unreadable."
  },
  {
   "property": "C31",
   "status": "partial",
   "theorems": [
    "C31_stored_document",
    "C31_metadata_kept_refuted",
    "C31_update_preserves_rest_partial",
    "C31_array_metadata_partial"
   ],
   "note": "Updates of any nesting leave one JSON text with all other members of the document and change no other file (C31_stored_document); documents that are objects (C72 says what happens otherwise), any path string, unknown members included. That the library reads the result back is proved for updates nested at most 126 levels, and refuted beyond (as C30): the array metadata cannot be read any more."
  },
  {
   "property": "C32",
   "status": "proved",
   "theorems": [
    "C32_apart",
    "C32_creation_answers"
   ],
   "note": "Invariant over every finite history (chunk and region operations with any metadata), and the answers of the creating calls; paths without '..'."
  },
  {
   "property": "C33",
   "status": "partial",
   "theorems": [
    "C33_array_exists",
    "C33_group_is_no_array",
    "C33_existence_partial",
    "C33_existence_refuted"
   ],
   "note": "False as stated: wherever an array or group x exists, x.array.json (or x.group.json) exists too (universal refutation). Proved for every history on ordinary paths from a fresh hierarchy. array_exists: proved for all paths without '..' (C33_array_exists)."
  },
  {
   "property": "C34",
   "status": "partial",
   "theorems": [
    "C34_remove_partial",
    "C34_descendants_refuted",
    "C34_elsewhere_refuted"
   ],
   "note": "False as stated: nodes below a removed path keep existing without their chunks, and removing a/c1 deletes chunks of the array a (both universal refutations). Proved: exactly what a removal does to the node, to chunks at and below it, and to everything else."
  },
  {
   "property": "C35",
   "status": "partial",
   "theorems": [
    "C35_listing_partial",
    "C35_documents_only",
    "C35_documents_fresh",
    "C35_short_name_refuted",
    "C35_empty_group_refuted",
    "C35_listing_kept"
   ],
   "note": "False as stated: explicit children are listed with the last five characters of the name missing, names under five characters panic, and a group without entries is an error (universal refutations). Proved: the exact listing, sorted and without duplicates, for every group directory whose explicit children have long enough names; hence the claim for groups whose children are all implicit. Attribute updates and chunk and region operations leave every listing as it is."
  },
  {
   "property": "C36",
   "status": "partial",
   "theorems": [
    "C36_flat_prefix_partial",
    "C36_list_fails_refuted",
    "C36_nested_keys_refuted"
   ],
   "note": "False as stated: listing all keys never succeeds once a node below the root exists, and never contains a nested key (universal refutations). Proved for directories without subdirectories."
  },
  {
   "property": "C37",
   "status": "proved",
   "theorems": [
    "C37_required_extensions",
    "C37_entry_point_extensions",
    "C37_extensions_read_back"
   ],
   "note": "Array metadata, open and open_or_create; documents the library writes keep their extension list. semver matching is a parameter."
  },
  {
   "property": "C38",
   "status": "partial",
   "theorems": [
    "C38_existing_unchanged",
    "C38_created_opens_partial",
    "C38_created_opens_refuted",
    "C38_creation_succeeds",
    "C38_created_fresh"
   ],
   "note": "Proved for base paths without '..'. Refuted with '..': the new entry point is not truncated, so a base path through a missing directory back into an existing hierarchy destroys that hierarchy's entry point. semver matching is a parameter with the premise that '3.0' matches."
  },
  {
   "property": "C39",
   "status": "proved",
   "theorems": [
    "C39_gzip_level",
    "C39_lz4_block_size",
    "C39_parse_display",
    "C39_parse_only_names",
    "C39_lz_pure_parse_refuted"
   ],
   "note": "For the default features; the display name of LZ4 does not parse when only lz_pure is enabled (refutation)."
  },
  {
   "property": "C40",
   "status": "partial",
   "theorems": [
    "C40_roundtrip_partial",
    "C40_stored_roundtrip_partial",
    "C40_roundtrip_refuted",
    "C40_stored_roundtrip_refuted",
    "C40_empty_refuted"
   ],
   "note": "False as stated: with a frame format whose reader stops at the end of a frame, every chunk of more than 256 elements (more than one for f16) is written successfully and unreadable, and a chunk without elements makes the reader panic (universal refutations). Proved for chunks handed to the encoder in one piece. lz-fear's frame format is a parameter."
  },
  {
   "property": "C41",
   "status": "proved",
   "theorems": [
    "C41_crash_during_write",
    "C41_crash_frame",
    "C41_crash_codec",
    "C41_raw_truncation_detected",
    "C41_old_or_new_refuted"
   ],
   "note": "Crash = the process is killed between any two of its system calls (not a power loss). Old value, new value or error for uncompressed chunks, and for any codec whose decoder rejects strict prefixes; nothing else changes. The stronger claim (old or new) is refuted for every chunk."
  },
  {
   "property": "C42",
   "status": "partial",
   "theorems": [
    "C42_reported_partial",
    "C42_reported_refuted"
   ],
   "note": "False as stated: the buffer is flushed when it is dropped and errors are ignored there, so every chunk smaller than 8192 bytes is reported as written on a full disk (universal refutation). Proved: at most the last 8192 bytes are missing, a chunk that fits is complete, and a later read returns the chunk or an error."
  },
  {
   "property": "C43",
   "status": "partial",
   "theorems": [
    "C43_existing_chunk",
    "C43_created_chunk_partial",
    "C43_written_chunk_stays",
    "C43_created_chunk_refuted"
   ],
   "note": "Proved for any number of concurrent calls of the ten kinds (metadata, attributes, creations, chunks, remove, list_nodes) and every interleaving: an existing chunk that nobody deletes is only ever read whole; one created or deleted meanwhile is read whole, absent or as an error. The claim for created chunks is refuted (a reader that opens the new file before the writer locks it gets an error)."
  },
  {
   "property": "C44",
   "status": "partial",
   "theorems": [
    "C44_attribute_accesses_in_order",
    "C44_some_update_in_full",
    "C44_updates_refuted",
    "C44_updates_partial"
   ],
   "note": "False as stated (schedule in which both updates succeed and one is lost). Proved for every interleaving of any calls: updates succeed, readers and the final state see the outcome of some of the requested updates in some order, nothing else in the document changes, creations are refused, as long as nobody removes the node. Every execution is explained by an order of the moments at which calls look at the attributes and store them, compatible with real time; one update at least is there in full in the end."
  },
  {
   "property": "C45",
   "status": "partial",
   "theorems": [
    "C45_two_arrays_refuted",
    "C45_array_and_group_refuted",
    "C45_creation_partial"
   ],
   "note": "False as stated (two schedules: two arrays; an array and a group). Proved for every interleaving: what is found is one of the requested arrays, complete; successful creations leave a node of their kind."
  },
  {
   "property": "C46",
   "status": "proved",
   "theorems": [
    "C46_uri_names_chunk_file",
    "C46_uri_total"
   ],
   "note": ""
  },
  {
   "property": "C47",
   "status": "proved",
   "theorems": [
    "C47_size",
    "C47_size_all",
    "C47_equivalence",
    "C47_types_distinct"
   ],
   "note": ""
  },
  {
   "property": "C48",
   "status": "partial",
   "theorems": [
    "C48_crash_during_creation_partial",
    "C48_crash_during_creation_refuted"
   ],
   "note": "False as stated: at every fresh location there is a crash point after which it can never be opened. Proved: the later call succeeds unless the entry point file was created and is incomplete."
  },
  {
   "property": "C49",
   "status": "proved",
   "theorems": [
    "C49_crash_metadata"
   ],
   "note": "Creating arrays and groups and updating attributes, arguments as in C29-C31; other nodes are unaffected. Crash as in C41."
  },
  {
   "property": "C50",
   "status": "partial",
   "theorems": [
    "C50_usable_partial",
    "C50_usable_grid",
    "C50_usable_refuted"
   ],
   "note": "False of stored documents in general (zero chunk extent panics the bounds check, wrong rank is ignored). Proved for arrays created through the library with usable metadata, and after attribute updates."
  },
  {
   "property": "C51",
   "status": "proved",
   "theorems": [
    "C51_host_independent"
   ],
   "note": ""
  },
  {
   "property": "C52",
   "status": "proved",
   "theorems": [
    "C52_refinement"
   ],
   "note": "Refinement by simulation for every history of admissible operations (names that do not look like chunk or metadata files, metadata that C29 covers, lossless codecs)."
  },
  {
   "property": "C53",
   "status": "proved",
   "theorems": [
    "C53_region_write_frame"
   ],
   "note": "Success, error and panic; regions whose corners fit in u64 and that overlap the array."
  },
  {
   "property": "C54",
   "status": "proved",
   "theorems": [
    "C54_store",
    "C54_operations",
    "C54_open_or_create",
    "C54_boot",
    "C54_states",
    "C54_open",
    "C54_regions",
    "C54_remove",
    "C54_list_nodes"
   ],
   "note": "Links the process model used for crashes, full disks and concurrency to the sequential model of all other properties."
  },
  {
   "property": "C55",
   "status": "proved",
   "theorems": [
    "C55_no_deadlock",
    "C55_termination",
    "C55_completes",
    "C55_open_no_deadlock",
    "C55_open_completes",
    "C55_regions_no_deadlock",
    "C55_regions_complete"
   ],
   "note": "Node, attribute, chunk, region, remove and list_nodes calls, and opening and creating hierarchies. Includes a termination order on concurrent configurations."
  },
  {
   "property": "C56",
   "status": "proved",
   "theorems": [
    "C56_crash_region",
    "C56_crash_region_codec",
    "C56_crash_region_voxels",
    "C56_crash_region_frame",
    "C56_all_or_nothing_refuted",
    "C56_outside_kept_refuted"
   ],
   "note": "Crash as in C41; uncompressed chunks, and any codec whose decoder rejects strict prefixes. Two stronger claims are refuted: the region is not written all or nothing, and voxels outside it can become unreadable."
  },
  {
   "property": "C57",
   "status": "proved",
   "theorems": [
    "C57_independent_calls"
   ],
   "note": "For calls that address their files by name (all but remove and list_nodes). An ownership invariant over executions; the premises are decided for a concrete mix of five calls beside the theorem."
  },
  {
   "property": "C58",
   "status": "partial",
   "theorems": [
    "C58_disjoint_writes_partial",
    "C58_shared_chunk_refuted"
   ],
   "note": "Proved for regions that share no chunk. False as stated: regions that share a chunk but no voxel can lose one of two successful writes (schedule given)."
  },
  {
   "property": "C59",
   "status": "proved",
   "theorems": [
    "C59_voxels_written",
    "C59_snapshot_refuted"
   ],
   "note": "For calls that agree on the array's metadata and element type and a codec that can encode everything. Also shown: a region read is not a snapshot (schedule given)."
  },
  {
   "property": "C60",
   "status": "proved",
   "theorems": [
    "C60_crash_during_remove",
    "C60_remove_again"
   ],
   "note": "The chunks-below clause is for ordinary node names (SpecHier.v), as in C33. Beside the theorems: a crash point after which the array is gone but its chunks are not, so that creating it again brings them back."
  },
  {
   "property": "C61",
   "status": "partial",
   "theorems": [
    "C61_removed_node_partial",
    "C61_removed_chunks",
    "C61_deleted_chunk",
    "C61_no_node_appears",
    "C61_no_chunk_appears",
    "C61_removed_node_refuted",
    "C61_two_removes_refuted",
    "C61_remove_and_write_refuted"
   ],
   "note": "False as stated: an update of the attributes that read the document before the remove writes it again afterwards, and both calls report success (schedule given). Proved for every interleaving when no call sets the removed node's attributes; chunks, deletions and things nobody creates without that premise. Also refuted by schedules: that two concurrent removes both succeed, and that a remove succeeds while a chunk is written."
  },
  {
   "property": "C62",
   "status": "partial",
   "theorems": [
    "C62_listing_partial",
    "C62_group_stays",
    "C62_one_moment_refuted",
    "C62_short_name_refuted"
   ],
   "note": "Proved for every interleaving where the names of the group's explicit children, and of those created meanwhile, are not shorter than the metadata suffix (which must start with a dot); the names of explicit nodes appear cut, as in C35. Refuted by schedules: a node with a short name created meanwhile makes the listing panic, and the list need not be that of any one moment. Directories of the metadata tree are never removed."
  },
  {
   "property": "C63",
   "status": "partial",
   "theorems": [
    "C63_stored",
    "C63_document",
    "C63_other_keys",
    "C63_implicit_group_refuted",
    "C63_outside_refuted"
   ],
   "note": "The first clause is proved (for the key of a node it is the whole metadata document, not its attributes). The rest is false: for every implicit group the answer is 'not found' (is_file is asked where is_dir is meant), an empty object is returned for keys that name a file followed by two extensions, and for the empty key a file next to the hierarchy decides. C63_other_keys says what is returned instead. Keys with '..' are not covered."
  },
  {
   "property": "C64",
   "status": "proved",
   "theorems": [
    "C64_chunk_accesses_one_by_one"
   ],
   "note": "For writers that agree on element type and metadata (as in C43). The order is the one in which the calls lock the chunk's file. For a chunk that is created or deleted meanwhile it is false (C43_created_chunk_refuted)."
  },
  {
   "property": "C65",
   "status": "partial",
   "theorems": [
    "C65_opening_existing",
    "C65_creating_partial",
    "C65_creating_refuted"
   ],
   "note": "The first sentence is proved. The second is false: open_or_create finds the file that another has made and not yet filled and returns 'invalid data' (schedule given). Proved for every interleaving: that is the only other outcome, from the first success on the document is complete, and afterwards the hierarchy is there."
  },
  {
   "property": "C66",
   "status": "partial",
   "theorems": [
    "C66_fits",
    "C66_reported_partial",
    "C66_reported_refuted",
    "C66_create_hierarchy_refuted"
   ],
   "note": "False of the code: the documents go through a buffered writer that is flushed on drop, where errors are ignored, so success is reported for a document that does not fit; an existing array or group is then lost. Proved: what fits is stored and reported as with unlimited space; whatever happens other nodes are unaffected and this node is as before, as intended, or unreadable. Space freed by truncating the old document is not counted as room."
  },
  {
   "property": "C67",
   "status": "proved",
   "theorems": [
    "C67_json",
    "C67_utf8",
    "C67_array",
    "C67_attributes",
    "C67_entry_point",
    "C67_entry_point_missing"
   ],
   "note": "The grammar is in SpecJson.v, what a document says in SpecDoc.v. This includes the form in which serde also accepts a struct: a JSON array of its fields in order. Not modelled: that a float literal out of range is an error, and that serde skips unknown members without looking at their escapes, UTF-8 or depth."
  },
  {
   "property": "C68",
   "status": "partial",
   "theorems": [
    "C68_metadata_read",
    "C68_read_partial",
    "C68_read_refuted",
    "C68_write",
    "C68_metadata_write",
    "C68_delete_partial",
    "C68_delete_refuted",
    "C68_remove_partial",
    "C68_remove_refuted",
    "C68_create",
    "C68_open_or_create",
    "C68_visible",
    "C68_visible_create",
    "C68_visible_open_or_create",
    "C68_visible_region",
    "C68_create_refuted",
    "C68_open_or_create_refuted",
    "C68_region_refuted"
   ],
   "note": "False of the code: is_file, is_dir and exists answer 'no' when they are refused, so a chunk that may not be looked at is reported absent, deleting it or removing its node is reported done, and one refused call makes create_array or open_or_create overwrite what exists and makes a region write replace voxels outside the region by the fill value (refuted, all but the last two universally). Proved: opening and reading metadata and attributes; writing chunks, creating and updating nodes do what they report; while the same files are refused throughout nothing is overwritten; when looking at files is not refused (only opening, creating, removing and reading directories) the claim holds for every call, and a failed call leaves the files as at some point of the call without refusals; other nodes and chunks are never affected. Calls on files already open are not refused (lack of space: C42, C66)."
  },
  {
   "property": "C69",
   "status": "partial",
   "theorems": [
    "C69_filesystem",
    "C69_any_store_partial",
    "C69_string_prefix_refuted",
    "C69_untidy_refuted"
   ],
   "note": "Proved for every map-like store that erases the keys below a prefix directory-wise (k = prefix or k = prefix + '/' + ...), with all histories of C52 on paths without empty inner components. The operations over any store are the modelled ones: for the file-system store they are, definitionally, those of all other properties (C69_filesystem). False otherwise (refuted universally): the code removes the data of a node with erase_prefix of a key without trailing slash, so a store that takes the prefix as a string loses the chunks of siblings whose name continues it; and a//b and a/b are two nodes."
  },
  {
   "property": "C70",
   "status": "partial",
   "theorems": [
    "C70_list_prefix",
    "C70_list",
    "C70_list_nodes_refuted",
    "C70_list_root_refuted"
   ],
   "note": "list_prefix and list: proved for every store with a lawful list_dir. list_nodes: false of the code: over every such store it panics for every node that is not the root, and for the root with a short child name (refuted universally, for suffixes of at most 11 bytes that start with a dot): the extension suffix is cut off twice, and what is left is shorter than the prefix to be removed."
  },
  {
   "property": "C71",
   "status": "proved",
   "theorems": [
    "C71_outcome",
    "C71_failed_read",
    "C71_successful_read"
   ],
   "note": "Boxes whose corners fit in u64. The view is that of NdView.v, whose outcome is that of the call in all other properties (C71_outcome). A read that fails before the first chunk leaves the view as it was."
  },
  {
   "property": "C72",
   "status": "partial",
   "theorems": [
    "C72_same_attributes_partial",
    "C72_positional_refuted"
   ],
   "note": "Proved for documents that are JSON objects. False as stated: get_array_metadata also reads an array of the fields in order (serde's positional form); list_attributes finds no attributes in it and set_attributes refuses it (document given)."
  },
  {
   "property": "C73",
   "status": "partial",
   "theorems": [
    "C73_filesystem",
    "C73_region_read_partial",
    "C73_region_write_partial",
    "C73_read_succeeds_partial",
    "C73_write_succeeds_partial",
    "C73_read_back_partial"
   ],
   "note": "Missing, as in C21 and C22: rank-zero arrays (false there, C25) and boxes whose far corner, or whose end inside the array plus one chunk extent, overflows 64 bits. Separators whose chunk keys are distinct (C11), codecs that do not fail, element types of the array."
  },
  {
   "property": "C74",
   "status": "proved",
   "theorems": [
    "C74_no_deadlock",
    "C74_completes",
    "C74_existing_chunk",
    "C74_created_chunk",
    "C74_repair",
    "C74_existing_node",
    "C74_voxels",
    "C74_created_array",
    "C74_open_no_deadlock",
    "C74_open_completes"
   ],
   "note": "Deaths before any system call, locks released by the kernel; liveness for all calls including regions and opening or creating the hierarchy, values for single chunks, node documents (existing and newly created) and the voxels of regions. That an incomplete chunk is noticed is proved for the raw encoding (C41) and a hypothesis for compressed ones."
  },
  {
   "property": "C75",
   "status": "proved",
   "theorems": [
    "C75_update_alone_is_kept",
    "C75_updates_in_turn"
   ],
   "note": "Nodes that exist at the start. Derived from the order of looks and stores of C44; updates that overlap can be lost (C44_updates_refuted)."
  },
  {
   "property": "C76",
   "status": "proved",
   "theorems": [
    "C76_region_write_kept"
   ],
   "note": "Chunks that exist at the start and that nobody deletes; calls that agree on the array's metadata and element type and a codec that can encode everything, as in C59. Writes of one chunk that overlap in time can undo each other even if they share no voxel (C58)."
  },
  {
   "property": "C77",
   "status": "proved",
   "theorems": [
    "C77_region_read_snapshot"
   ],
   "note": "Chunks that exist at the start and that nobody deletes; calls that agree on the array's metadata and element type and a codec that can encode every chunk. The moment is the state in which the read has not begun and the earlier writes of its chunks have returned. Without the hypothesis on writes the claim is false of the code (C59_snapshot_refuted)."
  },
  {
   "property": "C78",
   "status": "proved",
   "theorems": [
    "C78_group_object",
    "C78_position_text",
    "C78_chunk_written",
    "C78_chunk_read",
    "C78_chunk_deleted",
    "C78_chunk_uri",
    "C78_array_written",
    "C78_group_written",
    "C78_entry_written"
   ],
   "note": "Paths without '..' components and a metadata suffix without slashes. What the bytes of a chunk are is C01 and C02; what the documents say is C67. Raw data types in metadata are excluded as in C29 (they do not read back)."
  },
  {
   "property": "C79",
   "status": "proved",
   "theorems": [
    "C79_one_value",
    "C79_region_read",
    "C79_read_succeeds",
    "C79_region_written"
   ],
   "note": "Paths without '..' components; written elements are values of the element type; the write is over separators that keep chunk names apart (C11). The decoder of a compressor is a parameter; for the write it is lossless (none of this concerns uncompressed arrays, C01_raw_lossless). The fill value is that of C26. Voxels of the region outside the chunk grid have no place in the files (C21 says what is read there)."
  },
  {
   "property": "C80",
   "status": "proved",
   "theorems": [
    "C80_last_write",
    "C80_last_write_from",
    "C80_chunk_read",
    "C80_other_calls",
    "C80_one_value",
    "C80_chunks_invisible"
   ],
   "note": "Lossless codecs, separators that keep chunk names apart (C11), paths without '..', written elements and fill value of the element type, chunk writes of fewer than 2^32 elements (longer ones: C05). Voxels of the region outside the array are not covered (C21)."
  },
  {
   "property": "C81",
   "status": "proved",
   "theorems": [
    "C81_elements",
    "C81_write_back",
    "C81_copy"
   ],
   "note": "Lossless codec for the array written to, separators that keep chunk names apart (C11), paths without '..', fill values of the element type (C26). When the place overlaps the region read from in the same array, the copy is still exact (the region was read first)."
  },
  {
   "property": "C82",
   "status": "partial",
   "theorems": [
    "C82_payload_rank",
    "C82_view_shape",
    "C82_into_shape",
    "C82_read_rank",
    "C82_read_ok",
    "C82_offset_rank_refuted"
   ],
   "note": "Reads, views and the values of a write are checked as claimed. The rank of a write's offset is not checked by the code: C82_offset_rank_refuted shows that every such write panics (and changes nothing). C82_read_rank assumes a usable fill value and a region that fits in memory, since the code allocates the result before it checks the rank; C82_read_ok needs neither."
  },
  {
   "property": "C83",
   "status": "proved",
   "theorems": [
    "C83_one_chunk",
    "C83_old_or_new",
    "C83_reads",
    "C83_no_change_refuted",
    "C83_other_type_refuted"
   ],
   "note": "Lossless codec, separators that keep chunk names apart (C11), paths without '..', fill value and values of the element type; C83_old_or_new also needs a codec that accepts what it is given. Two stronger claims are refuted: a write that fails may have changed voxels of the region, and a refused write of another element type loses a chunk (as C06). Failures of the disk inside one file write are C56 and C66, not this model."
  },
  {
   "property": "C84",
   "status": "partial",
   "theorems": [
    "C84_voxels_kept",
    "C84_store_kept_partial",
    "C84_store_kept_refuted"
   ],
   "note": "Voxels: proved (premises as C83_old_or_new). Files: proved when the offset along an empty axis is a multiple of the chunk extent; false otherwise (C84_store_kept_refuted: an absent chunk is stored, filled with the fill value; a damaged chunk makes the write fail)."
  }
 ]
}