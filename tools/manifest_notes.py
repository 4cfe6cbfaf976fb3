s("C01", "proved", "For every codec that is lossless (premise, proved for the built-in raw compressor). Reading by value and into a caller chunk.")
s("C02", "proved", "Byte groups characterised by an independent big/little-endian value specification, which determines them uniquely.")
s("C03", "proved", "Raw compressor; both directions, and independence of trailing bytes.")
s("C04", "proved", "Acceptance is stated for codecs that do not themselves produce InvalidInput (proved for raw).")
s("C05", "partial", "Proved for buffers below 2^32 elements; refuted beyond (element count is truncated with `as u32`), witness of 2^32+1 elements for a 1-element chunk.")
s("C15", "partial", "False as stated: u64_ceil_div is one too large when the chunk extent divides the extent plus one (refutation with witness). Proved: the exact value in every dimension, the full claim in the unaffected dimensions, no chunk with voxels is out of bounds.")
s("C19", "proved", "Boxes with u64 corners.")
s("C27", "partial", "Proved for all types but raw; refuted for every raw type.")
s("C28", "partial", "False as stated; exact characterisation of the panicking strings, and no panic for any string of length other than 3.")
s("C39", "proved", "For the default features; the display name of LZ4 does not parse when only lz_pure is enabled (refutation).")
s("C47", "proved", "")
s("C51", "proved", "")
s("C16", "partial", "Proved for arrays of at least one dimension; refuted for zero dimensions (the single chunk is not visited). Premises: the far corner of the box and the end of its part inside the array plus one chunk extent fit in u64, fewer than 2^64-1 positions.")
s("C17", "partial", "Proved: nothing missed, nothing repeated, lexicographic order; nothing extra when box and array overlap. Refuted otherwise (witness: shape [10], chunk [4], box at 13).")
s("C18", "partial", "Proved up to the end of the iteration; refuted after the end (debug panic, restart) and for zero dimensions.")
s("C06", "partial", "False as stated: a rejected write empties the chunk file first (C06_rejected_write_refuted: for every writable location the chunk is unreadable afterwards). Proved: nothing else changes.")
s("C07", "proved", "For every path string and file-system state. Lossless codec as premise (proved for raw).")
s("C08", "proved", "'..'-free paths, separators without digits, 'c' and '..' components (the default '/' and '.' qualify).")
s("C09", "proved", "Any history; initial state without chunks and without file-system obstacles (a fresh array qualifies, C09_fresh_array_has_no_chunks). Codec premises proved for raw.")
s("C10", "proved", "'..'-free paths.")
s("C11", "proved", "At the level of files (any two arrays) and of key strings; counterexamples for the excluded separators.")
s("C12", "proved", "Including the entry point document.")
s("C13", "proved", "All operations except the textual chunk URI; list_nodes for '..'-free paths, in a metadata tree that holds documents only (C35_documents_only), and suffixes of at most 11 bytes that start with a dot.")
s("C14", "partial", "False as stated: get_path only checks the final depth, so '../../../other' escapes (witness: deletes and creates files outside). Proved for every path that never climbs above the base, and net-negative keys are rejected.")
s("C46", "proved", "")
s("C20", "proved", "Chunks whose bounds fit in u64 (the conversion multiplies position and extent).")
s("C21", "partial", "Proved for arrays of at least one dimension and boxes whose corners fit in u64, including the overhang of border chunks; false for zero dimensions (C25) and for boxes whose far corner overflows u64: those never succeed in a debug build, and in a release build a successful read has the fill value everywhere, whatever is stored (both for every such box). False too, in the same two ways, for boxes whose part inside the array ends less than one chunk extent below 2^64 (C21_border theorems), even though they lie in the array. Left out: an array extent of 2^64-1, and a release build when that end plus one chunk is exactly 2^64.")
s("C22", "partial", "Proved for arrays of at least one dimension, boxes whose corners fit in u64 and '..'-free paths, with frame and read-back; false for zero dimensions (C25) and for boxes whose far corner overflows u64 (a debug build refuses all of them and changes nothing; a release build reports writes done that are not), and for boxes whose part inside the array ends less than one chunk extent below 2^64 (a debug build refuses them, a release build changes nothing and reports success). Left out as in C21.")
s("C23", "partial", "False as stated: where a chunk is absent the view keeps its previous contents (refutation). Proved: equal to a fresh read where the chunk exists, unchanged where it is absent, whatever the chunk buffer.")
s("C24", "partial", "False as stated (reads beyond the array, writes at an offset of the wrong rank). Proved for every box that overlaps the array, with codecs that do not panic.")
s("C25", "partial", "False as stated: proved that a write to a zero-dimensional array changes nothing and a read returns the fill value (the refutation is universal).")
s("C26", "partial", "Proved for every type but f16 with an independent IEEE round-to-nearest specification for integers; non-integer literals are a parameter. Refuted for f16 (taken as a bit pattern).")
s("C29", "partial", "Proved for every file-system state and path string, metadata without raw data types, without required extensions and within serde_json's 127 nesting levels (a null fill value reads as none). Refuted for each of the three exclusions, universally for the first two.")
s("C30", "partial", "Single updates and every sequence of updates, arrays and groups, any readable document, updates nested at most 126 levels. Refuted for deeper ones, which are accepted and make the node unreadable.")
s("C31", "partial", "Updates of any nesting leave one JSON text with all other members of the document and change no other file (C31_stored_document); documents that are objects (C72 says what happens otherwise), any path string, unknown members included. That the library reads the result back is proved for updates nested at most 126 levels, and refuted beyond (as C30): the array metadata cannot be read any more.")
s("C37", "proved", "Array metadata, open and open_or_create; documents the library writes keep their extension list. semver matching is a parameter.")
s("C50", "partial", "False of stored documents in general (zero chunk extent panics the bounds check, wrong rank is ignored). Proved for arrays created through the library with usable metadata, and after attribute updates.")
s("C32", "proved", "Invariant over every finite history (chunk and region operations with any metadata), and the answers of the creating calls; paths without '..'.")
s("C33", "partial", "False as stated: wherever an array or group x exists, x.array.json (or x.group.json) exists too (universal refutation). Proved for every history on ordinary paths from a fresh hierarchy. array_exists: proved for all paths without '..' (C33_array_exists).")
s("C34", "partial", "False as stated: nodes below a removed path keep existing without their chunks, and removing a/c1 deletes chunks of the array a (both universal refutations). Proved: exactly what a removal does to the node, to chunks at and below it, and to everything else.")
s("C38", "partial", "Proved for base paths without '..'. Refuted with '..': the new entry point is not truncated, so a base path through a missing directory back into an existing hierarchy destroys that hierarchy's entry point. semver matching is a parameter with the premise that '3.0' matches.")
s("C52", "proved", "Refinement by simulation for every history of admissible operations (names that do not look like chunk or metadata files, metadata that C29 covers, lossless codecs).")
s("C53", "proved", "Success, error and panic; regions whose corners fit in u64 and that overlap the array.")
s("C35", "partial", "False as stated: explicit children are listed with the last five characters of the name missing, names under five characters panic, and a group without entries is an error (universal refutations). Proved: the exact listing, sorted and without duplicates, for every group directory whose explicit children have long enough names; hence the claim for groups whose children are all implicit. Attribute updates and chunk and region operations leave every listing as it is.")
s("C36", "partial", "False as stated: listing all keys never succeeds once a node below the root exists, and never contains a nested key (universal refutations). Proved for directories without subdirectories.")
s("C41", "proved", "Crash = the process is killed between any two of its system calls (not a power loss). Old value, new value or error for uncompressed chunks, and for any codec whose decoder rejects strict prefixes; nothing else changes. The stronger claim (old or new) is refuted for every chunk.")
s("C42", "partial", "False as stated: the buffer is flushed when it is dropped and errors are ignored there, so every chunk smaller than 8192 bytes is reported as written on a full disk (universal refutation). Proved: at most the last 8192 bytes are missing, a chunk that fits is complete, and a later read returns the chunk or an error.")
s("C48", "partial", "False as stated: at every fresh location there is a crash point after which it can never be opened. Proved: the later call succeeds unless the entry point file was created and is incomplete.")
s("C49", "proved", "Creating arrays and groups and updating attributes, arguments as in C29-C31; other nodes are unaffected. Crash as in C41.")
s("C54", "proved", "Links the process model used for crashes, full disks and concurrency to the sequential model of all other properties.")
s("C43", "partial", "Proved for any number of concurrent calls of the ten kinds (metadata, attributes, creations, chunks, remove, list_nodes) and every interleaving: an existing chunk that nobody deletes is only ever read whole; one created or deleted meanwhile is read whole, absent or as an error. The claim for created chunks is refuted (a reader that opens the new file before the writer locks it gets an error).")
s("C44", "partial", "False as stated (schedule in which both updates succeed and one is lost). Proved for every interleaving of any calls: updates succeed, readers and the final state see the outcome of some of the requested updates in some order, nothing else in the document changes, creations are refused, as long as nobody removes the node. Every execution is explained by an order of the moments at which calls look at the attributes and store them, compatible with real time; one update at least is there in full in the end.")
s("C45", "partial", "False as stated (two schedules: two arrays; an array and a group). Proved for every interleaving: what is found is one of the requested arrays, complete; successful creations leave a node of their kind.")
s("C55", "proved", "Node, attribute, chunk, region, remove and list_nodes calls, and opening and creating hierarchies. Includes a termination order on concurrent configurations.")
s("C40", "partial", "False as stated: with a frame format whose reader stops at the end of a frame, every chunk of more than 256 elements (more than one for f16) is written successfully and unreadable, and a chunk without elements makes the reader panic (universal refutations). Proved for chunks handed to the encoder in one piece. lz-fear's frame format is a parameter.")
s("C56", "proved", "Crash as in C41; uncompressed chunks, and any codec whose decoder rejects strict prefixes. Two stronger claims are refuted: the region is not written all or nothing, and voxels outside it can become unreadable.")
s("C57", "proved", "For calls that address their files by name (all but remove and list_nodes). An ownership invariant over executions; the premises are decided for a concrete mix of five calls beside the theorem.")
s("C58", "partial", "Proved for regions that share no chunk. False as stated: regions that share a chunk but no voxel can lose one of two successful writes (schedule given).")
s("C59", "proved", "For calls that agree on the array's metadata and element type and a codec that can encode everything. Also shown: a region read is not a snapshot (schedule given).")
s("C60", "proved", "The chunks-below clause is for ordinary node names (SpecHier.v), as in C33. Beside the theorems: a crash point after which the array is gone but its chunks are not, so that creating it again brings them back.")
s("C61", "partial", "False as stated: an update of the attributes that read the document before the remove writes it again afterwards, and both calls report success (schedule given). Proved for every interleaving when no call sets the removed node's attributes; chunks, deletions and things nobody creates without that premise. Also refuted by schedules: that two concurrent removes both succeed, and that a remove succeeds while a chunk is written.")
s("C62", "partial", "Proved for every interleaving where the names of the group's explicit children, and of those created meanwhile, are not shorter than the metadata suffix (which must start with a dot); the names of explicit nodes appear cut, as in C35. Refuted by schedules: a node with a short name created meanwhile makes the listing panic, and the list need not be that of any one moment. Directories of the metadata tree are never removed.")
s("C63", "partial", "The first clause is proved (for the key of a node it is the whole metadata document, not its attributes). The rest is false: for every implicit group the answer is 'not found' (is_file is asked where is_dir is meant), an empty object is returned for keys that name a file followed by two extensions, and for the empty key a file next to the hierarchy decides. C63_other_keys says what is returned instead. Keys with '..' are not covered.")
s("C64", "proved", "For writers that agree on element type and metadata (as in C43). The order is the one in which the calls lock the chunk's file. For a chunk that is created or deleted meanwhile it is false (C43_created_chunk_refuted).")
s("C65", "partial", "The first sentence is proved. The second is false: open_or_create finds the file that another has made and not yet filled and returns 'invalid data' (schedule given). Proved for every interleaving: that is the only other outcome, from the first success on the document is complete, and afterwards the hierarchy is there.")
s("C66", "partial", "False of the code: the documents go through a buffered writer that is flushed on drop, where errors are ignored, so success is reported for a document that does not fit; an existing array or group is then lost. Proved: what fits is stored and reported as with unlimited space; whatever happens other nodes are unaffected and this node is as before, as intended, or unreadable. Space freed by truncating the old document is not counted as room.")
s("C67", "proved", "The grammar is in SpecJson.v, what a document says in SpecDoc.v. This includes the form in which serde also accepts a struct: a JSON array of its fields in order. Not modelled: that a float literal out of range is an error, and that serde skips unknown members without looking at their escapes, UTF-8 or depth.")
s("C68", "partial", "False of the code: is_file, is_dir and exists answer 'no' when they are refused, so a chunk that may not be looked at is reported absent, deleting it or removing its node is reported done, and one refused call makes create_array or open_or_create overwrite what exists and makes a region write replace voxels outside the region by the fill value (refuted, all but the last two universally). Proved: opening and reading metadata and attributes; writing chunks, creating and updating nodes do what they report; while the same files are refused throughout nothing is overwritten; when looking at files is not refused (only opening, creating, removing and reading directories) the claim holds for every call, and a failed call leaves the files as at some point of the call without refusals; other nodes and chunks are never affected. Calls on files already open are not refused (lack of space: C42, C66).")
s("C69", "partial", "Proved for every map-like store that erases the keys below a prefix directory-wise (k = prefix or k = prefix + '/' + ...), with all histories of C52 on paths without empty inner components. The operations over any store are the modelled ones: for the file-system store they are, definitionally, those of all other properties (C69_filesystem). False otherwise (refuted universally): the code removes the data of a node with erase_prefix of a key without trailing slash, so a store that takes the prefix as a string loses the chunks of siblings whose name continues it; and a//b and a/b are two nodes.")
s("C70", "partial", "list_prefix and list: proved for every store with a lawful list_dir. list_nodes: false of the code: over every such store it panics for every node that is not the root, and for the root with a short child name (refuted universally, for suffixes of at most 11 bytes that start with a dot): the extension suffix is cut off twice, and what is left is shorter than the prefix to be removed.")
s("C71", "proved", "Boxes whose corners fit in u64. The view is that of NdView.v, whose outcome is that of the call in all other properties (C71_outcome). A read that fails before the first chunk leaves the view as it was.")
s("C72", "partial", "Proved for documents that are JSON objects. False as stated: get_array_metadata also reads an array of the fields in order (serde's positional form); list_attributes finds no attributes in it and set_attributes refuses it (document given).")
s("C73", "partial", "Missing, as in C21 and C22: rank-zero arrays (false there, C25) and boxes whose far corner, or whose end inside the array plus one chunk extent, overflows 64 bits. Separators whose chunk keys are distinct (C11), codecs that do not fail, element types of the array.")
s("C74", "proved", "Deaths before any system call, locks released by the kernel; liveness for all calls including regions and opening or creating the hierarchy, values for single chunks, node documents (existing and newly created) and the voxels of regions. That an incomplete chunk is noticed is proved for the raw encoding (C41) and a hypothesis for compressed ones.")
s("C75", "proved", "Nodes that exist at the start. Derived from the order of looks and stores of C44; updates that overlap can be lost (C44_updates_refuted).")
s("C76", "proved", "Chunks that exist at the start and that nobody deletes; calls that agree on the array's metadata and element type and a codec that can encode everything, as in C59. Writes of one chunk that overlap in time can undo each other even if they share no voxel (C58).")
s("C77", "proved", "Chunks that exist at the start and that nobody deletes; calls that agree on the array's metadata and element type and a codec that can encode every chunk. The moment is the state in which the read has not begun and the earlier writes of its chunks have returned. Without the hypothesis on writes the claim is false of the code (C59_snapshot_refuted).")
s("C78", "proved", "Paths without '..' components and a metadata suffix without slashes. What the bytes of a chunk are is C01 and C02; what the documents say is C67. Raw data types in metadata are excluded as in C29 (they do not read back).")
s("C79", "proved", "Paths without '..' components; written elements are values of the element type; the write is over separators that keep chunk names apart (C11). The decoder of a compressor is a parameter; for the write it is lossless (none of this concerns uncompressed arrays, C01_raw_lossless). The fill value is that of C26. Voxels of the region outside the chunk grid have no place in the files (C21 says what is read there).")
s("C80", "proved", "Lossless codecs, separators that keep chunk names apart (C11), paths without '..', written elements and fill value of the element type, chunk writes of fewer than 2^32 elements (longer ones: C05). Voxels of the region outside the array are not covered (C21).")
s("C81", "proved", "Lossless codec for the array written to, separators that keep chunk names apart (C11), paths without '..', fill values of the element type (C26). When the place overlaps the region read from in the same array, the copy is still exact (the region was read first).")
s("C82", "partial", "Reads, views and the values of a write are checked as claimed. The rank of a write's offset is not checked by the code: C82_offset_rank_refuted shows that every such write panics (and changes nothing). C82_read_rank assumes a usable fill value and a region that fits in memory, since the code allocates the result before it checks the rank; C82_read_ok needs neither.")
s("C83", "proved", "Lossless codec, separators that keep chunk names apart (C11), paths without '..', fill value and values of the element type; C83_old_or_new also needs a codec that accepts what it is given. Two stronger claims are refuted: a write that fails may have changed voxels of the region, and a refused write of another element type loses a chunk (as C06). Failures of the disk inside one file write are C56 and C66, not this model.")
s("C84", "partial", "Voxels: proved (premises as C83_old_or_new). Files: proved when the offset along an empty axis is a multiple of the chunk extent; false otherwise (C84_store_kept_refuted: an absent chunk is stored, filled with the fill value; a damaged chunk makes the write fail).")
