{"id": "C01", "title": "Chunk encode/decode round trip", "statement": "Encoding a full chunk with the default chunk writer and decoding the produced bytes with the default chunk reader under the same array metadata returns exactly the elements that were written and the grid position that was asked for.", "quantifier": "every Rust element type with chunk I/O (bool, u8..u64, i8..i64, f16, f32, f64), both stored byte orders, every chunk shape of fewer than 2^32 elements, every element sequence of that length (for floats every bit pattern, NaNs included), every lossless compressor", "why_tests_cant": "the value space and chunk sizes are unbounded; tests use 6 or 125 elements and one byte order", "anchors": ["src/chunk.rs: DefaultChunkReader::read_chunk, DefaultChunkWriter::write_chunk, vec_data_chunk_impl!", "src/chunk.rs: bool, u8, f16 impls"]}
{"id": "C02", "title": "Stored byte layout of an uncompressed chunk", "statement": "The bytes an uncompressed chunk write produces are the fixed-width encodings of the elements, in order, in the byte order named by the array metadata (not the host's), with total length = number of elements * element size; the internal 256-element staging buffer is invisible.", "quantifier": "every element type, byte order, and element sequence of any length (shorter than, equal to, or any multiple or non-multiple of the staging buffer)", "why_tests_cant": "buffer-boundary behaviour has to hold for all lengths; the tests never exceed 256 elements with a known byte image", "anchors": ["src/chunk.rs: WriteableDataChunk::write_data (CHUNK=256)", "src/data_type.rs: DataType::endian, size_of"]}
{"id": "C03", "title": "Short chunks are detected, and only short chunks", "statement": "Decoding an uncompressed chunk succeeds exactly when at least (elements per chunk * element size) bytes are present; any truncated value is reported as an unexpected-end-of-file error and never as data. Bytes after the expected length do not influence the result.", "quantifier": "every byte string, element type, byte order and chunk shape", "why_tests_cant": "quantifies over every truncation point of every value", "anchors": ["src/chunk.rs: ReadableDataChunk::read_data", "src/chunk.rs: DefaultChunkReader::read_chunk"]}
{"id": "C04", "title": "Chunk I/O is type checked", "statement": "Reading or writing a chunk with an element type whose kind or width differs from the array's effective data type always fails with an invalid-input error, and with an equal kind and width (byte order aside) it never fails for type reasons.", "quantifier": "every pair of element type and array data type, byte payload and chunk", "why_tests_cant": "full cross product of types times all payloads and histories", "anchors": ["src/chunk.rs: check_array_type", "src/data_type.rs: DataType::eq_modulo_endian, ExtensibleDataType::effective_type"]}
{"id": "C05", "title": "Wrong-length chunks are rejected", "statement": "Writing a chunk whose element count differs from the product of the chunk shape fails with an invalid-data error; if the counts agree and the type matches, encoding succeeds.", "quantifier": "every chunk length and chunk shape, including counts that only agree modulo 2^32", "why_tests_cant": "32-bit truncation of the element count makes the check a modular-arithmetic question", "anchors": ["src/chunk.rs: DefaultChunkWriter::write_chunk, DataChunk::get_num_elements"]}
{"id": "C06", "title": "A rejected chunk write changes nothing", "statement": "If writing a chunk returns an error because the chunk is invalid for the array (wrong length or type), a later read of that chunk returns what it returned before the failed write.", "quantifier": "every prior store content, path, position and invalid chunk", "why_tests_cant": "needs the effect of the failing call on every prior state", "anchors": ["src/storage.rs: HierarchyWriter::write_chunk", "src/store/filesystem.rs: WriteableStore::set (set_len before the closure runs)"]}
{"id": "C07", "title": "Chunk write/read round trip through the filesystem store", "statement": "After a successful chunk write at a position, reading that position (by value or into a caller buffer of any previous content) returns exactly the written elements.", "quantifier": "every file-system state, every path string (including ones with '.', '..', repeated slashes), every array metadata and in-bounds position, every element type and payload", "why_tests_cant": "quantifies over store histories and path strings", "anchors": ["src/storage.rs: write_chunk, read_chunk, read_chunk_into", "src/store/filesystem.rs: set, get, get_path"]}
{"id": "C08", "title": "A chunk write touches only its chunk", "statement": "A chunk write changes the result of reading no other chunk of the same array, no chunk of any other array, no attribute, and no array or group metadata; in terms of files, exactly one file's content changes.", "quantifier": "every well-formed file-system state, every '..'-free path pair, every position pair, whether or not the write succeeds", "why_tests_cant": "a frame property over all other keys and states", "anchors": ["src/storage.rs: get_chunk_key, write_chunk", "src/store/filesystem.rs: set"]}
{"id": "C09", "title": "Arrays behave as a map from grid position to chunk", "statement": "Any sequence of chunk writes, deletes and reads on one array, starting from an array with no chunks, gives the same answers as a finite map from grid position to element vector.", "quantifier": "every finite history of operations over every set of positions of the array's rank", "why_tests_cant": "unbounded histories", "anchors": ["src/storage.rs: read_chunk, write_chunk, delete_chunk, get_chunk_key", "src/store/filesystem.rs: get, set, erase"]}
{"id": "C10", "title": "Deleting a chunk", "statement": "A chunk delete that succeeds returns true, afterwards the chunk reads as absent, deleting again also returns true, and no other chunk or metadata changes.", "quantifier": "every well-formed file-system state, path and position", "why_tests_cant": "postcondition and frame over all states", "anchors": ["src/storage.rs: delete_chunk", "src/store/filesystem.rs: erase"]}
{"id": "C11", "title": "Chunk keys are unambiguous", "statement": "Two chunk addresses (array path, grid position) map to the same storage key only if the canonical paths and the positions are equal, for every separator that contains no digit-initial or 'c' ambiguity (in particular '/' and '.').", "quantifier": "every pair of paths, every pair of positions of any ranks, every admissible separator", "why_tests_cant": "injectivity over infinite domains", "anchors": ["src/storage.rs: get_chunk_key", "src/lib.rs: canonicalize_path"]}
{"id": "C12", "title": "Metadata keys are unambiguous", "statement": "Array metadata keys, group metadata keys and chunk keys of any nodes are pairwise different files, and different node paths get different array (group) metadata keys.", "quantifier": "every pair of '..'-free node paths (file names with any number of dots, leading dots and trailing dots included), every metadata suffix without a slash", "why_tests_cant": "extension handling of arbitrary dotted names is a property of all strings", "anchors": ["src/lib.rs: add_extension, Hierarchy::array_metadata_key, group_metadata_key, data_path_key"]}
{"id": "C13", "title": "Slash-equivalent paths name the same node", "statement": "Paths that differ only in leading, trailing or repeated slashes (or '.' components) address the same node and the same chunks in every operation.", "quantifier": "every pair of equivalent path strings", "why_tests_cant": "all strings; the tests check three spellings of one path", "anchors": ["src/lib.rs: canonicalize_path, array_metadata_key", "src/store/filesystem.rs: get_path"]}
{"id": "C14", "title": "Operations stay inside the hierarchy's base directory", "statement": "No operation, given any path argument, reads, creates, modifies or removes a file outside the base directory of the hierarchy.", "quantifier": "every path string, every file-system state", "why_tests_cant": "quantifies over all attacker-chosen path strings", "anchors": ["src/store/filesystem.rs: get_path (nest counter)"]}
{"id": "C15", "title": "Grid extent and chunk count", "statement": "The reported grid extent is, per dimension, the number of chunks needed to cover the array (ceiling division), the number of chunks is its product, and a position is in bounds exactly when each coordinate is below it.", "quantifier": "every array shape and chunk shape", "why_tests_cant": "an arithmetic identity over all 64-bit shapes", "anchors": ["src/lib.rs: u64_ceil_div, get_grid_extent, get_num_chunks, in_bounds"]}
{"id": "C16", "title": "Full coordinate iteration", "statement": "Iterating the coordinates of an array yields every chunk position that intersects the array exactly once, and no other position, in lexicographic order.", "quantifier": "every shape and non-zero chunk shape of every rank", "why_tests_cant": "all ranks and sizes", "anchors": ["src/ndarray.rs: ArrayMetadata::coord_iter, CoordIterator::new"]}
{"id": "C17", "title": "Bounded coordinate iteration", "statement": "Iterating the coordinates for a bounding box yields exactly the positions of chunks that share at least one voxel with both the box and the array, each once.", "quantifier": "every shape, chunk shape and bounding box", "why_tests_cant": "boundary arithmetic for all sizes, including boxes outside the array", "anchors": ["src/ndarray.rs: bounded_coord_iter, CoordIterator::floor_ceil"]}
{"id": "C18", "title": "Coordinate iterators report their exact remaining length", "statement": "At every point of an iteration the reported remaining length equals the number of items the iterator will still yield, and asking for it never panics.", "quantifier": "every shape, chunk shape, bounding box, and every number of calls to next", "why_tests_cant": "all prefixes of all iterations", "anchors": ["src/ndarray.rs: CoordIterator::{new,floor_ceil,next,size_hint}"]}
{"id": "C19", "title": "Bounding box algebra", "statement": "Intersecting two boxes yields the box of exactly the common points (empty when there are none); the union is the least box containing both non-empty operands; subtracting an origin translates; emptiness means containing no point.", "quantifier": "every pair of boxes of equal rank whose ends fit in 64 bits", "why_tests_cant": "all coordinates and ranks", "anchors": ["src/ndarray.rs: BoundingBox::{intersect,union,end,is_empty}, Sub<&GridCoord>"]}
{"id": "C20", "title": "Chunk memory layout", "statement": "Viewing a chunk as an n-dimensional array places the k-th stored element at the index with C (row-major) or F (column-major) rank k according to the metadata; this is a bijection between indices and stored elements, and flattening the view restores the stored order.", "quantifier": "every rank, chunk shape, element vector and both layouts", "why_tests_cant": "a bijection over all shapes", "anchors": ["src/ndarray.rs: as_ndarray, into_ndarray, shape_ndarray_shape, extend_from_array"]}
{"id": "C21", "title": "Region reads return the array's voxels", "statement": "A successful region read returns an array of the box's shape whose element at i is the stored voxel at (offset + i): the chunk element at the corresponding in-chunk index if the chunk exists, else the fill value.", "quantifier": "every file-system state, metadata, layout, box, element type", "why_tests_cant": "stitching of arbitrarily many chunks for all box alignments", "anchors": ["src/ndarray.rs: read_ndarray, read_ndarray_into_with_buffer"]}
{"id": "C22", "title": "Region writes update exactly the region", "statement": "After a successful region write, every voxel of the array's grid inside the written box equals the written element and every other voxel is unchanged; consequently reading back the written box (inside the array) returns the written array.", "quantifier": "every prior file-system state, metadata, layout, offset, shape and payload, for aligned, partial, overhanging and missing chunks", "why_tests_cant": "read-modify-write of boundary chunks for all alignments and prior contents", "anchors": ["src/ndarray.rs: write_ndarray"]}
{"id": "C23", "title": "Reading into an existing view overwrites the whole view", "statement": "Reading a region into a caller-supplied view produces the same contents as a fresh region read, whatever the view contained before.", "quantifier": "every previous view content and store state", "why_tests_cant": "quantifies over stale contents", "anchors": ["src/ndarray.rs: read_ndarray_into, read_ndarray_into_with_buffer (is_chunk false -> continue)"]}
{"id": "C24", "title": "Region reads and writes never panic", "statement": "For every box of the right rank, region reads and writes return a result (value or error) rather than panicking.", "quantifier": "every box, including boxes partly or entirely outside the array and empty boxes", "why_tests_cant": "all boxes", "anchors": ["src/ndarray.rs: bounded_coord_iter", "src/storage.rs: read_chunk assert!(in_bounds)"]}
{"id": "C25", "title": "Zero-dimensional arrays", "statement": "A region write followed by a region read on a zero-dimensional array returns the written scalar.", "quantifier": "every zero-dimensional array and scalar", "why_tests_cant": "no test covers rank 0 region I/O; must hold for all states", "anchors": ["src/ndarray.rs: CoordIterator::floor_ceil (multi_cartesian_product of no factors)"]}
{"id": "C26", "title": "Fill value", "statement": "The effective fill value is the metadata's fill value converted to the element type, or the type's zero when none is set; it fails when the JSON value does not denote a value of the type. Region reads use it for every voxel of every absent chunk and region writes for the unwritten part of a new chunk.", "quantifier": "every JSON fill value and element type, every state", "why_tests_cant": "all JSON values and all states", "anchors": ["src/lib.rs: get_effective_fill_value", "src/ndarray.rs: read_ndarray, write_ndarray"]}
{"id": "C27", "title": "Data type strings round trip", "statement": "Serializing a data type and parsing the string gives back an equivalent data type (equal up to byte order for single-byte types).", "quantifier": "every data type, including raw types of every width", "why_tests_cant": "raw widths are unbounded", "anchors": ["src/data_type.rs: Serialize for DataType, DataTypeVisitor::visit_str"]}
{"id": "C28", "title": "Parsing a data type string never panics", "statement": "Parsing any string as a data type returns a data type or an error.", "quantifier": "every string", "why_tests_cant": "all strings", "anchors": ["src/data_type.rs: DataTypeVisitor::visit_str (expect/unwrap)"]}
{"id": "C29", "title": "Array metadata persists", "statement": "After creating an array with some metadata, reading the array's metadata returns equal metadata (data type up to byte order of single-byte types).", "quantifier": "every file-system state in which creation succeeds, every path, every metadata value", "why_tests_cant": "all metadata values and states", "anchors": ["src/storage.rs: create_array, get_array_metadata", "src/lib.rs: ArrayMetadata serde derives", "src/compression/mod.rs: CompressionType serde"]}
{"id": "C30", "title": "Attribute updates merge at top level", "statement": "After setting a map of attributes on an existing node, listing its attributes returns the previous attributes overridden, key by key, by the new ones; keys not mentioned keep their value; nested objects are replaced, not merged.", "quantifier": "every previous attribute map, every update (hence by induction every sequence of updates), groups and arrays", "why_tests_cant": "all maps and histories", "anchors": ["src/storage.rs: set_attributes, list_attributes, merge_top_level"]}
{"id": "C31", "title": "Attribute updates preserve the rest of the metadata document", "statement": "Setting attributes leaves every other member of the node's metadata document (known or unknown to the library) and every other file unchanged; in particular the array metadata read back differs only in its attributes.", "quantifier": "every metadata document and update", "why_tests_cant": "all documents, including foreign members", "anchors": ["src/storage.rs: set_attributes"]}
{"id": "C32", "title": "A path is never both array and group", "statement": "Starting from a hierarchy where no path is both an explicit array and an explicit group, no sequence of operations makes a path both; creating an array fails on an existing node, creating a group fails on an array and is idempotent on a group.", "quantifier": "every finite sequence of create/remove/attribute/chunk/region operations on paths without '..'", "why_tests_cant": "invariant over unbounded histories", "anchors": ["src/storage.rs: create_group, create_array, remove"]}
{"id": "C33", "title": "Node existence", "statement": "exists(path) holds exactly when an array or group was created at the path (and not removed). array_exists(path) holds exactly when the metadata of an array at the path can be read.", "quantifier": "every state reachable by API operations, every path", "why_tests_cant": "all histories and paths", "anchors": ["src/storage.rs: HierarchyReader::exists (third disjunct)"]}
{"id": "C34", "title": "Removing a node removes everything beneath it", "statement": "After removing a path, neither the node nor any descendant exists and no chunk of them can be read; nodes elsewhere are untouched.", "quantifier": "every reachable state and path", "why_tests_cant": "all trees", "anchors": ["src/storage.rs: remove", "src/store/filesystem.rs: erase, erase_prefix"]}
{"id": "C35", "title": "Listing a group's nodes", "statement": "Listing a group returns exactly the names of its child nodes (explicit or implicit), each once, sorted.", "quantifier": "every tree and group", "why_tests_cant": "all names and trees", "anchors": ["src/storage.rs: list_nodes (suffix_len counts the metadata suffix twice)"]}
{"id": "C36", "title": "Listing all keys", "statement": "Listing the keys under a prefix returns exactly the stored keys with that prefix.", "quantifier": "every tree and prefix", "why_tests_cant": "all trees", "anchors": ["src/storage.rs: ListableStore::list, list_prefix", "src/store/filesystem.rs: list_dir"]}
{"id": "C37", "title": "Unknown required extensions are rejected", "statement": "Reading array metadata or opening a hierarchy fails if and only if (the document being otherwise valid) some listed extension is marked as must-be-understood.", "quantifier": "every list of extensions", "why_tests_cant": "all lists", "anchors": ["src/storage.rs: get_array_metadata", "src/store/filesystem.rs: read_entry_point_metadata"]}
{"id": "C38", "title": "Opening and creating a hierarchy", "statement": "open_or_create on a location without a hierarchy creates one that open accepts with the default entry point; on an existing one it changes nothing; open never changes anything.", "quantifier": "every file-system state", "why_tests_cant": "all prior states", "anchors": ["src/store/filesystem.rs: open, open_or_create, read_entry_point_metadata"]}
{"id": "C39", "title": "Compressor configuration", "statement": "The effective gzip level is the configured one when it is in 0..9 and the library default otherwise; the effective LZ4 block size is the smallest supported size not below the configured one (the largest if none); parsing the display name of a compressor, in any letter case, yields that compressor with default settings.", "quantifier": "every 32-bit configuration value, every string", "why_tests_cant": "all configuration values", "anchors": ["src/compression/gzip.rs: get_effective_level", "src/compression/lz.rs: get_effective_block_size", "src/compression/mod.rs: Display, FromStr"]}
{"id": "C40", "title": "The pure-Rust LZ4 backend round trips chunks", "statement": "With the lz_pure feature, decoding an encoded chunk returns the written elements.", "quantifier": "every chunk size", "why_tests_cant": "one frame is emitted per 256-element buffer; the bundled test stays below 256 elements", "anchors": ["src/compression/lz_pure.rs: Wrapper::write", "src/chunk.rs: write_data (CHUNK=256)"]}
{"id": "C41", "title": "Crash during a chunk write", "statement": "If the process stops at any point during a chunk write (uncompressed), a later read of that chunk returns the old value, the new value, or an error, and never a mixture; all other chunks are unaffected. (Stronger claim: the old value or the new value.)", "quantifier": "every crash point, every old and new value, every flush split", "why_tests_cant": "all crash points", "anchors": ["src/store/filesystem.rs: set", "src/chunk.rs: write_data"]}
{"id": "C42", "title": "A reported chunk write is on disk", "statement": "If a chunk write returns success, all of its bytes were accepted by the file system.", "quantifier": "every payload and every point at which the file system starts rejecting writes", "why_tests_cant": "all fault points", "anchors": ["src/store/filesystem.rs: set (BufWriter dropped without flush)", "src/chunk.rs: write_chunk"]}
{"id": "C43", "title": "Concurrent readers see whole values", "statement": "When any number of readers and writers access the same existing chunk concurrently, every read returns the complete value of the initial state or of some writer, never a torn value. For a chunk being created concurrently a read returns absence or a complete value.", "quantifier": "every number of threads and every interleaving of the system calls", "why_tests_cant": "all schedules", "anchors": ["src/store/filesystem.rs: get, set, erase (lock_shared / lock_exclusive)"]}
{"id": "C44", "title": "Concurrent attribute updates are not lost", "statement": "Two concurrent attribute updates on the same node that set different keys both take effect.", "quantifier": "every interleaving", "why_tests_cant": "all schedules", "anchors": ["src/storage.rs: set_attributes (TODO: race condition)"]}
{"id": "C45", "title": "Concurrent creation has one winner", "statement": "Of two concurrent creations (array/array or array/group) at the same path at most one succeeds in creating a node, and the path does not end up both array and group.", "quantifier": "every interleaving", "why_tests_cant": "all schedules", "anchors": ["src/storage.rs: create_array, create_group (exists then set)"]}
{"id": "C46", "title": "Chunk URI names the chunk's file", "statement": "The chunk URI is 'file://' followed by the path of the file that a chunk write at that position creates and a chunk read at that position reads.", "quantifier": "every path and position", "why_tests_cant": "all paths", "anchors": ["src/storage.rs: get_chunk_uri", "src/store/filesystem.rs: uri"]}
{"id": "C47", "title": "Data type size and equivalence", "statement": "The size of a data type is the number of bytes each element occupies in a stored chunk, and type equivalence modulo byte order is an equivalence relation that determines the size.", "quantifier": "every data type and element type", "why_tests_cant": "raw widths are unbounded", "anchors": ["src/data_type.rs: size_of, eq_modulo_endian, reflected_type!"]}
{"id": "C48", "title": "Crash while creating a hierarchy", "statement": "If the process stops at any point during open_or_create on a fresh location, a later open_or_create succeeds.", "quantifier": "every crash point", "why_tests_cant": "all crash points", "anchors": ["src/store/filesystem.rs: open_or_create"]}
{"id": "C49", "title": "Crash during a metadata write", "statement": "If the process stops at any point while writing a metadata document, a later read returns the old document, the new document, or an error, never a different document.", "quantifier": "every crash point, document, and update", "why_tests_cant": "all crash points", "anchors": ["src/store/filesystem.rs: set", "src/storage.rs: set_attributes, create_array"]}
{"id": "C50", "title": "Metadata returned by the library is usable", "statement": "Array metadata obtained from the library has a chunk shape of the array's rank with non-zero extents, so grid computations on it do not panic.", "quantifier": "every stored document", "why_tests_cant": "all documents", "anchors": ["src/lib.rs: ArrayMetadata (derived Deserialize), ArrayMetadata::new"]}
{"id": "C51", "title": "Stored chunks are independent of the host", "statement": "The bytes a chunk write produces and the elements a chunk read returns do not depend on the byte order of the machine that runs the library.", "quantifier": "every metadata, element type, chunk, byte string and both host byte orders", "why_tests_cant": "tests run on one machine", "anchors": ["src/data_type.rs: NATIVE_ENDIAN, DataType::endian, ReflectedType::ZARR_TYPE", "src/chunk.rs: check_array_type, write_data, read_data"]}
{"id": "C52", "title": "The library behaves like an abstract hierarchy", "statement": "Every answer of every history of node, attribute and chunk operations on a fresh hierarchy is the answer of a simple map from paths to nodes and from (path, position) to chunk contents.", "quantifier": "every finite history of create_array, create_group, set_attributes, remove, exists, get_array_metadata, list_attributes, write_chunk, delete_chunk and read_chunk with admissible arguments, every base path and initial file system", "why_tests_cant": "unbounded histories, interference between any two operations", "anchors": ["src/storage.rs: HierarchyReader, HierarchyWriter", "src/store/filesystem.rs"]}
{"id": "C53", "title": "A region write touches only the chunks of its region", "statement": "A region write, whether it succeeds, fails or panics, changes no file other than those of chunks that share an element with the region and the array, and removes no directory.", "quantifier": "every file-system state, metadata, codec, region that overlaps the array, and payload", "why_tests_cant": "all failure points inside the read-modify-write loop", "anchors": ["src/ndarray.rs: write_ndarray", "src/storage.rs: write_chunk"]}
{"id": "C54", "title": "Split reads and writes do not change results", "statement": "When a call runs without concurrent calls and the disk does not fill up, its result and its effect on the file system do not depend on how many bytes the operating system transfers per read or write, nor on how the data is cut into buffered writes: they are those of the call performed as one step.", "quantifier": "every file-system state, every call, every sequence of short reads and short writes", "why_tests_cant": "tests see only the transfer sizes the test machine happens to use", "anchors": ["src/store/filesystem.rs: get, set, erase, open_or_create", "src/storage.rs", "std::io::BufWriter"]}
{"id": "C55", "title": "Concurrent calls finish", "statement": "However the system calls of concurrent calls are scheduled, no set of calls ever waits for itself: as long as some call has not returned, one of them can proceed, and after finitely many steps all have returned.", "quantifier": "every number of concurrent calls of every kind, on the same or on different nodes and chunks, every interleaving, with and without a full disk", "why_tests_cant": "all schedules", "anchors": ["src/store/filesystem.rs: get, set, erase (lock_shared / lock_exclusive)", "src/storage.rs"]}
{"id": "C56", "title": "A crash during a region write damages at most one chunk", "statement": "If the process is killed at any point during a region write, then afterwards every chunk of the array but one reads as before the call or as after the completed call; the remaining one does so too or gives an error, but never other data. New values appear only inside the region, and no other file changes.", "quantifier": "every file-system state, metadata, region, payload and crash point", "why_tests_cant": "crash points inside the read-modify-write loop, between and within chunk writes", "anchors": ["src/ndarray.rs: write_ndarray", "src/storage.rs: write_chunk", "src/store/filesystem.rs: set"]}
{"id": "C57", "title": "Calls that use different files do not affect each other", "statement": "When several calls of any kind run at the same time, and no call changes a file that another one looks at or changes, then however their system calls are interleaved each call returns what it returns alone and leaves its files as it does alone, and all other files are unchanged.", "quantifier": "every number of concurrent node, attribute, chunk and region calls whose files are disjoint, every file-system state and interleaving", "why_tests_cant": "all schedules of all combinations of calls", "anchors": ["src/store/filesystem.rs: get, set, erase, exists", "src/storage.rs", "src/ndarray.rs: read_ndarray, write_ndarray"]}
{"id": "C58", "title": "Concurrent writes of regions that do not overlap", "statement": "When several writes of regions of one array that have no voxel in common run at the same time and all succeed, every voxel of a region has the value written there and all other voxels of the array keep theirs.", "quantifier": "every number of regions, every payload, array, codec, state and interleaving", "why_tests_cant": "all schedules", "anchors": ["src/ndarray.rs: write_ndarray", "src/storage.rs: write_chunk", "src/store/filesystem.rs: get, set"]}
{"id": "C59", "title": "Concurrent reads and writes of voxels", "statement": "While region reads, region writes, chunk reads, chunk writes and chunk deletions of one array run at the same time, a voxel read by any of them, or after all have returned, has the value it had at the start or a value some call gives it; values are never torn or invented, and a readable voxel stays readable.", "quantifier": "every number and mix of calls, every array, region, payload, lossless codec, state and interleaving of the calls' system calls", "why_tests_cant": "all schedules", "anchors": ["src/ndarray.rs: read_ndarray, read_ndarray_into, write_ndarray", "src/storage.rs: read_chunk, write_chunk, delete_chunk", "src/store/filesystem.rs: get, set, erase"]}
{"id": "C60", "title": "A crash during remove", "statement": "If the process is killed at any point while it removes a node, afterwards every other node's metadata and attributes are as before; the removed node's metadata is as before or absent; every chunk is as before or absent, and absent ones belong to the node or to nodes below it; as long as the node can be found no chunk is lost. Calling remove again leaves exactly what an uninterrupted remove leaves.", "quantifier": "every file-system state, node path, order of directory entries and crash point", "why_tests_cant": "all crash points inside the removal of a tree of any shape, with directory entries in any order", "anchors": ["src/storage.rs: remove", "src/store/filesystem.rs: erase, erase_prefix"]}
{"id": "C61", "title": "What was removed stays removed", "statement": "While other calls run: once remove has reported success, the node is not found and its chunks and those of the nodes below it read as absent, until another call creates the node or writes the chunk; the same for a deleted chunk. A node that no call creates and a chunk that no call writes do not appear.", "quantifier": "every number of concurrent calls of any kind, every interleaving of their system calls, every time after the remove or delete returned", "why_tests_cant": "all interleavings of a tree removal with any other calls; a test sees a few schedules", "anchors": ["src/storage.rs: remove, delete_chunk, set_attributes, create_group, create_array", "src/store/filesystem.rs: set, erase, erase_prefix"]}
{"id": "C62", "title": "Listing while other calls run", "statement": "list_nodes of a group, while any other calls run, succeeds and returns sorted names: every child that is there all the time is in the list, and every name in the list is that of a child that was there before or that one of the calls creates (or has something created below it).", "quantifier": "every number of concurrent calls of any kind, every interleaving of their system calls, every order in which the directory is enumerated", "why_tests_cant": "all interleavings of the directory read and of one metadata query per entry with creations and removals; a test sees a few schedules", "anchors": ["src/storage.rs: list_nodes, create_group, create_array, remove", "src/store/filesystem.rs: list_dir"]}
{"id": "C63", "title": "Attributes by store key", "statement": "FilesystemHierarchy::get_attributes(key) returns the JSON value stored under the key, an empty object for the key of an implicit group, and 'not found' for every other key; the answer depends only on files of the hierarchy.", "quantifier": "every hierarchy, file system state and key", "why_tests_cant": "keys and names with any number of dots, any state of the tree; the crate has no test of this public method", "anchors": ["src/store/filesystem.rs: FilesystemHierarchy::get_attributes, FilesystemHierarchy::get_path"]}
{"id": "C64", "title": "Reads and writes of a chunk take effect one at a time", "statement": "While any calls run, the reads and writes of a chunk that exists and that nobody deletes are linearizable: they can be put in an order that respects real time (a call that returned before another began comes first) in which every read returns what the last write before it wrote, or the initial value; a read after all calls have returned gives what the last write in the order wrote.", "quantifier": "every number of concurrent calls of any kind, every schedule of their system calls", "why_tests_cant": "all interleavings of the system calls of any number of readers and writers; a test sees a few schedules and cannot search for an order", "anchors": ["src/storage.rs: read_chunk, write_chunk", "src/store/filesystem.rs: get, set"]}
{"id": "C65", "title": "Opening and creating a hierarchy at the same time", "statement": "Any number of processes may call open and open_or_create on the same path while others use the hierarchy. If it exists, each of them gets it, and its entry point is not changed. If it does not exist, each open_or_create succeeds with the new hierarchy, and afterwards it is there.", "quantifier": "every number of concurrent calls of any kind, every interleaving of their system calls", "why_tests_cant": "all interleavings of creating the directory, the file and its content with other processes that read it; a test sees a few schedules", "anchors": ["src/store/filesystem.rs: FilesystemHierarchy::open, open_or_create, read_entry_point_metadata"]}
{"id": "C66", "title": "Metadata and entry points on a full disk", "statement": "When create_array, create_group, set_attributes or open_or_create reports success, the document it wrote is complete and is read back, also if the disk filled up meanwhile; otherwise the call reports an error. Other nodes are not affected.", "quantifier": "every file-system state, path, document, cutting of the data into system calls and amount of space left", "why_tests_cant": "the amount of space left at the call and the cutting into system calls are unbounded; a test does not fill the disk", "anchors": ["src/store/filesystem.rs: FilesystemHierarchy::set, open_or_create, read_entry_point_metadata", "src/storage.rs: create_array, create_group, set_attributes"]}
{"id": "C67", "title": "Documents are read as what they say, whoever wrote them", "statement": "A text is accepted as JSON if and only if it is one by RFC 8259 (up to the parser's nesting limit). get_array_metadata, list_attributes and open return what the document says, in whatever order, spacing and escapes it is written, with unknown members ignored and missing optional ones defaulted; a document that does not say it, or is missing, is refused with an error (C28 says which data type names panic instead). A hierarchy of an unsupported version, or one that needs an extension, is refused, by open and by open_or_create, and left unchanged.", "quantifier": "every text, document, path, file-system state and version matcher", "why_tests_cant": "the documents other programs write are infinitely many; tests use a few, mostly the library's own output", "anchors": ["src/lib.rs: ArrayMetadata, ChunkGridMetadata, ExtensionMetadata, EntryPointMetadata", "src/data_type.rs: DataType, ExtensibleDataType", "src/compression/mod.rs: CompressionType", "src/storage.rs: get_array_metadata, list_attributes, get_version", "src/store/filesystem.rs: open, open_or_create, read_entry_point_metadata"]}
{"id": "C68", "title": "Failures of the file system are not mistaken for absence", "statement": "When the operating system refuses to look at, open, create or remove a file (permissions, I/O errors), the call reports an error: it does not take existing data for absent, report a deletion or removal that did not happen, or overwrite what exists. Whatever is refused, a call that reports success has done what it says, one that reports an error has left every file as it was, and other nodes and chunks are unaffected.", "quantifier": "every file-system state, call, path, position and choice of the system calls that are refused", "why_tests_cant": "which of a call's system calls fails, and in what state, is not under a test's control, and there are unboundedly many of them", "anchors": ["src/store/filesystem.rs: FilesystemHierarchy::exists, get, set, erase, erase_prefix, open, open_or_create", "src/storage.rs: get_array_metadata, list_attributes, create_array, create_group, set_attributes, remove, read_chunk, write_chunk, delete_chunk"]}
{"id": "C69", "title": "The hierarchy behaves the same over every store", "statement": "The hierarchy operations (create, exists, metadata, attributes, read, write and delete chunks, remove) are defined once for every type implementing the store traits. Over any store that keeps a map from keys to values, as the traits document, each operation of any history answers as the same abstract hierarchy that describes the file system backend; in particular removing a node affects nothing but the node and what is below it.", "quantifier": "every store type whose methods behave like those of a map, every extension suffix, codec, and history of operations of any length", "why_tests_cant": "a test suite has one backend; the claim is about all implementations of the traits, including those users write", "anchors": ["src/storage.rs: ReadableStore, WriteableStore, impl HierarchyReader for S, impl HierarchyWriter for S", "src/store.rs: ReadableStore::exists, get, uri; WriteableStore::set, erase, erase_prefix"]}
{"id": "C70", "title": "Listing works over every store", "statement": "Over any store whose list_dir returns the keys and common prefixes below a prefix (up to the next '/'), list_prefix terminates and returns exactly the keys with that prefix, each once; list returns every key of the hierarchy; list_nodes returns the children of a node.", "quantifier": "every store type with a conforming list_dir, every set of keys and every prefix or node", "why_tests_cant": "depth and breadth of the key tree are unbounded, and the backend is arbitrary", "anchors": ["src/store.rs: ListableStore::list, list_prefix, list_dir", "src/storage.rs: HierarchyLister::list_nodes"]}
{"id": "C71", "title": "A failed region read leaves only old or stored values in the view", "statement": "When read_ndarray_into or read_ndarray_into_with_buffer fails (or panics), every voxel of the caller's view holds its previous value or the value stored for it, never a mixture or a value of another voxel: the chunks are read in lexicographic order, those before the failing one have been copied, the others not.", "quantifier": "every file-system state, array, region, view, buffer and failing chunk", "why_tests_cant": "the failure can hit any chunk of any region; a test checks the error, not the view it leaves behind", "anchors": ["src/ndarray.rs: ZarrNdarrayReader::read_ndarray_into, read_ndarray_into_with_buffer"]}
{"id": "C72", "title": "get_array_metadata and list_attributes agree on the attributes", "statement": "For every array whose metadata can be read, whoever wrote its document, list_attributes lists the attributes that are in the metadata.", "quantifier": "every file-system state, hierarchy, path and array document", "why_tests_cant": "the two calls decode the document by different types; a test uses documents the library wrote", "anchors": ["src/storage.rs: get_array_metadata, list_attributes", "src/lib.rs: ArrayMetadata"]}
{"id": "C73", "title": "Regions over every store", "statement": "Over any store that reads and writes by exact key, read_ndarray returns the voxels of the box; write_ndarray succeeds if the box overlaps the array and the stored chunks can be read, changes exactly the voxels of the box and no key that is not a chunk of the array; what was written is read back.", "quantifier": "every store type with these methods, every state, path, array metadata, box and element type", "why_tests_cant": "the store is a parameter of the library; tests use the file-system backend, and region shapes are unbounded", "anchors": ["src/ndarray.rs: ZarrNdarrayReader, ZarrNdarrayWriter", "src/storage.rs: read_chunk, read_chunk_into, write_chunk"]}
{"id": "C74", "title": "A process that dies does not block or mislead the others", "statement": "When some of the processes using a hierarchy are killed at any point of their calls, the others never wait for ever: every remaining call returns. A read of a chunk that exists and that nobody deletes returns the old value or one that some call writes, whole, or reports an error, the latter only if a process that was writing this chunk is among the dead; the writes of the surviving processes succeed. A process that comes later can write the chunk and read it back. Likewise for the metadata of a node that nobody removes: reads and updates report an error only if a process that was updating this node is among the dead, otherwise the attributes read combine those before with updates of the calls, and nothing but the attributes changes; creating the node again never repairs or replaces it. When arrays are created at a place meanwhile, the metadata read is that of one of them, and it stays unreadable only if a process creating or updating it is among the dead. Reads of regions that succeed show for every voxel its old value or one that some call gives it, even if region writes die half-way.", "quantifier": "every number and kind of concurrent calls, every schedule of their system calls, every set of processes that die and every point at which they do", "why_tests_cant": "deaths multiply the schedules: a test can kill one process at one point under one schedule", "anchors": ["src/store/filesystem.rs: get, set, erase, erase_prefix", "src/storage.rs: read_chunk, write_chunk, delete_chunk, set_attributes, list_attributes, get_array_metadata, create_array, create_group", "src/ndarray.rs: read_ndarray, write_ndarray"]}
{"id": "C75", "title": "Attribute updates that do not overlap are kept", "statement": "When several processes use a node that nobody removes, an attribute update that no other update of the node overlaps in time is not lost: the value it gives to a key is there in the end, and for every list_attributes that begins after it has returned, unless a later update sets the key. If no two updates overlap, the attributes in the end are those of all updates applied one after the other, and every list_attributes sees the outcome of the first few of them.", "quantifier": "every number and kind of concurrent calls, every schedule of their system calls", "why_tests_cant": "all schedules: readers and other calls overlap the updates in every possible way", "anchors": ["src/storage.rs: set_attributes, list_attributes", "src/store/filesystem.rs: get, set"]}
{"id": "C76", "title": "Region writes that do not overlap in time are kept", "statement": "When several processes read and write regions and chunks of an array, a region write or chunk write that succeeds and that no other write of the same chunk overlaps in time is not undone: a voxel it wrote has the value it gave, for every region read and chunk read that begins after it has returned and when all calls have returned, unless a later write gives the voxel a value; later writes of other voxels of the chunk keep it. The chunk exists before, and nobody deletes it.", "quantifier": "every number and kind of concurrent calls, every schedule of their system calls, every region, chunk and voxel", "why_tests_cant": "all schedules: reads, and writes of other chunks, overlap the write in every possible way", "anchors": ["src/ndarray.rs: write_ndarray, read_ndarray, read_ndarray_into", "src/storage.rs: read_chunk, read_chunk_into, write_chunk", "src/store/filesystem.rs: get, set"]}
{"id": "C77", "title": "A region read that no write overlaps is a snapshot", "statement": "When several processes read and write regions and chunks of an array, a region read that succeeds, and that no write of a chunk of its region overlaps in time, returns the region as it is at one moment: all its voxels have the values they have in the files at the moment it begins, whatever writes of other chunks and other reads do meanwhile. The chunks of the region exist before, and nobody deletes them.", "quantifier": "every number and kind of concurrent calls, every schedule of their system calls, every region", "why_tests_cant": "all schedules: other reads, and writes of other chunks, overlap the read in every possible way", "anchors": ["src/ndarray.rs: read_ndarray, read_ndarray_into, write_ndarray", "src/storage.rs: read_chunk, read_chunk_into, write_chunk", "src/store/filesystem.rs: get, set"]}
{"id": "C78", "title": "Chunks and documents are where the format puts them", "statement": "The files of a hierarchy are laid out as the format prescribes, so that other implementations find them: the chunk at grid position (i, j, ...) of the array at a path is in the file data/root/<path>/c<i><separator><j>..., with the numbers in decimal notation without leading zeros; the documents of arrays and groups are in meta/root/<path>.array<suffix> and meta/root/<path>.group<suffix>; the entry point is zarr.json. Writing, reading and deleting a chunk, and its URI, concern exactly that file; creating an array, a group or a hierarchy makes exactly that document and no other file, and the document, read by the rules of the format, says what was created.", "quantifier": "every hierarchy, path, separator, grid position, metadata and prior content of the file system", "why_tests_cant": "the name must be right for every position and separator, and no other file may change, whatever is there", "anchors": ["src/storage.rs: get_chunk_key, read_chunk, write_chunk, delete_chunk, get_chunk_uri", "src/lib.rs: array_metadata_key, group_metadata_key, create_array, create_group, open_or_create", "src/store/filesystem.rs: get_path, set, erase"]}
{"id": "C79", "title": "Voxels are the numbers in the files", "statement": "For an array of at least one dimension, reading a region (whose coordinates stay below 2^64) returns for each voxel the number that the format prescribes, whoever wrote the files: the number encoded, in the byte order of the array's data type, at the voxel's place in the memory layout of the file of its chunk (of what the file holds once its compression is undone), or the fill value if there is no such file; bytes after the end of the chunk are ignored. The read succeeds when the region overlaps the array and no file of a chunk holds too little. After writing a region the voxels of the region have the written values in the files in this sense, all other voxels of whole files the values they had, and no file that is not one of the array's chunks is changed.", "quantifier": "every hierarchy, path, array shape, chunk shape, separator, layout, element type, byte order, region and content of the file system", "why_tests_cant": "the place of every voxel of every array in the files, and every content that other programs may have put there", "anchors": ["src/ndarray.rs: read_ndarray, read_ndarray_into_with_buffer, write_ndarray", "src/chunk.rs: read_chunk, read_data, write_data", "src/storage.rs: get_chunk_key, read_chunk, write_chunk"]}
{"id": "C80", "title": "An array is its voxels, whatever its chunks", "statement": "After any sequence of successful region writes, chunk writes and chunk deletions on an array that had no stored chunks, a region read returns for each voxel of the array the value that the last write of a region or chunk containing it gave, or the fill value if there was none or its chunk was deleted since, whatever happens in between to other files, in particular whatever calls are made on other arrays, on groups, on attributes (of this array too) and to remove nodes that neither contain the array nor lie in it. The read of a chunk returns the same values, or no chunk, and then they are all the fill value. If the array had stored chunks at first, voxels that no write or deletion concerned read as they did then. Chunking is invisible: two arrays of the same shape and fill value that see the same region writes give the same voxels, even if their chunk shapes, separators, memory layouts, byte orders, compressions, paths and hierarchies differ. (Arrays of at least one dimension, regions whose coordinates stay below 2^64.)", "quantifier": "every sequence of region writes, chunk writes and chunk deletions of every length, every pair of chunk shapes, layouts, separators, compressions and places, every region read", "why_tests_cant": "unbounded histories of overlapping writes, and all pairs of chunkings", "anchors": ["src/ndarray.rs: read_ndarray, write_ndarray", "src/storage.rs: get_chunk_key, read_chunk, write_chunk", "src/chunk.rs: DefaultChunkReader, DefaultChunkWriter"]}
{"id": "C81", "title": "Regions can be copied and written back", "statement": "Everything that a region read returns is a value of the element type. Writing a region back where it was read changes no voxel of the array, as seen by any region read before and after. Writing it to another place, of the same or another array with any chunk shape, layout, byte order and compression, makes a copy: reading the place returns exactly what was read, and another array that it was read from reads as before. (Arrays of at least one dimension, regions whose coordinates stay below 2^64; the place lies in the array.)", "quantifier": "every pair of arrays, every region and place, every content of the file system, including files of chunks that this library did not write", "why_tests_cant": "every pair of chunkings and every alignment of the regions to the chunks", "anchors": ["src/ndarray.rs: read_ndarray, write_ndarray"]}
{"id": "C82", "title": "Regions of the wrong rank or shape are refused", "statement": "A region whose rank is not the array's is refused with an invalid-data error, by reads and by writes, and so is a view whose shape is not that of the region read. A refused write changes nothing in the store and a refused read leaves the caller's view as it was. (A write whose offset has the wrong rank, with values of the right rank, is not refused: it panics. The store is unchanged then too.)", "quantifier": "every array, every region, view and offset of any rank, every content of the file system", "why_tests_cant": "every combination of ranks and shapes; a missed check is silent data loss or a panic in the caller", "anchors": ["src/ndarray.rs: read_ndarray, read_ndarray_into, read_ndarray_into_with_buffer, write_ndarray"]}
{"id": "C83", "title": "A region write that fails leaves every voxel old or new", "statement": "When a region write of the array's element type ends with an error or a panic part-way (a chunk of the region cannot be read, a file cannot be created), every voxel of the array has the value, or the read failure, that it had before, or lies in the region and has the value written. With another element type, or a codec that refuses what it is given, this holds for every chunk but one. (Arrays of at least one dimension, regions whose corners stay below 2^64. The write is not all or nothing.)", "quantifier": "every array, region and values, every content of the file system including damaged chunk files, every point at which the write fails", "why_tests_cant": "every combination of damaged chunks and every alignment of the region to the chunks", "anchors": ["src/ndarray.rs: write_ndarray", "src/storage.rs: write_chunk"]}
{"id": "C84", "title": "Writing an empty region changes nothing", "statement": "A region write whose values are empty along some axis changes no voxel of the array and no file of the store, however it ends. (False of files: unless the offset along that axis is the first index of a chunk, chunks around it are stored that were absent before, or the write fails on a chunk that it does not need.)", "quantifier": "every array, every empty shape and offset, every content of the file system", "why_tests_cant": "every alignment of the offset to the chunks", "anchors": ["src/ndarray.rs: write_ndarray", "src/ndarray.rs: bounded_coord_iter"]}
