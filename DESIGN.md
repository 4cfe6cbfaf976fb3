# Formal model of sci-rs/zarr in Rocq (Coq 8.16.1)

`properties.jsonl` lists the properties (C01, C02, ...), `MANIFEST.json` maps each to theorems,
`seeded/LOG.jsonl` records the wrong-program experiments. The model and the proofs are in
`rocq/theories`.

## 1. How the model is built

The model is a set of total, computable Gallina functions, one per Rust function, each with a comment
citing the file and lines it models and the simplifications made. Conventions:

* `&mut` becomes a returned value. `Result` becomes `res A := Ok a | Err kind | Panic`; `Panic` stands for
  every panic path (`assert!`, `unwrap`, `expect`, `todo!`, slice out of range, debug overflow check).
* A Rust `String`/`&str`/`OsStr`/file content is a list of bytes (`list ascii`).
* Integers are `Z`; each place where the code computes in u64/usize/u32/i32 goes through an operation
  that panics (profile `Debug`) or wraps (profile `Release`); casts (`as u32`) wrap explicitly.
  Theorems quantify over the profile.
* Store-level code is a function `fs -> fs * res A` over a file-system model `fs`:
  a finite map from absolute component lists to directories or file contents, containing also everything
  *outside* the hierarchy's base directory, so that containment can be stated. Path walking
  (`..`, missing components, files used as directories) is modelled; symlinks, hard links, permissions,
  name/path length limits, NUL bytes and disk-full are not (disk-full is part of the process model below).
* n-dimensional arrays (`ndarray` crate) are a shape plus an index function; `from_shape_vec`, `slice`,
  `assign`, `t().iter()` are modelled by their documented logical meaning.
* JSON is modelled down to text: an ordered syntax tree, a printer and a parser following serde_json
  (escapes, integer ranges, recursion limit 128, trailing data rejected), proved to round trip, and the
  serde-derived conversions of the metadata structs. A non-integer JSON number is represented by its literal.
* Third-party compressors are not modelled: a `codec` parameter gives, per compressor setting, the bytes the
  encoder emits and the stream the decoder yields. Results for `Raw` need no assumption; results for the
  others carry the explicit premise that this codec is lossless (`lossless`), shown satisfiable by an instance.
* A theorem named `..._refuted` proves that the English claim is false of the modelled code: it gives a
  witness (or, where possible, shows the failure for *every* input of some class). The `_partial` theorem beside
  it proves the part that holds. Which parts of the claim are missing is said in `MANIFEST.json`.

### Processes, crashes, full disks, schedules

`Sys.v` models the same calls a second time, one system call at a time. `os` is the state of the operating
system: directory entries, inodes, open file descriptions, flock(2) locks, how many bytes the coming write(2)
calls accept, and how much room the disk has left. `proc A` is a process: a tree of system calls ending in a
result. `std::fs::create_dir_all`, `Write::write_all`, `BufWriter` (8192 byte buffer, flush errors ignored on
drop) and the store's lock/truncate/write order are modelled at this level.

* *Link.* C54 proves that each process, run alone, does what the sequential function in `FS.v`/`Hier.v`/`Nd.v`
  does, whatever the lengths of the partial reads and writes. So every sequential theorem is also a theorem
  about the processes.
* *Crash.* `stops o p o'`: the process is killed after any number of its system calls; the kernel then closes
  its descriptions (`released`). This is a killed process, not a power loss: what write(2) accepted stays.
* *Full disk.* `o_room` bytes are accepted, then writes fail.
* *Concurrency.* `csteps`: any number of processes, any interleaving of their system calls; flock(2) blocks.
  The theorems are proved with a protocol logic (`follows` in `ConcFacts.v`): a process may be in a session
  state for one file, each system call has a precondition and a set of outcomes in that state, and an invariant
  over all processes is kept by every system call of every process.

## 2. Layout

Model (definitions only, each citing the lines it models):

| file | content |
|---|---|
| `Base.v` | bytes, result monad, machine arithmetic |
| `DataType.v` | `src/data_type.rs` |
| `Meta.v` | array metadata, grid arithmetic (`src/lib.rs`) |
| `BBox.v`, `CoordIter.v` | bounding boxes and coordinate iterators (`src/ndarray.rs`) |
| `Chunk.v` | element codecs and chunk reader/writer (`src/chunk.rs`), compressor dispatch (`src/compression`) |
| `Lz.v` | `src/compression/lz_pure.rs` |
| `Path.v` | `std::path` operations used, `add_extension`, metadata and chunk keys |
| `FS.v` | file system, `src/store/filesystem.rs` |
| `Json.v`, `MetaJson.v` | JSON text and the serde-derived conversions |
| `Hier.v` | `src/storage.rs`, `src/store.rs`, opening a hierarchy |
| `Nd.v` | region reads and writes (`src/ndarray.rs`) |
| `GenHier.v` | the same hierarchy operations over any implementation of the store traits |
| `GenNd.v` | the same region operations over any implementation of the store traits |
| `Sys.v`, `SysNd.v`, `SysOpen.v` | system calls, processes, crashes, interleavings; the calls above as processes |

Specification (what the theorems are stated with, independent of the model's helpers): `Spec.v` (bytes, files,
chunks, regions), `SpecMeta.v` (documents, IEEE rounding), `SpecHier.v` (abstract hierarchy), `SpecList.v`
(listings), `SpecSys.v` (runs, crashes), `SpecConc.v` (concurrent calls), `SpecShare.v` (files used by calls), `SpecAttr.v` and `SpecKeep.v` (calls that end before others begin), `SpecKill.v` (processes that die), `SpecRemove.v` (directory
order), `SpecLz.v` (frames), `SpecLin.v` (linearization), `SpecOpen.v` (opening concurrently),
`SpecFull.v` (unlimited space), `SpecJson.v` (the grammar of RFC 8259), `SpecDoc.v` (what a document says), `SpecFault.v` (refused system calls), `SpecStore.v` (what any
store is expected to do), `SpecOver.v` (boxes beyond or just below 2^64).

Proofs: `*Facts.v`, `NdWrite.v`, `NdSafe.v`, `JsonPrefix.v`, `SysOps.v`, `SysNdOps.v`, `Crash*.v`, `Conc*.v`,
`ShareLive.v`, `RegionPure.v`, `SysRemove.v`, `SysList.v`. Concrete states and schedules for the examples: `SysWit.v`, `ConcWit.v`, `HierWit.v`, `ShareWit.v`.

Theorems: `Props_*.v` contain only the property theorems, each closed by `exact`, followed by
`Print Assumptions`, and the examples meeting the hypotheses.

Validation of the model: `RepoTests.v` runs the repository's own tests on it (unit tests, documentation examples,
integration tests, the hierarchy written by the Python implementation in `tests/data/zarrita.zr3`) and gets the
results those tests assert. These are examples, not properties; no claim rests on them. Tests that need a symbolic link or
a real compressor are left out, random data are replaced by fixed data.

## 3. Property by property

What is modelled and how it is proved. Status, theorem names and what is missing: `MANIFEST.json`.

* **C01** element codecs per type and byte order, chunk reader/writer. Induction over elements; two's complement arithmetic.
* **C02** `write_data` with the 256-element staging loop against `concat (map enc)`; induction on the number of buffers. The byte groups are specified by an independent positional value.
* **C03** `read_exact` model; both directions on the byte count.
* **C04** case analysis on types, lifted to the reader/writer for all payloads.
* **C05** modular arithmetic on the `as u32` cast. Refuted from 2^32 elements on.
* **C06** refuted: `set` truncates before the closure checks. Frame proved.
* **C07** path walking lemma: after `set` the same key walks to the same file; then C01.
* **C08** file-map view of the file system: `set` is a point update; key injectivity (C11, C12).
* **C09** refinement to a map from positions to chunks by induction over operation lists.
* **C10** as C08 for `erase`.
* **C11** decimal printing is injective and emits only digits; last-'c' argument.
* **C12** `set_extension` on bytes: key = root ++ path ++ ".array" ++ suffix; suffix comparison.
* **C13** component lists of equivalent strings are equal; every operation factors through components, except `list_nodes`, whose keys contain the spelling: its answer is determined by the members of the sorted list (`ListEquiv.v`).
* **C14** refuted: the `nest` counter only looks at the final sum. Proved for paths that never go above their start.
* **C15** refuted: `(a+1)/b + ..` is not ceiling division. Exact characterisation of when it is.
* **C16** product enumeration lemma (NoDup, membership, sortedness). Refuted for rank 0.
* **C17** refuted for boxes with no common voxel; exact when every dimension overlaps.
* **C18** refuted after exhaustion and for rank 0; proved for all states before exhaustion.
* **C19** pointwise `lia`, lifted to ranks by list induction; both overflow profiles.
* **C20** ravel/unravel bijection by induction on rank.
* **C21** loop invariant over the processed coordinates. Boxes whose far corner overflows u64 (`SpecOver.v`): the intersection panics or is empty. Boxes that end less than one chunk below 2^64 (`BorderFacts.v`): the rounded-up corner panics or wraps to 0, so no chunk is visited.
* **C22** loop invariant over written chunks + C08 frame + C20.
* **C23** refuted: absent chunks leave stale contents. Exact result in terms of the old contents.
* **C24** refuted for boxes outside the array; proved for boxes overlapping the array in every dimension.
* **C25** refuted: `multi_cartesian_product` of no iterators (itertools 0.8) is empty.
* **C26** JSON-to-element conversion against an IEEE rounding specification; consequences in C21/C22. Refuted for f16.
* **C27** refuted for raw types (NUL padding); proved for all others.
* **C28** refuted; exact characterisation of panicking strings.
* **C29** JSON round trip of the metadata document through text and store; each exclusion refuted.
* **C30, C31** map algebra on the parsed document + text round trip; the parser's depth limit is a premise (refuted beyond). For updates of any nesting the stored text is shown to be a JSON text by the grammar of `SpecJson.v` (`DeepFacts.v`).
* **C32** invariant over operation lists.
* **C33** refuted: a metadata file name is itself reported as a node. Proved for histories on ordinary paths. `array_exists` is compared with reading the metadata, in any state (`ExistFacts.v`).
* **C34** refuted: children's metadata survive, and chunks of other arrays can go. Exact effect proved.
* **C35** refuted: names are truncated by the suffix length twice, panic on short names. Exact listing proved; it depends only on which files and directories the metadata tree has, which attribute, chunk and region calls do not change (`ListEquiv.v`).
* **C36** refuted for the file-system store: `list_dir` omits the separator. Flat directories proved.
* **C37** direct, over all extension lists.
* **C38** executable model of open/open_or_create; version matching (`semver`) is an oracle parameter.
* **C39** arithmetic and finite case analysis; ASCII lower-casing over all strings.
* **C40** refuted for every chunk handed to the encoder in more than one piece, given that the frame reader stops at the end of a frame (frame format is a parameter with that premise); proved for the others.
* **C41** induction over the system calls of a chunk write; every prefix of the written bytes; C03. Strong form refuted.
* **C42** refuted: BufWriter's drop ignores errors. Exact bound on what is missing, over all disk sizes and partial writes.
* **C43** any mix of the ten kinds of calls (`SpecConc.call`; region calls join in C55 and C59): protocol invariant over all schedules for one chunk file; creation race refuted by a schedule.
* **C44** refuted by a schedule; protocol invariant for the metadata file: contents are outcomes of requested updates. An execution invariant with a ghost log (`ConcLog.v`): a reader logs the content when it locks the file, a writer when it closes it; what a call may log next depends on what it has logged (`ConcAttr.v`), which makes the log a history of looks and stores.
* **C45** refuted by schedules; protocol invariants for the two metadata files of a node.
* **C46** direct from the path model.
* **C47** finite cases plus arithmetic for raw types.
* **C48** refuted (empty `zarr.json` left behind); exact condition for recovery proved over all crash points.
* **C49** no proper prefix of a printed object parses; crash analysis as C41.
* **C50** refuted for deserialized metadata; proved for metadata created through the library.
* **C51** endianness only enters through the metadata; equality of the functions for two hosts.
* **C52** simulation between the store and an abstract hierarchy (`SpecHier.v`), induction over histories.
* **C53** loop invariant of region writes including failures, with the frame of each chunk write.
* **C54** for each process: running alone equals the sequential function, by induction over the process.
* **C55** every process holds at most one lock and never waits while holding one (protocol invariant); well-founded order on configurations.
* **C56** induction over the chunk loop of the region write: the chunks before the crash point are as after the call, those behind it as before, the current one is a prefix of the new content (C41).
* **C57** for calls that address their files by name (all but `remove` and `list_nodes`, which walk directories): ownership protocol (`ConcOwn.v`): each process owns the files it may write; an invariant relates what a process sees to its own pending changes over the initial state; every call follows the protocol with the outcome of the atomic call.
* **C58** C57 with chunk-disjoint regions, then the voxel effect of one region write (C22). Refuted for regions that share a chunk.
* **C59** The protocol of C43 for the file of the voxel's chunk: its allowed contents are those that decode to a chunk whose element for the voxel is a possible value. Region reads and writes keep to it chunk by chunk (`RegionPure.v`, `ConcVoxel.v`). Refuted: that a region read is a snapshot.
* **C60** `remove` and WalkDir's contents-first traversal as processes (`p_remove`, `p_rm_tree`; any order of directory entries); every system call of them removes only files of the node (invariant over crash points, `CrashRemove.v`); repeating the call is compared with the sequential `remove` (C54).
* **C61** protocol invariant for one file that no call writes (`ConcGone.v`): a process that has seen an ancestor missing, or unlinked it, knows that the file is gone, and nobody brings it back. `set_attributes` writes what it has seen: refuted by a schedule, and why nothing appears that was never there.
* **C62** protocol invariants for one directory of the metadata tree (`ConcList.v`): nobody removes it, and only a creation below it makes it (an attribute update has seen a file below it). What one process sees are results of system calls in states on the way; the list of entries it gets is that of a pseudo-state, to which C35 applies. That the list is that of one moment is refuted by a schedule.
* **C63** `FilesystemHierarchy::get_attributes` (`Attrs.v`), by cases on whether the key names a file; `set_extension` twice on the path of a group document leads to the directory, which is not a file.
* **C64** an execution invariant with a ghost list: the order in which the calls lock the file (`ConcLin.v`); the content is what the last writer in the list wrote unless that writer still holds the lock, and a reader that has locked returns what the list says at its place.
* **C65** the entry point is read without a lock, so the invariant (`ConcOpen.v`) is about its content: it is always a prefix of the one document that every creator writes, at least as long as each process knows; a creator closes it only when it is complete. `open` is added to the processes (`SysOpen.v`).
* **C66** the run with `o_room o` bytes left is compared with the run of `unlimited o` (`SpecFull.v`), using the invariants of the crash proofs: a full disk and a crash leave the same kinds of state. `FullMeta.v` computes the run that loses its document.
* **C67** the parser of `Json.v` against the grammar of RFC 8259 (`SpecJson.v`), both directions by induction (`JsonGrammar.v`); the decoders of `MetaJson.v` against relations between a JSON value and what it says (`SpecDoc.v`, `DocFacts.v`); then the calls.
* **C68** the processes of `Sys.v` run with any of their system calls refused (`SpecFault.v`): `faulty` picks the refusals freely, `denied` refuses a set of files throughout. Inversion of such runs call by call; what follows a successful open cannot be refused and is the run without refusals (`FaultFacts.v`). With looking never refused (`visible`), `done_or_failed` goes through `?`-chains because a refusal is always the last thing a call sees (`FaultVisible.v`).
* **C69** `GenHier.v` has the trait implementations of `src/storage.rs` for a record of store methods; at the file-system store they are the definitions of `Hier.v` by conversion. Over a map-like store (`SpecStore.v`): simulation with the abstract hierarchy of C52; keys of tidy paths determine their pieces (`GenFacts.v`, `GenSim.v`). Refutations by computing keys.
* **C70** induction on the length of the longest key below the prefix (`GenList.v`); for `list_nodes` the key of the node itself is cut twice by the suffix and is then shorter than the prefix drained from it, whatever the store.
* **C71** the loop of a region read with the view as state (`NdView.v`); a loop that stops splits the visited chunks into those before the failure, to which the loop invariant of C21 applies, and the rest, and the order of visiting is lexicographic (`NdViewFacts.v`).
* **C72** both decoders on the normal form of the document (`NodeFacts.v`); refuted by a document in the positional form that serde derives for structs.
* **C73** `GenNd.v` has the region operations for a record of store methods, at the file-system store equal to those of `Nd.v`; the loop invariants of C21 and C22 with the map of the store in place of the file system, and progress of each loop step (`GenNdFacts.v`).
* **C74** `SpecKill.v` turns a process into one that dies before its n-th system call, after which its descriptors are closed; so the theorems about interleavings (C43, C55) apply to dying processes unchanged. For the values, the protocol of C43 is proved again with the additional obligation that the file may be abandoned before each system call, where the allowed contents include the prefixes of what a dying process writes (`KillOps.v`, `KillFacts.v`); the same for the metadata document of a node, where a strict prefix of a JSON object is never a JSON document (`KillNode.v`, `KillNew.v`), and for the voxels of regions (`KillVoxel.v`, after C59).
* **C75** from the history of C44 by induction over its prefixes (`AttrFacts.v`): between the look and the store of an update no other update stores, if none overlaps.
* **C76** the log of C75 (`ConcLog.v`) for the file of one chunk, where a region write looks at the chunk and stores it again with its own voxels replaced (`VoxelLog.v`); along the log, from the store of the write on, every content gives the voxel its value (`KeepFacts.v`).
* **C77** the same log: the read looks at each chunk of its region once, and between its beginning and its look no store is logged for that chunk, so the content it sees is the one in the files when it begins (`SnapFacts.v`).
* **C78** `SpecPlace.v` gives decimal notation by its value and the file of a chunk by its components, without the model's key functions; the model's text of a position is shown to be the only one that fits (`PlaceFacts.v`), and the effects of the store's `set` and `erase` say that no other file changes.
* **C79** `SpecFiles.v` says where the number of a voxel is in which file, without any reading function of the model (only the decoder parameter); C21, C22, C78 and the decoding of chunks give that region reads and writes agree with it (`FilesFacts.v`).
* **C80** `SpecVox.v` defines the value of a voxel after a list of region writes, chunk writes and chunk deletions, and histories; by induction on the history, with C21 and C22 for one step and C78 for everything else that happens; `elsewhere` lists the calls on other nodes, each of which is shown to leave the array's chunk files alone (`VoxFacts.v`).
* **C81** Composition of the region read (C21) and the region write (C22) of the model; the values read are those of decoded chunks or the fill value, both in the element type's range (`CopyFacts.v`).
* **C82** Case analysis on the checks at the head of the region read and write (`RankFacts.v`), for all ranks. The write does not check the rank of its offset: the refuted part shows that it then panics at the first intersection, for every such call, before anything is stored.
* **C83** Induction over the chunks that a region write visits, for every outcome of each step (`FailFacts.v`): steps that succeed are those of C22; a step that fails leaves the store as it was when its chunk has the right type and length, and otherwise touches only the file of its chunk.
* **C84** Corollary of C83 for boxes without voxels; for aligned offsets the range of chunks along the empty axis is empty, so the loop of the write has no step (`EmptyFacts.v`).

## 4. Trusted base

* The Coq 8.16.1 kernel (`coqc`, rechecked with `coqchk`), std++ and the Coq standard library.
* `Print Assumptions` is run under every property theorem and answers "Closed under the global context" for
  each: no axioms. The libraries loaded through std++/ssreflect contain the constants
  `Coq.ssr.ssrunder.Under_rel.*` (from the sealed module type of the `under` tactic), which a scan of loaded
  libraries reports; no theorem depends on them.
* The reading of the Rust code, and of the third-party behaviour listed above (std::path, std::fs, std::io,
  serde/serde_json, ndarray 0.13, itertools 0.8, byteorder, flate2/bzip2/lz4/xz2, lz-fear, fs2, walkdir, semver).
* Parameters of theorems, never axioms: codecs (`codec`, premises `lossless`, `total_codec`, `codec_safe`), the
  LZ4 frame library (`frame_lib`, premise `reads_one_frame`), semver matching (`V`), the value of non-integer
  JSON number literals (`flit`), the way a JSON writer or compressor cuts its output into writes, and the sizes of
  partial reads and writes. Each premise is shown satisfiable by an instance.

## 5. What is modelled and what is not

Modelled: every function of `src/lib.rs`, `src/data_type.rs`, `src/chunk.rs`, `src/ndarray.rs`, `src/storage.rs`,
`src/store.rs`, `src/store/filesystem.rs` and the dispatch and configuration part of `src/compression*`, except:

* `store_chunk_metadata` (its body is `todo!()`), `Debug`/`Clone`/`PartialEq` derives;
* `data_type_match!` as a macro (its expansion is modelled at each use);
* the compressors themselves (flate2, bzip2, lz4, xz2, lz-fear): parameters;
* the contents of a chunk buffer after a *failed* region read;
* broadcasting in `ndarray::assign` (the code only assigns equal shapes).

JSON is simplified as follows: a float literal is kept as written, so
one out of range is not an error; members the library skips are parsed like all others (serde_json skips them
without looking at escapes, UTF-8 or depth); which of several faults of a document is reported is not modelled (all have
the same kind).

The environment is simplified as follows: no symlinks, hard links, permissions or I/O errors (except in C68, where
system calls that name a file may be refused, all with the same kind of error), name or path length limits, NUL
bytes, Windows path prefixes, time stamps or memory exhaustion; directory listings are complete (their order: sorted in
the sequential model, arbitrary in the process model); a
crash is a killed process, not a power loss; processes only interact through the modelled system calls; flock(2)
locks are the only blocking operation; contents of unlinked inodes are kept; readdir(3) of one directory is one
step. `list` and `list_prefix` exist only in the sequential model. Performance is not modelled.
