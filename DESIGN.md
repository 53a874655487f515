# fluxfox in Rocq: design

## Approach

The model is a set of small, total, computable Gallina functions, one per Rust function, each
with a comment giving file and lines in /repo. `&mut self` methods return the new value.
Panics (index out of range, arithmetic overflow checked by Rust debug builds, `unwrap`,
`unimplemented!`) are explicit: `Panic` of the outcome type in `Base.v`. Integers are `N`/`nat`
with wrap-around or saturation written in explicitly wherever the Rust type matters.

Layers (rocq/theories):

* `*_model.v`  the model, no proofs
* `*_spec.v`   small independent specifications (what the English property means)
* `*_proofs.v` lemmas
* `*_props.v`  the property theorems only, `exact lemma` + `Print Assumptions`, each with a
  non-vacuity `Example`

Where the code violates a property the theorem is called `..._refuted` (an explicit witness,
checked by computation) and the strongest true restriction is proved with suffix `_partial`.

## Plan per property

For each property: what is modelled, and how it is proved.  The exact theorem names are in MANIFEST.json.

| id | model | proof |
|----|-------|-------|
| C01-C04, C06 | Chs: DiskCh/DiskChs/DiskChsn arithmetic, queries, iterators, raw offsets | div/mod arithmetic; induction on the LBA; iteration list = map from_lba (seq 0 (c*h*s)); boolean reflection |
| C05 | n_to_bytes with the 64-bit shift mask, bytes_to_n loop | sweep over the 64 shift counts + induction on the loop |
| C07 | BitRing | modular index lemmas, induction over reads |
| C08-C11, C36, C38, C42, C49 | MfmCodec over a bit ring, weak mask, marker search, sync detection | bit-list lemmas, induction over bytes; local-window argument for marker aliasing |
| C12 | crc_ibm_3740 | a generic development of CRCs as GF(2) polynomial remainders (Crc_proofs.v): linearity, injectivity of the shift step, bursts, parity, order of x |
| C13 | odd_even functions | bit-level extensionality |
| C14 | RangeChecker events, sort, scan | permutation-invariant counting |
| C15-C17, C27 | MetaSectorTrack | induction over operation histories |
| C18-C20, C39, C40, C43 | System34 format/scan/read/write and BitStreamTrack on a bit ring | composition of C08-C12: a formatted track is described by a layout of marks; scan, read and write are computed on that layout |
| C21, C45, C52 | RawFormat load/save, post_load_process, normalisation, closest_format | concatenation lemmas over the concrete image; refinement of C24 |
| C22, C23 | StandardSectorView state machine | refinement to a flat byte array, for every history of seeks, reads and writes |
| C24-C26, C44 | DiskImage track pool/map, resolution lock, analysis, flux tracks' best revolution | invariant over operation sequences |
| C28, C29, C46-C48 | StandardFormat/BPB tables, format(), boot sector | finite case analysis over the formats, list lemmas, composition with C19/C20 |
| C30 | ImdFormat::load_image | file grammar in Imd_spec.v; loop induction in both directions |
| C31 | date_time.rs | induction over years; specification by counting days |
| C32 | FoxTreeMap | induction over construction |
| C33, C34 | pce_crc, applesauce_crc32, IpfCrcHasher, PCE chunk read/write | instance of the generic CRC development; table checked by computation |
| C35, C50 | PriFormat save/load, PsiFormat load | chunk round trip + loop induction |
| C37 | FmCodec | exact behaviour lemma + refutations by computation |
| C41 | DiskChs layouts guessed from sizes | finite case analysis + arithmetic |
| C51 | F86Format save/load | file layout lemma; cell-by-cell equality |
| C53-C55 | TCFormat, MfmFormat (HxC), HfeFormat loaders | table position lemmas + induction over the track list (Layout_proofs.v) |
| C56 | Td0Format loader, three record encodings, checksum | file grammar in Td0_spec.v; loop induction in both directions, exact panic condition |
| C57-C59 | lzhuf expand, adaptive Huffman tree/decoder/coder, ring buffer | tree invariant (parent/son arrays describe a binary tree with the sibling property) preserved by update and rebuild; decoder = reading codewords; coder/decoder composition by uniqueness of the parse |
| C60 | lzw expand | dictionary invariant: code 256+k = the k-th string of the chunk plus a byte; exact panic condition |
| C61 | pll decode_mfm over Q with rounding, decode_direct | a polytope of (phase, clock) pairs given by 19 linear facets is invariant under every step (lra); rounding errors enlarge it by a budget linear in the number of transitions |
| C62 | decode_mfm, decode_fm | induction over the stream: shift register = last 64 cells; FM findings by evaluation and by lra |
| C63 | synthesize_revolutions, from_adjacent_pair | induction over the revolutions |
| C64 | scp.rs (loader), add_track_fluxstream; f64 times as integer nanoseconds, decoding of a track's revolutions a parameter | fields of the file by position (Scp_spec), induction over the table, the revolutions and the tracks; inversion for "only" and the panics |
| C65 | pfi.rs (loader); f64 times as clock ticks, decoding a parameter | specification by cut positions (Pfi_spec), induction over the codes with the times read so far; induction over chunks and tracks; inversion for "only" and the panics |
| C66 | kryoflux.rs (loader) and read_ascii; f64 times as clock ticks, decoding a parameter | streams as lists of blocks (Kfx_spec); both passes are folds over the blocks; invariant relating the streams collected so far to the transitions by position; inversion of the first pass for "only" |
| C67 | kryoflux.rs expand_kryoflux_set, diskimage.rs load (KryofluxSet) without post_load_process; file system a parameter | the search as a fold over the cylinders up to the first gap; which names: spec by longest prefix, decimal value; pigeonhole for termination; induction over the files loaded |
| C68 | flux/histogram.rs, fluxstream.rs decode_revolutions, rpm.rs; `histogram` crate from its documentation; floats as exact operation + rounding | peaks of the histogram as a filter; bucket bounds; interval arithmetic over Q |
| C69 | the same with Pll_model, Scp_model | which bucket each transition of a recording falls in, so which clock is chosen; C61 for the PLL; C64 for the file |
| C70 | Mfi_model.v: mfi.rs with zlib and decoding as parameters | the table reader against the fields by position, induction over the entries with the offset of the last track that has data |
| C71 | the same with Hist_model, Pll_model | the buckets of 1.2 us cells in the first 2% of the transitions, so which base time and speed are found; scaling keeps a recording one; C69 |
| C72 | BitStream_model.bt_new with the whole of scan_markers, scan_metadata and the clock map | induction over the markers in the scan with the invariant that the offset stays inside the cells; every read in the ring is total; the first mark is the only subtraction |
| C73 | BitStream_model, all requests but formatting | an invariant of every loaded track (rings whole, elements of data end after their start) kept by each request; a measure (elements still ahead) for reading all sectors |
| C74 | Amiga_model: amiga.rs and BitStreamTrack::new with both schemas; Amiga_spec: the recorded format, with no model code | where the missing clocks of a track are decides where any 64 cell pattern can match: no System 34 mark, and the Amiga pattern exactly at each sector; each field is a window of data bits, its value computed by bit lemmas (odd/even joining, exclusive or of words), the comparison of checksums shown equivalent to that of longs; totality as for C72 |
| C75 | Amiga_model | on the tracks of C74, each operation computed |
| C76 | Ipf_model: the chunk layer, records, both block decoders, the element streams, sorting and track making; Ipf_spec: the documented format, CRC-32 as a polynomial remainder, the cells described, with no model code | remainders are unique, so the CRC of a chunk is the one computed; the loops over chunks by induction over the tracks with the position in the file; writing elements keeps the one phase of a new track, so the cells are those laid; sorting a permutation of the disk's tracks gives the disk's order (strict order, uniqueness of sorted permutations), so each track has its place; Amiga sectors by the lemmas of C74 |
| C77 | Ipf_model | consequences of C76's lemmas (gap streams of any length are skipped: induction over their elements); the read of a foreign element by induction over the elements; concrete files for the panics and the bit counts |
| C78 | Builder_model | the formatting theorem and the loading lemmas of C21; two formatted tracks of different cylinders differ in their cells (the first A1 mark fixes the standard, the header the cylinder) |
| C79 | Lock_model | invariant over schedules: the tables of the tracking lock are the counts of the guards alive whose drop body has not run; a writer is alone; the poison flag of the mutex is an earlier panic |
| C80 | FileTree_model | induction over the tree with all children; every string is slashes and names (induction over the string); the walk against an inductive relation |
| C81 | Segmenter_model | after i values the accumulator is i*r mod d and the values add up to floor (i*a/d): induction over the values left |
| C82 | CopyProt_model over DiskImage_model | a scan tells of the first sector with the identifier (induction over the sectors); then induction over the tracks |

Everything in properties.jsonl is expressible in the model; no property is `not_applicable`.

## What is modelled, and what is not

Modelled (each definition cites file and lines; simplifications are stated there and at the head of each `*_model.v`):
`types/chs.rs`, `types/sector_layout.rs`, `types/standard_format.rs`, the records of `types/structs.rs` and `enums.rs` that the
tracks use, `bit_ring/mod.rs`, `range_check.rs`, `bitstream_codec/{mfm,fm}.rs`, `util.rs` (CRC-16), `track_schema/system34.rs` (MFM) and the
System 34 part of `track_schema/mod.rs`, `track_schema/meta_encoding/odd_even.rs`, `track/metasector.rs`, `track/bitstream.rs`
(MFM), `track/fluxstream.rs` (delegation only), `diskimage.rs` (tracks, sector access, analysis, normalisation, format, boot sector,
post-load processing), `sector_view.rs`, `boot_sector/*`, `tree_map.rs`, `file_system/date_time.rs`, and under `file_parsers/`: `raw.rs`, `imd.rs`, `td0.rs`, `compression/` (expansion; of the compressors the part that writes LZHUF codes),
`pce/{chunk layer, crc, pri, psi}.rs`, `f86.rs`, `tc.rs`, `mfm.rs`, `hfe.rs`, `ipf/` (but platform lists and the source map), and the CRC of `as/`.


The flux decoder (`flux/pll.rs`, `flux/flux_revolution.rs` decode_direct and from_adjacent_pair, `flux/mod.rs` detect_encoding) is modelled over the rationals, each
floating point operation being the exact one followed by a rounding function `rd`; the theorems assume only that `rd` has a small absolute error on numbers up to a bound
(which f64 has for times up to a revolution).  NaN, infinities, histograms and the choice of the initial clock are not modelled.

Not modelled: other floating point (revolution statistics, data rates:
where a computation of the modelled code depends on one it is a parameter or dropped, as the comment says); flux file parsers other than SuperCard Pro, PFI, KryoFlux and MFI; GCR; rescanning and formatting of Amiga tracks; `source_map.rs`; logging
(arguments of `log::trace!` that could panic when trace logging is enabled are noted in the comments and taken not to be evaluated);
visualization, scripting, FFI; archive containers; SHA-1 (a parameter); callbacks.

Conventions.  Rust integers are `N` or `nat`; truncating casts are `as_u8`/`as_u16`/`as_u32`; arithmetic that a debug build checks for overflow
is either shown not to overflow in the comment or modelled as `Panic`.  `usize` is 64 bits.  Vectors and readers are lists; a reader is the list of the bytes
not yet read.  A hash set is the list of its elements in order of insertion (no modelled result depends on the iteration order).  Random bits
are an oracle `rnd` (theorems hold for every oracle).  Loops without a syntactic bound take fuel computed from the input; the proofs show that the fuel
is never the reason for the result.  `unwrap`, out-of-range indexing and slicing, division by zero and `unimplemented!` are `Panic`.

The loaders for bitstream formats (C35, C51, C53-C55) are proved for all files whose tracks `BitStreamTrack::new` accepts; C72 gives the exact condition for that
(no mark at the first cell), and its consequences for whole files.  BitStream_model, which these use, is the code without the Amiga schema; C74_default shows
that wherever System 34 marks are found, or making the track fails, the default build does the same.
PSI: `decode_psi_sector_format` maps the formats [2,0] and [2,1] to FM; the encoding of a sector track is not modelled.

## Exceptions

Where the code does not do what the property says, the property's statement names the exception, a theorem `Cxx_..._refuted` exhibits it on a
concrete input (checked by computation or proved for a whole family), and the main theorems carry the weakest hypothesis that excludes it.
tools/status.py lists them per property (copied into the notes of MANIFEST.json).

## Trusted base

* Coq 8.16.1: its kernel, including `vm_compute` (used for finite sweeps and examples), and coqchk, which re-checks everything without the VM.
* `Print Assumptions` follows every property theorem in the `*_props.v` files.  Every one prints `Closed under the global context`: no axiom, of the standard
  library or otherwise, is used by any theorem.  (coqchk, which lists the axioms of every *loaded* library, also names seven constants of `Coq.ssr.ssrunder`:
  `Under_rel`, `Under_eq` and their fields, which are the parameters of the sealed module types of that standard library file. No theorem here depends on them.)
* The fidelity of the model: it was written by reading the Rust source; nothing was executed. The mutation log seeded/LOG.jsonl tests the strength of the theorems, not the fidelity.
* No axioms, parameters, module types or functors are declared; no kernel check is switched off. Section variables (Crc_proofs.v) are discharged.

## Mutation tests

tools/seed.py edits one definition of a scratch copy of the development (seeded/seeds*.py list the edits), rebuilds, and records which theorems fail
(proofs that break inside a lemma are followed through to the theorems that use it). seeded/LOG.jsonl has one line per attempt.
