#!/usr/bin/env python3
"""Generates /verif/properties.jsonl (one JSON object per property)."""
import json, os
P = []
def p(id, title, statement, quantifier, why, anchors):
    P.append(dict(id=id, title=title, statement=statement, quantifier=quantifier,
                  why_tests_cant=why, anchors=anchors))

p("C01", "LBA <-> CHS conversion is a bijection on the disk",
  "For a sector layout with non-zero heads and sectors per track, converting a linear sector number below c*h*s to a sector address and back returns the same number, and converting a sector address that lies on the disk to a linear number and back returns the same address; out-of-range numbers are rejected with None. (For layouts whose first sector id is 0 or 1 - all layouts the library ships.)",
  "all layouts (c,h,s,s_off,size), all linear sector numbers, all sector addresses",
  "The number of geometries times the number of sectors is far beyond enumeration; tests only sample the PC formats.",
  ["src/types/chs.rs: DiskChs::to_lba, DiskChs::from_lba", "src/types/sector_layout.rs: SectorLayout"])
p("C02", "Sector iteration visits every sector exactly once, in LBA order",
  "Starting from the first sector and following next_sector (or the chs_iter/chsn_iter iterators) yields exactly the c*h*s sectors of the layout, each once, ordered sector-fastest, then head, then cylinder, and then ends.",
  "all layouts with non-zero heads and sectors per track",
  "Quantifies over all geometries and the whole iteration history, including wrap-around at every track and cylinder boundary.",
  ["src/types/chs.rs: DiskChs::next_sector, DiskChsIterator, DiskChsnIterator, SectorLayout iterators"])
p("C03", "Track iteration visits every track exactly once",
  "Following next_track from (0,0) visits every (cylinder, head) of the layout exactly once in head-fastest order and then ends.",
  "all geometries with non-zero heads",
  "Unbounded geometry and iteration history.",
  ["src/types/chs.rs: DiskCh::next_track, DiskChIterator"])
p("C04", "Raw file offset <-> sector address",
  "For a layout, a byte offset into a raw sector image maps to the unique (sector, byte-in-sector) pair whose sector starts at lba*size, the offset of a sector on the disk maps back to that sector with byte index 0, and offsets past the end map to none. A sector address is given an offset exactly when it is on the disk, with one exception found: addresses whose sector number lies below the first sector number of the layout (sector 0 of a 1-based layout) are also accepted and aliased to the first sector of the track.",
  "all layouts with non-zero dimensions, all offsets",
  "All offsets and geometries.",
  ["src/types/chs.rs: DiskChs::from_raw_offset, DiskChs::to_raw_offset"])
p("C05", "Sector size code <-> byte count",
  "For the size codes 0..6 n maps to 128*2^n bytes and that byte count maps back to n; the byte count never exceeds 8192; for every u8 code n the count is 128*2^k with k = n mod 64 when k <= 6, and 8192 when 7 <= k <= 56; converting an arbitrary byte count yields the number of halvings needed to bring it to at most 128 (so a size between two powers is rounded up, not down). Exception found: the codes with n mod 64 >= 57 give the size 0 (the shift wraps).",
  "all u8 size codes, all byte counts",
  "Every u8 and every usize; wrap-around of the shift only shows at n >= 57.",
  ["src/types/chs.rs: DiskChsn::n_size, DiskChsn::n_to_bytes, DiskChsn::bytes_to_n"])
p("C06", "Sector id queries match exactly the specified fields",
  "A query matches a sector id if and only if the sector number is equal and every one of cylinder, head and size that the query specifies is equal; unspecified fields never affect the result.",
  "all queries and all sector ids",
  "Universally quantified over ids and optional fields.",
  ["src/types/chs.rs: DiskChsnQuery::matches"])
p("C07", "A bit ring behaves as a circular array",
  "A bit ring of non-zero length w refines a circular array under every history of operations: reading index i returns bit i mod w (or the configured out-of-range value), writing index i changes exactly bit i mod w, reading sequentially for k bits yields the k bits of the periodic extension of its contents, and iterating over one revolution yields the contents. Exception found: the separate iterator documented as infinite panics after one revolution.",
  "all rings, indices, and read/write histories",
  "Any history of reads, seeks and writes with wrap-around.",
  ["src/bit_ring/mod.rs: BitRing, BitRingIter"])
p("C08", "MFM data round trip through the bitstream",
  "Encoding bytes into a track at any even-phase position (including across the index/wrap point) and decoding the same number of bytes from that position returns the same bytes, and every bit outside the written window is unchanged.",
  "all byte buffers that fit the track, all positions, all previous track contents",
  "All buffers, positions, wrap-arounds and initial track contents.",
  ["src/bitstream_codec/mfm.rs: MfmCodec::encode, write_encoded_buf, read_decoded_buf"])
p("C09", "MFM encoder obeys the clock rules",
  "The encoding of any data never contains two adjacent 1 bits and never more than three consecutive 0 bits, has exactly 16 bitcells per byte, and each clock bit is 1 exactly when the data bits on both sides are 0.",
  "all byte buffers, both values of the preceding bit",
  "All data; tests check a few byte patterns.",
  ["src/bitstream_codec/mfm.rs: MfmCodec::encode"])
p("C10", "Address mark encoding is a clock violation that data can not produce",
  "A marker pattern (A1A1A1xx with missing clock) never occurs in MFM-encoded ordinary data at any bit alignment, so the marker search can not report an address mark inside correctly encoded data.",
  "all data buffers and all bit positions",
  "Over all data and alignments; cannot be enumerated.",
  ["src/bitstream_codec/mfm.rs: encode, find_marker", "src/track_schema/system34.rs: marker constants"])
p("C11", "Marker search finds the first match and nothing else",
  "Searching for a 64-bit marker from a position returns the position of the first window (at or after the start, within the limit) whose masked bits equal the marker, together with its low 16 bits, and returns none exactly when no such window exists. Exception found: if that first window is at bit 0 the search panics (in a checked build).",
  "all bitstreams, markers, masks, start positions and limits",
  "All bitstreams and positions.",
  ["src/bitstream_codec/mfm.rs: MfmCodec::find_marker"])
p("C12", "CRC-16 detects errors",
  "The CRC of data followed by its own CRC bytes is zero; the CRC can be computed incrementally; and for two equal-length buffers that differ only within a window of at most 16 consecutive bits, or in an odd number of bits, the CRCs differ - so a read of such a damaged sector always reports a CRC error.",
  "all buffers of any length, all error patterns in the class",
  "All lengths and all error patterns.",
  ["src/util.rs: crc_ibm_3740, crc_ibm_3740_byte", "src/track_schema/system34.rs: crc16_bytes, crc16"])
p("C13", "Amiga odd/even interleave round trip",
  "Decoding the standard Amiga odd/even encoding of a byte pair, word, word pair or buffer returns the original for every input, and the clock-aligned MFM/FM 32-bit forms round trip. Exception found: the byte, word and buffer encoders do not produce that encoding: their even half is right, but bit j of their odd half is bit 4*(j/2)+3 of the value instead of bit 2j+1, so half of the odd bits are lost and encode-decode is not the identity.",
  "all bytes, all 32-bit words, all buffers of suitable length",
  "2^32 words and unbounded buffers.",
  ["src/track_schema/meta_encoding/odd_even.rs"])
p("C14", "Data-range membership test",
  "A position is reported inside a set of ranges exactly when at least one range of the set contains it, the end of the range included, whatever the number, order and overlap of the ranges; the non-wrapping query ignores exactly the ranges that extend past the end of the track. Exception found: the ranges are documented and constructed as half-open, so the position just after the data is wrongly reported as data.",
  "all lists of ranges, all positions",
  "Unbounded sets of overlapping ranges in any order.",
  ["src/range_check.rs: RangeChecker", "src/bitstream_codec/mfm.rs: set_data_ranges, is_data"])
p("C15", "MetaSector track: read returns the last write",
  "After any sequence of sector writes on a MetaSector track whose stored sectors have the size of their ids, no write panics, ids and attributes stay, and reading a sector that has no weak or missing bits and is not marked missing-data returns the data and deleted mark of the last write that named it alone with data of its size (or the initial ones); writes never change other sectors; bits not covered by the weak or hole mask always read as stored. Exceptions found: a write to a sector stored with less data than its id says panics, and taking the data of a read of a sector without data mark panics.",
  "all tracks, all histories of writes, all ids",
  "All histories of operations.",
  ["src/track/metasector.rs: write_sector, read_sector, match_sectors"])
p("C16", "MetaSector track: absent sectors are reported not found",
  "Reading, scanning or writing a sector id that is not on a MetaSector track modifies nothing and reports the mismatch flags (wrong cylinder / bad cylinder / wrong head) exactly from the ids present; reads and scans report not_found, and a scan of an id on the track reports the attributes of the first sector that matches. Exception found: a write to an absent id does not report not_found (nor any error).",
  "all tracks and ids",
  "All tracks and ids.",
  ["src/track/metasector.rs: read_sector, scan_sector, write_sector, match_sectors"])
p("C17", "MetaSector track: adding a sector never fails or loses sectors",
  "Adding a sector with a new id, or any sector not flagged as an alternate copy, to a MetaSector track never fails, keeps all other sectors in order, appends exactly the given one, and makes it readable. Exception found: adding an alternate copy of an existing id panics whenever both copies have data, and otherwise drops the copy: copies are never merged.",
  "all tracks, all sector parameters",
  "All contents and alternate copies.",
  ["src/track/metasector.rs: add_sector"])
p("C18", "Bitstream track: write then read returns the data with a valid CRC",
  "On every track formatted by fluxfox, after any history of write requests a read returns the data of the last request that selected the sector (or the fill) with a valid CRC and no error flags, and absent sectors are reported not found by reads and writes without change. On every loaded track, a successful write of a normal sector (whose data element contains no other mark and is shorter than the track) is read back with a valid CRC, and a write changes no bitcell outside the data and CRC fields of one data element of the right kind and size (plus the next cell); on formatted tracks nothing outside those fields. Exception found: after every write to a deleted sector the CRC read back is invalid.",
  "all bitstream tracks, sectors and data",
  "All tracks and data.",
  ["src/track/bitstream.rs: write_sector, read_sector", "src/track_schema/system34.rs: encode_element, decode_element"])
p("C19", "Formatting produces the IBM System 34 layout",
  "Formatting a track with a list of sector ids, a gap 3 length and a fill pattern produces exactly track_bitcells/16 (rounded up) bytes: the System 34 layout (gaps, sync runs, address marks, headers with valid CRCs, data of the requested size repeating the fill pattern across sectors, valid data CRCs) cut or padded to that length, and the cells carry that layout with the address marks stamped with their missing clocks; it is rejected with an error when the pattern is empty. Exception found: in the IBM layout the index mark is stamped over the first four sync bytes of the first sector and gap 1 is missing.",
  "all format buffers, gap lengths, patterns, track lengths",
  "All parameters.",
  ["src/track_schema/system34.rs: format_track_as_bytes, set_track_markers"])
p("C20", "Format then scan finds exactly the formatted sectors",
  "Formatting a track and scanning it, rescanning it, or saving and reloading its cells finds exactly the formatted sectors, in order, with their ids, with header and data CRCs valid, for every list of sectors with cylinder <= 255 that fits the track. Exception found: larger cylinder numbers are recorded modulo 256, so the sectors asked for are not on the track.",
  "all format buffers that fit the track",
  "All format parameters; needs the marker non-aliasing argument for all data.",
  ["src/track_schema/system34.rs: format_track_as_bytes, scan_markers, scan_metadata"])
p("C21", "Raw sector image round trip",
  "Loading a raw sector image of the size of a standard PC format, writing any sectors and saving yields the image with exactly the written sectors replaced (no writes: byte-identical output), unless the boot sector of the image names another standard format than its size: then what is saved has the size of the format named. Assumption: SHA-1 does not collide on the cells of all 40 pairs of tracks. The same holds of 880K Amiga images in which the data of some pair of cylinders 2k, 2k+1 of head 0 differ (in SHA-1) and whose second sector names no PC format; if all 40 pairs are equal (a blank disk) half the disk is dropped on load and it cannot be saved. Other sizes, including 1760K Amiga images, are refused.",
  "all images of every supported standard size, all sequences of sector writes",
  "256^n images.",
  ["src/file_parsers/raw.rs: load_image, save_image", "src/diskimage.rs: post_load_process, normalize, closest_format"])
p("C22", "Sector view reads are flat-file reads",
  "Reading a disk of a standard PC format through a sector view, with any sequence of reads and seeks, returns exactly the bytes of the concatenation of the disk's sectors in order, at the current position (a seek to the end or beyond is an error and does not move). The exception: once a read has been cut short by the end of the disk, the view behaves as a file again only after an absolute seek to a sector other than sector 1 of the last track; a seek into that sector reads nothing, and a relative seek starts from a wrong position.",
  "all disks with the view's layout, all sequences of read/seek of any size",
  "All histories.",
  ["src/sector_view.rs: StandardSectorView::read, seek, next_sector"])
p("C23", "Sector view writes are flat-file writes",
  "Using a sector view, on a disk of a standard PC format, with any sequence of reads, writes, seeks and flushes, in which every write stays within one sector and is flushed (or followed by a seek on the same track) before the view leaves that sector, each call returns what it would return on a flat file, and after a final flush the disk holds exactly the flat file with the written bytes replaced. The exceptions: a write that reaches into the next sector, and a write followed by a seek to another track, report success and store the sector in the wrong place.",
  "all disks, all sequences of writes, seeks and flushes",
  "All histories across sector boundaries.",
  ["src/sector_view.rs: StandardSectorView::write, seek, commit_sector"])
p("C24", "Track map integrity",
  "After any sequence of track additions, removals of empty or odd tracks, the track maps of both heads only refer to existing tracks, no track is referred to twice, the n-th added track of a head is found at cylinder n of that head, and track iteration visits each mapped track exactly once ordered by cylinder then head.",
  "all histories of add/remove operations",
  "All histories.",
  ["src/diskimage.rs: add_track_*, add_empty_track, track, track_iter, remove_odd_tracks, remap_tracks"])
p("C25", "Resolution lock",
  "Unless multi-resolution support was requested, a disk image only ever contains tracks of one resolution, for every history of calls: a call asking for a different resolution fails and leaves the image unchanged, and a track of the same resolution is accepted. Exceptions found: an add that fails for another reason still locks an empty image to its resolution, and in a multi-resolution image an empty track is created with the resolution of the first track instead of the one asked for.",
  "all histories of track additions",
  "All histories.",
  ["src/diskimage.rs: add_track_fluxstream, add_track_bitstream, add_track_metasector"])
p("C26", "Image analysis reports required capabilities",
  "After analysis, the required capabilities contain data CRC errors, address CRC errors, deleted data, missing data marks, variable sector size or variable sectors per track exactly when some track (two tracks for the last) shows it, the per-track analysis is exactly the presence of those properties among the sectors of the track, and a reported uniform sectors-per-track count is that of every non-empty track. Exceptions found: different sector sizes on different tracks are not noticed, 128-byte sectors are not counted, weak bits are never reported, a missing data mark on a MetaSector track is not reported, and tracks of 256 or more sectors make analysis panic.",
  "all disk images",
  "All combinations of track contents.",
  ["src/diskimage.rs: analyze", "src/track/mod.rs: TrackAnalysis::join", "src/types/structs.rs: DiskAnalysis"])
p("C27", "Next-id chain cycles through the track",
  "On a track with distinct sector numbers, following next_id from any sector visits every sector of the track in order and returns to the start; the id after the last sector is the first sector; a sector number not on the track has no next id. (On a MetaSector track the cylinder and head of the answer are those of the question.) Exception found: with a repeated sector number the chain can miss sectors for ever.",
  "all tracks, all sectors, any number of steps",
  "All tracks.",
  ["src/track/metasector.rs: next_id", "src/track/bitstream.rs: next_id"])
p("C28", "Standard format tables are consistent",
  "For every standard format, the reported disk size equals cylinders*heads*sectors*sector size, a format identified from a size or geometry has that size or geometry, and converting a format to its size (or geometry) and back identifies the same format, except for the 1.76 MB Amiga format, which no size or geometry identifies.",
  "all standard formats",
  "Finite but cross-table; a test written per table misses the missing row.",
  ["src/types/standard_format.rs"])
p("C29", "BIOS parameter block identifies the format it was written for",
  "For every PC standard format, writing its BPB into any boot sector and parsing it back yields the same BPB, modifies only bytes 0x0B..0x1F, is considered valid, and identifies the same standard format.",
  "all PC formats and all 512-byte boot sectors",
  "All 256^512 boot sectors.",
  ["src/boot_sector/bpb.rs", "src/boot_sector/bootsector.rs"])
p("C30", "ImageDisk files",
  "Every ImageDisk file of valid tracks is loaded with the tracks of each head in file order and every sector carrying the id of its maps, exactly the data of its record (verbatim, a repeated byte, or none if unavailable) and the deleted and error flags of its marker; only such files are accepted, unknown data markers are rejected, and the loader panics exactly when there is no complete track header or a valid header announces 128 sectors or more.",
  "all files, tracks and data markers",
  "All files.",
  ["src/file_parsers/imd.rs: ImdFormat::load_image, ImdTrack::read_data, ImdTrack::from_reader"])
p("C31", "File timestamps are correct calendar dates",
  "Converting a time since the Unix epoch gives the correct proleptic Gregorian date and time of day for every second up to the end of the year 65535, and an error beyond; distinct seconds give distinct, ordered dates.",
  "all second counts",
  "2^64 inputs.",
  ["src/file_system/date_time.rs: TryFrom<SystemTime>, days_to_ymd, day_of_year_to_month_day"])
p("C32", "Tree map traversal visits every node once",
  "For any tree built by add_child, traversal calls the callback exactly once per node, parents before children, with children in insertion order.",
  "all construction histories",
  "All trees.",
  ["src/tree_map.rs: FoxTreeMap::add_child, for_each"])
p("C33", "Container CRCs",
  "The table-driven CRC-32 used for MOOF/WOZ files equals the bitwise reflected CRC-32 used for IPF files on every buffer; CRCs computed in pieces equal CRCs of the whole; changing any bits within a 32-bit window of a PCE chunk changes its CRC.",
  "all buffers, all split points, all bursts",
  "All buffers.",
  ["src/file_parsers/as/crc.rs", "src/file_parsers/ipf/crc.rs", "src/file_parsers/pce/crc.rs"])
p("C34", "PCE chunk round trip and corruption detection",
  "A chunk written by the PRI writer is read back with the same type and data, with the reader positioned at the next chunk (a payload above the 1 MiB limit is written but rejected when read); a chunk whose type, payload or CRC is damaged within 32 consecutive bits is rejected with a CRC error.",
  "all chunk types, all payloads, all following bytes, all damage patterns within 32 bits outside the size field",
  "All payloads and all damage patterns.",
  ["src/file_parsers/pce/pri.rs: write_chunk, write_chunk_raw, read_chunk", "src/file_parsers/pce/crc.rs"])
p("C35", "PRI image round trip",
  "Saving a bitstream image as PRI and loading the result (also when other bytes follow it) restores for every track the cylinder, head, number of bit cells and every bit cell, and the geometry of the disk. What is not restored is exactly this: the weak-bit mask of a track with weak bits comes back with every bit one cell later, and every data rate comes back as 0. Images of other resolutions are rejected; an image without any track, or with a comment above 1000 bytes, makes loading, or saving, panic.",
  "all bitstream images whose tracks are labelled with their position, fit the 1 MiB chunk limit and can be scanned as tracks (all loaded and all formatted tracks), all rates and comments, all following bytes",
  "All images: any number of cylinders on either head, any cells, any weak mask.",
  ["src/file_parsers/pce/pri.rs: load_image, save_image", "src/track/bitstream.rs: write_weak_mask_u32", "src/image/mod.rs: add_track_bitstream"])
p("C36", "Weak bits detection predicate",
  "A MetaSector track reports weak bits exactly when a sector was added with a non-zero weak mask. On a bitstream track the weak mask derived from the cells marks exactly the cells at the end of a run of more than the given number of zero cells, and weak regions are counted exactly when such a run is followed by a one. Exception found: the weak-bits predicate of the MFM codec is true of every track (operator precedence).",
  "all tracks",
  "All bitstreams.",
  ["src/bitstream_codec/mfm.rs: detect_weak_bits, has_weak_bits, create_weak_bit_mask"])
p("C37", "FM codec",
  "FM cells (a clock bit of 1 before every data bit) are decoded to their bytes; what is written at a clock position of an FM track is read back there and nothing else changes; a marker search returns the first FM address mark (clocks FF FF FF C7, matching data) at or after the start, except that a mark at cell 0 panics.",
  "all tracks, buffers, positions and markers",
  "All buffers and positions.",
  ["src/bitstream_codec/fm.rs: encode, read_decoded_u8, read_decoded_buf, write_encoded_buf, write_raw_u8, find_marker, Seek, Read"])
p("C38", "Bytes read of a track raw equal bitcells",
  "Raw reads of a track at any byte position return the underlying bitcells, and raw writes modify exactly these bitcells.",
  "all tracks, positions and values",
  "All tracks and positions with wrap-around.",
  ["src/bitstream_codec/mfm.rs: read_raw_u8, write_raw_u8, read_raw_buf, write_raw_buf"])
p("C39", "Sector reads never mix two sectors",
  "A successful sector read in normal mode on any loaded bitstream track returns the bytes decoded at the data element that directly follows a header with a good CRC that agrees with the query, with the id, deleted flag and CRC status of that element. Exception found: in debug mode the bytes of a header with a wrong CRC are returned as the sector's data.",
  "all tracks and queries",
  "All tracks.",
  ["src/track_schema/system34.rs: find_sector_element"])
p("C40", "Metadata of a track with a missing data mark",
  "On every loaded bitstream track two header marks in a row make the first a header without data mark, which carries the id in its decoded bytes and its true header CRC status; a read whose first matching header has no data mark reports no_dam, not_found, that id and that status, and no data. Exceptions found: a header without data mark is never in the sector list, and for one at the end of the track the CRC status is inverted.",
  "all tracks",
  "All tracks.",
  ["src/track_schema/system34.rs: scan_metadata"])

p("C41", "Guessing a layout from a raw image size",
  "Every layout proposed for a raw image size accounts for exactly that many bytes with the requested sector size, and the proposed layouts are exactly those with 8-18 sectors and either 2 heads and 39-44 or 79-85 cylinders, or 1 head and an odd number of cylinders in those ranges or an even number from 78 to 88. Exception found (to the intention): single-sided images with 40 (or 42, 44) tracks are therefore never recognised.",
  "all image sizes, sector sizes and geometries",
  "All sizes.",
  ["src/types/sector_layout.rs: SectorLayout::derive_matches"])

p("C42", "Sync search and track phase",
  "Looking for the first sync run (32 cells 1010...) of a raw track finds exactly the first run after cell 0, and none when there is none. Exception found: the index returned is one less than the start of the run, so the clock phase derived from it is always the inverse of the phase of the track's clock bits.",
  "all bitstreams",
  "All bitstreams; an off-by-one in the index inverts the phase and only shows on tracks read without a seek.",
  ["src/bitstream_codec/mfm.rs: find_sync, get_mfm_sync_offset, MfmCodec::new"])

p("C43", "Reading a whole track",
  "Reading all sectors of a MetaSector track (whose sectors have data and no weak bits), or of a formatted and arbitrarily edited bitstream track with one sector size, returns the concatenated data of its sectors in track order, limited to the requested number of sectors, with the number of sectors read and the deleted/CRC-error flags being exactly those of the sectors read; not_found is reported exactly for an empty track.",
  "all MetaSector tracks without weak bits, all formatted bitstream tracks, all write histories, all track lengths",
  "All tracks.",
  ["src/track/metasector.rs: read_all_sectors", "src/track/bitstream.rs: read_all_sectors"])

p("C44", "Flux tracks present their best revolution",
  "A flux track behaves exactly like the bitstream decoded from one of its revolutions, and that revolution is the first one with the highest quality score. Exception found: when no revolution has a positive score it is the first revolution, whatever the scores.",
  "all flux tracks with any number of decoded revolutions",
  "The selection ranges over any number of revolutions with any scores.",
  ["src/track/fluxstream.rs: analyze_revolutions, get_bitstream, read_sector, write_sector", "src/diskimage.rs: add_track_fluxstream"])
p("C45", "Normalisation after loading loses no data",
  "Loading either keeps all tracks of an image or keeps every second cylinder of each head, renumbered consecutively from 0; for an image of 80 or 81 cylinders every track dropped from head 0 was empty or had the hash of the track before it. Exceptions found: with between 51 and 79 cylinders, and on head 1, tracks with unique data are dropped.",
  "all images with any number of tracks",
  "The thresholds depend on the track counts of both heads; only particular counts show the loss.",
  ["src/diskimage.rs: normalize, detect_empty_odd_tracks, detect_duplicate_odd_tracks, remove_odd_tracks, remap_tracks"])

p("C46", "Formatting a disk image",
  "Formatting a disk image with a PC format leaves a disk on which every sector of the format's geometry exists, in order, and reads without errors; sector 1 of cylinder 0, head 0 holds the boot sector template with the parameter block of the format (and the creator string), all others hold zeros; there are no other tracks, and the reported analysis is that of the format.",
  "all PC formats, all previous image contents, all boot sector templates of at least 512 bytes and creator strings",
  "All previous contents, templates and formats; the sectors must not alias anywhere on 160 tracks of up to 400,000 bitcells.",
  ["src/diskimage.rs: format, format_track, add_empty_track, write_boot_sector, read_boot_sector", "src/boot_sector/bootsector.rs"])
p("C47", "The parameter block describes the volume",
  "The parameter block written for a PC format describes a volume that fills the disk exactly, has the sectors per track, heads and sector size of the format, and - except for the 2.88 MB format - a FAT12 volume whose FATs have an entry for every cluster.",
  "all PC formats",
  "Derived quantities (clusters, FAT entries) of each table row.",
  ["src/boot_sector/bpb.rs: TryFrom<StandardFormat>"])
p("C48", "Format names",
  "A string is accepted as the name of a standard format exactly if it is, in any mix of upper and lower case, the name of that format with an optional leading pc_; in particular the displayed name of every format parses to that format.",
  "all ASCII strings and all formats",
  "All strings.",
  ["src/types/standard_format.rs: StandardFormatParam FromStr, Display, list"])

p("C49", "Weak cells read as random, all others exactly",
  "Every data bit of a decoded read is the stored bit, except where the weak-bit mask given to the codec is set: there it is the random source's bit. Hence reads that touch no weak cell are repeatable, and a weak cell is never confused with a neighbour.",
  "all codecs with any mask, all positions in phase with the clock map (with wrap-around), all lengths, all random sources",
  "All tracks, masks and random sequences; a test samples a random source a few times.",
  ["src/bitstream_codec/mfm.rs: read_decoded_u8, read_decoded_buf, set_weak_mask, enable_weak"])

p("C50", "PSI files load as the tracks they describe",
  "A PSI file (a header with one of the six known sector formats, chunks with correct sizes and CRCs, END) whose sectors are grouped by track and not marked as alternate copies loads as exactly the tracks it describes: per head in the order of the file, each sector with the ID of its IBM header, or else of its sector header, its data (stored, or one byte repeated) and its error, deleted and missing-data flags; other chunks make no difference. Conversely only such sequences of chunks with at least one sector header load, and a panic occurs only for a file without a sector header, with an OFFS chunk of fewer than four bytes, or with an alternate copy. Exceptions found: a sector of a track that the file has left is added to the track read last; an alternate copy of a stored sector panics; the IBM header of a compressed sector is applied to the next sector.",
  "all files (any number of tracks, sectors and other chunks, any data up to the chunk limit)",
  "All byte strings.",
  ["src/file_parsers/pce/psi.rs: load_image, read_chunk, decode_psi_sector_format", "src/track/metasector.rs: add_sector"])

p("C51", "86F files load as the tracks that were saved",
  "An image of MFM bitstream tracks (one or two heads in its geometry, tracks on every cylinder of both heads, double or high density, at most 1 MiB per track) is saved as an 86F file that loads as the same tracks at the same heads and cylinders, each cylinder twice when there are fewer than 80 of them, at most 256 of them, with density, speed and write protection. Cells that are not weak are unchanged; a track without weak cells is restored exactly; the weak cells are restored for tracks of an even number of bytes. Exceptions found: the data below weak cells is overwritten with ones; the weak cells of a track with an odd number of bytes come back eight cells late; the data rate is not restored; an image without tracks on the second head cannot be saved; an extended density image is saved but refused when loaded; an image without cylinders is saved to a file that panics the loader, and so does any file whose first track offset is below 8.",
  "all images of bitstream tracks (any cells, any weak masks, any number of cylinders)",
  "All images.",
  ["src/file_parsers/f86.rs: save_image, load_image", "src/track/bitstream.rs: new", "src/bitstream_codec/mfm.rs: has_weak_bits"])

p("C52", "Closest standard format",
  "Asking for the standard format closest to an image gives, when the boot sector is to be trusted, the format its parameter block identifies, and otherwise the format matching the shape of the image (head count, a number of tracks near 40 or 80, the common number of sectors per track), each falling back to the other only when it identifies nothing.",
  "all images, boot sectors and both settings of the trust flag",
  "The decision depends on all combinations of two partial identifications; saving a raw image relies on it.",
  ["src/diskimage.rs: closest_format", "src/types/standard_format.rs: normalized_track_ct, TryFrom<&DiskChs>"])

p("C53", "TransCopy files load as the tracks of their tables",
  "A TransCopy file for a PC disk (magic number, known disk type, starting cylinder 0, increment 1, one or two sides, four tables with the same number of used entries, every track inside the file) loads as tracks on cylinder i / sides, head i mod sides, whose cells are exactly the bytes that the offset and size tables assign to track i, and in which a cell is weak exactly if it and the six cells before it are zeros. Only such files load, and a panic can only come from scanning a track. Exception found: the number of tracks is rounded down to an even number, so a one-sided image with an odd number of tracks loses the last one.",
  "all files (any number of tracks, any data)",
  "All byte strings.",
  ["src/file_parsers/tc.rs: load_image", "src/track/bitstream.rs: new", "src/bitstream_codec/mfm.rs: create_weak_bit_mask"])

p("C54", "HxC MFM files load as the tracks of their list",
  "An HxC .mfm file (magic number, a track list and track data inside the file, sides 0 and 1) with plain or advanced track entries loads as one track per entry, on the head the entry names, in the order of the list, with exactly the cells stored at the offset of the entry (for advanced entries exactly the number of cells given). When the entries of each side are listed for ascending cylinders from 0, every track is on its cylinder. Every other file is refused, except that a file shorter than the header loads as an empty image. Exceptions found: the cylinder numbers in the list are otherwise ignored, so tracks listed in another order are exchanged, and the cylinder recorded in a track is taken modulo 256.",
  "all files (any number of tracks, any data, any order of the list)",
  "All byte strings.",
  ["src/file_parsers/mfm.rs: load_image, read_track_data"])

p("C55", "HFE files load as the tracks they hold",
  "An HFE file (magic number, index and tracks inside the file, even lengths, tracks in ascending order) loads as one track per cylinder and side (side 1 only if the header gives more than one side); the cells of side 0, and those of side 1 when the length is a multiple of 512, are exactly those that the format stores in alternating 256 byte half blocks, least significant bit first. Only such files load. Exceptions found: in an incomplete last block the cells of side 1 are taken from directly behind those of side 0 instead of from the second half of the block; a file whose tracks are not in ascending order panics the loader.",
  "all files (any number of tracks, any lengths, any data)",
  "All byte strings; the existing test covers only the bit reversal table.",
  ["src/file_parsers/hfe.rs: load_image, reverse_bits"])

p("C56", "TeleDisk files load as the sectors they hold",
  "A TeleDisk file (header with a good CRC, optional comment, tracks with good check bytes, sectors whose plain, paired or run-length record fills the sector exactly and matches the sector's check byte; compressed files after decompression) loads as one track per track record, filed per head in file order, with every sector that has data under its recorded id, exactly its expanded data and its error and deleted flags. Only such files load. Files compressed by the LZHUF coder (whatever tokens it chose), or whose LZW codes stand for such contents, load as these contents. The loader panics exactly when a run-length entry crosses the end of its sector, or a chunk of an LZW file starts with a code that is not a byte. The checksum is a 16-bit polynomial remainder, so a burst of up to 16 bits in the header is noticed. Exceptions found: sectors recorded without data vanish; the two bytes of a repeated pair come out exchanged; a single-bit error in sector data can pass the 8-bit check; a comment that is not UTF-8 makes the file unreadable, while a wrong comment CRC is ignored.",
  "all files (any number of tracks, sectors and records, any data, plain or compressed)",
  "All byte strings; there is no test for the record encodings.",
  ["src/file_parsers/td0.rs: load_image, td0_decompress_repeated_data, td0_decompress_rle_data, td0_crc, calc_crc"])

p("C57", "LZHUF expansion is total and exact",
  "Expanding any TeleDisk 2.x file of at least 12 bytes succeeds (it never panics or loops) and gives exactly the output of the one sequence of literals and copies that its bits hold, read with the adaptive Huffman code of the symbols before (the code of a Huffman tree for their counts) and the fixed code for copy distances, up to the first incomplete token or the size limit of 2^32-1. All output consists of bytes. Exception found: below 12 bytes the function itself panics (its caller reads 12 bytes before).",
  "all byte strings (any length, any contents)",
  "Every bit string, and the tree depends on the whole history; the existing tests expand three files.",
  ["src/file_parsers/compression/lzhuf/lzhuf.rs: expand", "src/file_parsers/compression/lzhuf/adaptive_huff.rs: AdaptiveHuffmanDecoder, AdaptiveHuffmanTree", "src/file_parsers/compression/lzhuf/ring_buffer.rs"])

p("C58", "What the LZHUF coder writes, the expander reads",
  "For every sequence of literals and copies, the bits the coder writes for it expand to its output, followed at most by the output of seven further tokens made of the zero bits filling the last byte. This holds for sequences of up to 3867 tokens, and for longer ones as long as no codeword is longer than the 16 bits the coder can write.",
  "all sequences of tokens, all headers",
  "Every sequence of tokens: each token's code depends on all tokens before it.",
  ["src/file_parsers/compression/lzhuf/adaptive_huff.rs: AdaptiveHuffmanCoder", "src/file_parsers/compression/lzhuf/lzhuf.rs: expand"])

p("C59", "The adaptive Huffman code stays a Huffman code",
  "Whatever symbols are coded (for any alphabet of 2 to 32767 symbols), updating never fails; the tree stays a Huffman tree (sibling property) for the counts, which are halved, rounding up, each time they add up to 0x8000; the decoder reads exactly the codewords of this tree, and stops exactly when no complete codeword is left. Codewords have at most 16 bits while the counts add up to less than 4181.",
  "all alphabets and all histories of symbols",
  "All histories: the tree is restructured after every symbol.",
  ["src/file_parsers/compression/lzhuf/adaptive_huff.rs: AdaptiveHuffmanTree (create, update, rebuild_huff), AdaptiveHuffmanDecoder::decode_char"])

p("C60", "LZW expansion is exact",
  "The bits of a TeleDisk 1.x file after its header fall into chunks: a 16-bit count and 12-bit codes, least significant bit first. If every code stands for a string (a byte, or the string of an earlier code of its chunk followed by the first byte of the next), the file expands to the strings of its codes; otherwise it is rejected as corrupt, as are files above the size limit. Exception found: if the first chunk with a bad code starts with a code that is not a byte, the expander panics; it panics in no other case.",
  "all byte strings",
  "All byte strings and all chains of codes; the existing tests compress and expand a few strings, none with bad codes.",
  ["src/file_parsers/compression/lzw/mod.rs: expand, LZWDecoder, LZW"])

p("C61", "MFM flux decoding is exact for jittery, off-speed flux",
  "If the flux transitions of a revolution lie within 7% of a cell of the places where cells of some length put them (2, 3 or 4 cells apart), and the decoder's clock starts within 3% of that length, then the decoded cells are exactly the recorded ones, whatever the number of transitions; with enough medium distances the revolution is taken as MFM and the track made of it has exactly those cells. Whatever the input, the clock never leaves its range of 20% around the nominal clock. This holds in floating point as long as its rounding errors are small against a cell.",
  "all streams of transitions (any number), all jitters up to 7%, all clocks up to 3% off, all rounding functions with small errors",
  "A feedback loop over an arbitrarily long stream: errors could accumulate after any number of transitions; tests only decode sample images.",
  ["src/flux/pll.rs: decode_mfm", "src/flux/flux_revolution.rs: decode_direct", "src/flux/mod.rs: detect_encoding", "src/track/bitstream.rs: new"])

p("C62", "Structure of decoded flux and sync markers",
  "Whatever the input, the decoded cells hold at most one 1 per flux transition and end with one; the markers reported are exactly the positions at which sync zeros followed by two A1 marks with missing clock have been decoded. Exceptions found: FM decoding of a perfect FM stream with a perfect clock gives wrong cells (the window is half a cell late), and a phase error of a thousandth of the period already drives the FM clock to its limit.",
  "all streams of transitions, all rounding functions",
  "All input streams; the tests do not look at the markers or at FM flux.",
  ["src/flux/pll.rs: decode_mfm, decode_fm"])

p("C63", "Synthetic revolutions",
  "Synthesizing revolutions keeps all existing revolutions and appends, for each pair of neighbouring revolutions whose numbers of transitions differ by exactly two, the pair with the border between the two moved by one transition (so both get the same number, no transition is lost or invented and index times are kept), and nothing else.",
  "all lists of revolutions",
  "All sequences of revolutions of any lengths.",
  ["src/track/fluxstream.rs: synthesize_revolutions", "src/flux/flux_revolution.rs: from_adjacent_pair"])

p("C64", "Loading SuperCard Pro files",
  "A SuperCard Pro file gives one flux track per entry of its track table, cylinder by cylinder and head by head, made of exactly the revolutions stored for it: index time in units of 25 ns, transitions as big-endian words in units of the capture resolution with zero words extending the next time by 65535 units. Only such files load. Loading can panic only where listed. Exceptions found: a zero word stands for 65536 units in the format, so long times are short by one unit per zero word; tracks behind an unused (zero) table entry are silently dropped; a first table entry of 16..19 panics.",
  "all byte sequences given as a file, all results of decoding a track",
  "All files; the tests load a few sample images.",
  ["src/file_parsers/scp.rs: load_image, convert_flux_data", "src/diskimage.rs: add_track_fluxstream", "src/track/fluxstream.rs: add_revolution"])

p("C65", "Loading PCE flux files",
  "The data of a PFI track is read as exactly the times it codes, cut at the index clocks: one revolution from each index pulse to the next (the last one ending with the data), with the sum of its times as index time; what comes before the first pulse and behind the last is left out; malformed data is rejected. A file with the tracks in order of cylinders and heads loads as one flux track per TRAK/INDX/DATA group at its cylinder and head, whatever other chunks are between; only well-formed chunk files load. Loading can panic only where listed. Exception found: the recorded cylinder and head of a track are ignored, tracks are placed one after the other.",
  "all byte sequences given as track data or as a file, all results of decoding a track",
  "All files, all positions of the index pulses relative to the transitions; the tests load one sample image.",
  ["src/file_parsers/pce/pfi.rs: load_image, read_chunk, read_track_data"])

p("C66", "Loading KryoFlux stream files",
  "A stream file without hardware error that reaches at least two index positions loads as the track of its complete revolutions: between every two neighbouring index positions the stream reaches, exactly the transitions whose stream position lies between them, with their times (overflow marks added), and the difference of the index counters as index time; fillers and information blocks change nothing. A file without end-of-file block, with a hardware error or with only one reachable index position is rejected with an error; only such streams are accepted; a failed load leaves the image's tracks alone. Exceptions found: positions are counted without overflow marks and three-byte transitions, so that revolutions behind one are cut too late; a stream without a reachable index position panics.",
  "all byte sequences given as a stream file, all results of decoding a track",
  "All streams and all positions of index blocks relative to the transitions; the tests load sample sets.",
  ["src/file_parsers/kryoflux.rs: load_image, read_index_block, read_block", "src/util.rs: read_ascii"])

p("C67", "KryoFlux sets",
  "Given the path of one stream file of a set, loading finds the other files of the set by their names: the same prefix (compared without regard to case), a cylinder number of at least two digits, a period, the head, and .raw. Exactly the files present are used, cylinder by cylinder and head by head, up to the first cylinder from 80 on without a file for head 0; the geometry is the number of cylinders and of heads with a file; the search ends. A complete set loads as a disk with one track per file, each at the cylinder and head its file is named after; loading ends without error at the first file that is no valid stream, and with an error at one that cannot be read. Exceptions found: the files of a set with a capital letter in the prefix are found but cannot be opened where names are case-sensitive; if files are missing, the later ones come to the wrong cylinders.",
  "all directory listings, all paths, all contents of the files, all results of decoding a track",
  "All sets of file names, with any gaps; the tests load complete sample sets.",
  ["src/file_parsers/kryoflux.rs: expand_kryoflux_set", "src/diskimage.rs: DiskImage::load (KryofluxSet)"])

p("C68", "The clock for decoding flux",
  "The base time found by the transition histogram is the time of at least 0.5% of the transitions of the sample it was made of (up to a sixteenth and 3 ns). Without a hint the clock chosen for a revolution always lies between 0.49 ns and 10 us, so that choosing it and setting up the PLL never panics or fails, whatever the transition times and the index time are; the refinement by the start of the track keeps the clock or moves it by less than 25.01% to half the base time of the first 2% of the transitions.",
  "all lists of transition times, all index times, all hints, all ways of rounding with a relative error up to 2^-53",
  "All flux data; the tests decode samples. Findings: a hint of one second or more panics; the refinement can move an exact clock more than 3% off (half the width of a histogram bucket).",
  ["src/flux/histogram.rs: FluxHistogram", "src/track/fluxstream.rs: decode_revolutions", "src/types/rpm.rs: try_from_index_time, adjust_clock"])

p("C69", "Standard flux tracks decode exactly",
  "A revolution of a standard MFM recording (cells within 1% of 2 us at about 300 RPM, or within 1% of 1 us; every transition within 1% of a cell of its place; at least 6% of the distances 3 cells) is decoded, without any hint, to exactly the recorded cells: double density by its 20000 to 41665 transitions, high density by 50000 or more, any other number by the histogram when at least 2% of the distances are 2 cells; with the right clock hint for any number. A SuperCard Pro file of such revolutions that loads shows on every track exactly the cells one of its revolutions recorded.",
  "all recordings with these tolerances, all numbers of transitions, all SCP files of such tracks, all ways of rounding with a relative error up to 2^-53",
  "All combinations of jitter, drift and data; the tests load samples of unknown contents.",
  ["src/flux/histogram.rs: FluxHistogram", "src/flux/pll.rs: decode", "src/track/fluxstream.rs: decode_revolutions, synthesize_revolutions", "src/types/rpm.rs", "src/file_parsers/scp.rs: load_image"])

p("C70", "MAME floppy images load track for track",
  "An MFI file (signature, known form factor, a track table inside the file whose data do not go backwards) loads as one flux track per table entry in cylinder-major order, with exactly the times of its flux words below 2^28 in order (none for an entry without data), the words of zones left out; only such files load. Loading panics only when decoding a track does or for a flux word of a type above 3.",
  "all byte sequences as files, all results of decompression and of track decoding",
  "The table, the compressed data and the words come from outside in any combination; tests load a few samples.",
  ["src/file_parsers/mfi.rs: load_image, process_track_data_new, mfi_read_flux", "src/track/fluxstream.rs"])

p("C71", "Flux times of MFI tracks are brought to the real speed",
  "MFI stores angles, read as times at 300 RPM. The times of standard double and high density tracks at 300 RPM are left alone. Those of a high density track at 360 RPM (cells within 1% of 1.2 us, transitions within 0.9% of a cell of their place, the first 2% of them with enough 2 and 3 cell distances) are all scaled by 5/6. All of them then decode to exactly the recorded cells, on every track of an image that loads.",
  "all recordings with these tolerances, all images, all ways of rounding with a relative error up to 2^-53, any speed carried over from earlier tracks (about 300 RPM for double density)",
  "All combinations of jitter, drift and data; the tests load samples of unknown contents.",
  ["src/file_parsers/mfi.rs: normalize_flux_times, adjust_flux_times, process_track_data_new", "src/flux/histogram.rs: FluxHistogram", "src/track/fluxstream.rs: decode_revolutions"])

p("C72", "Any cells make a track, unless the first mark is at the first cell",
  "Making a bit track of any data, any cell count and any weak mask of the same length succeeds with exactly these cells, whatever its marks, headers and checksums say, unless the first mark found is at the very first cell, which panics. The only errors are a mask of another length and no data with no length. So HFE, HxC MFM, TransCopy, SuperCard Pro and MFI files with such tracks (standard recordings for flux) always load, and a TransCopy file that panics has a track that starts with a mark.",
  "all cell sequences, weak masks and files",
  "Marks, truncated headers and data fields can be anywhere, and across the end; tests use well-formed tracks.",
  ["src/track/bitstream.rs: new, detect_weak_bits", "src/track_schema/system34.rs: scan_markers, scan_metadata, create_clock_map", "src/bitstream_codec/mfm.rs: find_marker"])

p("C73", "No requests to a loaded track panic",
  "Whatever cells, marks, headers, sizes and checksums a bit track was made of, any sequence of sector reads (data or CRC), scans, writes, CRC recalculations, reads of all sectors and track reads runs without a panic and leaves the place, the number of cells, the sector ids and the positions of all elements of the track as they were; reading requests change no cell. After any such history a sector read returns exactly as many bytes as the sector's header says, or none if it is not found. Recalculating the CRC of a readable sector that is not deleted succeeds, keeps the layout, and the sector then reads back with the same bytes and a valid CRC. Analysis of a track panics for 256 sectors or more and only then.",
  "all tracks that can be made of any cells, all sequences of requests with all parameters, all random bits",
  "Sectors may overlap, wrap around the index, be longer than the track or have any size code; tests use standard tracks.",
  ["src/track/bitstream.rs: read_sector, write_sector, recalculate_sector_crc, read_all_sectors, read, scan_sector, analysis", "src/track_schema/system34.rs: find_sector_element, decode_element, encode_element, analyze_elements"])

p("C74", "Amiga tracks are recognised and read back exactly",
  "With the Amiga schema compiled in (the default), tracks on which System 34 marks are found are made exactly as without it. A track whose cells record Amiga sectors (two zero bytes, two A1 marks with missing clocks, info, empty label, header checksum, data checksum and 512 data bytes, each block as odd then even bits in MFM) between any MFM data is recognised as an Amiga track whichever schema is tried first and whether or not weak bits are looked for; its cells are kept; exactly the recorded sectors are listed, in order, each with a header error iff the recorded header checksum is not that of its header, and a data error iff the recorded data checksum is not that of its data. Reading the first sector a request matches returns exactly the 512 recorded bytes; none are returned for a bad header or a sector that is not there, which is said to be on a wrong cylinder or head exactly when the track has its number with another cylinder or head; scanning for a sector tells the same errors, and the sector after each is the next on the track. The cells that count as data are exactly those of the data checksums and data of the sectors, with one cell after each; that fails for a sector that ends where the track ends, unless wrapping is asked for. Any cells at all can be loaded, unless the first System 34 mark is at the first cell.",
  "all leading and trailing data, all sectors, numbers, contents and checksums, all requests, all random bits; for loading, all cells",
  "The checksums and the odd/even coding depend on every bit of 512 bytes, and a mark must not be seen anywhere else in the cells, whatever the data.",
  ["src/track_schema/amiga.rs: find_next_marker, scan_markers, create_clock_map, scan_for_elements, checksum_u32, decode_interleaved_u32, find_sector_element, decode_element, analyze_elements", "src/track/bitstream.rs: BitStreamTrack::new, read_sector, analysis", "src/track_schema/dispatch.rs"])

p("C75", "Operations on Amiga tracks",
  "The API promises the same operations on Amiga tracks as on others; those that do not work are shown: sectors with a label and correct checksums have a header error and cannot be read; a write reports success and changes nothing; the sector count is 0, no sector number is present and reading the whole track finds nothing although all sectors are listed; tracks numbered from 0 as the Amiga does are reported as nonconsecutive; a read with a smaller size code panics; a read reports a data error together with two checksums that agree when only an odd-numbered bit of the recorded one is wrong.",
  "all Amiga tracks as in C74, all requests",
  "These fail for every Amiga track; the project's tests load Amiga images but do not use these operations on them.",
  ["src/track_schema/amiga.rs: encode_element, checksum_u32, decode_element, analyze_elements", "src/track/bitstream.rs: write_sector, sector_ct, has_sector_id, read_all_sectors, next_sector", "src/track_schema/mod.rs: is_sector_header"])

p("C76", "IPF images load as the disk they describe",
  "An IPF file (CAPS, INFO, an IMGE record per track, and a DATA record with its extra data block per track in the same order; each chunk with its CRC-32; encoder 1 or 2; the cells of the whole disk, each track once and in any order) loads. Every track is found under its cylinder and head with exactly the cells its stream elements describe: sync as it is, data and gaps in MFM, laid from the first bit on round the track, over alternating cells. The geometry is that of the INFO record. If the cells record Amiga sectors, exactly these are listed, each with a header or data error iff its recorded checksum is wrong. A chunk damaged within 32 consecutive bits of its data is never read; if it is the first, the file is rejected.",
  "all IPF files of this form with any number of tracks, blocks, elements and any sizes, in any order of tracks; all damage within 32 bits",
  "The loader follows offsets, sizes and keys of the file over six record types, sorts the tracks, and goes round the track with a position the stream determines; the CRC depends on every bit.",
  ["src/file_parsers/ipf/ipf.rs: load_image, read_ipf_track", "src/file_parsers/ipf/chunk.rs", "src/file_parsers/ipf/v1_track.rs", "src/file_parsers/ipf/v2_track.rs", "src/file_parsers/ipf/stream_element.rs", "src/file_parsers/ipf/data_block.rs", "src/file_parsers/ipf/image_record.rs: sort", "src/diskimage.rs: add_empty_track", "src/track/bitstream.rs: rescan"])

p("C77", "IPF images: reading, order, damage",
  "Sectors listed on the tracks of an IPF image can be read; DATA records are paired with their IMGE records by key; truncated or damaged files are rejected; data elements that follow each other are one MFM stream; gaps hold what their gap streams say; samples may be counted in bits. None of these hold: every read of a listed Amiga sector answers 'not found'; with DATA records in another order tracks are exchanged; a file that ends after the IMGE records, or whose first DATA chunk is damaged, panics; two data elements in a row break the MFM rule after a 1 bit; gap cells are those of a new track whatever the gap stream says, and a gap stream of few bytes with a large repeat count panics; the first sample of a block counted in bits is read as counted in bytes.",
  "all disks of Amiga tracks and all read requests; all truncated files; all files with two tracks alike but for their data",
  "These fail for every such file; the project's tests read IPF files only as far as the number of tracks.",
  ["src/track/bitstream.rs: rescan, read_sector", "src/file_parsers/ipf/ipf.rs: load_image", "src/file_parsers/ipf/v2_track.rs", "src/track_schema/system34.rs: find_sector_element"])

p("C78", "Building images",
  "Building a formatted image of a PC format with ImageBuilder succeeds: the image has the geometry of the format, every sector reads without error, the boot sector is the default boot sector with the parameter block of the format and the creator tag (cut off or padded to 8 bytes), all other sectors are zero, the parsed boot sector names the format, and saving yields exactly these bytes. Building an unformatted bitstream image yields blank tracks at every position, which can be formatted later. What cannot be built is refused with an error, and building never panics. One part fails: unformatted sector images are built with no tracks at all.",
  "all formats, builder settings, creator tags and later format calls",
  "Tests build one or two formats; the claim is about every sector of every format and every creator tag.",
  ["src/image_builder.rs: with_standard_format, with_resolution, with_formatted, with_filesystem, with_creator_tag, build, build_bitstream, build_metasector", "src/diskimage.rs: create, set_resolution, add_empty_track, format, post_load_process"])

p("C79", "Locks around an image",
  "A disk image behind a TrackingLock can be used by any number of threads: a write guard excludes every other guard, read succeeds iff no write guard is alive and otherwise names the context that holds it, write succeeds iff no guard is alive and otherwise names exactly the contexts that hold one, each once; a refusal changes nothing. A single thread never makes it panic. With several threads it fails: while another thread is in the middle of dropping a guard, read and write panic instead of returning an error, and after one panic every later read and write panics. A thread that panics while it holds a write guard makes the image unavailable for ever; a NonTrackingDiskLock of the same image makes the TrackingLock panic; NonTrackingDiskLock never names a holder and RefLock panics on every conflict.",
  "all schedules of reads, writes and the steps of dropping guards by any number of threads, of any length",
  "Tests run one interleaving; the panics need a step between the drop body of a guard and the release of the lock inside it.",
  ["crates/ff_egui_lib/src/tracking_lock.rs: TrackingLock::read, write, Drop for TrackingReadGuard, TrackingWriteGuard, From", "src/disk_lock.rs: NonTrackingDiskLock, RefLock, DiskLock::read, write"])

p("C80", "File trees",
  "In the tree of a file system a path leads to exactly the directory its names lead to, with any number of slashes before, between and after the names; the recursive listing has every file below a node, once, in the order of the directories, by path, short name or long name (the short one where there is none); the extension of a file is what follows the last dot of its short name, the root's entries are listed. Three parts fail: listing any other directory by path answers that there is none, files are never found by path, and the listing of a directory without recursion is empty.",
  "all trees of any depth and size, all names and all paths",
  "Tests list the root of one image; the failures are of every path with a name in it.",
  ["src/file_system/file_tree.rs: FileEntry::name, ext, FileTreeNode::node, dir, for_each_file, file_names, file_paths, resolve_node, resolve_dir"])

p("C81", "Even division of a track",
  "Dividing a length into parts yields exactly as many values as there are parts; the first j of them add up to the length times j over the parts, rounded down, so all add up to the length and each is the even share rounded down, or one more. After the last value nothing is yielded. Zero parts are refused by a panic; with overflow checks a number of parts near 2^64 panics too.",
  "all lengths below 2^64 and all numbers of parts up to 2^63, any prefix of the values",
  "Tests divide five pairs of small numbers.",
  ["src/visualization/data_segmenter.rs: DataSegmenter::new, Iterator for DataSegmenter"])

p("C82", "Copy protection is recognised by the first track that shows it",
  "On an image of sector tracks looking for copy protection never fails. It reports what the first track (by cylinder, then head) that gives a scheme away gives away, and nothing exactly when none does: sector 1 of 256 bytes with bad data (CopyLock, version 2 if its header is bad too), else above cylinder 1 sector 1 of 8192 bytes with bad data (Superlok), else 96 sectors (Interlock); the sector is the first of that number under the track's own cylinder and head. Two things fail: four of the seven schemes are never reported on any image, and an unprotected disk of 256 byte sectors with a single bad sector is reported as protected.",
  "all images of sector tracks; for the schemes never reported, all images",
  "No test looks for copy protection; the claim is about every image and every order of tracks.",
  ["src/copy_protection.rs: DiskImage::detect_copy_protection", "src/track/metasector.rs: MetaSectorTrack::scan_sector"])

out = os.path.join(os.path.dirname(os.path.dirname(os.path.abspath(__file__))), "properties.jsonl")
with open(out, "w") as f:
    for x in P: f.write(json.dumps(x) + "\n")
print(len(P), "properties")
