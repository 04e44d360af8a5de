# Formal model of libwebm in Coq: design

The model lives in `rocq/theories` (logical name `Verif`), Coq 8.16.1, standard
library only.  The code in `/repo` was read, never built or run.

## Conventions

* Bytes and all machine integers are `Z`.  A byte string is `list Z` with
  `Forall is_byte`.  Wrap-around is written explicitly (`wrap64 v = v mod 2^64`,
  `wrap32`, `sint64`, ...).  `nat` is used for lengths and loop fuel only.
* The underlying writer (`IMkvWriter`) is a state: file contents, position, and a
  *schedule* that says for every future `Write` whether it succeeds or fails and,
  when it fails, how many bytes were already stored.  Theorems quantify over all
  schedules.
* The underlying reader (`IMkvReader`, `webm::Reader`) is file contents plus, for
  the incremental parser, a schedule of partial reads and would-block results.
* C++ undefined behaviour (out-of-range index, signed overflow, bad shift) is an
  explicit outcome of the model wherever the code can reach it.
* Loops are structural recursion, or recursion on fuel returning an explicit
  out-of-fuel value; theorems prove that value is not reached.
* A property that is false of the code is proved as `..._refuted` (existential
  with a concrete witness); what does hold is proved next to it.
* Layout: `*Spec.v` small independent specifications; `M*.v` the model, with a
  citation of file and lines on each definition; `P*.v` proofs; `Prop*.v`
  nothing but the property theorems, closed by `exact`, with `Print Assumptions`
  and a non-vacuity `Example` beside each.

## Plan per property

| id | model | method |
|----|-------|--------|
| C01-C03 | `WriteUInt`, `WriteUIntSize`, `WriteID`, `ReadUInt`, `ReadID` byte by byte | arithmetic on base-256 digits, spec = EBML vint definition |
| C04-C06 | `WriteEbmlElement` overloads, `UnserializeUInt/Int/Float/String` | round-trip theorems |
| C07 | `WriteVoidElement` | exact characterisation of accepted sizes; refutation of totality |
| C08 | writer monad with failure schedule | composition lemma for "success implies exact bytes", for every writing function |
| C09-C10 | `WriteSimpleBlock`, `WriteBlock`, `WriteFrame`; `Block::Parse`, `ParseBlockGroup` | round trip |
| C11 | every `Size`/`PayloadSize`/`Write` pair in mkvmuxer.cc | size lemma per element |
| C12-C17 | `Segment`/`Cluster`/`Cues` state machine | invariant over all call sequences |
| C18 | `CopyAndMoveCuesBeforeClusters` | potential function for the recursion (each growth is applied to every cue once), then the layout of the copy from that of the finished file |
| C19 | `SeekHead` | arithmetic; refutation for six entries |
| C20 | `Tracks::AddTrack` numbering | induction over calls |
| C21-C22 | `ReadUInt`, `ReadID`, `GetUIntLength`, `ParseElementHeader` | all inputs |
| C23-C24 | `Block::Parse` and the callback parser's block parser | invariant on the frame list; encoder spec; inversion of the block parser |
| C25 | `FindCluster`, `Cues::Find` | binary search invariant |
| C26 | `AppendCluster`, `PreloadCluster`, `FindOrPreloadCluster` | array invariant over all operation sequences |
| C27 | chapter UID write and read | refutation + range where it holds |
| C28-C32 | resumable parsers of webm_parser with reader schedules | simulation between scheduled and one-shot runs |
| C33-C37 | m2ts and superframe index | list induction |
| C38-C40 | VP9 header parser, level stats, CodecPrivate | invariants |
| C41-C44 | webvtt parser | list induction |

| C45-C46 | PES parser bounds, tick conversion | all inputs; executable IEEE arithmetic |
| C47 | `Cluster` walking | invariant on the reachable cluster objects |
| C48 | webvtt parser on well-formed text | list induction |
| C49 | VP9 header parser against a bit-level writer | bit string algebra |
| C50 | callback parser | measure on bytes left and parser states |
| C51-C53 | mkvparser's metadata parsers (`MParMeta.v`) against the muxer's writers | one shared element loop; round trips over element trees |
| C54 | mkvparser's `Cues` (`MParCues.v`) against the muxer's | the two passes of loading in lockstep; round trip |
| C55-C56 | mkvparser's `Tracks` (`MParTrack.v`) against the muxer's | element chains; exactness of binary32 widening; loop invariants for any data |
| C57 | mkvparser's `Segment` (`MParSegment.v`) on the muxer's files | the muxer's layout theorem composed with the parser's: headers, then clusters one by one, then cues |
| C58 | mkvparser's `Segment` on any data | invariant over all call histories; the position of the next cluster, or the number of entries of an open one, grows |
| C59 | callback parser on well-formed documents | mutual induction over the document grammar (`WpDocSpec.v`) with one claim per element and one per sequence of elements; other arrival schedules by C28 |
| C60 | callback parser on the muxer's files | the muxer's layout theorems (C14, C18) are shown to be documents of C59's grammar; the notifications are then read off (`WpMuxSpec.v`) |
| C61 | callback parser after `DidSeek` | induction over the levels entered by the seek, each finished by the claim of C59 for the rest of its children; the place of an element from the table of ancestors by a check of the whole schema |
| C62 | mkvparser's `Track::GetFirst`, `GetNext` (`MParWalk.v`) | the walk over lazily parsed clusters simulates a search in the list of all entries (`WalkSpec.v`); muxed files by C57; any data by the invariant of C58 |
| C63 | mkvparser's `Track::Seek`, `VideoTrack::Seek`, `Cluster::GetEntry`, `Block::GetTime` (`MParWalk.v`) | binary search by the order of the clusters, the backward search by induction from the end, against a filter over all blocks (`TrackSeekSpec.v`); for files of the muxer through C57 and the order of the clusters (C13), `SeekFileSpec.v` |
| C64 | mkvparser's `Segment::GetBlock`, `Cues::GetBlock`, `Cluster::GetEntry` for a cue point (`MParCueSeek.v`) | lazy parsing up to the wanted entry simulates indexing the list of all entries, the search by time a first-match (`CueSeekSpec.v`); files of the muxer by C57 and C14 (`CueFileSpec.v`); any data by the invariant of C58 |
| C65 | webm_parser's handling of `Action::kSkip` from `OnElementBegin` (`MWpTree.v`) | the induction of C59 over the grammar, which is parametrised by the selection of skipped elements (`document_skip` in `WpDocSpec.v`; C59 is the case that skips nothing) |
| C66 | `BufferReader`, `FileReader`, `IstreamReader` (`MReader.v`) | an invariant relating reader, file offset and position, over any history of calls; right logs (`SourceSpec.v`) are those of the data source in `MWp.v` for some schedule |
| C67 | `MkvReader`, `MkvWriter` (`MFile.v`) | simulation by the reader of `MParUtil.v` and the writer of `MWriter.v` |
| C68 | `CopyColour`, `CopyMasteringMetadata`, `VideoTrack::SetColour` (`MHdr.v`) | invariant of the parsed colour (no sentinel of the muxer can be read), then C55 |
| C69 | the lambdas of `MasterValueParser`, `VideoParser`, `AudioParser` (`MDom.v`) | induction over the children from the end, one table check per structure against the schema of C59 |
| C70 | `CopyVideoProjection`, `SetProjectionPrivate`, `VideoTrack::SetProjection` (`MProj.v`) | invariant of the parsed projection (private data is not empty), then C55 |
| C71 | `SetChunking`, `UpdateChunkName` and what opens and closes files in `MakeNewCluster`, `WriteSegmentHeader`, `Finalize` (`MChunk.v`) | invariant (the number in a name is at most the count, and below it when no chunk is open), induction over the events |
| C72 | `common/webm_endian.cc`, `PrintSubSampleEncryption` (`MEndian.v`) | bits of masked and shifted numbers, induction over the partitions |
| C73 | `sample_muxer_metadata.cc`, the cues in `vttdemux.cc` (`MVttMux.v`) | induction over lines, cues and tracks; the sorted set as an invariant; then C48 |
| C74 | the chapters in `sample_muxer_metadata.cc` and `vttdemux.cc` (`MVttChap.v`) | induction over lines and cues, then C11, C27 and C48 |
| C75 | `BuildMap`, `OpenFiles` of `vttdemux.cc` (`MVttName.v`) | sorted map as an invariant, injectivity of the names |
| C76 | `WriteFiles`, `ProcessCluster`, `ProcessBlockEntry` of `vttdemux.cc` (`MVttFile.v`) | induction on the blocks, with C73 for all tracks together |
| C77 | `dumpvtt.cc` (`MVttDump.v`) | C42 for the end, C48 for the cues; cutting the text at separators for injectivity |

## Trusted base

* The kernel of Coq 8.16.1 (including its `vm_compute` reduction machine, which
  is used for concrete examples and for a few closed computations).
* No axioms of our own, no `Admitted`, no kernel check switched off, no functors,
  no plugins.
* `Print Assumptions` stands after each property theorem.  Unless the list below
  says otherwise the answer is "Closed under the global context": the theorem
  depends on no axiom at all, not even one of the standard library.  Loading
  parts of the standard library brings the module type constants
  `Coq.ssr.ssrunder.Under_rel.*` into the environment (`Under_rel`,
  `Under_relE` and the like, from `Coq.ssr.ssrunder`); no theorem here depends
  on them.
* Theorems that depend on axioms: none.
* That the model is the code.  The model was written by hand from the source; the
  comment on each definition cites the lines it stands for and says what was
  simplified.  The kernel does not check that correspondence.

## What is modelled

| code | model |
|------|-------|
| `mkvmuxer/mkvmuxerutil.cc` (sizes, `WriteUInt`, `WriteID`, element writers, `WriteVoidElement`, block writers) | `MMuxUtil.v`, `MMuxBlock.v` |
| `mkvmuxer/mkvmuxer.h`, `mkvwriter.cc` (the writer interface, as a state with a failure schedule) | `MWriter.v` |
| `mkvmuxer/mkvmuxer.cc` `Frame`, `CuePoint`, `Cues`, `ContentEncoding`, `Track` and subclasses, `Tracks`, `Chapters`, `Tags`, `SegmentInfo`, `Colour`, `Projection`, EBML header | `MMuxBlock.v`, `MMuxMeta.v` |
| `mkvmuxer/mkvmuxer.cc` `SeekHead`, `Cluster`, `Segment` (`AddFrame`, `QueueFrame`, `WriteFramesAll`, `WriteFramesLessThan`, `MakeNewCluster`, `DoNewClusterProcessing`, `CheckHeaderInfo`, `AddCuePoint`, `ForceNewClusterOnNextFrame`, `Finalize`) | `MMuxSegment.v` |
| `mkvparser/mkvparser.cc` `ReadUInt`, `ReadID`, `GetUIntLength`, `UnserializeUInt/Int/Float/String`, `ParseElementHeader` | `MParUtil.v` |
| `mkvparser/mkvparser.cc` `Block::Parse`, `BlockGroup` parsing | `MParBlock.v` |
| `mkvparser/mkvparser.cc` `Cluster::Load`, `Parse`, `GetEntry`, `GetFirst`, `GetNext`, block creation | `MParCluster.v` |
| `webm_parser/src`: all leaf parsers, `IdParser`, `SizeParser`, block parsers, `MasterParser`, `MasterValueParser`, `RecursiveParser`, `UnknownParser`, `SkipParser`, `VoidParser`, the tables of every master element, `WebmParser` with `DidSeek`, `InitAfterSeek` and `Ancestory` | `MWp.v`, `MWpBlock.v`, `MWpTree.v` |
| `m2ts/vpxpes2ts.cc`, `m2ts/webm2pes.cc`, `m2ts/vpxpes_parser.cc`, the superframe code of `common/libwebm_util.cc` | `MPes.v`, `MFloat.v` |
| `common/vp9_header_parser.cc`, `common/vp9_level_stats.cc`, `common/hdr_util.cc` (`ParseVpxCodecPrivate`) | `MVp9.v` |
| `webvtt/webvttparser.cc`, `webvtt/vttreader.cc` | `MVtt.v` |
| `mkvparser/mkvparser.cc` `EBMLHeader::Parse`, `SegmentInfo::Parse`, `GetDuration`, `Chapters`, `Tags` parsing | `MParMeta.v` |
| `mkvparser/mkvparser.cc` `AppendCluster`, `PreloadCluster`, `FindOrPreloadCluster`, `FindCluster`, the table part of `GetNext`, `DoParseNext`, `DoLoadCluster`, `GetBlock` | `MParTable.v` |
| `mkvparser/mkvparser.cc` `Cues`, `CuePoint` | `MParCues.v` |
| `mkvparser/mkvparser.cc` `Tracks`, `Track`, `VideoTrack`, `AudioTrack`, `ContentEncoding`, `Colour`, `MasteringMetadata`, `Projection` parsing | `MParTrack.v` |
| `mkvparser/mkvparser.cc` `Segment::CreateInstance`, `ParseHeaders`, `SeekHead::Parse`, `LoadCluster`, `DoLoadCluster`, `DoLoadClusterUnknownSize`, `Cluster::HasBlockEntries`, `Load`, `ParseCues` | `MParSegment.v` |
| `mkvparser/mkvparser.cc` `Segment::GetBlock`, `Cues::GetBlock`, `Cluster::GetEntry` for a cue point; a cluster created by `GetBlock` is returned, not put into the table | `MParCueSeek.v` |
| `mkvparser/mkvparser.cc` `Track::GetFirst`, `GetNext`, `Seek`, `VetEntry`, `VideoTrack::Seek`, `Segment::DoneParsing`, `Cluster::GetEntry` | `MParWalk.v` |
| `webm_parser/src/buffer_reader.cc`, `file_reader.cc`, `istream_reader.cc`; the C library's files and streams by what reading and seeking them does | `MReader.v` |
| `mkvparser/mkvreader.cc` `Read`, `Length`; `mkvmuxer/mkvwriter.cc` `Write`, `Position` | `MFile.v` |
| `common/hdr_util.cc` (`CopyColour` and what it uses), `VideoTrack::SetColour`, `Colour::SetMasteringMetadata`, `MasteringMetadata::SetChromaticity` | `MHdr.v` |
| `mkvmuxer_sample.cc` `CopyVideoProjection`; `VideoTrack::SetProjection`, `Projection::SetProjectionPrivate` | `MProj.v` |
| `mkvmuxer/mkvmuxer.cc` `SetChunking`, `UpdateChunkName`, the files of `MakeNewCluster`, `WriteSegmentHeader`, `Finalize`; `MkvWriter::Open`, `Close` | `MChunk.v` |
| `common/webm_endian.cc`; `webm_info.cc` `PrintSubSampleEncryption` | `MEndian.v` |
| `sample_muxer_metadata.cc` (`Parse`, `Write`, `MakeFrame` and what they use), `vttdemux.cc` (`WriteCue` and what it uses) | `MVttMux.v` |
| `sample_muxer_metadata.cc` (`LoadChapters`, `AddChapters` and what they use), `vttdemux.cc` (`WriteChaptersFile` and what it uses), `Atom::GetTime` | `MVttChap.v` |
| `vttdemux.cc` (`BuildMap`, `OpenFiles`) | `MVttName.v` |
| `vttdemux.cc` (`WriteFiles`, `InitializeFiles`, `ProcessCluster`, `ProcessBlockEntry`, `main` after parsing), blocks given in order | `MVttFile.v` |
| `dumpvtt.cc` | `MVttDump.v` |
| `webm_parser/src/master_value_parser.h` (storing of values), `video_parser.h`, `audio_parser.h`, defaults of `dom_types.h` | `MDom.v` |
| `mkvmuxer/mkvmuxer.cc` `ChunkedCopy`, `MoveCuesBeforeClusters(Helper)`, `CopyAndMoveCuesBeforeClusters` | `MMuxMove.v` |

## What is not modelled

* Memory allocation failure (`new (std::nothrow)` giving null), memory lifetime
  apart from the cases listed under findings, and the C++ object model generally.
  Doubles are bit patterns or `SpecFloat` values; text encodings are bytes.
* mkvmuxer: with chunking, which bytes go to which of the three writers
  (`AddLastFrame` and the deprecated `AddGenericFrame` wrappers are the same code
  as modelled).
* mkvparser: the functions of `Segment` not in the table above.
* webm_parser: callbacks that themselves answer would-block or partial, `Swap`.
* webm_info and the sample programs (apart from the table above), the rest of `vttdemux` (opening the input, closing files) and command line tools.
* Real I/O, threads (the library has none) and performance.

## Findings

Behaviour of the code that contradicts what its interface suggests.  Those marked
with a theorem are proved of the model (`..._refuted`); the rest were seen while
reading and modelling.

mkvmuxer
* Valid in-order frames more than 32767 timecode units after the start of the
  cluster can be refused (`C15_without_gap_bound_refuted`); held-back audio can
  silently be missing from a file reported as finished (`C14_without_gap_bound_refuted`).
* After one refused empty frame that would have opened a cluster, every later
  frame is refused and Finalize fails (`C15_after_empty_frame_refuted`).
* With chapters, tags and cues present the seek head has six entries for five
  slots and Finalize fails (`C19_six_entries_refuted`).
* A colour element that mkvparser accepts can make a track that cannot be written, for
  instance a minimum luminance above the maximum (`C68_copy_can_be_written_refuted`).
* A projection type of 2^31 is accepted by mkvparser, and a file to which it is copied
  has tracks that mkvparser refuses (`C70_copy_can_be_read_refuted`).
* When the header file of chunked output cannot be opened, chunking can never be turned
  on again (`C71_try_again_refuted`); a refused SetChunking renames the later chunks
  (`C71_failed_call_refuted`); turning it off does not redirect the output
  (`C71_off_refuted`).
* The 32-bit byte swap has two masks exchanged and loses the middle bytes on little endian
  machines (`C72_four_bytes_refuted`); webm_info shows wrong partition offsets
  (`C72_offsets_refuted`).
* vttdemux loses the rest of a line after a NUL byte (`C73_nul_bytes_refuted`); the WebVTT
  muxer overflows on start times above 2562047 hours (`C73_late_times_refuted`).
* WebVTT chapters without identifiers are loaded, but `Chapters::Write` then always fails
  (`C74_identifiers_needed`, `C74_no_identifier_refuted`): a null string ID cannot be written.
* vttdemux takes the last dot of the whole path for the extension (`C75_directory_refuted`)
  and drops all but the last of tracks with the same number (`C75_same_number_refuted`).
* A WebVTT block outside a block group ends the extraction of all tracks
  (`C76_simple_block_refuted`).
* dumpvtt does not show the rest of a line after a NUL byte (`C77_nul_bytes_refuted`).
* An automatic track number can be 127, which no frame can use and which indexes
  arrays out of range (`C20_usable_refuted`).
* `WriteVoidElement` cannot write some sizes (`C07_void_total_refuted`,
  `C07_void_zero_refuted`); unsigned values with the top bit set cannot be read
  back by mkvparser (`C04_uint_high_bit_refuted`); strings of 2^32 bytes lose
  their content (`C06_huge_string_refuted`); the width search of `WriteUInt` shifts
  out of range (`C02_auto_width_refuted`); frames of 2^31-4 bytes overflow an int
  (`C10_huge_frame_refuted`); durations of 2^63 units are read back negative
  (`C09_huge_duration_refuted`).
* A positive status from a user writer counts as success in some places and as
  failure in others (`C08_positive_status_refuted`).
* With accurate cluster durations the block numbers in cue points lag; an
  out-of-range frame is accepted and makes Finalize fail later.
* Failures while writing held-back audio are swallowed; a failure in
  `WriteFramesLessThan` or `QueueOrWriteFrame` leaves pointers to deleted frames.
* A non-key frame with empty additional data is accepted and the data dropped; a
  segment whose duration is zero keeps the placeholder duration 1.0; Finalize
  with only held-back audio returns false; `duration - timestamp` wraps in
  `Cluster::Finalize`.
* `CopyAndMoveCuesBeforeClusters` reports success although writing the copy failed
  (`C18_failing_write_refuted`); without output of cues it overwrites the seek entry
  of the Info element (`C18_without_cues_refuted`); without clusters it reads
  through a null pointer (`C18_without_cluster_refuted`).

mkvparser
* `Track::GetFirst` and `GetNext` give up after 100 clusters: behind 99 clusters
  with blocks of other tracks only, `GetNext` reports the end of the stream although
  a later cluster has a block of the track (`C62_walk_gap_refuted`).
* `Track::Seek` asserts that the cluster of the first block does not start after the time sought. A block with a
  negative relative time lies before its cluster; seeking to a time between the two violates the assertion
  (`C63_seek_early_refuted`).
* `Segment::GetBlock` adds the position in a cue point to the segment's start without a check; a file can make this
  signed sum overflow (`C64_far_position_refuted`).
* EBML lacing with a single frame is misread or refused (`C24_single_ebml_refuted`,
  `C24_single_ebml_refused_refuted`).
* Chapter UIDs are written unsigned and read signed, so about half of those the
  muxer generates are reported differently (`C27_chapter_uids_survive_refuted`).
* A duration of exactly 2^63 ns passes the check against LLONG_MAX and makes
  GetDuration undefined (`C53_duration_always_defined_refuted`).
* Wrong cluster positions in the Cues make the cluster table hold a cluster twice
  (`C26_any_positions_refuted`); the time of a cue point can overflow
  (`C25_any_cue_times_refuted`).
* When reading a compression or encryption key fails, the failure is dropped and
  the entry counts as parsed; the result of parsing content encodings is ignored,
  so an encrypted track can be reported as clear (`C56_broken_encryption_refuted`).
* The muxer accepts a maximum luminance of 9999.99f which the parser refuses together
  with all tracks (`C55_bright_track_read_refuted`); the encryption of tracks that are
  neither video nor audio is written but not read (`C55_encryption_read_refuted`).
* A held-back frame that does not fit the next cluster leaves an empty cluster.  When
  it is the last one of a file without cues on a non-seekable writer, Finalize reports
  success but `Segment::Load` fails (`C57_empty_last_cluster_refuted`).
* `Segment::ParseCues` adds the offset it is given to the segment's position without a
  check; a seek entry of the file can name an offset for which that overflows
  (`C58_cues_position_refuted`).
* A cluster whose Timecode follows a block is refused.  ReferenceBlock is written
  unsigned and read signed.

webm_parser
* `RecursiveParser` does not pass on cached metadata: the header of the element
  ending an unsized nested SimpleTag or ChapterAtom is lost and its body is parsed
  as elements.
* A BlockVirtual larger than its header leaves bytes unread that are then parsed
  as elements (`C29_block_virtual_refuted`).
* The position reported for fixed-lacing frames omits the header size of the
  parent (`C59_fixed_lacing_position_refuted`); lace sizes are summed modulo 2^64; skipping a Block shorter than its
  header underflows.
* The position reported for an element after an unsized Segment or EBML element is
  wrong (`C59_joined_streams_position_refuted`, `C61_position_refuted`); an
  element of size zero at the exact end of a sized parent can be dropped
  (`C59_empty_end_refuted`).
* The table of ancestors used after a seek lacks Colour and Projection and their
  contents (`C61_colour_refuted`).  After a seek an unknown element in the Segment
  ends it, and later clusters are reported as unknown elements
  (`C61_unknown_element_refuted`); the chapter after the one entered is taken for a
  nested one (`C61_sibling_chapter_refuted`).  Ends of Segment, Cluster and
  BlockGroup are reported after a seek although their begins were not.
* Blocks with track number 0 and with empty frames are accepted
  (`C24_callback_track_zero_refuted`, `C24_callback_empty_frame_refuted`).
* Skip together with a status other than completed silently skips; answering skip
  to an unsized BlockGroup that comes first in a Cluster skips the whole Cluster.
* `FileReader::Skip` on a regular file seeks beyond the end and reports the missing
  bytes as skipped (`C66_skip_inside_refuted`), so a truncated file whose last element
  is skipped is taken for complete.  In `FileReader::Skip` and `IstreamReader::Skip` the
  loop for sources that cannot seek tests a shadowed variable and runs once, so at most
  1024 bytes are skipped per call.
* `MkvWriter::Seekable` is true also for a file that cannot seek.
* `FloatParser` leaves `*num_bytes_read` unset when nothing remains; `BoolParser`
  consumes a different number of bytes of a malformed value depending on how the
  bytes arrive.

m2ts, common
* Start codes can be formed by a frame beginning with 01 or 00 01
  (`C33_all_frames_refuted`); payloads with 00 00 00 01 or 00 00 00 03 and
  fragmented frames are not restored (`C34_...refuted`); most PTS values from 2^22
  on are not restored (`C35_all_pts_refuted`); the continuity counter restarts at
  every PES packet (`C36_stream_continuity_refuted`); a frame that looks like a
  superframe is refused (`C37_lookalike_refuted`); a malformed seven byte file is
  read out of bounds (`C45_parser_in_bounds_refuted`); tick conversion is not
  invertible (`C46_tick_roundtrip_refuted`).
* `bcmv.length < 10` underflows; `VerifyPacketStartCode` is off by one; a zero
  length child of a superframe fails; the packet length ignores escape bytes.
* The quantizer delta of a VP9 header is read with 4 bits, not 5
  (`C49_quantizer_delta_refuted`); tile information is stale for non-key frames
  and with segmentation; `display_width_`/`display_height_` start uninitialised.
* VP9 levels: `C39_beyond_every_level_refuted`, `C39_reference_limit_refuted`,
  `C39_few_hidden_frames_unknown`, `C39_huge_pictures_refuted`.
* CodecPrivate: `C40_second_level_refuted`, `C40_huge_buffers_refuted`; one or two
  trailing bytes are ignored.

webvtt
* `.005` and `.05` are read as 500 ms (`C41_small_fractions_refuted`);
  `Time::presentation` overflows from 2147484000 ms on (`C43_long_times_refuted`);
  `isdigit` is called with negative chars.

## Experiments with wrong programs

`seeded/LOG.jsonl` has one line per edit: the definition, the edit, the claim it
breaks, and the theorems that then fail to compile.  "Admitted" in the raw record
of an experiment means helper lemmas that were skipped automatically in the
scratch copy so that the property theorems behind them were still tried.
