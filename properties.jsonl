{"id": "C01", "title": "EBML sizes written by the muxer read back unchanged", "statement": "For every value an EBML size field can hold (0 .. 2^56-2), the bytes WriteUInt emits are the canonical shortest EBML coding of it: their number is GetCodedUIntSize(value), no shorter legal coding exists, and ReadUInt on those bytes (followed by anything) returns exactly the value and that length. For larger values WriteUInt reports an error and emits nothing.", "quantifier": "all 64-bit values, all following bytes", "why_tests_cant": "There are 2^56 values and eight length classes whose boundaries sit one below a power of two; tests touch a few literals.", "anchors": ["mkvmuxer/mkvmuxerutil.cc:GetCodedUIntSize", "mkvmuxer/mkvmuxerutil.cc:WriteUInt", "mkvmuxer/mkvmuxerutil.cc:WriteUIntSize", "mkvparser/mkvparser.cc:ReadUInt"]}
{"id": "C02", "title": "Fixed-width EBML sizes", "statement": "WriteUIntSize(value,size) with 1<=size<=8 succeeds exactly when the value is representable in that width without colliding with the reserved unknown-size pattern, and then emits exactly `size` bytes that read back as the value; otherwise it returns an error and emits nothing. With size 0 it selects the narrowest width, for every value up to 2^56-2. (Known defect, proved: with size 0 a value that fits no width is not reported as a failure but runs into undefined behaviour.)", "quantifier": "all 64-bit values and all widths", "why_tests_cant": "Product of a 64-bit value space and the width parameter, including the reserved patterns of every width.", "anchors": ["mkvmuxer/mkvmuxerutil.cc:WriteUIntSize", "mkvparser/mkvparser.cc:ReadUInt"]}
{"id": "C03", "title": "Element IDs round trip", "statement": "Every syntactically valid EBML ID (1 to 4 bytes with the length marker) written by WriteID is read back as the same ID with the same byte length by ReadID, whatever bytes follow.", "quantifier": "all valid EBML IDs, all following bytes", "why_tests_cant": "Roughly 2^28 IDs; tests cover the ones in use.", "anchors": ["mkvmuxer/mkvmuxerutil.cc:WriteID", "mkvparser/mkvparser.cc:ReadID"]}
{"id": "C04", "title": "Unsigned integer payloads round trip and have the announced size", "statement": "WriteEbmlElement(id, uint value[, fixed size]) emits exactly EbmlElementSize bytes: ID, one size byte and the big-endian value; for values below 2^63 the element reads back (ParseElementHeader, UnserializeUInt) as the same ID and value. (Known defect, proved: values of 2^63 and above are written but cannot be told from an error code when read.)", "quantifier": "all 64-bit unsigned values, all IDs, all fixed sizes", "why_tests_cant": "The full 64-bit range including values whose top bit is set cannot be enumerated.", "anchors": ["mkvmuxer/mkvmuxerutil.cc:WriteEbmlElement", "mkvmuxer/mkvmuxerutil.cc:EbmlElementSize", "mkvparser/mkvparser.cc:UnserializeUInt"]}
{"id": "C05", "title": "Signed integer payloads round trip", "statement": "For every int64 the signed WriteEbmlElement overload chooses a width such that UnserializeInt on the emitted payload yields the same value, and no narrower two's complement width would do; the number of bytes emitted equals EbmlElementSize.", "quantifier": "all int64 values", "why_tests_cant": "2^64 values, sign boundary at each byte width.", "anchors": ["mkvmuxer/mkvmuxerutil.cc:GetIntSize", "mkvmuxer/mkvmuxerutil.cc:WriteEbmlElement", "mkvparser/mkvparser.cc:UnserializeInt"]}
{"id": "C06", "title": "Float, date, string and binary payloads round trip", "statement": "A float element stores the exact IEEE bit pattern and reads back as that pattern (non-finite values are rejected on reading); a date element always occupies eight payload bytes and reads back as the same int64; string and binary elements store their bytes verbatim preceded by their length. In each case the emitted size equals the corresponding EbmlElementSize.", "quantifier": "all 32-bit float patterns, all int64 dates, all strings and blobs", "why_tests_cant": "Unbounded data.", "anchors": ["mkvmuxer/mkvmuxerutil.cc:SerializeFloat", "mkvmuxer/mkvmuxerutil.cc:WriteEbmlDateElement", "mkvmuxer/mkvmuxerutil.cc:WriteEbmlElement", "mkvparser/mkvparser.cc:UnserializeFloat", "mkvparser/mkvparser.cc:UnserializeString"]}
{"id": "C07", "title": "Void filler has exactly the requested size", "statement": "WriteVoidElement(size) returns size after emitting exactly size bytes forming one well-formed Void element, or returns 0 and emits nothing. It succeeds for every size in 2..2^31-1 except those where adding a byte of payload lengthens the size field (128, 129, 16386, ...), which are characterised exactly. (Known defect, proved: a 128-byte Void element exists but is refused.)", "quantifier": "all sizes below 2^31", "why_tests_cant": "Unbounded sizes; failures sit at isolated width-boundary values.", "anchors": ["mkvmuxer/mkvmuxerutil.cc:WriteVoidElement"]}
{"id": "C08", "title": "A reported success means every byte was written", "statement": "Whatever the sequence of successes and failures of the underlying writer, if an element-writing call reports success then exactly the bytes of the complete element were appended, and if no write fails the call succeeds.", "quantifier": "all writer failure schedules (each individual write may fail after any number of bytes), all elements", "why_tests_cant": "Failure can hit any of the individual byte writes; the number of schedules is exponential.", "anchors": ["mkvmuxer/mkvmuxerutil.cc:SerializeInt", "mkvmuxer/mkvmuxerutil.cc:WriteEbmlElement", "mkvmuxer/mkvmuxerutil.cc:WriteEbmlMasterElement", "mkvmuxer/mkvmuxerutil.cc:WriteFrame"]}
{"id": "C09", "title": "Muxed blocks parse back to the frame that was added", "statement": "For every valid frame (duration below 2^63 timecode units) and admissible cluster-relative timecode, the SimpleBlock or BlockGroup the muxer writes parses (mkvparser) to one frame with the same track number, relative timecode, key-frame flag, payload bytes, discard padding, and, for block groups, duration; a cluster of such blocks is iterated as exactly these frames in order.", "quantifier": "all valid frames, all relative timecodes 0..32767", "why_tests_cant": "Unbounded payloads and 64-bit metadata.", "anchors": ["mkvmuxer/mkvmuxerutil.cc:WriteSimpleBlock", "mkvmuxer/mkvmuxerutil.cc:WriteBlock", "mkvparser/mkvparser.cc:Block::Parse", "mkvparser/mkvparser.cc:Cluster::ParseBlockGroup"]}
{"id": "C10", "title": "Bytes written equal the size the muxer reports", "statement": "WriteFrame's return value equals the number of bytes it appended, and the size field of each element it emits equals the size of that element's content, for every valid frame of less than 2^31-4 bytes; invalid frames are refused and nothing is written. (Known defect, proved: the largest frames the API takes overflow a signed int.)", "quantifier": "all frames below 2^31-4 bytes, timecode scales, cluster timecodes", "why_tests_cant": "Container sizes are computed separately from the bytes; agreement must hold for all combinations of optional parts.", "anchors": ["mkvmuxer/mkvmuxerutil.cc:WriteFrame", "mkvmuxer/mkvmuxerutil.cc:WriteBlock"]}
{"id": "C11", "title": "Every metadata element is written with its announced size", "statement": "For Cues, SeekHead, Tracks (audio, video, colour, mastering metadata, projection, content encodings), Chapters, Tags and Info: the Size()/PayloadSize() value computed before writing equals the number of bytes actually written, and the output is a well-formed EBML element whose declared size is its content's size.", "quantifier": "all object states reachable through the public setters", "why_tests_cant": "Combinatorial explosion of optional fields, unbounded strings.", "anchors": ["mkvmuxer/mkvmuxer.cc:CuePoint::Size", "mkvmuxer/mkvmuxer.cc:Cues::Write", "mkvmuxer/mkvmuxer.cc:Track::Write", "mkvmuxer/mkvmuxer.cc:Chapter::WriteAtom", "mkvmuxer/mkvmuxer.cc:Tag::Write", "mkvmuxer/mkvmuxer.cc:Colour::Write", "mkvmuxer/mkvmuxer.cc:Projection::Write"]}
{"id": "C12", "title": "Block timecodes always fit", "statement": "Every block in any file the muxer produces has a cluster-relative timecode between 0 and 32767, and cluster timecode plus relative timecode equals the frame's timestamp divided by the timecode scale.", "quantifier": "all sequences of calls adding frames", "why_tests_cant": "Depends on the history of cluster creation, queueing and forced clusters.", "anchors": ["mkvmuxer/mkvmuxer.cc:Segment::AddGenericFrame", "mkvmuxer/mkvmuxer.cc:Segment::TestFrame", "mkvmuxer/mkvmuxer.cc:Segment::MakeNewCluster", "mkvmuxer/mkvmuxerutil.cc:WriteFrame"]}
{"id": "C13", "title": "Frames come out in timestamp order", "statement": "If the caller adds frames in non-decreasing timestamp order, the blocks appear in the file in non-decreasing timestamp order, audio queueing notwithstanding, and if every frame can be written, the times of the clusters never decrease and no cluster is empty; whatever the order of the calls, an accepted frame is never earlier than a frame accepted before it unless that one is an audio frame the muxer was holding back.", "quantifier": "all sequences of added frames over any set of tracks, all chunk boundaries and option settings", "why_tests_cant": "History-dependent queue of audio frames.", "anchors": ["mkvmuxer/mkvmuxer.cc:Segment::AddGenericFrame", "mkvmuxer/mkvmuxer.cc:Segment::WriteFramesLessThan", "mkvmuxer/mkvmuxer.cc:Segment::WriteFramesAll"]}
{"id": "C14", "title": "No accepted frame is lost or duplicated", "statement": "After Finalize reports success on input whose frames are in timestamp order and whose gaps fit a block timecode (orderly input), the blocks of each track in the file are exactly the frames for which AddFrame returned true, each once, in order, with unchanged payload, key flag, time, additional data and discard padding. For any input at all, nothing is duplicated, altered or reordered and only held-back audio frames can be missing. (Known defect, proved: with larger gaps an accepted audio frame can silently be missing from a file reported as finished.)", "quantifier": "all sequences of AddFrame and ForceNewClusterOnNextFrame calls, all frame contents", "why_tests_cant": "Loss depends on queue interleavings and on rare failing frames.", "anchors": ["mkvmuxer/mkvmuxer.cc:Segment::AddGenericFrame", "mkvmuxer/mkvmuxer.cc:Segment::WriteFramesAll", "mkvmuxer/mkvmuxer.cc:Segment::WriteFramesLessThan", "mkvmuxer/mkvmuxer.cc:Segment::Finalize"]}
{"id": "C15", "title": "A valid in-order frame is never refused", "statement": "As long as writes succeed, AddFrame accepts every valid frame of a registered track in orderly input (timestamp order, gaps that fit a block timecode), and Finalize succeeds as soon as one frame was not held back and the seek head has room. (Known defects, proved: larger gaps make valid in-order frames be refused; after one refused empty frame every later frame is refused and Finalize fails.)", "quantifier": "all histories of frames in timestamp order whose gaps are at most 32767 timecode units", "why_tests_cant": "Refusal depends on the queue contents and the cluster state.", "anchors": ["mkvmuxer/mkvmuxer.cc:Segment::AddGenericFrame", "mkvmuxer/mkvmuxer.cc:Segment::TestFrame", "mkvmuxer/mkvmuxer.cc:Segment::MakeNewCluster"]}
{"id": "C16", "title": "Cluster and Segment size fields match the file", "statement": "After Finalize on a seekable writer, each Cluster's and the Segment's size field equals the number of bytes of its content.", "quantifier": "all histories of frames and chunk boundaries", "why_tests_cant": "Back-patching depends on positions accumulated over the whole history.", "anchors": ["mkvmuxer/mkvmuxer.cc:Cluster::Finalize", "mkvmuxer/mkvmuxer.cc:Segment::Finalize"]}
{"id": "C17", "title": "Cue points locate clusters and blocks", "statement": "Every cue point in the file names a cluster that starts at the given segment-relative position, a track and block number of a block in that cluster, and the time of that block. With accurate cluster durations enabled the cluster, track and time are right (the block number then counts blocks not yet written).", "quantifier": "all histories with cues enabled", "why_tests_cant": "History-dependent counters.", "anchors": ["mkvmuxer/mkvmuxer.cc:Segment::AddCuePoint", "mkvmuxer/mkvmuxer.cc:Cluster::blocks_added"]}
{"id": "C18", "title": "Moving the cues in front keeps every position right", "statement": "After a session on a seekable writer that ends with Finalize returning true, with output of cues and at least one cluster, CopyAndMoveCuesBeforeClusters from the finished file to a new file terminates and succeeds; the copy consists of the same EBML header, metadata and clusters with the cues in front of the clusters, the Segment size is right, and every cue's cluster position and every seek-head position equals the actual position of the element in the new file. Without cues, without a cluster or with a failing writer this does not hold.", "quantifier": "any session, any number of cue points and clusters, any sizes up to 2^55 bytes", "why_tests_cant": "Shifting positions can grow the cues which shifts positions again; fixed point over an arbitrary number of cues.", "anchors": ["mkvmuxer/mkvmuxer.cc:Segment::MoveCuesBeforeClusters", "mkvmuxer/mkvmuxer.cc:Segment::MoveCuesBeforeClustersHelper"]}
{"id": "C19", "title": "Seek head fits its reserved space", "statement": "On a seekable writer Finalize rewrites the seek head (with the padding Void) into exactly the bytes reserved at the start, never overwriting the following element; the entries are exactly the top-level elements written, and every entry decodes to the ID and the position of that element. (Known defect, proved: with chapters, tags and cues there are six elements for five slots, and Finalize fails.)", "quantifier": "all combinations of registered entries and positions", "why_tests_cant": "Position values over the whole 64-bit range.", "anchors": ["mkvmuxer/mkvmuxer.cc:SeekHead::Write", "mkvmuxer/mkvmuxer.cc:SeekHead::Finalize", "mkvmuxer/mkvmuxer.cc:SeekHead::AddSeekEntry", "mkvmuxer/mkvmuxerutil.cc:WriteVoidElement"]}
{"id": "C20", "title": "Track numbers are unique and usable", "statement": "Every track added to a segment gets a number no other track has; an explicit number is accepted exactly when it is free; with up to 63 tracks and explicit numbers up to 126 the number is one frames can be added for (1..126). (Known defect, proved: with the numbers 64..126 taken the automatic number is 127.)", "quantifier": "all sequences of AddTrack with automatic or explicit numbers", "why_tests_cant": "History of explicit and automatic numbering.", "anchors": ["mkvmuxer/mkvmuxer.cc:Tracks::AddTrack", "mkvmuxer/mkvmuxer.cc:Segment::AddVideoTrack", "mkvmuxer/mkvmuxer.cc:Frame::IsValid"]}
{"id": "C21", "title": "Reading EBML integers never leaves the given range", "statement": "ReadUInt, ReadID and GetUIntLength only read bytes inside the source; on success the length is 1..8 (1..4), the value fits in 7*length bits, on failure a negative status is returned and the output length is 1; truncated input is always reported as such.", "quantifier": "all byte sequences, all positions", "why_tests_cant": "All inputs including hostile ones.", "anchors": ["mkvparser/mkvparser.cc:ReadUInt", "mkvparser/mkvparser.cc:ReadID", "mkvparser/mkvparser.cc:GetUIntLength"]}
{"id": "C22", "title": "Element headers always make progress", "statement": "Whenever ParseElementHeader succeeds it advanced the position by at least two and at most twelve bytes, not beyond the stop position, so a walk over sibling elements ends after at most half as many steps as there are bytes.", "quantifier": "all byte sequences and stop positions", "why_tests_cant": "Non-termination is an all-inputs property.", "anchors": ["mkvparser/mkvparser.cc:ParseElementHeader"]}
{"id": "C23", "title": "Laced blocks are split into frames that tile the payload", "statement": "When mkvparser accepts a Block (unlaced, Xiph, fixed-size or EBML lacing), it reports 1..256 frames, each with positive length, contiguous, in order, together covering the block's bytes after the header exactly and never reaching beyond it.", "quantifier": "all block payloads, all lacing types", "why_tests_cant": "Frame sizes come from attacker-controlled bytes.", "anchors": ["mkvparser/mkvparser.cc:Block::Parse"]}
{"id": "C24", "title": "Lacing codings are decoded as specified", "statement": "For every list of frame sizes, a block encoded with Xiph, EBML or fixed lacing as the Matroska specification prescribes is accepted by both parsers and split into frames of those sizes and contents, and what is accepted is such an encoding, for the callback parser up to track number 0 and empty frames before the last one. (Known defects, proved: mkvparser misreads or refuses EBML lacing with a single frame; the callback parser accepts track number 0 and empty frames.)", "quantifier": "all lists of up to 256 frame sizes", "why_tests_cant": "Unbounded sizes and signed differences.", "anchors": ["mkvparser/mkvparser.cc:Block::Parse", "webm_parser/src/block_parser.cc:BasicBlockParser"]}
{"id": "C25", "title": "Time lookup in cues and clusters", "statement": "Segment::FindCluster and Cues::Find return the last entry whose time is not after the requested time (the first entry when the request is not after that), for Cues::Find with the position for the given track, without indexing outside the table; in an unsorted table the result is still an entry not after the requested time, or the first. (Known defect, proved: the time of a cue point is computed with signed multiplication, which a file can make overflow.)", "quantifier": "all tables and Cues a program can reach, all times whose products with the scale do not overflow", "why_tests_cant": "Binary search over arbitrary tables.", "anchors": ["mkvparser/mkvparser.cc:Segment::FindCluster", "mkvparser/mkvparser.cc:Cues::Find"]}
{"id": "C26", "title": "The cluster table stays ordered", "statement": "However clusters are discovered (sequential loading or on-demand preloading in any order), the loaded part of the cluster table is in file order with the indexes 0, 1, 2, ..., the preloaded part is sorted by position, and no operation leaves the array. If the requested positions are those of clusters, no cluster appears twice, all clusters up to the loading position are loaded, and a requested cluster is found. (Proved to be false otherwise: with wrong Cues a cluster gets into the table twice.)", "quantifier": "all sequences of load and preload operations, all positions", "why_tests_cant": "Arbitrary interleavings of two insertion paths with array growth.", "anchors": ["mkvparser/mkvparser.cc:Segment::AppendCluster", "mkvparser/mkvparser.cc:Segment::PreloadCluster", "mkvparser/mkvparser.cc:Segment::FindOrPreloadCluster"]}
{"id": "C27", "title": "Chapter UIDs survive muxing and parsing", "statement": "Chapters written by the muxer are reported by the parser in their order, in one edition, with the same start and end times, string IDs and displays (an empty string is reported as absent). The UID is reported as written exactly when it is at least 2^56 or the most significant bit of its shortest byte encoding is clear; otherwise it is sign-extended. (Known defect, proved: so about half of the UIDs the muxer generates are not reported as written.)", "quantifier": "all chapters with 64-bit UIDs, times below 2^63 and strings of at most 20,000,000 bytes that the muxer accepts; all readers that serve the written bytes", "why_tests_cant": "Sign extension only affects some UIDs.", "anchors": ["mkvmuxer/mkvmuxer.cc:Chapter::WriteAtom", "mkvparser/mkvparser.cc:Chapters::Atom::Parse"]}
{"id": "C28", "title": "Incremental parsing is independent of how data arrives", "statement": "Feeding the callback parser the same bytes in any pieces (any schedule of partial reads and would-block results) yields the same values, the same sequence of callback events and the same final status as feeding it all at once, from the beginning of a document or from any point of the parser's life, also after a seek.", "quantifier": "all inputs, all splits and would-block schedules, all histories of calls before, all callbacks that answer kOkCompleted or a positive error code of their own", "why_tests_cant": "The number of schedules is exponential in the input length.", "anchors": ["webm_parser/src/master_parser.cc", "webm_parser/src/int_parser.h", "webm_parser/src/id_parser.cc", "webm_parser/src/var_int_parser.cc", "webm_parser/src/webm_parser.cc"]}
{"id": "C29", "title": "A parsed element consumes exactly its declared size", "statement": "When an element parser of the callback parser completes, the reader has moved by exactly the size the element header declared, in however many pieces the data arrived and whatever the callback answered; it never consumes bytes of the following element. (Known defect, proved: a BlockVirtual longer than its header is left half read.)", "quantifier": "all elements of known size other than BlockVirtual, all data, arrival schedules, interruptions and callbacks", "why_tests_cant": "All inputs, including sizes inconsistent with children.", "anchors": ["webm_parser/src/master_parser.cc", "webm_parser/src/int_parser.h", "webm_parser/src/skip_parser.cc", "webm_parser/src/block_parser.cc"]}
{"id": "C30", "title": "Element begin/end notifications nest correctly", "statement": "The callback's notifications are properly nested: a Segment begins at the top level, a Cluster inside a Segment, a SimpleBlock or BlockGroup inside a Cluster, a Block inside a BlockGroup; every end matches the innermost open begin (same kind, same metadata); frame data is delivered only inside the block it belongs to; whole elements (Info, TrackEntry, CuePoint, ...) are reported only directly in the Segment; an element the callback chose to skip gets neither contents nor an end; and when Feed reports completion everything opened has been closed. A begin or end that the callback refused may be repeated.", "quantifier": "all inputs, arrival schedules, callbacks (answering kOkCompleted or a positive code) and any number of Feed calls without a seek", "why_tests_cant": "All documents.", "anchors": ["webm_parser/src/master_parser.cc", "webm_parser/src/master_value_parser.h", "webm_parser/src/webm_parser.cc"]}
{"id": "C31", "title": "Parse errors are sticky", "statement": "Once Feed has reported a parsing error, every later Feed returns the same error and reads and reports nothing, as long as the parser is not reset by a seek.", "quantifier": "all sequences of Feed calls, data sources and callbacks", "why_tests_cant": "Histories of calls.", "anchors": ["webm_parser/src/webm_parser.cc:WebmParser::Feed"]}
{"id": "C32", "title": "Nesting depth is bounded", "statement": "Whatever the data, the callback parser never reports a value with more than 26 chapters, or more than 26 tags, one inside the other, and never has more than 61 element parsers at work inside each other; a file with 27 chapters inside each other gets kExceededRecursionDepthLimit instead of being followed.", "quantifier": "all inputs, however they arrive, all callbacks and all sequences of calls of Feed and DidSeek", "why_tests_cant": "Stack exhaustion needs adversarial depth.", "anchors": ["webm_parser/src/recursive_parser.h"]}
{"id": "C33", "title": "Escaped PES payload contains no start code", "statement": "Escaped payload never contains the three byte start code 00 00 01; in the PES packets written for a frame start codes occur exactly at the packet starts, for every frame that does not begin with 01 or 00 01. (Known defect, proved: for those frames the zero bytes of the preceding header complete a start code.)", "quantifier": "all payloads and frames", "why_tests_cant": "All byte strings.", "anchors": ["m2ts/webm2pes.cc:CopyAndEscapeStartCodes", "m2ts/webm2pes.cc:WritePesPacket"]}
{"id": "C34", "title": "PES escaping is undone by the parser", "statement": "Removing the emulation prevention bytes from an escaped payload returns the original payload exactly when the payload contains neither 00 00 00 01 nor 00 00 00 03; a stream of frames up to 32768 bytes without those sequences is parsed back frame by frame. (Known defects, proved: other payloads, and escapes in fragmented frames, are not restored.)", "quantifier": "all payloads", "why_tests_cant": "All byte strings.", "anchors": ["m2ts/webm2pes.cc:CopyAndEscapeStartCodes", "m2ts/vpxpes_parser.cc:RemoveStartCodeEmulationPreventionBytes"]}
{"id": "C35", "title": "Presentation time stamps survive the PES header", "statement": "The value written into the PES header is the value the PES parser returns exactly for the 33-bit time stamps with the stated bit pattern (clean), which include all below 2^22. (Known defect, proved: 2^22 comes back different.)", "quantifier": "all 33-bit values", "why_tests_cant": "2^33 values; short test clips never reach the failing ranges.", "anchors": ["m2ts/webm2pes.cc:PesOptionalHeader::SetPtsBits", "m2ts/vpxpes_parser.cc:ParsePesOptionalHeader"]}
{"id": "C36", "title": "TS packetisation preserves the PES stream", "statement": "For every PES packet the output is a sequence of 188-byte TS packets, each starting with the sync byte, the first one flagged as payload start, whose payloads concatenated are the PES packet; within the packet the continuity counter increases by one modulo 16. (Known defect, proved: it restarts at every PES packet.)", "quantifier": "all packets and packet sequences", "why_tests_cant": "Stuffing logic depends on the residue of the length; continuity on the history.", "anchors": ["m2ts/vpxpes2ts.cc:ReceivePacket"]}
{"id": "C37", "title": "VP9 superframe index yields disjoint frame ranges", "statement": "When a superframe index is accepted the ranges are consecutive, start at 0 and stay inside the frame; a frame that does not end in an index marker is passed through as one range. (Known defect, proved: a frame whose last byte merely looks like a marker is refused.)", "quantifier": "all frame payloads", "why_tests_cant": "All byte strings.", "anchors": ["common/libwebm_util.cc:ParseVP9SuperFrameIndex", "m2ts/webm2pes.cc:ConvertToFile"]}
{"id": "C38", "title": "VP9 frame header parser stays inside the frame", "statement": "For every byte string the VP9 uncompressed header parser returns and reads no byte outside the given frame. After it the tile counts are those of before the call, or 1, 2 or 4 rows and 2^k columns with k within the codec limits for the frame width; the sizes are those of before or between 1 and 65536. One parser used on any sequence of frames never reports more than 4 rows or 256 columns.", "quantifier": "all frames (byte strings), all earlier states, all sequences of frames", "why_tests_cant": "All byte strings.", "anchors": ["common/vp9_header_parser.cc:ParseUncompressedHeader", "common/vp9_header_parser.cc:ReadBit"]}
{"id": "C39", "title": "VP9 level estimate covers the stream", "statement": "After any stream of frames (below 2^31 samples each, times in order) the VP9 statistics collector holds exactly the maxima of the stream: picture size, breadth, samples in the second ending at each frame, bytes of four successive frames, tile columns, references stored since a key frame, the shortest distance of hidden frames, and the totals. A level it reports is at least the lowest level whose limit each of these meets, and no higher than the highest of those; otherwise it reports unknown. (Known defects, proved: a value above every limit is ignored, the limit for reference frames is never enforced, a stream with fewer than two hidden frames always gets unknown, and pictures of 2^31 samples overflow an int.)", "quantifier": "all streams of up to 2^24 frames; all statistics", "why_tests_cant": "History maxima and a table of limits.", "anchors": ["common/vp9_level_stats.cc:GetLevel", "common/vp9_level_stats.cc:AddFrame"]}
{"id": "C40", "title": "VP9 CodecPrivate parsing", "statement": "ParseVpxCodecPrivate never reads outside a buffer of less than 2^31 - 2 bytes. It accepts every nonempty list of legal features with agreeing values (and up to two more bytes), and stores exactly those. What it accepts is such a list, except that illegal levels after a legal one pass unnoticed (known defect, proved). (Also proved: for buffers of 2^31 - 2 bytes the offset can overflow.)", "quantifier": "all buffers", "why_tests_cant": "All byte strings.", "anchors": ["common/hdr_util.cc:ParseVpxCodecPrivate"]}
{"id": "C41", "title": "WebVTT time stamps are read correctly", "statement": "A cue time stamp hh:mm:ss, mm:ss or ss, alone or with a three digit fraction .000 or .100 to .999, is parsed to the hours, minutes, seconds and milliseconds it denotes; the strings accepted as times are characterised exactly, everything else is rejected, and numbers too large for int are rejected rather than wrapped. (Known defect, proved: fractions .001 to .099 are scaled wrongly: .005 is read as 500 ms.)", "quantifier": "all time stamp strings", "why_tests_cant": "Unbounded strings, leading zeros.", "anchors": ["webvtt/webvttparser.cc:ParseTime", "webvtt/webvttparser.cc:ParseNumber"]}
{"id": "C42", "title": "WebVTT scanning stays inside the line", "statement": "Init and Parse always return, for every stream of characters and errors the reader delivers and every sequence of calls; scanning a line never indexes beyond its terminating position; and only finitely many cues are returned.", "quantifier": "all character streams with errors at any point, all call sequences, all lines", "why_tests_cant": "All byte strings including embedded NULs.", "anchors": ["webvtt/webvttparser.cc:ParseTimingsLine", "webvtt/webvttparser.cc:ParseSettings", "webvtt/webvttparser.cc:ParseTime"]}
{"id": "C43", "title": "WebVTT times convert to milliseconds and back", "statement": "For 0 to 2147483999 ms, Time::presentation(d) followed by presentation() returns d; presentation() never overflows; the comparison operators agree with comparison of presentation times, and difference, addition and subtraction are exact within that range. (Known defect, proved: from 2147484000 ms on, setting a time overflows an int.)", "quantifier": "all times with fields in range, all presentation times up to 2147483999 ms", "why_tests_cant": "64-bit range.", "anchors": ["webvtt/webvttparser.cc:Time::presentation", "webvtt/webvttparser.cc:Time::operator<"]}
{"id": "C44", "title": "Lines are split at every end-of-line form", "statement": "Reading a text stream line by line yields the lines separated by LF, CR or CRLF, independent of the mix, without losing or inventing characters, and then the end; a line with a byte FE or FF, or longer than 10000 bytes, yields an error after the lines before it.", "quantifier": "all byte streams", "why_tests_cant": "Look-ahead and push-back at arbitrary positions.", "anchors": ["webvtt/webvttparser.cc:LineReader::GetLine"]}
{"id": "C45", "title": "PES parsing stays inside the file", "statement": "For every file in which a well-formed packet written by the muxer stands at the parse position, parsing it reads no byte outside the file's contents. (Known defect, proved: for a malformed seven byte file it does.)", "quantifier": "all files with a written packet at the parse position, all surrounding bytes", "why_tests_cant": "All byte strings.", "anchors": ["m2ts/vpxpes_parser.cc:ParseNextPacket", "m2ts/vpxpes_parser.cc:ParsePesHeader"]}
{"id": "C46", "title": "90 kHz tick conversion is invertible", "statement": "Converting 90 kHz ticks to nanoseconds and back never gains and loses at most one tick, for all 33-bit tick counts. (It is not the identity, proved: one tick comes back as zero.)", "quantifier": "all 33-bit tick values", "why_tests_cant": "Floating-point truncation on a 33-bit range.", "anchors": ["common/libwebm_util.cc:NanosecondsTo90KhzTicks", "common/libwebm_util.cc:Khz90TicksToNanoseconds"]}
{"id": "C47", "title": "Walking any cluster is safe and ends", "statement": "For every file, asking mkvparser for the blocks of a cluster one after the other always returns a status (a block, no more blocks, or an error), never reads a block entry that reaches outside the cluster, yields blocks in file order without overlap, and ends after finitely many calls.", "quantifier": "all file contents, all cluster positions, all call sequences", "why_tests_cant": "Arbitrary malformed nesting and sizes.", "anchors": ["mkvparser/mkvparser.cc:Cluster::Parse", "mkvparser/mkvparser.cc:Cluster::Load", "mkvparser/mkvparser.cc:Cluster::ParseBlockGroup", "mkvparser/mkvparser.cc:Cluster::CreateBlockGroup"]}
{"id": "C48", "title": "A WebVTT file is parsed into its cues", "statement": "For every well-formed WebVTT text (optional byte order mark, WEBVTT header line, empty line, cues with optional identifier, timings, settings and payload lines, in any mix of line ends), Init succeeds and successive calls of Parse return exactly the cues of the text in order, with identifier, times, settings and payload lines unchanged, and then the end of the stream.", "quantifier": "all well-formed WebVTT texts", "why_tests_cant": "Unbounded texts; look-ahead over line ends; reuse of the cue object.", "anchors": ["webvtt/webvttparser.cc:Parser::Init", "webvtt/webvttparser.cc:Parser::Parse"]}
{"id": "C49", "title": "VP9 headers are read correctly", "statement": "For every frame that starts with a well-formed VP9 uncompressed header (key frame without segmentation, intra-only or inter frame), the header parser succeeds and reports its profile, kind, visibility, error resilience, bit depth, color space, refreshed references, size, render size and parallel mode; for key frames also the numbers of tile rows and columns unless a quantizer delta is coded. (Known defect, proved: a coded quantizer delta shifts what follows by one bit, so the tile counts can be wrong.)", "quantifier": "all well-formed headers, all following bytes, all earlier parser states", "why_tests_cant": "Every combination of fields and of conditional bits.", "anchors": ["common/vp9_header_parser.cc:ParseUncompressedHeader", "common/vp9_header_parser.cc:ParseTileInfo", "common/vp9_header_parser.cc:ParseColorSpace"]}
{"id": "C50", "title": "Every Feed call of the callback parser returns", "statement": "Whatever the bytes, the arrival schedule, the callback's answers and the calls made before, Feed returns a status after finitely many steps, and calling Feed again after each would-block brings the parse to an end.", "quantifier": "all inputs, schedules, callbacks and histories of calls of Feed and DidSeek", "why_tests_cant": "Arbitrary nesting, element sizes (also unknown sizes and sizes of zero) and interruption points.", "anchors": ["webm_parser/src/webm_parser.cc:WebmParser::Feed", "webm_parser/src/master_parser.cc:MasterParser::Feed"]}
{"id": "C51", "title": "Tags, segment information and the EBML header are read back as written", "statement": "Tags, segment information and an EBML header that the muxer reports as written are reported by the parser with the same contents: every simple tag of every non-empty tag in order (empty strings as absent), the timecode scale, muxing and writing application and the duration rounded to binary32, and the document type with its version; the parser consumes exactly the bytes written.", "quantifier": "all objects the format can represent whose values the parser accepts (strings up to 20,000,000 bytes, scale 1 to 2^63-1, duration up to 2^63 ns), all writer states, all readers that serve the written bytes at any position", "why_tests_cant": "Arbitrary strings, counts and positions.", "anchors": ["mkvmuxer/mkvmuxer.cc:Tags::Write", "mkvmuxer/mkvmuxer.cc:SegmentInfo::Write", "mkvmuxer/mkvmuxerutil.cc:WriteEbmlHeader", "mkvparser/mkvparser.cc:Tags::Parse", "mkvparser/mkvparser.cc:SegmentInfo::Parse", "mkvparser/mkvparser.cc:EBMLHeader::Parse"]}
{"id": "C52", "title": "Metadata parsing returns for any data", "statement": "Parsing the EBML header, the segment information, tracks, chapters or tags of arbitrary data, and loading cue points from arbitrary data in any number of calls, terminates without undefined behaviour (no overflow of positions, no use of an unread byte, no access outside an array).", "quantifier": "all contents of a source of at most 2^62 bytes whose failing reads report negative statuses, all payload positions and sizes", "why_tests_cant": "Adversarial sizes and nestings.", "anchors": ["mkvparser/mkvparser.cc:EBMLHeader::Parse", "mkvparser/mkvparser.cc:SegmentInfo::Parse", "mkvparser/mkvparser.cc:Chapters::Parse", "mkvparser/mkvparser.cc:Tags::Parse"]}
{"id": "C53", "title": "The reported duration is well defined", "statement": "Once the parser accepted a file's segment information, GetDuration returns -1 or a number of nanoseconds between 0 and 2^63-1, whatever the file's scale and duration. (Known defect, proved: when duration times scale is exactly 2^63 the conversion to an integer is undefined.)", "quantifier": "all contents of the segment information with duration times scale other than exactly 2^63", "why_tests_cant": "All pairs of a 64-bit scale and a binary32 or binary64 duration.", "anchors": ["mkvparser/mkvparser.cc:SegmentInfo::Parse", "mkvparser/mkvparser.cc:SegmentInfo::GetDuration"]}
{"id": "C54", "title": "Cues survive writing and parsing", "statement": "Cues written by the muxer are found by the parser and loaded one by one, in their order, each with the time, track, cluster position and block number it was written with (1 if the block number was left out); after the last one LoadCuePoint reports that there are no more.", "quantifier": "all lists of cue points whose numbers are below 2^63, at any position of any source", "why_tests_cant": "Arbitrary numbers of cue points with variable-width numbers.", "anchors": ["mkvmuxer/mkvmuxer.cc:Cues::Write", "mkvparser/mkvparser.cc:Cues::LoadCuePoint", "mkvparser/mkvparser.cc:CuePoint::Load"]}
{"id": "C55", "title": "Tracks are read back as written", "statement": "Tracks that the muxer writes are reported by the parser in the same order with the same settings: number, UID, type, codec, language, name, private data, durations, encryption of video and audio tracks, and the video (sizes, stereo mode, colour and mastering metadata, projection, frame rate rounded to binary32) or audio settings; the parser consumes the whole element and lookup by number and index finds each track. (Known defects, proved: a maximum luminance of 9999.99f, which the muxer accepts, makes the parser refuse all tracks; the encryption of other tracks is not read.)", "quantifier": "all lists of tracks with distinct numbers whose settings the parser accepts, all sources that serve the written bytes at any position", "why_tests_cant": "All combinations of optional settings, string lengths, counts and floating-point values.", "anchors": ["mkvmuxer/mkvmuxer.cc:Tracks::Write", "mkvmuxer/mkvmuxer.cc:VideoTrack::Write", "mkvmuxer/mkvmuxer.cc:Colour::Write", "mkvparser/mkvparser.cc:Tracks::Parse", "mkvparser/mkvparser.cc:VideoTrack::Parse", "mkvparser/mkvparser.cc:Colour::Parse"]}
{"id": "C56", "title": "Tracks reported for any file are usable", "statement": "Whatever the file contains, the tracks that the parser accepts have distinct numbers between 1 and 127, a type between 1 and 254 that agrees with their kind, no negative sizes or counts, and looking up a number finds exactly the track with that number. (Known defect, proved: a track whose content encodings cannot be parsed is reported as one without encryption.)", "quantifier": "all contents of a source of at most 2^62 bytes whose failing reads report negative statuses, all positions and sizes", "why_tests_cant": "Adversarial contents.", "anchors": ["mkvparser/mkvparser.cc:Tracks::Parse", "mkvparser/mkvparser.cc:Tracks::ParseTrackEntry", "mkvparser/mkvparser.cc:Tracks::GetTrackByNumber"]}
{"id": "C57", "title": "A finished file can be loaded and shows what was put in", "statement": "Whatever frames are added to a configured segment, on a seekable writer or not: if Finalize reports success, then parsing the EBML header of the file, creating the segment and loading it succeeds, and the loaded segment shows the configured settings, tracks, chapters and tags, the seek entries, the clusters at their positions with exactly the frames written into them (time, track, data, flags), and all cue points. (Known defect, proved: a file on a non-seekable writer without cues can end in a cluster without blocks; Finalize reports success but loading the file fails.)", "quantifier": "all configured segments whose values the parser accepts, all sequences of calls of a session, all frames, both kinds of writer, for files that do not end in an empty cluster of unknown size", "why_tests_cant": "Arbitrary interleavings of tracks, cluster boundaries, sizes and optional parts; two independent implementations must agree.", "anchors": ["mkvmuxer/mkvmuxer.cc:Segment::AddGenericFrame", "mkvmuxer/mkvmuxer.cc:Segment::Finalize", "mkvparser/mkvparser.cc:Segment::CreateInstance", "mkvparser/mkvparser.cc:Segment::Load", "mkvparser/mkvparser.cc:Segment::ParseHeaders", "mkvparser/mkvparser.cc:Segment::DoLoadCluster"]}
{"id": "C58", "title": "Opening and loading any file returns", "statement": "Whatever a source delivers, creating a segment, parsing its headers, loading its clusters one by one or all at once and looking for its cues all return, in any order of calls; the clusters found are in the order of their positions, none twice, and each can be parsed; a segment is found behind any elements of known size, with the start and size its header gives; and when Load reports success the segment has its information and a sound list of tracks. (Known defect, proved: ParseCues computes an overflowing position when it is called with the position that a seek entry of the file gives.)", "quantifier": "all contents of a source of at most 2^62 bytes, of known or unknown length, that delivers the bytes it announces, all histories of calls, all cue offsets that do not overflow the segment's position", "why_tests_cant": "Adversarial sizes, unknown sizes, truncation anywhere, repeated and interleaved calls.", "anchors": ["mkvparser/mkvparser.cc:Segment::CreateInstance", "mkvparser/mkvparser.cc:Segment::ParseHeaders", "mkvparser/mkvparser.cc:Segment::LoadCluster", "mkvparser/mkvparser.cc:Segment::Load", "mkvparser/mkvparser.cc:Segment::ParseCues"]}
{"id": "C59", "title": "The callback parser reports exactly the document", "statement": "Given any well-formed document -- elements of known size, a last segment or clusters of unknown size, defaults for empty elements, laced blocks, void and unknown elements, nesting -- a callback that reads everything is told about every element, in order, with its position, header size and size, every value, every structure with all its children, every frame with its position, size and bytes, and nothing else; and the parse completes. This holds however the data arrives. (Known defect, proved: with fixed-size lacing the reported frame positions leave out the size of the block's header; and an empty element at the very end, right after a cluster of unknown size, is not reported; and of two streams joined together, the first with a segment of unknown size, the second one's EBML header is reported at a wrong position.)", "quantifier": "all documents of less than 2^62 bytes of the grammar in WpDocSpec.v, all ways in which the data arrives in pieces", "why_tests_cant": "Unbounded nesting, sizes, encodings and interleavings of elements; all read boundaries.", "anchors": ["webm_parser/src/webm_parser.cc:WebmParser::Feed", "webm_parser/src/master_parser.cc:MasterParser::Feed", "webm_parser/src/master_value_parser.h:MasterValueParser::Feed", "webm_parser/src/block_parser.cc:BasicBlockParser::Feed", "webm_parser/src/size_parser.cc:SizeParser::Feed", "webm_parser/src/id_parser.cc:IdParser::Feed"]}
{"id": "C60", "title": "The callback parser is told what the muxer was given", "statement": "Whatever frames are added to a configured segment, on a seekable writer or not: if Finalize reports success and the file is fed to the callback parser, however the bytes arrive, then parsing completes and a callback that reads everything is told exactly the document type, seek entries, segment information, tracks, chapters, tags and cue points of the segment, in order and with all values, and exactly the frames written: track, time, data, key flag, and for block groups the additional data, discard padding and duration. The same holds for the copy of a finished file with its cues moved to the front.", "quantifier": "all configured segments, all sequences of calls of a session, all frames, both kinds of writer, all ways in which the data arrives in pieces; for live files that do not end in an empty Cues element", "why_tests_cant": "Two independent implementations must agree on every combination of settings, frames, cluster boundaries and read boundaries.", "anchors": ["mkvmuxer/mkvmuxer.cc:Segment::AddGenericFrame", "mkvmuxer/mkvmuxer.cc:Segment::Finalize", "mkvmuxer/mkvmuxer.cc:Segment::CopyAndMoveCuesBeforeClusters", "webm_parser/src/webm_parser.cc:WebmParser::Feed", "webm_parser/src/master_parser.cc:MasterParser::Feed", "webm_parser/src/block_parser.cc:BasicBlockParser::Feed"]}
{"id": "C61", "title": "After a seek the callback parser carries on", "statement": "Whatever a callback parser has done before, also after an error: when the user moves the data source to the start of an element inside a document and calls DidSeek, then a callback that reads everything is told exactly the elements from there to the end, in order, with their positions, values and frames as if the document had been read from the start; every element that was entered without being seen is told to have ended, with unknown size and position and with the values seen of it; and the parse completes, however the data arrives. (Known defects, proved: Colour and Projection of a video track, and what is in them, are reported as unknown elements; an unknown element among the children of the Segment passes for the Segment's end, so that the clusters after it are reported as unknown elements; the chapter after the one entered is taken for a nested one; the position of an element whose header was read by its predecessor is wrong.)", "quantifier": "all histories of calls before the seek, all places of the schema except in Colour and Projection, all continuations of the grammar in WpSeekSpec.v, all ways in which the data arrives", "why_tests_cant": "Every place in every document is a place to seek to, and the parser may be in any state.", "anchors": ["webm_parser/src/webm_parser.cc:WebmParser::DidSeek", "webm_parser/src/webm_parser.cc:DocumentParser::Feed", "webm_parser/src/ancestory.cc:Ancestory::ById", "webm_parser/src/master_parser.cc:MasterParser::InitAfterSeek", "webm_parser/src/master_value_parser.h:MasterValueParser::InitAfterSeek"]}
{"id": "C62", "title": "Going through a track shows each of its blocks once", "statement": "In a loaded segment, GetFirst of a track and then GetNext return exactly the track's blocks, each once and in file order, for video from the first key frame on, and then the end-of-stream entry; this can be repeated, for any track. For a file that the muxer finished these are exactly the frames of the track that were written, with their times, flags, data, padding and duration. Whatever bytes the source delivers, the two functions return, and what they return is an entry of that track, the end of the stream, or an error. (Known defect, proved: after 99 clusters in a row with blocks of other tracks only, GetNext reports the end of the stream although later clusters have blocks of the track.)", "quantifier": "all sources that deliver the bytes they announce, all states that loading and walking lead to, all tracks; for showing all blocks: segments parsed to their end in which at most 98 non-empty clusters in a row have no block of the track (99 before the first); for muxed files all sessions whose values the parser accepts", "why_tests_cant": "Any number of clusters and tracks, any interleaving, lazily parsed clusters in any state.", "anchors": ["mkvparser/mkvparser.cc:Track::GetFirst", "mkvparser/mkvparser.cc:Track::GetNext", "mkvparser/mkvparser.cc:VideoTrack::VetEntry", "mkvparser/mkvparser.cc:Segment::GetNext", "mkvparser/mkvparser.cc:Segment::DoneParsing"]}
{"id": "C63", "title": "Seeking in a track finds the right block", "statement": "In a loaded segment whose clusters and blocks are in order of time, Seek on a track returns for any time, also a negative one or one behind the end: the first block where the track can be entered if the time is not after it; otherwise, in a video track the last key frame that is not later than the time, in another track the first block of the track in the last cluster that has one and does not start later; and the end-of-stream entry if the track has no such block. Walking on from there with GetNext shows exactly the blocks of the track behind it, and one can seek again. In a file that the muxer finished from frames added in order this is the frame that was added, and GetNext shows from there the following frames of the track. Whatever the file is, where Seek returns the segment stays sound and the entry is one of the segment. (Known defect, proved: when a block lies before the start of its cluster, seeking to a time between the two violates an assertion.)", "quantifier": "all sources that deliver the bytes they announce, all states that loading, walking and seeking lead to, all tracks, all times; for the block found: segments parsed to their end, with a readable timecode scale, that are in order, with times below 2^63 ns and with at most 98 non-empty clusters in a row without a block of the track", "why_tests_cant": "Binary search and backward search over any number of lazily parsed clusters, any time.", "anchors": ["mkvparser/mkvparser.cc:Track::Seek", "mkvparser/mkvparser.cc:VideoTrack::Seek", "mkvparser/mkvparser.cc:Cluster::GetEntry", "mkvparser/mkvparser.cc:Cluster::GetTime", "mkvparser/mkvparser.cc:Block::GetTime"]}
{"id": "C64", "title": "Going to a cue point finds the block it announces", "statement": "In a segment with a loaded cluster at the position of a cue point, GetBlock returns the entry of that cluster with the number in the cue point if it is of the cue point's track and time; with a wrong number or none, the first block of the track that is not earlier, if it has that time and decoding can start there; otherwise nothing. The segment then shows the same as before, and GetNext shows from there each following block of the track. In a file that the muxer finished, going to each of its cue points finds the frame it was made for, and GetNext then shows the following frames of the track. Whatever bytes the source delivers, GetBlock returns, the segment stays sound, and an entry that is returned has the track and time of the cue point and is in a cluster at its position. (Known defect, proved: a cue point of a file can name a position so large that GetBlock overflows a signed sum.)", "quantifier": "all sources that deliver the bytes they announce, all states that loading, walking, seeking and going to cue points lead to, all cue points and track positions with a time and track that are not negative and a position that does not overflow; for muxed files all sessions without accurate cluster durations whose values the parser accepts, and cue points whose block number is written or 1; for the walk frames in order, not too far apart", "why_tests_cant": "Any number of lazily parsed clusters in any state, any cue point, right or wrong.", "anchors": ["mkvparser/mkvparser.cc:Segment::GetBlock", "mkvparser/mkvparser.cc:Cues::GetBlock", "mkvparser/mkvparser.cc:Cluster::GetEntry", "mkvparser/mkvparser.cc:Cluster::Parse", "mkvmuxer/mkvmuxer.cc:Segment::AddCuePoint"]}
{"id": "C65", "title": "Skipped elements are passed over and the rest is reported", "statement": "Given any well-formed document, a callback may ask, when an element of known size is announced, to skip it: for any selection of elements, however the data arrives, parsing completes and the callback is told exactly about the other elements, in order and with the same positions, the values of their parents lacking the skipped ones. This holds whatever the skipped elements contain, also if reading them would fail.", "quantifier": "all documents of less than 2^62 bytes of the grammar in WpDocSpec.v, all selections of elements of known size by their identifier, position and sizes, all contents of the skipped elements, all ways in which the data arrives in pieces", "why_tests_cant": "Every subset of the elements of every document may be skipped; all read boundaries.", "anchors": ["webm_parser/src/master_parser.cc:MasterParser::Feed", "webm_parser/src/webm_parser.cc:WebmParser::DocumentParser::Feed", "webm_parser/src/skip_parser.cc:SkipParser", "webm_parser/src/master_value_parser.h:MasterValueParser::ChildParser"]}
{"id": "C66", "title": "The readers that come with the callback parser keep their contract", "statement": "For any source and any history of Read and Skip calls, a BufferReader, FileReader and IstreamReader return the source's bytes in order, none missing and none twice, with the documented status: completed if all bytes asked for were delivered, partial if some were, another status if none was; Position is the number of bytes passed, or the place last sought to. Bytes are only refused at the end of the source as long as the C library delivers. So what is proved of the callback parser for any arrival of data holds with these readers. (Known defect, proved: on a regular file FileReader::Skip reports bytes as skipped that lie beyond the end of the file.)", "quantifier": "all sources below 2^63 bytes, seekable or not, open at any offset, all numbers of bytes that the C library delivers at a time, all histories of calls with positive numbers, with Seek for files open at their start", "why_tests_cant": "Every interleaving of calls with every short read, failed seek and end of file.", "anchors": ["webm_parser/src/buffer_reader.cc:BufferReader::Read", "webm_parser/src/buffer_reader.cc:BufferReader::Skip", "webm_parser/src/file_reader.cc:FileReader::Read", "webm_parser/src/file_reader.cc:FileReader::Skip", "webm_parser/src/file_reader.cc:FileReader::Seek", "webm_parser/src/istream_reader.cc:IstreamReader::Read", "webm_parser/src/istream_reader.cc:IstreamReader::Skip"]}
{"id": "C67", "title": "The file reader and the file writer deliver what is in the file and store what is written", "statement": "In any history of calls, Read of a MkvReader gives exactly the bytes of the file at the offset when they are all inside it, and fails otherwise; Length tells the file's length. A MkvWriter stores bytes at its position and moves on, reports success exactly when all were stored, and Position moves it. So they are a reader and a writer of the kind that the theorems about parser and muxer are about.", "quantifier": "all files below 2^63 bytes, all histories of Read calls with any offsets and lengths, all histories of Write and Position calls on a file that can seek, with any failures of the C library to store all bytes", "why_tests_cant": "All histories, offsets, lengths and points of failure.", "anchors": ["mkvparser/mkvreader.cc:MkvReader::Read", "mkvparser/mkvreader.cc:MkvReader::Length", "mkvmuxer/mkvwriter.cc:MkvWriter::Write", "mkvmuxer/mkvwriter.cc:MkvWriter::Position"]}
{"id": "C68", "title": "Colour information copied from one file to another says the same", "statement": "If the parser accepts a colour element of any file, and its Colour object is copied with CopyColour and given to a video track with SetColour, then every value the file gives - the thirteen numbers, the two luminances, the four chromaticities - is in the copy unchanged and no value is added. When the tracks are written and read again, the track shows exactly this colour information; the colour element is absent exactly if the first file gave no value. (Known defect, proved: some colour elements that the parser accepts make a track that the muxer refuses to write, for example a minimum luminance above the maximum.)", "quantifier": "all files and readers, all positions and sizes of the colour element, all tracks among which the copy is written, all writers", "why_tests_cant": "All combinations of present and absent values, with all values including the sentinels of both sides.", "anchors": ["common/hdr_util.cc:CopyColour", "common/hdr_util.cc:CopyMasteringMetadata", "common/hdr_util.cc:CopyPrimaryChromaticity", "mkvmuxer/mkvmuxer.cc:VideoTrack::SetColour", "mkvmuxer/mkvmuxer.cc:Colour::SetMasteringMetadata", "mkvparser/mkvparser.cc:Colour::Parse", "mkvparser/mkvparser.cc:MasteringMetadata::Parse"]}
{"id": "C69", "title": "The objects of the callback parser show the elements of the file", "statement": "Every structure handed to the callbacks shows, for each of its fields, the value of the last such element read, and for fields that are lists all of them in file order, with is_present() true. A field whose element is not in the file shows the documented default with is_present() false. A display width or height that is missing or has an empty payload shows the pixel width or height, a missing output frequency the sampling frequency, and is_present() still tells whether the element was there. So a track of the muxer without display size is shown with its pixel size.", "quantifier": "all structures, all fields, all sequences of child elements with any sizes and values, in any order and with any repetitions", "why_tests_cant": "All orders, repetitions and empty payloads of child elements.", "anchors": ["webm_parser/src/master_value_parser.h:MasterValueParser", "webm_parser/src/video_parser.h:VideoParser", "webm_parser/src/audio_parser.h:AudioParser", "webm_parser/include/webm/dom_types.h:Video", "webm_parser/include/webm/element.h:Element"]}
{"id": "C70", "title": "A projection copied from one file to another says the same", "statement": "If the parser accepts a projection element of any file, then copying its Projection object the way mkvmuxer_sample does, and giving the copy to a video track with SetProjection, succeeds. The copy has every value the file gives - type, the three pose angles, the private data byte for byte - and the defaults (rectangular, 0) for the others. When the tracks are written and read again, the track shows exactly this. (Known defect, proved: a type of 2^31 is accepted, and its copy makes a file whose tracks the parser refuses.)", "quantifier": "all files and readers, all positions and sizes of the projection element, all tracks among which the copy is written, all writers", "why_tests_cant": "All combinations of present and absent values, with all values including the sentinels.", "anchors": ["mkvmuxer_sample.cc:CopyVideoProjection", "mkvmuxer/mkvmuxer.cc:VideoTrack::SetProjection", "mkvmuxer/mkvmuxer.cc:Projection::SetProjectionPrivate", "mkvmuxer/mkvmuxer.cc:Projection::Write", "mkvparser/mkvparser.cc:Projection::Parse"]}
{"id": "C71", "title": "Chunked output: every cluster in its own file, nothing lost or overwritten", "statement": "Over any history of SetChunking, Init, new clusters, header writing and Finalize, and whichever files cannot be opened, a Segment never opens - and so empties - the same file twice, as long as there are fewer than 2^31 calls. After SetChunking(true, base) has succeeded and as long as files can be opened, at any moment the file base_K.chk (K in decimal with at least six digits) holds exactly what was written for cluster K, base.hdr what was written for the headers, and there are no other files; Finalize adds to the header file, puts the cues into base_N.cues and leaves every chunk as it is. (Known defects, proved: when the header file cannot be opened, SetChunking never succeeds again; a SetChunking that fails changes the names of later chunks; SetChunking(false) reports success but the output keeps going to the chunk files.)", "quantifier": "all histories of calls, all base names, all numbers of clusters below 2^31, all writes and seeks, all patterns of fopen failures (for the first part)", "why_tests_cant": "All histories, names, numbers of chunks and failures.", "anchors": ["mkvmuxer/mkvmuxer.cc:Segment::SetChunking", "mkvmuxer/mkvmuxer.cc:Segment::UpdateChunkName", "mkvmuxer/mkvmuxer.cc:Segment::MakeNewCluster", "mkvmuxer/mkvmuxer.cc:Segment::Finalize", "mkvmuxer/mkvmuxer.cc:Segment::WriteSegmentHeader", "mkvmuxer/mkvwriter.cc:MkvWriter::Open", "mkvmuxer/mkvwriter.cc:MkvWriter::Close"]}
{"id": "C72", "title": "Byte order conversion, and the partition offsets webm_info shows", "statement": "On little and big endian machines host_to_bigendian of a 64-bit number is a number whose bytes in memory are those of the argument, the most significant first, and bigendian_to_host of eight bytes so loaded is the number they stand for. For 32-bit numbers this holds on big endian machines; on little endian ones it holds exactly for the numbers whose two upper bytes equal their two lower ones. For a partially encrypted frame webm_info never reads outside the frame and shows one number per announced partition whose offset is inside the frame, in order; it is the offset on a big endian machine, and on a little endian machine the number made of the first and last byte of the offset, each twice. (Known defect, proved: the two middle masks of the 32-bit swap are exchanged, so on common machines webm_info shows an offset of 256 as 0.)", "quantifier": "all 32- and 64-bit numbers, all eight-byte strings, both byte orders, all frames of any length", "why_tests_cant": "All numbers and frames; tests that run on one machine see one byte order, and small numbers of a repeating pattern hide the defect.", "anchors": ["common/webm_endian.cc:host_to_bigendian", "common/webm_endian.cc:bigendian_to_host", "webm_info.cc:PrintSubSampleEncryption"]}
{"id": "C73", "title": "WebVTT cues survive being stored in a file", "statement": "When WebVTT files (in order of time, without NUL bytes, with times below 2^63 ns and settings of at most 9900 bytes) are loaded as metadata tracks, and whenever the program asks for cues to be written in between, the text that vttdemux makes of the blocks of a track, stored with a time unit that divides a millisecond, is a standard WebVTT file which the WebVTT parser reads as exactly the cues of the original file: identifiers, times, settings, lines and order. The frames of all tracks come in order of time; Write(t) writes exactly the cues that start at or before t. (Known defects, proved: in text with a NUL byte the rest of the line is lost; a start time above 2562047 hours is accepted and overflows.)", "quantifier": "all numbers of files and tracks, all WebVTT files the parser accepts within the limits, all sequences of Write calls, all time units that divide a millisecond", "why_tests_cant": "All texts, all interleavings of tracks and write times.", "anchors": ["sample_muxer_metadata.cc:SampleMuxerMetadata::Load", "sample_muxer_metadata.cc:SampleMuxerMetadata::Write", "sample_muxer_metadata.cc:SampleMuxerMetadata::MakeFrame", "vttdemux.cc:WriteCue", "vttdemux.cc:WriteCueTime", "webvtt/webvttparser.cc:LineReader::GetLine", "webvtt/webvttparser.cc:Parser::Parse"]}
{"id": "C74", "title": "WebVTT chapters survive being stored in a file", "statement": "When a WebVTT file (in order of time, without NUL bytes, with times below 2^63 ns and texts of at most 20000000 bytes) in which every cue has an identifier is loaded as chapters, writing the chapters succeeds on a writer that does not fail, and whenever it has succeeded, then for any reader that serves the bytes, parsing the chapters and extracting them with vttdemux, with a time unit that divides a millisecond, gives a standard WebVTT file which the WebVTT parser reads as the cues of the original file, in their order, with the same identifiers, times and lines; settings are left out. Of the chapters of any file, whatever made it, vttdemux gives a standard text of exactly the chapters that have a title, with times cut to milliseconds; it gives none if there are two editions, a second title or a language other than English. (Known defect, proved: if a cue has no identifier, which WebVTT allows and the loader accepts, the muxer refuses to write the chapters, whatever the writer.)", "quantifier": "all WebVTT files the parser accepts within the limits, all chapter UIDs, all time units that divide a millisecond, all writers and readers", "why_tests_cant": "All texts, writers and readers.", "anchors": ["sample_muxer_metadata.cc:SampleMuxerMetadata::LoadChapters", "sample_muxer_metadata.cc:SampleMuxerMetadata::AddChapter", "mkvmuxer/mkvmuxer.cc:Chapters::Write", "mkvmuxer/mkvmuxer.cc:Chapter::WriteAtom", "mkvparser/mkvparser.cc:Chapters::Parse", "vttdemux.cc:WriteChaptersFile", "vttdemux.cc:WriteChaptersCue"]}
{"id": "C75", "title": "vttdemux puts every WebVTT track into a file of its own", "statement": "Whatever tracks and chapters a WebM file has, and whichever output files can be opened, vttdemux opens no file twice and never opens the input file; every file opened belongs to the chapters or to a track with a WebVTT codec and is named after the input file without what follows its last dot, the kind of text and, exactly when there are several of the kind, the track number in decimal. If opening reports success every such track has its file, and it does report success when all files can be opened; with no dot in the input name nothing is opened. (Known defects, proved: if only a directory in the input name has a dot, the output goes outside that directory; of tracks that share a number only the last one gets a file.)", "quantifier": "all lists of tracks with numbers below 2^63, all codec names, all input file names, all patterns of fopen failures", "why_tests_cant": "All track lists and names.", "anchors": ["vttdemux.cc:BuildMap", "vttdemux.cc:OpenFiles"]}
{"id": "C76", "title": "vttdemux writes the cues of each track, and only those, into its file", "statement": "However the blocks of WebVTT tracks are mixed with each other and with video and audio, if vttdemux reports success then the file of each track holds exactly what the blocks of that track, taken alone in their order, give, and the chapters file exactly what the chapters give; no block of another track has an effect. It does report success when every WebVTT block is in a block group and each track, and the chapters, can be extracted alone. In particular, WebVTT files loaded as several metadata tracks and stored in block groups among any other blocks all come out as files that the WebVTT parser reads as the original cues. For the whole program: if vttdemux exits with success it has written at least one file, none twice and none over its input; each holds the text of the chapters or of one WebVTT track and is named for it, and none is missing; it does exit with success if there is any WebVTT text, all of it can be extracted and all files can be opened. (Known defect, proved: a WebVTT block outside a block group ends the extraction, and later cues of other tracks are lost too.)", "quantifier": "all lists of blocks with positive track numbers, all sets of WebVTT tracks, all chapters, all time units", "why_tests_cant": "All interleavings of blocks.", "anchors": ["vttdemux.cc:WriteFiles", "vttdemux.cc:InitializeFiles", "vttdemux.cc:WriteChaptersFile", "vttdemux.cc:ProcessCluster", "vttdemux.cc:ProcessBlockEntry", "vttdemux.cc:main"]}
{"id": "C77", "title": "dumpvtt shows every cue of a WebVTT file", "statement": "dumpvtt ends on every file, also when reading fails at any point. It prints the cues the parser returns and exits with success exactly if the parser then reports the end of the file, not an error; if the signature is not accepted it prints nothing and fails. Of a WebVTT file without NUL bytes it prints, for each cue in order, the identifier, both times, all settings (or that there are none) and the numbered lines, and two such files for which it prints the same have the same cues. (Known defect, proved: what follows a NUL byte in a line is not shown.)", "quantifier": "all files, all reading failures; all WebVTT files with cues of fewer than 2^31-1 lines", "why_tests_cant": "All texts and points of failure.", "anchors": ["dumpvtt.cc:main", "webvtt/webvttparser.cc:Parser::Init", "webvtt/webvttparser.cc:Parser::Parse"]}
