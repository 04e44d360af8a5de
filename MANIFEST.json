{
 "claims": [
  {
   "property": "C01",
   "status": "proved",
   "theorems": [
    "C01_size_canonical",
    "C01_size_read",
    "C01_size_end_to_end",
    "C01_size_too_big"
   ],
   "note": ""
  },
  {
   "property": "C02",
   "status": "proved",
   "theorems": [
    "C02_fixed_width",
    "C02_auto_width",
    "C02_auto_width_refuted"
   ],
   "note": "The claim that width 0 reports failure when nothing fits is false of the code (undefined behaviour in the width search); everything else is proved."
  },
  {
   "property": "C03",
   "status": "proved",
   "theorems": [
    "C03_id_roundtrip"
   ],
   "note": ""
  },
  {
   "property": "C04",
   "status": "proved",
   "theorems": [
    "C04_C05_C06_leaf_elements",
    "C04_uint_read",
    "C04_uint_high_bit_refuted",
    "C04_fixed_misfit_leaves_id"
   ],
   "note": "Readability of values with the top bit set is false of the code; refuted with a witness."
  },
  {
   "property": "C05",
   "status": "proved",
   "theorems": [
    "C04_C05_C06_leaf_elements",
    "C05_int_read"
   ],
   "note": ""
  },
  {
   "property": "C06",
   "status": "proved",
   "theorems": [
    "C04_C05_C06_leaf_elements",
    "C05_int_read",
    "C06_float_read",
    "C06_string_read",
    "C06_huge_string_refuted"
   ],
   "note": "Floats are modelled by their bit patterns. Strings of 2^32 bytes and more lose their content; refuted."
  },
  {
   "property": "C07",
   "status": "proved",
   "theorems": [
    "C07_void_exact",
    "C07_void_refused",
    "C07_void_total_refuted",
    "C07_void_zero_refuted"
   ],
   "note": "Totality over all sizes is false of the code; the exact set of refused sizes below 2^31 is proved."
  },
  {
   "property": "C08",
   "status": "proved",
   "theorems": [
    "C08_success_means_written",
    "C08_no_failure_no_error",
    "C08_positive_status_refuted"
   ],
   "note": "Leaf elements; larger elements are covered by the emits_* lemmas and under C10/C11."
  },
  {
   "property": "C09",
   "status": "proved",
   "theorems": [
    "C09_cluster_roundtrip",
    "C09_huge_duration_refuted"
   ],
   "note": "Stated for whole clusters. Additional data is not exposed by mkvparser. False for durations of 2^63 timecode units and more (refuted)."
  },
  {
   "property": "C10",
   "status": "proved",
   "theorems": [
    "C10_write_frame",
    "C10_refused_writes_nothing",
    "C10_valid_frames",
    "C10_huge_frame_refuted"
   ],
   "note": "Frames of 2^31-4 bytes and more in a SimpleBlock are undefined behaviour (refuted); proved for all smaller ones."
  },
  {
   "property": "C11",
   "status": "proved",
   "theorems": [
    "C11_ebml_header",
    "C11_cue_point",
    "C11_cues",
    "C11_content_encoding",
    "C11_colour",
    "C11_projection",
    "C11_track",
    "C11_tracks",
    "C11_chapters",
    "C11_tags",
    "C11_info"
   ],
   "note": "For every object state whose encoding stays below 2^56-1 bytes and every writer behaviour. SeekHead's announced size is treated under C19."
  },
  {
   "property": "C12",
   "status": "proved",
   "theorems": [
    "C12_block_timecodes_fit",
    "C12_every_block"
   ],
   "note": "For every session: any calls when accurate cluster durations are off, orderly calls when they are on. is_muxed (MuxFileSpec.v) describes the file."
  },
  {
   "property": "C13",
   "status": "proved",
   "theorems": [
    "C13_file_in_order",
    "C13_clusters_in_order",
    "C13_late_frames_refused"
   ],
   "note": "For every session (orderly calls when accurate cluster durations are on)."
  },
  {
   "property": "C14",
   "status": "proved",
   "theorems": [
    "C14_no_frame_lost",
    "C14_only_held_back_frames_lost",
    "C14_without_gap_bound_refuted"
   ],
   "note": "For orderly input; the refuted theorem shows the condition is needed."
  },
  {
   "property": "C15",
   "status": "proved",
   "theorems": [
    "C15_orderly_frames_accepted",
    "C15_without_gap_bound_refuted",
    "C15_after_empty_frame_refuted"
   ],
   "note": "For orderly input; the refuted theorems show the conditions are needed."
  },
  {
   "property": "C16",
   "status": "proved",
   "theorems": [
    "C16_sizes_match"
   ],
   "note": "For every session on a seekable writer."
  },
  {
   "property": "C17",
   "status": "proved",
   "theorems": [
    "C17_cues_locate_blocks",
    "C17_cues_locate_clusters_accurate"
   ],
   "note": ""
  },
  {
   "property": "C18",
   "status": "proved",
   "theorems": [
    "C18_moved_cues_right",
    "C18_without_cues_refuted",
    "C18_without_cluster_refuted",
    "C18_failing_write_refuted"
   ],
   "note": "Layout of the copy in MoveSpec.v; recursion depth 7 n + 8 suffices for n cue points."
  },
  {
   "property": "C19",
   "status": "proved",
   "theorems": [
    "C19_seek_head_right",
    "C19_six_entries_refuted"
   ],
   "note": ""
  },
  {
   "property": "C20",
   "status": "proved",
   "theorems": [
    "C20_numbers_unique",
    "C20_accepted_iff",
    "C20_usable",
    "C20_usable_refuted"
   ],
   "note": "Usability (numbers 1..126) proved for up to 63 tracks; false in general: with the numbers 64..126 taken explicitly the automatic number is 127 (refuted)."
  },
  {
   "property": "C21",
   "status": "proved",
   "theorems": [
    "C21_read_uint_bounds",
    "C21_read_id_bounds",
    "C21_uint_length"
   ],
   "note": ""
  },
  {
   "property": "C22",
   "status": "proved",
   "theorems": [
    "C22_header_progress",
    "C22_walk_bound",
    "C22_header_read"
   ],
   "note": ""
  },
  {
   "property": "C23",
   "status": "proved",
   "theorems": [
    "C23_frames_tile_block"
   ],
   "note": ""
  },
  {
   "property": "C24",
   "status": "proved",
   "theorems": [
    "C24_lacing_decoded",
    "C24_accepted_is_wellformed",
    "C24_single_ebml_refuted",
    "C24_single_ebml_refused_refuted",
    "C24_block_time",
    "C24_callback_lacing_decoded",
    "C24_callback_accepted_is_wellformed",
    "C24_callback_track_zero_refuted",
    "C24_callback_empty_frame_refuted"
   ],
   "note": "Encodings are specified in LacingSpec.v (WpBlockSpec.v for what the callback parser takes in addition)."
  },
  {
   "property": "C25",
   "status": "proved",
   "theorems": [
    "C25_find_cluster",
    "C25_cues_find",
    "C25_any_cue_times_refuted"
   ],
   "note": ""
  },
  {
   "property": "C26",
   "status": "proved",
   "theorems": [
    "C26_table_ordered",
    "C26_operations_defined",
    "C26_no_cluster_twice",
    "C26_request_found",
    "C26_any_positions_refuted"
   ],
   "note": "Histories are specified in TableSpec.v; allocation does not fail."
  },
  {
   "property": "C27",
   "status": "proved",
   "theorems": [
    "C27_chapters_read_back",
    "C27_uid_survives_iff",
    "C27_chapter_uids_survive_refuted"
   ],
   "note": "sign_extended and the reported objects are specified in ReadBackSpec.v; the refuted form is that all UIDs survive."
  },
  {
   "property": "C28",
   "status": "proved",
   "theorems": [
    "C28_schedule_independent",
    "C28_from_any_point"
   ],
   "note": "Callbacks that themselves return would-block or partial are not covered."
  },
  {
   "property": "C29",
   "status": "proved",
   "theorems": [
    "C29_element_consumes_its_size",
    "C29_block_virtual_refuted"
   ],
   "note": "For each element parser, fed in any number of calls. False of BlockVirtual elements longer than their header (refuted)."
  },
  {
   "property": "C30",
   "status": "proved",
   "theorems": [
    "C30_notifications_nest",
    "C30_all_closed_at_the_end",
    "C30_frames_inside_their_block"
   ],
   "note": "Callbacks answer kOkCompleted or a positive code."
  },
  {
   "property": "C31",
   "status": "proved",
   "theorems": [
    "C31_errors_sticky"
   ],
   "note": "That DidSeek resets the parser is part of C61."
  },
  {
   "property": "C32",
   "status": "proved",
   "theorems": [
    "C32_chapters_bounded",
    "C32_tags_bounded",
    "C32_stack_bounded"
   ],
   "note": "Limit 26 = first chapter plus 25 recursive ones. The error code for 27 levels is shown on a concrete file (C32_example)."
  },
  {
   "property": "C33",
   "status": "proved",
   "theorems": [
    "C33_escaped_payload_has_no_start_code",
    "C33_start_codes_only_at_packets",
    "C33_all_frames_refuted"
   ],
   "note": "False of the code for frames beginning with 01 or 00 01 (refuted); proved for all others."
  },
  {
   "property": "C34",
   "status": "proved",
   "theorems": [
    "C34_unescape_iff",
    "C34_stream_roundtrip",
    "C34_all_payloads_refuted",
    "C34_fragmented_refuted"
   ],
   "note": "The claim for every payload is false of the code; the exact set of payloads that survive is characterised."
  },
  {
   "property": "C35",
   "status": "proved",
   "theorems": [
    "C35_pts_roundtrip_iff",
    "C35_small_pts",
    "C35_pts_wire_iff",
    "C35_all_pts_refuted"
   ],
   "note": "False of the code; the exact set of surviving values is characterised."
  },
  {
   "property": "C36",
   "status": "proved",
   "theorems": [
    "C36_packetise",
    "C36_stream_continuity_refuted"
   ],
   "note": "Within one PES packet proved; continuity across packets is false of the code (refuted)."
  },
  {
   "property": "C37",
   "status": "proved",
   "theorems": [
    "C37_superframe",
    "C37_passthrough",
    "C37_lookalike_refuted"
   ],
   "note": ""
  },
  {
   "property": "C38",
   "status": "proved",
   "theorems": [
    "C38_every_frame_returns",
    "C38_every_sequence_returns"
   ],
   "note": ""
  },
  {
   "property": "C39",
   "status": "proved",
   "theorems": [
    "C39_statistics_exact",
    "C39_level_covers",
    "C39_few_hidden_frames_unknown",
    "C39_beyond_every_level_refuted",
    "C39_reference_limit_refuted",
    "C39_huge_pictures_refuted"
   ],
   "note": "Bit rate, buffer size, sample rate and compression ratio are compared as doubles, as in the code."
  },
  {
   "property": "C40",
   "status": "proved",
   "theorems": [
    "C40_private_safe_and_sound",
    "C40_private_complete",
    "C40_second_level_refuted",
    "C40_huge_buffers_refuted"
   ],
   "note": ""
  },
  {
   "property": "C41",
   "status": "proved",
   "theorems": [
    "C41_times_accepted_exactly",
    "C41_accepted_times_proper",
    "C41_standard_times_read",
    "C41_fractions_read_exactly",
    "C41_small_fractions_refuted"
   ],
   "note": ""
  },
  {
   "property": "C42",
   "status": "proved",
   "theorems": [
    "C42_every_call_returns",
    "C42_finitely_many_cues",
    "C42_timings_line_returns"
   ],
   "note": ""
  },
  {
   "property": "C43",
   "status": "proved",
   "theorems": [
    "C43_presentation_round_trip",
    "C43_presentation_exact",
    "C43_order_and_arithmetic",
    "C43_long_times_refuted"
   ],
   "note": ""
  },
  {
   "property": "C44",
   "status": "proved",
   "theorems": [
    "C44_lines_of_a_text",
    "C44_lines_read"
   ],
   "note": ""
  },
  {
   "property": "C45",
   "status": "proved",
   "theorems": [
    "C45_parser_in_bounds_refuted",
    "C45_well_formed_in_bounds"
   ],
   "note": "False of the code for malformed files (refuted); proved for files of well-formed frames."
  },
  {
   "property": "C46",
   "status": "proved",
   "theorems": [
    "C46_tick_roundtrip_bound",
    "C46_tick_roundtrip_refuted"
   ],
   "note": "The doubles are those of Coq's SpecFloat; the error analysis is done in the rationals, without axioms."
  },
  {
   "property": "C47",
   "status": "proved",
   "theorems": [
    "C47_parse_returns",
    "C47_entries_inside",
    "C47_walk_ends"
   ],
   "note": "For readers that fail with a negative status and only outside the available bytes, as mkvreader.cc does on an intact file."
  },
  {
   "property": "C48",
   "status": "proved",
   "theorems": [
    "C48_file_yields_its_cues",
    "C48_standard_file_yields_its_cues"
   ],
   "note": "Fractions 000 and 100..999 (the others are misread, see C41)."
  },
  {
   "property": "C49",
   "status": "proved",
   "theorems": [
    "C49_key_frames_read",
    "C49_intra_frames_read",
    "C49_inter_frames_read",
    "C49_quantizer_delta_refuted"
   ],
   "note": "Frames with show_existing_frame and key frames with segmentation are covered by C38 only."
  },
  {
   "property": "C50",
   "status": "proved",
   "theorems": [
    "C50_feed_returns",
    "C50_sessions_end"
   ],
   "note": "Callbacks answer kOkCompleted or a positive code. Seeks are covered through reached."
  },
  {
   "property": "C51",
   "status": "proved",
   "theorems": [
    "C51_tags_read_back",
    "C51_info_read_back",
    "C51_header_read_back"
   ],
   "note": "The reported objects are specified in ReadBackSpec.v."
  },
  {
   "property": "C52",
   "status": "proved",
   "theorems": [
    "C52_metadata_parsers_return",
    "C52_cues_return",
    "C52_tracks_parser_returns"
   ],
   "note": ""
  },
  {
   "property": "C53",
   "status": "proved",
   "theorems": [
    "C53_duration_defined",
    "C53_duration_always_defined_refuted"
   ],
   "note": ""
  },
  {
   "property": "C54",
   "status": "proved",
   "theorems": [
    "C54_cues_read_back"
   ],
   "note": "The reported objects are specified in CueReadSpec.v."
  },
  {
   "property": "C55",
   "status": "proved",
   "theorems": [
    "C55_tracks_read_back",
    "C55_bright_track_read_refuted",
    "C55_encryption_read_refuted"
   ],
   "note": "What is reported and which tracks are accepted is specified in ReadTrackSpec.v."
  },
  {
   "property": "C56",
   "status": "proved",
   "theorems": [
    "C56_tracks_sound",
    "C56_broken_encryption_refuted"
   ],
   "note": "Soundness is specified in ReadTrackSpec.v."
  },
  {
   "property": "C57",
   "status": "proved",
   "theorems": [
    "C57_muxed_file_loads",
    "C57_empty_last_cluster_refuted"
   ],
   "note": "What the loaded segment must show is specified in SegReadSpec.v; the hypotheses after the layout are the limits of the parser."
  },
  {
   "property": "C58",
   "status": "proved",
   "theorems": [
    "C58_loading_returns",
    "C58_loaded_usable",
    "C58_segment_found",
    "C58_cues_position_refuted"
   ],
   "note": "The states a caller can reach are specified in SegSafeSpec.v."
  },
  {
   "property": "C59",
   "status": "proved",
   "theorems": [
    "C59_document_reported",
    "C59_fixed_lacing_position_refuted",
    "C59_empty_end_refuted",
    "C59_joined_streams_position_refuted"
   ],
   "note": "Documents and the notifications about them are specified in WpDocSpec.v; a Void element or an empty element at the very end of the file may not directly follow a cluster of unknown size, fixed-size lacing with several frames is excluded, and a segment of unknown size is the last element (all refuted)."
  },
  {
   "property": "C60",
   "status": "proved",
   "theorems": [
    "C60_muxed_file_told",
    "C60_moved_file_told"
   ],
   "note": "What is to be told is specified in WpMuxSpec.v over the layout of MuxFileSpec.v. Files of a non-seekable writer whose last element is an empty Cues element are excluded (that element is lost, see C59_empty_end_refuted)."
  },
  {
   "property": "C61",
   "status": "proved",
   "theorems": [
    "C61_resumes",
    "C61_rest_of_segment",
    "C61_inside_cluster",
    "C61_colour_refuted",
    "C61_unknown_element_refuted",
    "C61_sibling_chapter_refuted",
    "C61_position_refuted"
   ],
   "note": "What remains of a document and what is to be told of it are specified in WpSeekSpec.v."
  },
  {
   "property": "C62",
   "status": "proved",
   "theorems": [
    "C62_walk_shows_track",
    "C62_loaded_is_done",
    "C62_muxed_track_walk",
    "C62_walk_returns",
    "C62_walk_gap_refuted"
   ],
   "note": "What must be shown is specified in WalkSpec.v and WalkFileSpec.v; the limit on clusters in a row without a block of the track is needed (refuted)."
  },
  {
   "property": "C63",
   "status": "proved",
   "theorems": [
    "C63_seek_finds",
    "C63_muxed_seek",
    "C63_seek_sound",
    "C63_seek_early_refuted"
   ],
   "note": "What must be found is specified in TrackSeekSpec.v, for files of the muxer in SeekFileSpec.v."
  },
  {
   "property": "C64",
   "status": "proved",
   "theorems": [
    "C64_cue_block_found",
    "C64_muxed_cues",
    "C64_cue_block_sound",
    "C64_far_position_refuted"
   ],
   "note": "What must be found is specified in CueSeekSpec.v, for files of the muxer in CueFileSpec.v.  With accurate cluster durations the block number in a cue point need not be right (see C14), so the muxed part excludes that mode."
  },
  {
   "property": "C65",
   "status": "proved",
   "theorems": [
    "C65_skipped_elements",
    "C65_any_selection"
   ],
   "note": "What is told is specified in WpDocSpec.v (document_skip).  Skipping an element of unknown size, or from OnClusterBegin and the like, is modelled but not covered by these theorems."
  },
  {
   "property": "C66",
   "status": "proved",
   "theorems": [
    "C66_buffer_reader",
    "C66_file_reader",
    "C66_istream_reader",
    "C66_parser_view",
    "C66_skip_inside_refuted"
   ],
   "note": "The contract is specified in SourceSpec.v; files and streams are modelled by what fread, fseek, read and seekg do."
  },
  {
   "property": "C67",
   "status": "proved",
   "theorems": [
    "C67_mkv_reader",
    "C67_mkv_reader_is_file_reader",
    "C67_mkv_writer"
   ],
   "note": "Writes of no bytes, which return at once, are left out of the simulation of the writer."
  },
  {
   "property": "C68",
   "status": "proved",
   "theorems": [
    "C68_copy_says_the_same",
    "C68_from_file_to_file",
    "C68_copy_can_be_written_refuted"
   ],
   "note": "What must be left is specified in HdrSpec.v.  The values a file gives are those the parser's objects show: the largest long long and FLT_MAX stand for absent values.  Written again means that the write succeeds and the tracks are readable in the sense of C55."
  },
  {
   "property": "C69",
   "status": "proved",
   "theorems": [
    "C69_objects",
    "C69_muxed_display_size",
    "C69_muxed_output_frequency"
   ],
   "note": "What a field must show is specified in DomSpec.v.  The children are those the parser has read, which the model of the parser (MWpTree.v, C59, C60) records in order; the theorems about the muxer's tracks take them from the layout of C11."
  },
  {
   "property": "C70",
   "status": "proved",
   "theorems": [
    "C70_copy_says_the_same",
    "C70_from_file_to_file",
    "C70_copy_can_be_read_refuted"
   ],
   "note": "What must be shown is specified in ProjSpec.v.  FLT_MAX and the type -1 stand for absent values, as in the parser's objects.  The enumeration of the type has 32 bits."
  },
  {
   "property": "C71",
   "status": "proved",
   "theorems": [
    "C71_no_file_twice",
    "C71_at_any_time",
    "C71_when_finished",
    "C71_try_again_refuted",
    "C71_failed_call_refuted",
    "C71_off_refuted"
   ],
   "note": "Names and contents are specified in ChunkSpec.v.  Which bytes the muxer writes to which of its three writers is given from outside, as any sequence of writes and seeks; what it writes to a single writer is the subject of other claims."
  },
  {
   "property": "C72",
   "status": "proved",
   "theorems": [
    "C72_eight_bytes",
    "C72_four_bytes",
    "C72_four_bytes_refuted",
    "C72_offsets_shown",
    "C72_short_frame",
    "C72_offsets_refuted"
   ],
   "note": "Byte order in memory is specified in EndianSpec.v.  Machines that are neither little nor big endian are not covered.  The text around the printed offsets is left out."
  },
  {
   "property": "C73",
   "status": "proved",
   "theorems": [
    "C73_webvtt_survives",
    "C73_written_in_time",
    "C73_nul_bytes_refuted",
    "C73_late_times_refuted"
   ],
   "note": "What can be stored is specified in VttMuxSpec.v, WebVTT text in VttSpec.v.  The muxer is taken to accept the frames, and the file to show a frame as C09 and C57 say (stored in VttMuxSpec.v); failing output files are left out; for chapters see C74, for file names C75."
  },
  {
   "property": "C74",
   "status": "proved",
   "theorems": [
    "C74_chapters_survive",
    "C74_identifiers_needed",
    "C74_extracted",
    "C74_not_extracted",
    "C74_no_identifier_refuted",
    "C74_settings_refuted"
   ],
   "note": "What can be stored is specified in VttChapSpec.v, WebVTT text in VttSpec.v, chapters in a file as in C11 and C27.  The chapters must be representable in the sense of C11 (total size below 2^56).  Failing output files are left out; for file names see C75."
  },
  {
   "property": "C75",
   "status": "proved",
   "theorems": [
    "C75_own_file",
    "C75_no_extension",
    "C75_directory_refuted",
    "C75_same_number_refuted"
   ],
   "note": "Names are specified in VttNameSpec.v.  Files are told apart by their names as byte strings."
  },
  {
   "property": "C76",
   "status": "proved",
   "theorems": [
    "C76_own_blocks",
    "C76_succeeds",
    "C76_end_to_end",
    "C76_program",
    "C76_program_succeeds",
    "C76_simple_block_refuted"
   ],
   "note": "Blocks of a file are specified in VttFileSpec.v.  The walk over the clusters (see C47) is not part of this model: the blocks are given in order.  Failing output files and failing clusters are left out, and so is what a failing cue or chapter has written before it failed."
  },
  {
   "property": "C77",
   "status": "proved",
   "theorems": [
    "C77_ends",
    "C77_any_file",
    "C77_shows_the_cues",
    "C77_tells_cues_apart",
    "C77_nul_bytes_refuted"
   ],
   "note": "What is shown is specified in VttDumpSpec.v, WebVTT text in VttSpec.v.  Failures of the standard output are left out."
  }
 ]
}