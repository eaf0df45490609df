{
 "claims": [
  {
   "property": "C01",
   "status": "proved",
   "theorems": [
    "C01_accounting",
    "C01_refused_get",
    "C01_delete",
    "C01_no_leak"
   ],
   "note": "all histories of get/free/delete/detach; after a detach a get with an empty cache is undefined behaviour in the code (example get_after_detach_ub)"
  },
  {
   "property": "C02",
   "status": "proved",
   "theorems": [
    "C02_disjoint",
    "C02_get_appends",
    "C02_free_prefix",
    "C02_free_unknown"
   ],
   "note": "assumes the allocator contract answer_ok (C09 proves it for ngx_lba)"
  },
  {
   "property": "C03",
   "status": "proved",
   "theorems": [
    "C03_read",
    "C03_read_refused",
    "C03_md5",
    "C03_skip",
    "C03_skip_refused",
    "C03_write",
    "C03_write_refused",
    "C03_init",
    "C03_refused_read_breaks_stream"
   ],
   "note": "usable is the documented precondition of the stream; a refused read leaves the stream unusable (proved as a finding)"
  },
  {
   "property": "C04",
   "status": "proved",
   "theorems": [
    "C04_seek",
    "C04_seek_short",
    "C04_skip",
    "C04_copy",
    "C04_compare",
    "C04_compare_zero_iff",
    "C04_compare_short",
    "C04_split_independent",
    "C04_get_tail",
    "C04_terminate"
   ],
   "note": "seek, get_tail and terminate have no end-of-chain check: outside their precondition they are modelled as undefined behaviour (None)"
  },
  {
   "property": "C05",
   "status": "proved",
   "theorems": [
    "C05_written_bytes",
    "C05_round_trip",
    "C05_too_deep",
    "C05_buffer_capacity"
   ],
   "note": "Without compression. Also the room left in the current buffer is exact."
  },
  {
   "property": "C06",
   "status": "proved",
   "theorems": [
    "C06_file_header",
    "C06_block",
    "C06_skip_header",
    "C06_read",
    "C06_blocks",
    "C06_whole_file"
   ],
   "note": "every memory access of the reader is checked in the model"
  },
  {
   "property": "C07",
   "status": "proved",
   "theorems": [
    "C07_blocks_in_order",
    "C07_unknown_ignored"
   ],
   "note": ""
  },
  {
   "property": "C08",
   "status": "proved",
   "theorems": [
    "C08_string_written",
    "C08_string_read",
    "C08_string_truncated",
    "C08_string_hostile",
    "C08_fixed_read",
    "C08_fixed_hostile"
   ],
   "note": ""
  },
  {
   "property": "C09",
   "status": "proved",
   "theorems": [
    "C09_distinct",
    "C09_alloc_fresh",
    "C09_unmap_unused",
    "C09_geometry",
    "C09_no_crash",
    "C09_one_buffer_refuted"
   ],
   "note": "All histories, both builds of the queue primitives. C09_no_crash adds that no NULL pointer is followed, except in debug builds with one buffer per block, where C09_one_buffer_refuted shows the crash."
  },
  {
   "property": "C10",
   "status": "partial",
   "theorems": [
    "C10_reuse_partial",
    "C10_fullest",
    "C10_one_spare",
    "C10_release_refuted",
    "C10_release_null_refuted"
   ],
   "note": "Proved for debug builds with at least two buffers in a block. Refuted for release builds, where ngx_queue_remove leaves the pointers the code tests: a block is mapped although one has room, and an allocation returns NULL although mmap succeeds."
  },
  {
   "property": "C11",
   "status": "proved",
   "theorems": [
    "C11_live_distinct",
    "C11_alloc",
    "C11_memory_limit"
   ],
   "note": "All histories of alloc, automatic alloc, free, free of a linked list, and user writes to held items."
  },
  {
   "property": "C12",
   "status": "proved",
   "theorems": [
    "C12_smallest_fit",
    "C12_freed_to_its_slot"
   ],
   "note": "Sizes sorted ascending, as the configuration code requires."
  },
  {
   "property": "C13",
   "status": "proved",
   "theorems": [
    "C13_set_copy",
    "C13_empty"
   ],
   "note": "Any string set over any previous string, with any number of other strings in the same pool; also on allocation failure."
  },
  {
   "property": "C14",
   "status": "partial",
   "theorems": [
    "C14_free_all_partial",
    "C14_frees_only_first",
    "C14_free_all_refuted"
   ],
   "note": "The code is wrong: freeing a string of two or more blocks gives back only the first, because the link is read after the block was freed. Proved for strings of at most one block; refuted for all others."
  },
  {
   "property": "C15",
   "status": "proved",
   "theorems": [
    "C15_segmentation",
    "C15_delivery",
    "C15_told_unique",
    "C15_no_early_delivery",
    "C15_end_of_stream",
    "C15_second_connect_refuted"
   ],
   "note": "For every owner, byte stream and schedule of reads and buffers. C15_second_connect_refuted records that a repeated connect packet is accepted and its header passed on as data."
  },
  {
   "property": "C16",
   "status": "proved",
   "theorems": [
    "C16_numbering",
    "C16_one_fate",
    "C16_resume"
   ],
   "note": "Fates, counters and ids of all frames; the resume point is computed by the segmenter's start_stream."
  },
  {
   "property": "C17",
   "status": "proved",
   "theorems": [
    "C17_acks",
    "C17_drains"
   ],
   "note": "All interleavings of acknowledgements and partial writes."
  },
  {
   "property": "C18",
   "status": "proved",
   "theorems": [
    "C18_key_first",
    "C18_only_video"
   ],
   "note": "C18_key_first holds for any bytes, any schedule and any failures; owners that ask not to wait for a key frame are covered by C16_numbering."
  },
  {
   "property": "C19",
   "status": "partial",
   "theorems": [
    "C19_connection_bytes_partial",
    "C19_flush_partial",
    "C19_resume_partial",
    "C19_acked_position",
    "C19_never_early_partial",
    "C19_last_written_refuted"
   ],
   "note": "Proved for histories with one upstream or with upstreams that all wait for acknowledgements (any number), over any schedule of writes, flushes, partial sends, failures, reconnections and acknowledgements. Refuted for an upstream that resumes from the last frame written and reconnects before that frame is handed over. Mixed kinds of upstreams are covered by the refutation of C20. End of stream packets are excluded (see C21)."
  },
  {
   "property": "C20",
   "status": "partial",
   "theorems": [
    "C20_released_partial",
    "C20_mixed_modes_refuted"
   ],
   "note": "Proved for any number of upstreams that wait for acknowledgements and for single upstreams of any kind, including low memory. Refuted for a mix of kinds: the buffer to keep is chosen by the smallest frame id alone."
  },
  {
   "property": "C21",
   "status": "partial",
   "theorems": [
    "C21_acknowledged_partial",
    "C21_end_of_stream_refuted",
    "C19_last_written_refuted"
   ],
   "note": "Proved for the histories of C19/C20 up to the end of the stream. Refuted at the end of stream packet (the reader moves, the position does not) and for reconnections ahead of the data handed over."
  },
  {
   "property": "C22",
   "status": "proved",
   "theorems": [
    "C22_history",
    "C22_total",
    "C22_free",
    "C22_iterators",
    "C22_period_end"
   ],
   "note": "Any history of additions, updates, removals and reads from a file; any search tree over the nodes."
  },
  {
   "property": "C23",
   "status": "proved",
   "theorems": [
    "C23_lookup"
   ],
   "note": "For segments in chronological order."
  },
  {
   "property": "C24",
   "status": "partial",
   "theorems": [
    "C24_boundary",
    "C24_nearest_partial",
    "C24_nearest_refuted"
   ],
   "note": "The nearest segment is returned when the segment that contains the time is followed without a gap; at the end of a run of segments the index returned does not exist (refuted with a witness)."
  },
  {
   "property": "C25",
   "status": "proved",
   "theorems": [
    "C25_roundtrip",
    "C25_backwards_refuted",
    "C25_overlap_refuted"
   ],
   "note": "Into any list that ends before the range, for segments in chronological order; without that order the file can not be read (refuted with a witness), and a file with overlapping periods is accepted (witness)."
  },
  {
   "property": "C26",
   "status": "proved",
   "theorems": [
    "C26_locked_stays",
    "C26_lock_granted",
    "C26_released_once",
    "C26_lifetime",
    "C26_frees",
    "C26_defined",
    "C26_plain_defined",
    "C26_linked_get_refuted"
   ],
   "note": "Over all interleavings of track creation, get, lock, unlock, set_min_used, link, channel and track free, for callers that store segments in index order. C26_linked_get_refuted records undefined behaviour of the code outside the claim: freeing a linked track detaches the shared queue."
  },
  {
   "property": "C27",
   "status": "proved",
   "theorems": [
    "C27_map",
    "C27_monotone",
    "C27_ack_available",
    "C27_offset_refuted",
    "C27_empty_refuted",
    "C27_default_refuted"
   ],
   "note": "The reported id is the last key frame at or before a matching input; ids never decrease; every output key frame stays acknowledgeable until a later one was. Refuted: the offset wraps, an ack with no outputs reads an empty deque, acks of other frames are answered with their own id."
  },
  {
   "property": "C28",
   "status": "proved",
   "theorems": [
    "C28_offset",
    "C28_range",
    "C28_lookup",
    "C28_map_partial",
    "C28_monotone_partial",
    "C28_zero_refuted",
    "C28_first_gap_refuted",
    "C28_gap_refuted",
    "C28_lag_refuted"
   ],
   "note": "The statement is C28_offset and C28_lookup. C28_map_partial and C28_monotone_partial extend it to the map of acks, for histories without corrections of output durations; with corrections they are refuted."
  },
  {
   "property": "C29",
   "status": "proved",
   "theorems": [
    "C29_nearest",
    "C29_exact"
   ],
   "note": "The last 100 samples are kept; timestamps up to 2^61, so that nothing overflows."
  },
  {
   "property": "C30",
   "status": "partial",
   "theorems": [
    "C30_window_partial",
    "C30_refuted",
    "C30_order_refuted"
   ],
   "note": "Holds while dts does not decrease and less than 700 frames are in the window; refuted with 700 frames in the window, and when dts goes back."
  },
  {
   "property": "C31",
   "status": "partial",
   "theorems": [
    "C31_packet_key",
    "C31_packet_resume",
    "C31_packet_reason",
    "C31_frame_row",
    "C31_frame_flag",
    "C31_frame_key_refuted",
    "C31_frame_default"
   ],
   "note": "All parts hold but one: the frame dropper tests a flag that does not mark key frames, and drops key frames (C31_frame_key_refuted)."
  },
  {
   "property": "C32",
   "status": "proved",
   "theorems": [
    "C32_list",
    "C32_capacity",
    "C32_oom_refuted"
   ],
   "note": "While reallocation succeeds; C32_oom_refuted shows the write beyond the end when it fails."
  },
  {
   "property": "C33",
   "status": "proved",
   "theorems": [
    "C33_parse",
    "C33_safe",
    "C33_limits",
    "C33_deep"
   ],
   "note": "The parser accepts exactly the documents of the grammar in JsonSpec.v, with their meaning; no input makes it read beyond the NUL, overflow or not end."
  },
  {
   "property": "C34",
   "status": "proved",
   "theorems": [
    "C34_int",
    "C34_fraction",
    "C33_parse"
   ],
   "note": "Exact up to 9223372036854775799 and 19 decimals, refused beyond; C33_parse carries it over to numbers inside documents."
  },
  {
   "property": "C35",
   "status": "proved",
   "theorems": [
    "C35_in_place",
    "C35_unique",
    "C35_plain",
    "C35_roundtrip",
    "C35_surrogate_refuted"
   ],
   "note": "Byte strings round-trip in place. Surrogate pairs are not combined (refuted)."
  },
  {
   "property": "C36",
   "status": "partial",
   "theorems": [
    "C36_size",
    "C36_text_partial",
    "C36_document",
    "C36_text_refuted",
    "C36_vtab_refuted"
   ],
   "note": "Proved for every document the parser accepts without \\v and \\f, and every text in which no literal starts within a word; shown false beyond."
  },
  {
   "property": "C37",
   "status": "proved",
   "theorems": [
    "C37_drift",
    "C37_no_overflow",
    "C37_timescale_refuted",
    "C37_wrap_partial",
    "C37_wrap_refuted"
   ],
   "note": "drift proved for every frame of every channel; a timescale below 1000 divides by 0 (C37_timescale_refuted); reuse of the channel correction across clock wraps holds for positive differences only (C37_wrap_partial, C37_wrap_refuted)"
  },
  {
   "property": "C38",
   "status": "proved",
   "theorems": [
    "C38_forward"
   ],
   "note": "every non-key video frame over the jump threshold"
  },
  {
   "property": "C39",
   "status": "proved",
   "theorems": [
    "C39_roundtrip",
    "C39_read",
    "C39_overrun_write",
    "C39_overrun_read",
    "C39_one",
    "C39_dirty_refuted"
   ],
   "note": "widths 0..64; the writer needs a zeroed buffer, C39_dirty_refuted shows what happens without"
  },
  {
   "property": "C40",
   "status": "proved",
   "theorems": [
    "C40_write",
    "C40_read",
    "C40_read_optional",
    "C40_round_trip"
   ],
   "note": "values with empty field names, strings over 65535 bytes and variants on the writing side are outside the format; numbers are their eight bytes"
  },
  {
   "property": "C41",
   "status": "partial",
   "theorems": [
    "C41_bounds",
    "C41_ends",
    "C41_strings_kept",
    "C41_strings_ended",
    "C41_int8_refuted",
    "C41_failed_string_refuted"
   ],
   "note": "proved for descriptors whose destination has the room of every type that matches them; refuted for INT8 descriptors that are not typeless and, after a failed read, for string buffers that were not cleared"
  },
  {
   "property": "C42",
   "status": "proved",
   "theorems": [
    "C42_countdown",
    "C42_tell"
   ],
   "note": ""
  },
  {
   "property": "C43",
   "status": "partial",
   "theorems": [
    "C43_reconnect_partial",
    "C43_kept",
    "C43_reconnect_refuted"
   ],
   "note": "holds while every reconnect finds a logged correction; the general statement is refuted: ngx_live_syncer_track_reconnect does not remove the future entries when it finds none"
  },
  {
   "property": "C44",
   "status": "partial",
   "theorems": [
    "C44_consistent_resume_partial",
    "C44_consistent_resume_refuted"
   ],
   "note": "Proved when at least one duplicate is sent. Fails when the client resumes exactly at the expected frame: the wish not to wait for a key frame is only looked at when a duplicate is dropped."
  },
  {
   "property": "C45",
   "status": "proved",
   "theorems": [
    "C45_links"
   ],
   "note": "All streams, schedules, handler answers and allocation failures."
  },
  {
   "property": "C46",
   "status": "proved",
   "theorems": [
    "C46_hostile"
   ],
   "note": "Assumes that links and buffers can be allocated (failures end the connection; C45 covers them)."
  },
  {
   "property": "C47",
   "status": "proved",
   "theorems": [
    "C47_read_chain",
    "C47_read_chain_ends"
   ],
   "note": "The allocation of chain links is assumed to succeed."
  },
  {
   "property": "C48",
   "status": "proved",
   "theorems": [
    "C48_defined",
    "C48_history",
    "C48_counters",
    "C48_add",
    "C48_result",
    "C48_update_last"
   ],
   "note": "C48_history and the numbers of C50 are over histories in which no period allocation failed; the others allow failures. Integers are unbounded where the code uses 64 bits."
  },
  {
   "property": "C49",
   "status": "proved",
   "theorems": [
    "C49_manifest",
    "C49_timeline",
    "C49_expire"
   ],
   "note": ""
  },
  {
   "property": "C50",
   "status": "partial",
   "theorems": [
    "C50_numbers",
    "C50_from_end",
    "C50_inverse",
    "C50_stable_refuted"
   ],
   "note": "Stable as long as every added segment is shown in the manifest when it is added. Refuted otherwise: a segment longer than the manifest's window empties the manifest without being counted, and the numbers of the older segments shift by one."
  },
  {
   "property": "C51",
   "status": "proved",
   "theorems": [
    "C51_add",
    "C51_cleanup"
   ],
   "note": ""
  },
  {
   "property": "C52",
   "status": "proved",
   "theorems": [
    "C52_correction",
    "C52_discontinuity"
   ],
   "note": ""
  },
  {
   "property": "C53",
   "status": "proved",
   "theorems": [
    "C53_lookup"
   ],
   "note": "The red-black tree of periods is any binary search tree holding the periods in order."
  },
  {
   "property": "C54",
   "status": "proved",
   "theorems": [
    "C54_truncate"
   ],
   "note": ""
  },
  {
   "property": "C55",
   "status": "proved",
   "theorems": [
    "C55_relative"
   ],
   "note": ""
  },
  {
   "property": "C56",
   "status": "proved",
   "theorems": [
    "C56_target"
   ],
   "note": ""
  },
  {
   "property": "C57",
   "status": "proved",
   "theorems": [
    "C57_served",
    "C57_end"
   ],
   "note": ""
  },
  {
   "property": "C58",
   "status": "partial",
   "theorems": [
    "C58_skip",
    "C58_last_partial",
    "C58_last_refuted"
   ],
   "note": "The index of the last skipped segment is wrong when the output starts inside a period: it is the index of the first segment that is written (post-decrement in ngx_live_timeline_serve_skip_segments). Times are assumed to be in order in the segment list."
  },
  {
   "property": "C59",
   "status": "proved",
   "theorems": [
    "C59_defined",
    "C59_fragments",
    "C59_prefix",
    "C59_progress"
   ],
   "note": "Failing allocations and what handlers do beyond accepting or refusing are outside the model."
  },
  {
   "property": "C60",
   "status": "partial",
   "theorems": [
    "C60_messages",
    "C60_auto_refuted",
    "C60_small_chunk_refuted"
   ],
   "note": "Proved for chunk sizes from 4 bytes on and for a reader that is told (on, off) what the sender does with extended timestamps, and for the default mode when the chunk that decides belongs to the message whose header came last. The default mode guesses wrong otherwise, and after a chunk size below 4 later changes are ignored: both are refuted with an example."
  },
  {
   "property": "C61",
   "status": "partial",
   "theorems": [
    "C61_pools_refuted",
    "C59_defined"
   ],
   "note": "The code does not have this property: several changes within one large buffer leave pools behind (C61_pools_refuted). That no pool is used after it was freed is C59_defined."
  },
  {
   "property": "C62",
   "status": "partial",
   "theorems": [
    "C62_announced_partial",
    "C62_buffered_refuted"
   ],
   "note": "Messages that announce a size above the limit are never delivered; what is buffered is not limited when a header in the middle of a message announces a smaller size."
  },
  {
   "property": "C63",
   "status": "proved",
   "theorems": [
    "C63_sent",
    "C63_received"
   ],
   "note": "Up to 60 streams per connection; the reader has to be told that extended timestamps are not repeated (see C64)."
  },
  {
   "property": "C64",
   "status": "partial",
   "theorems": [
    "C64_spec_refuted",
    "C64_streams_refuted"
   ],
   "note": "Refuted: a reader that expects repeated extended timestamps closes the session at the first long frame after time 16777215; the 61st stream of a connection gets chunk stream 64, for which no correct header is written. What holds is C63."
  },
  {
   "property": "C65",
   "status": "proved",
   "theorems": [
    "C65_safe",
    "C65_order",
    "C65_timer",
    "C65_flush",
    "C65_done",
    "C65_closes",
    "C65_memory",
    "C65_server"
   ],
   "note": "Messages (get_buf) are put while there is a stream or before connecting, as the code does; writes of other code to buffers in use are excluded."
  },
  {
   "property": "C66",
   "status": "partial",
   "theorems": [
    "C66_reuse_refuted"
   ],
   "note": "Refuted: a track that connects between the last send and the posted close is accepted and its bytes are lost. C65_done shows that everything was sent at the time the close is decided."
  },
  {
   "property": "C67",
   "status": "proved",
   "theorems": [
    "C67_order",
    "C67_safe",
    "C67_bound"
   ],
   "note": "Tracks of an RTMP upstream; unpublish is assumed to find a buffer (see C70)."
  },
  {
   "property": "C68",
   "status": "proved",
   "theorems": [
    "C68_merge"
   ],
   "note": "One run of the process timer from any reachable state."
  },
  {
   "property": "C69",
   "status": "proved",
   "theorems": [
    "C69_timers",
    "C69_latency"
   ],
   "note": "Timer lateness is a parameter of the histories."
  },
  {
   "property": "C70",
   "status": "partial",
   "theorems": [
    "C70_close_refuted"
   ],
   "note": "The property is false of the code: detach_track frees the upstream and track_close goes on to use the track."
  },
  {
   "property": "C71",
   "status": "proved",
   "theorems": [
    "C71_media_before_index",
    "C71_no_memory_error"
   ],
   "note": "All histories of a channel whose callers behave as fits says."
  },
  {
   "property": "C72",
   "status": "proved",
   "theorems": [
    "C72_closed_once",
    "C72_ack_all"
   ],
   "note": "All histories, by a conservation law over weights of snapshots."
  },
  {
   "property": "C73",
   "status": "partial",
   "theorems": [
    "C73_freed_once",
    "C73_freed_for_a_reason",
    "C73_freed_in_time",
    "C73_reader_keeps",
    "C73_segment_0_refuted"
   ],
   "note": "All of it but for the segment 0, which is not cut from the timelines: false of the code (refuted)."
  },
  {
   "property": "C74",
   "status": "partial",
   "theorems": [
    "C74_restart_partial",
    "C74_restart_after_stored_partial",
    "C74_failed_but_stored_refuted",
    "C74_first_delta_refuted"
   ],
   "note": "Proved when a failed write changed nothing and the first segment is at least 1; false without either (refuted)."
  },
  {
   "property": "C75",
   "status": "partial",
   "theorems": [
    "C75_history_partial",
    "C75_failed_write_refuted"
   ],
   "note": "Proved for storage that works; false when the write of an index file fails (refuted)."
  },
  {
   "property": "C76",
   "status": "partial",
   "theorems": [
    "C76_channel_free_partial",
    "C76_channel_free_refuted",
    "C76_no_memory_refuted"
   ],
   "note": "Proved when no media file is being written; false otherwise and when there is no memory for a snapshot (refuted)."
  },
  {
   "property": "C77",
   "status": "partial",
   "theorems": [
    "C77_acked_is_stored_partial",
    "C77_failed_media_refuted"
   ],
   "note": "Proved for storage that works; false when a media write fails while an older one is in progress (refuted)."
  },
  {
   "property": "C78",
   "status": "proved",
   "theorems": [
    "C78_player_gets_frames",
    "C78_one_pes_per_frame",
    "C78_counters_continue",
    "C78_metadata_counters_refuted",
    "C78_no_header_unaligned_refuted"
   ],
   "note": "All streams, frames and interleavings. The two refuted theorems are cases outside of the property: audio without a header (not AAC) with pckg_mpegts_align_frames off gives wrong PES packets, and the counters of metadata do not continue over segments when it needs more than one packet. PAT and PMT, encryption and failing allocations are not modelled; a packet that has only an adaptation field is read as one with an empty payload."
  },
  {
   "property": "C79",
   "status": "proved",
   "theorems": [
    "C79_announced_size"
   ],
   "note": "The encoder and its simulation, given calls of the same frames; the filters above them are not part of it."
  },
  {
   "property": "C80",
   "status": "proved",
   "theorems": [
    "C80_sent_is_final"
   ],
   "note": "Packets before the lowest send_queue_offset."
  },
  {
   "property": "C81",
   "status": "proved",
   "theorems": [
    "C81_content_length"
   ],
   "note": "the announced size is the sent size for any segment that is muxed after a simulation"
  },
  {
   "property": "C82",
   "status": "proved",
   "theorems": [
    "C82_segment"
   ],
   "note": "for well formed streams; unaligned audio without a header is excluded by good_top (see C78_no_header_unaligned_refuted)"
  },
  {
   "property": "C83",
   "status": "proved",
   "theorems": [
    "C83_streams_together"
   ],
   "note": "durations are not negative (they are unsigned in the code)"
  },
  {
   "property": "C84",
   "status": "proved",
   "theorems": [
    "C84_player_gets_tracks"
   ],
   "note": "All segments of audio, video and WebVTT tracks (at most one cue, see C87) below 2 GB; decode times not negative."
  },
  {
   "property": "C85",
   "status": "proved",
   "theorems": [
    "C85_announced_size"
   ],
   "note": "Not encrypted segments; both GET and HEAD."
  },
  {
   "property": "C86",
   "status": "proved",
   "theorems": [
    "C86_segment_index"
   ],
   "note": "Segments of one track whose durations sum to less than 2^32."
  },
  {
   "property": "C87",
   "status": "partial",
   "theorems": [
    "C87_second_cue_time_refuted",
    "C87_one_cue_partial"
   ],
   "note": "The code violates it for the second cue of a segment; it holds for a segment of one cue."
  },
  {
   "property": "C88",
   "status": "proved",
   "theorems": [
    "C88_tracks_together"
   ],
   "note": "Times of tracks are compared as they are, so the tracks have one timescale in practice; not encrypted segments."
  },
  {
   "property": "C89",
   "status": "proved",
   "theorems": [
    "C89_metadata"
   ],
   "note": "First decode time not negative; the tag below 2^28 bytes."
  },
  {
   "property": "C90",
   "status": "partial",
   "theorems": [
    "C90_encrypted_video_plays_partial",
    "C90_41_nals_by_saiz_refuted",
    "C90_long_nal_refuted",
    "C90_empty_last_frame_refuted"
   ],
   "note": "By senc for all frames of nal units; by saiz only up to 40 nal units per frame (refuted for 41); a nal unit that is not of a slice must be under 65536 bytes with its length (refuted for longer); the last frame must not be empty (refuted)."
  },
  {
   "property": "C91",
   "status": "proved",
   "theorems": [
    "C91_slices_are_protected"
   ],
   "note": "The entries a player reads are those of the slices of all nal units; with C90 what is sent is the input with these bytes encrypted."
  },
  {
   "property": "C92",
   "status": "proved",
   "theorems": [
    "C92_encrypted_audio_plays",
    "C92_all_audio_is_protected",
    "C92_empty_last_frame_refuted"
   ],
   "note": "For segments whose last frame is not empty; refuted otherwise: the body is shorter than announced."
  },
  {
   "property": "C93",
   "status": "partial",
   "theorems": [
    "C93_vectors_differ_video",
    "C93_vectors_differ_between_audio_segments_partial",
    "C93_vectors_differ_between_video_segments_partial",
    "C93_vectors_of_fast_frames_refuted"
   ],
   "note": "In a segment for all frames; between segments if no frame is shorter than a sixtieth of a second, refuted otherwise (AAC of 96 kHz)."
  },
  {
   "property": "C94",
   "status": "proved",
   "theorems": [
    "playlist_reaches_the_player",
    "playlist_lists_every_segment"
   ],
   "note": "For the answers of the segmenter that the reader lets through (playlist_ok)."
  },
  {
   "property": "C95",
   "status": "proved",
   "theorems": [
    "playlist_fits_the_buffer"
   ],
   "note": ""
  },
  {
   "property": "C96",
   "status": "partial",
   "theorems": [
    "durations_do_not_drift",
    "durations_are_right_to_a_millisecond",
    "segments_keep_to_the_target_partial",
    "segments_exceed_the_target_refuted",
    "durations_with_odd_timescale_refuted"
   ],
   "note": "No drift is proved. A duration can be announced a millisecond longer than it is, which can exceed the target duration (refuted); it holds when times are whole milliseconds. With a timescale that is not a multiple of 1000 the durations are wrong (refuted)."
  },
  {
   "property": "C97",
   "status": "partial",
   "theorems": [
    "parts_add_up",
    "parts_exceed_the_target_refuted"
   ],
   "note": "The sums are proved; a part can exceed the announced part target by a millisecond (refuted)."
  },
  {
   "property": "C98",
   "status": "proved",
   "theorems": [
    "delta_update_is_the_whole"
   ],
   "note": "All but dates and bitrates, which a delta update may repeat or leave out."
  },
  {
   "property": "C99",
   "status": "partial",
   "theorems": [
    "announced_uris_are_served",
    "reported_playlists_are_served",
    "announced_key_is_served",
    "variant_tpp_is_served_refuted",
    "subtitles_in_ts_are_served_refuted"
   ],
   "note": "Every uri of segments, parts, hints, initialization segments, rendition reports and keys in a playlist reaches what it announces. Not for the variant 'tpp' in fragmented mp4, nor with subtitles in mpeg-ts playlists: refuted."
  },
  {
   "property": "C100",
   "status": "partial",
   "theorems": [
    "request_is_understood",
    "blocking_request_is_understood",
    "blocking_request_is_exact_refuted",
    "master_request_is_understood"
   ],
   "note": "For all requests. A blocking request for a sequence number of 2^32 or more is read modulo 2^32: refuted."
  },
  {
   "property": "C101",
   "status": "partial",
   "theorems": [
    "names_are_read_within_bounds",
    "names_say_what_is_served",
    "names_are_of_one_segment_refuted",
    "keys_are_of_one_variant_refuted"
   ],
   "note": "Segments and parts: exact characterization. Numbers are read modulo 2^32, and a key name may have two variants: refuted."
  },
  {
   "property": "C102",
   "status": "partial",
   "theorems": [
    "ranges_are_read_partial",
    "only_ranges_are_accepted",
    "long_suffix_is_the_file_refuted"
   ],
   "note": "Missing: a suffix longer than the file, which is read with a negative start: refuted."
  },
  {
   "property": "C103",
   "status": "partial",
   "theorems": [
    "aes128_segments_decrypt",
    "aes128_never_overruns",
    "ts_segments_decrypt",
    "ts_segments_with_pool_refuted",
    "init_segment_decrypts",
    "init_segment_head_refuted"
   ],
   "note": "Proved for every split of a segment into buffers, for MPEG-TS with any pool of buffers of s bytes with s mod 16 < s mod 188 or none, and for initialization segments. Refuted: a pool whose buffers are a multiple of 188 and 16 bytes fails every MPEG-TS segment that fills one; a HEAD request for an initialization segment reads through a pointer that was never set."
  },
  {
   "property": "C104",
   "status": "proved",
   "theorems": [
    "sample_aes_video_decrypts"
   ],
   "note": "Any split of the frame into buffers, any number and size of units. The cipher is a parameter with an inverse; memory allocation does not fail."
  },
  {
   "property": "C105",
   "status": "proved",
   "theorems": [
    "sample_aes_audio_decrypts",
    "sample_aes_eac3_decrypts"
   ],
   "note": "Any split of the frames into buffers. For Enhanced AC-3 the frames are sequences of sync frames. The cipher is a parameter with an inverse."
  },
  {
   "property": "C106",
   "status": "partial",
   "theorems": [
    "cbcs_audio_decrypts_partial",
    "cbcs_audio_large_frame_refuted"
   ],
   "note": "Proved for all frames that fit the write buffer (whole blocks of it). Missing: larger frames; in one piece they are refused, which is proved (refuted). One track per segment."
  },
  {
   "property": "C107",
   "status": "partial",
   "theorems": [
    "cbcs_video_decrypts_partial",
    "cbcs_video_short_last_unit_refuted"
   ],
   "note": "Proved for all segments whose last unit is not short. For the others the code loses the end of the segment, which is proved (refuted). The parsers of slice headers are parameters; one track per segment."
  },
  {
   "property": "C108",
   "status": "proved",
   "theorems": [
    "ranges_with_segments",
    "timelines_with_segments",
    "no_gaps_all_exist",
    "copied_track_answers"
   ],
   "note": "For all histories of a track with gaps enabled and bounds of at least one percent. Allocation failures are not modelled; the red-black tree is any tree over the nodes in order."
  },
  {
   "property": "C109",
   "status": "proved",
   "theorems": [
    "served_bitrates",
    "served_indexes_go_up"
   ],
   "note": "With gaps enabled."
  },
  {
   "property": "C110",
   "status": "partial",
   "theorems": [
    "restored_segments_partial",
    "segments_after_restart_partial",
    "gap_after_restart_refuted"
   ],
   "note": "Everything saved is restored, and what is created after the restart is recorded right when the bitrates before it are less than 42.9 Mbit/s; above, the last bitrate times 100 is taken modulo 2^32 and a gap can be lost (refuted)."
  },
  {
   "property": "C111",
   "status": "proved",
   "theorems": [
    "reads_are_unescaped",
    "escaped_is_read_back"
   ],
   "note": "All splits into buffers and all series of reads."
  },
  {
   "property": "C112",
   "status": "partial",
   "theorems": [
    "frame_captions_found_partial",
    "captions_with_escapes_lost_refuted"
   ],
   "note": "Proved when every caption message has as many bytes after its captions as it has emulation prevention bytes. Refuted without it: the reader of the payload is limited to the size without emulation prevention bytes and counts them too (ngx_kmp_cc.c:1117)."
  },
  {
   "property": "C113",
   "status": "partial",
   "theorems": [
    "captions_pushed_once_partial",
    "captions_in_order_partial"
   ],
   "note": "Under the condition of C112 on the messages; the limit of pending packets and the decoders are not modelled."
  },
  {
   "property": "C114",
   "status": "partial",
   "theorems": [
    "avc_parameter_sets_partial",
    "hevc_parameter_sets",
    "avc_any_bytes",
    "hevc_any_bytes",
    "many_picture_sets_lost_refuted"
   ],
   "note": "Full for H.265 and for the safety of both. For H.264 the counts are those of the low 5 bits; refuted for records with 32 or more picture parameter sets, whose count is a byte in ISO/IEC 14496-15."
  },
  {
   "property": "C115",
   "status": "partial",
   "theorems": [
    "hevc_name_tells",
    "hevc_name_fits",
    "avc_name_tells",
    "mp4a_name_tells_partial",
    "mp4a_escaped_type_refuted"
   ],
   "note": "Full for H.265 and H.264. For AAC up to object type 30; refuted from 32 on: the escape value 31 is written."
  },
  {
   "property": "C116",
   "status": "partial",
   "theorems": [
    "aac_config_read_partial",
    "aac_config_cut_partial",
    "ps_config_refuted",
    "adts_tells_config_partial",
    "adts_header_refuted"
   ],
   "note": "All object types, rates, channels and SBR; with PS only extension rates given by an index, object types below 31 that are no multiples of 8, and uncut configurations. ps_config_refuted: other PS configurations are read as object type 29. The headers of frames tell it for object types 1 to 4 and up to 7 channels; adts_header_refuted: others do not fit and are not refused."
  },
  {
   "property": "C117",
   "status": "partial",
   "theorems": [
    "parsed_is_unescaped",
    "numbers_read_back_partial",
    "prevention_bytes_counted_partial",
    "three_zeros_refuted",
    "long_codes_refuted"
   ],
   "note": "The bytes are proved in full, numbers below 2^31 - 1, and the count for headers without three zeros in a row. Refuted: with 0 0 0 0 and a byte up to 3 one emulation prevention byte is not counted; 31 zeros make a shift undefined."
  },
  {
   "property": "C118",
   "status": "partial",
   "theorems": [
    "skipped_fields_partial",
    "field_length_is_least",
    "long_skip_refuted"
   ],
   "note": "Fields and codes of up to 120 bits and zeros, which all fields of the formats are; lengths of fields in full. Refuted for codes of 167 zeros: the position in the byte overflows."
  }
 ]
}
