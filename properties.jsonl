{"id": "C01", "title": "Buffer queue memory accounting is exact", "statement": "Whatever sequence of buffer requests, releases and the final delete is applied to a buffer queue, the memory budget it was given plus the buffers it holds (used and cached) times the buffer size is constant; the budget never goes below zero, a request that would exceed it is refused without any effect, and after delete the whole budget has been returned.", "quantifier": "all buffer sizes, budgets, cache limits and all finite sequences of get/free/delete calls (with allocator failures anywhere)", "why_tests_cant": "the accounting drifts only after particular interleavings of cache hits, cache overflow and refused requests; tests exercise a handful of sequences", "anchors": ["nginx-common/src/ngx_buf_queue.c:ngx_buf_queue_init", "nginx-common/src/ngx_buf_queue.c:ngx_buf_queue_get", "nginx-common/src/ngx_buf_queue.c:ngx_buf_queue_free", "nginx-common/src/ngx_buf_queue.c:ngx_buf_queue_delete"]}
{"id": "C02", "title": "Buffer queue is FIFO and releases exactly the prefix before the limit", "statement": "Buffers are handed out in a stable order; releasing up to a pointer removes exactly the buffers that precede the one containing the pointer, keeps that buffer and every later one untouched, and never releases the last buffer; the same buffer is never in use twice at the same time.", "quantifier": "all histories of get/free and every limit pointer, including pointers that belong to no buffer", "why_tests_cant": "aliasing of a recycled buffer needs a specific cache/free history", "anchors": ["nginx-common/src/ngx_buf_queue.c:ngx_buf_queue_get", "nginx-common/src/ngx_buf_queue.c:ngx_buf_queue_free"]}
{"id": "C03", "title": "Reading, skipping and overwriting through a buffer-queue stream is byte-exact", "statement": "A stream positioned inside the queue returns exactly the bytes that were laid out contiguously across the buffers from that position, whatever the buffer size and wherever the boundaries fall; a write through the stream changes exactly the addressed bytes and nothing else; a request beyond the queued data is refused.", "quantifier": "all queue contents, positions, lengths and buffer sizes", "why_tests_cant": "every boundary alignment has to work, including requests spanning any number of buffers", "anchors": ["nginx-common/src/ngx_buf_queue_stream.c:ngx_buf_queue_stream_read", "nginx-common/src/ngx_buf_queue_stream.c:ngx_buf_queue_stream_skip", "nginx-common/src/ngx_buf_queue_stream.c:ngx_buf_queue_stream_write"]}
{"id": "C04", "title": "Buffer-chain helpers are independent of how the data is split", "statement": "Seek, skip, copy and compare on a chain of data fragments give the same result as the corresponding operation on the concatenated bytes, for every way of splitting the same bytes into fragments (including empty fragments), and fail exactly when the data is too short.", "quantifier": "all byte strings, all splits into fragments, all lengths/offsets", "why_tests_cant": "the number of splits is exponential", "anchors": ["nginx-common/src/ngx_buf_chain.c:ngx_buf_chain_skip", "nginx-common/src/ngx_buf_chain.c:ngx_buf_chain_copy", "nginx-common/src/ngx_buf_chain.c:ngx_buf_chain_compare", "nginx-common/src/ngx_buf_chain.c:ngx_buf_chain_seek"]}
{"id": "C05", "title": "Persisted block files are parsed back to what was written", "statement": "For every sequence of write/open block/close block calls that respects nesting, the bytes produced parse back into exactly the same tree of blocks (ids, header part, payload), with every size field equal to the real size.", "quantifier": "all trees of blocks up to the nesting limit, all payloads, all splits into write calls", "why_tests_cant": "sizes are back-patched; an error shows only for particular nestings and buffer boundaries", "anchors": ["nginx-common/src/ngx_persist_write.c:ngx_persist_write_block_open", "nginx-common/src/ngx_persist_write.c:ngx_persist_write_block_close", "nginx-common/src/ngx_persist_read.c:ngx_persist_read_block"]}
{"id": "C06", "title": "Parsing a persisted file never reads outside the file", "statement": "For any byte string handed to the file/block parser, every access made by the header, block and sub-stream readers lies inside that byte string (and inside the enclosing block), and the walk over blocks terminates.", "quantifier": "all byte strings, hostile or truncated", "why_tests_cant": "needs all malformed inputs", "anchors": ["nginx-common/src/ngx_persist_read.c:ngx_persist_read_file_header", "nginx-common/src/ngx_persist_read.c:ngx_persist_read_block", "nginx-common/src/ngx_persist.c:ngx_persist_conf_read_blocks", "nginx-common/src/ngx_mem_rstream.h"]}
{"id": "C07", "title": "Unknown blocks are skipped, known ones are delivered in file order", "statement": "When a file contains blocks with unregistered ids anywhere, the reader calls back exactly for the registered blocks, in file order, with exactly their contents, as if the unknown blocks were not there (forward compatibility).", "quantifier": "all sequences of known and unknown blocks", "why_tests_cant": "all interleavings", "anchors": ["nginx-common/src/ngx_persist.c:ngx_persist_conf_read_blocks"]}
{"id": "C08", "title": "Length-prefixed strings round trip through the persistence streams", "statement": "Every string written with the length-prefixed writer is read back identical and the reader is left right after it; a truncated stream is reported as bad data without reading past its end.", "quantifier": "all strings up to 2^32-1 bytes and all truncation points", "why_tests_cant": "all truncation points of all strings", "anchors": ["nginx-common/src/ngx_wstream.h:ngx_wstream_str", "nginx-common/src/ngx_mem_rstream.h:ngx_mem_rstream_str_get"]}
{"id": "C09", "title": "The fixed-size allocator never hands out a buffer twice", "statement": "At every point of every history of alloc and free calls, all buffers handed out and not yet freed are distinct, lie inside mapped blocks at buffer-size multiples, and a block is unmapped only when none of its buffers is in use.", "quantifier": "all alloc/free histories, all block geometries", "why_tests_cant": "bin migration depends on long histories", "anchors": ["nginx-common/src/ngx_lba.c:ngx_lba_alloc", "nginx-common/src/ngx_lba.c:ngx_lba_free"]}
{"id": "C10", "title": "The fixed-size allocator reuses free space before mapping new memory", "statement": "A new memory block is mapped only if every mapped block is completely in use.", "quantifier": "all alloc/free histories, both debug and release builds of the event-queue primitives", "why_tests_cant": "needs histories in which a bin empties and fills again; and the behaviour differs between debug and release builds", "anchors": ["nginx-common/src/ngx_lba.c:ngx_lba_alloc", "nginx-common/src/ngx_lba.c:ngx_lba_alloc_buf", "nginx-common/src/ngx_lba.c:ngx_lba_free_buf"]}
{"id": "C11", "title": "Block pools never hand out a live item and recycle freed ones", "statement": "For every history of alloc/free on the slots of a pool, held items are pairwise distinct and do not overlap, an item is handed out again only after it was freed, freed items are reused (oldest first) before new memory is taken, and the memory taken never exceeds the configured limit.", "quantifier": "all histories over all slots", "why_tests_cant": "state depends on full history", "anchors": ["nginx-live-module/src/ngx_block_pool.c:ngx_block_pool_alloc", "nginx-live-module/src/ngx_block_pool.c:ngx_block_pool_free", "nginx-live-module/src/ngx_block_pool.c:ngx_block_pool_free_list"]}
{"id": "C12", "title": "Automatic slot choice returns the smallest block size that fits", "statement": "An automatic allocation of any size picks the smallest configured block size that holds it and its 4 byte header, fails only if none does or memory is exhausted, and freeing it returns the block to the slot it came from.", "quantifier": "all ascending size tables and all sizes", "why_tests_cant": "binary search boundaries for all table lengths", "anchors": ["nginx-live-module/src/ngx_block_pool.c:ngx_block_pool_auto_alloc", "nginx-live-module/src/ngx_block_pool.c:ngx_block_pool_auto_free"]}
{"id": "C13", "title": "Block strings store and return any byte string", "statement": "Storing a byte string in a block string and copying it out returns the same bytes, whatever its length relative to the block size.", "quantifier": "all byte strings and block sizes", "why_tests_cant": "all lengths/block boundary combinations", "anchors": ["nginx-live-module/src/ngx_block_str.c:ngx_block_str_set", "nginx-live-module/src/ngx_block_str.c:ngx_block_str_copy"]}
{"id": "C14", "title": "Freeing a block string returns all of its blocks", "statement": "After a block string is freed, every block it occupied is available again to the pool (no leak).", "quantifier": "all strings and block sizes", "why_tests_cant": "a leak is invisible to functional tests", "anchors": ["nginx-live-module/src/ngx_block_str.c:ngx_block_str_free", "nginx-live-module/src/ngx_block_str.c:ngx_block_str_free_data"]}
{"id": "C15", "title": "KMP packet parsing does not depend on how bytes arrive", "statement": "For the same byte stream received on a KMP connection, the sequence of delivered events (media info, frames with their headers and payload, end of stream) and the final outcome are the same for every way the network splits the stream into reads and buffers.", "quantifier": "all byte streams, all segmentations", "why_tests_cant": "exponentially many segmentations of unbounded streams", "anchors": ["nginx-kmp-in-module/src/ngx_kmp_in.c:ngx_kmp_in_process_buffer", "nginx-kmp-in-module/src/ngx_kmp_in.c:ngx_kmp_in_read_header"]}
{"id": "C16", "title": "KMP frames are numbered consecutively and none is lost or duplicated across a resume", "statement": "Each frame packet received advances the frame id by exactly one, whether or not the frame is delivered; after a reconnect announcing a first frame id, exactly the frames below the expected id are dropped as duplicates, and every other frame is delivered or dropped for one of the documented reasons.", "quantifier": "all packet sequences and all resume points", "why_tests_cant": "relation between two connections' whole histories", "anchors": ["nginx-kmp-in-module/src/ngx_kmp_in.c:ngx_kmp_in_frame", "nginx-kmp-in-module/src/ngx_kmp_in.c:ngx_kmp_in_read_header"]}
{"id": "C17", "title": "KMP acknowledgements are whole, increasing, and finally up to date", "statement": "The bytes written back on a KMP input connection are always a sequence of complete ack packets (a partially sent packet is always completed first) with strictly increasing frame ids, each no larger than what was acknowledged, and once the socket drains the last acknowledged id has been sent.", "quantifier": "all interleavings of ack requests and partial socket writes", "why_tests_cant": "partial writes can stop at each byte and acks can arrive in between", "anchors": ["nginx-kmp-in-module/src/ngx_kmp_in.c:ngx_kmp_in_ack_frames", "nginx-kmp-in-module/src/ngx_kmp_in.c:ngx_kmp_in_write_handler"]}
{"id": "C18", "title": "KMP input drops video until a key frame after a media info", "statement": "On a video track no frame is delivered between a media info and the next key frame; on other media types nothing is dropped for that reason.", "quantifier": "all packet sequences", "why_tests_cant": "history dependent", "anchors": ["nginx-kmp-in-module/src/ngx_kmp_in.c:ngx_kmp_in_frame", "nginx-kmp-in-module/src/ngx_kmp_in.c:ngx_kmp_in_media_info"]}
{"id": "C19", "title": "KMP output resumes exactly at the first unacknowledged packet", "statement": "After any history of frames, media infos and acknowledgements, a new connection to an upstream carries, after the connect packet and the media info in force at the resume point, exactly the stream bytes following the last acknowledged frame: nothing missing, nothing sent twice relative to the acknowledged position.", "quantifier": "all packet sequences, all ack patterns, all reconnect points", "why_tests_cant": "all crash/reconnect points", "anchors": ["nginx-kmp-out-module/src/ngx_kmp_out_upstream.c:ngx_kmp_out_upstream_ack_frames", "nginx-kmp-out-module/src/ngx_kmp_out_upstream.c:ngx_kmp_out_upstream_auto_ack", "nginx-kmp-out-module/src/ngx_kmp_out_upstream.c:ngx_kmp_out_upstream_republish"]}
{"id": "C20", "title": "KMP output never frees data an upstream still has to send or resend", "statement": "Buffers released by the track never contain a byte at or after the acknowledged position of any of its upstreams.", "quantifier": "all histories and any number of upstreams acknowledging at different speeds", "why_tests_cant": "needs several upstreams at particular relative positions", "anchors": ["nginx-kmp-out-module/src/ngx_kmp_out_track.c:ngx_kmp_out_track_append_all", "nginx-kmp-out-module/src/ngx_kmp_out_track.c:ngx_kmp_out_track_send_all"]}
{"id": "C21", "title": "KMP output acknowledges only complete packets that were really sent", "statement": "Automatic acknowledgement advances only over whole packets, never beyond the bytes actually sent on the current connection, and the acknowledged position always equals the position of the acknowledgement reader.", "quantifier": "all send progress patterns", "why_tests_cant": "partial sends at each byte", "anchors": ["nginx-kmp-out-module/src/ngx_kmp_out_upstream.c:ngx_kmp_out_upstream_auto_ack", "nginx-kmp-out-module/src/ngx_kmp_out_upstream.c:ngx_kmp_out_upstream_ack_packet"]}
{"id": "C22", "title": "The segment list is a faithful compressed sequence", "statement": "After any sequence of additions, last-segment updates and removals of old segments, iterating over the list returns exactly the sequence of (index, start time, duration) that a plain list would contain, and the counters agree with it.", "quantifier": "all operation histories with unbounded length", "why_tests_cant": "node and run boundaries depend on whole history", "anchors": ["nginx-live-module/src/ngx_live_segment_list.c:ngx_live_segment_list_add", "nginx-live-module/src/ngx_live_segment_list.c:ngx_live_segment_list_update_last", "nginx-live-module/src/ngx_live_segment_list.c:ngx_live_segment_list_free_nodes", "nginx-live-module/src/ngx_live_segment_list.c:ngx_live_segment_iter_init"]}
{"id": "C23", "title": "Segment lookup by time returns the segment containing that time", "statement": "Looking up a time that falls inside a stored segment returns that segment's index and start time; otherwise the lookup reports that there is none (contains mode).", "quantifier": "all lists and all times", "why_tests_cant": "boundaries of all runs and gaps", "anchors": ["nginx-live-module/src/ngx_live_segment_list.c:ngx_live_segment_list_get_segment_index"]}
{"id": "C24", "title": "Nearest-segment lookup returns a segment that exists", "statement": "Looking up the closest segment always returns the index of a segment in the list, at minimal distance.", "quantifier": "all lists and all times", "why_tests_cant": "the failing case is exactly at a half-duration boundary of the last segment of a run", "anchors": ["nginx-live-module/src/ngx_live_segment_list.c:ngx_live_segment_list_get_segment_index"]}
{"id": "C25", "title": "Segment list survives persistence", "statement": "Writing the segment list periods and reading them into an empty list yields a list with the same segments in the requested range.", "quantifier": "all lists and index ranges", "why_tests_cant": "run and node boundaries", "anchors": ["nginx-live-module/src/ngx_live_segment_list.c:ngx_live_segment_list_write_periods", "nginx-live-module/src/ngx_live_segment_list.c:ngx_live_segment_list_read_period"]}
{"id": "C26", "title": "Input buffers locked by a reader are never released", "statement": "While a segment range is locked, no buffer at or after the locked position is released, whatever other locks are taken or dropped and whatever the writer frees; and once no lock and no owner remain everything is released exactly once.", "quantifier": "all interleavings of lock, unlock, write and free over any number of readers", "why_tests_cant": "needs particular orders of unlocks", "anchors": ["nginx-live-module/src/ngx_live_input_bufs.c:ngx_live_input_bufs_lock", "nginx-live-module/src/ngx_live_input_bufs.c:ngx_live_input_bufs_unlock", "nginx-live-module/src/ngx_live_input_bufs.c:ngx_live_input_bufs_free"]}
{"id": "C27", "title": "Video ack mapping never acknowledges input beyond what produced the acknowledged output", "statement": "When an output key frame is acknowledged, the input frame reported is the key frame at or before the input frame with the matching timestamp; the reported input ids never decrease; and the map does not lose entries needed for later acks.", "quantifier": "all frame sequences and ack orders", "why_tests_cant": "depends on whole encode history", "anchors": ["transcoder/ackHandler/videoAckMap.cpp:VideoAckMap::addIn", "transcoder/ackHandler/videoAckMap.cpp:VideoAckMap::addOut", "transcoder/ackHandler/videoAckMap.cpp:VideoAckMap::map"]}
{"id": "C28", "title": "Audio frame history converts between frame ids and sample offsets consistently", "statement": "For any history of consecutive frames and removals, the sample offset of a frame is the sum of the durations of all frames before it, and looking up that offset finds a frame that covers it.", "quantifier": "all histories of frame durations and acks", "why_tests_cant": "run-length compression boundaries", "anchors": ["transcoder/ackHandler/audioAckMap.cpp:FrameHistory::addFrame", "transcoder/ackHandler/audioAckMap.cpp:FrameHistory::offsetByFrame", "transcoder/ackHandler/audioAckMap.cpp:FrameHistory::frameByOffset", "transcoder/ackHandler/audioAckMap.cpp:FrameHistory::removeFrames"]}
{"id": "C29", "title": "Clock estimation uses the nearest of the last N samples", "statement": "The estimated clock for a timestamp is derived from the sample nearest in dts among the most recent samples kept (exactly the last FIFO-size pushed), and a timestamp that was pushed and is still kept maps to exactly the clock pushed with it.", "quantifier": "all push histories and queries", "why_tests_cant": "wrap-around positions of the ring", "anchors": ["transcoder/utils/time_estimator.c:clock_estimator_push_frame", "transcoder/utils/time_estimator.c:clock_estimator_get_clock"]}
{"id": "C30", "title": "Bitrate window equals the bytes of the frames in the window", "statement": "The window byte count used for the bitrate equals the sum of sizes of the frames that arrived in the last 10 seconds of dts.", "quantifier": "all frame rates and sizes", "why_tests_cant": "fails only beyond a frame rate at which the fixed-size ring is overwritten", "anchors": ["transcoder/utils/samples_stats.c:samples_stats_add", "transcoder/utils/samples_stats.c:drain"]}
{"id": "C31", "title": "Dropping under load never drops a key frame and always resumes at one", "statement": "The packet dropper never drops a key frame; once it starts dropping, it drops every packet until the next key frame and passes that one; the frame dropper never drops a key frame and never drops more than a fixed number of frames in a row.", "quantifier": "all packet sequences and delays", "why_tests_cant": "history dependent state machine", "anchors": ["transcoder/transcode/transcode_dropper.c:transcode_dropper_should_drop_packet", "transcoder/transcode/transcode_dropper.c:transcode_dropper_should_drop_frame"]}
{"id": "C32", "title": "The growable vector behaves like a list", "statement": "As long as memory to grow is available, for every sequence of add, set, delete and get calls the vector returns what a plain list would, never accesses memory beyond its capacity, and keeps its capacity within a constant factor of its length.", "quantifier": "all operation sequences", "why_tests_cant": "shrink and grow points interplay", "anchors": ["transcoder/common/vector.c:vector_add", "transcoder/common/vector.c:vector_delete", "transcoder/common/vector.c:vector_set", "transcoder/common/vector.c:vector_get"]}
{"id": "C33", "title": "The JSON parser accepts what it must and returns the encoded value", "statement": "For every JSON value within the documented limits, parsing its textual form with arbitrary white space returns that value; parsing never reads beyond the terminating NUL of any input, and nesting deeper than the limit is refused.", "quantifier": "all JSON values, all input strings", "why_tests_cant": "unbounded grammar", "anchors": ["nginx-common/src/ngx_json_parser.c:ngx_json_parse", "nginx-common/src/ngx_json_parser.c:ngx_json_parse_value"]}
{"id": "C34", "title": "JSON numbers are exact or refused", "statement": "A parsed integer or decimal fraction equals the number written in the text; a number that does not fit is refused and never silently wrapped.", "quantifier": "all digit strings", "why_tests_cant": "boundary is at 2^63 for every combination of digits and decimals", "anchors": ["nginx-common/src/ngx_json_parser.c:ngx_json_parse_int", "nginx-common/src/ngx_json_parser.c:ngx_json_parse_fraction"]}
{"id": "C35", "title": "JSON string unescaping inverts escaping, in place", "statement": "Decoding the escaped form of any byte string returns that string; decoding never grows the string, so decoding in place never overwrites unread input.", "quantifier": "all byte strings", "why_tests_cant": "all escape combinations", "anchors": ["nginx-common/src/ngx_json_parser.c:ngx_json_decode_string", "nginx-common/src/ngx_json_parser.c:ngx_json_get_string"]}
{"id": "C36", "title": "JSON pretty-printing changes white space only", "statement": "For every input string, removing white space outside string literals from the pretty-printed text gives the same characters as removing it from the input; string literals are preserved verbatim; and the reported size equals the number of bytes produced.", "quantifier": "all byte strings, valid JSON or not, any indentation level", "why_tests_cant": "all inputs", "anchors": ["nginx-common/src/ngx_json_pretty.c:ngx_json_pretty"]}
{"id": "C37", "title": "The syncer keeps output timestamps close to the creation clock", "statement": "Outside non-key video frames, every frame leaves the syncer with a presentation time within the configured drift limits of its creation time, or within the correction reuse threshold when a sync was just performed.", "quantifier": "all frame sequences over any number of tracks", "why_tests_cant": "history dependent correction shared by tracks", "anchors": ["nginx-live-module/src/ngx_live_syncer.c:ngx_live_syncer_add_frame", "nginx-live-module/src/ngx_live_syncer.c:ngx_live_syncer_sync_track"]}
{"id": "C38", "title": "The syncer never makes output time go backwards on an inter-frame jump", "statement": "When a non-key video frame triggers a resync, its output dts is strictly greater than the previous output dts of the track.", "quantifier": "all frame sequences", "why_tests_cant": "needs clock/timestamp combinations", "anchors": ["nginx-live-module/src/ngx_live_syncer.c:ngx_live_syncer_add_frame", "nginx-live-module/src/ngx_live_syncer.c:ngx_live_syncer_sync_track"]}
{"id": "C39", "title": "Bit stream writes read back", "statement": "A sequence of fields of any widths written with the bit writer and read with the bit reader with the same widths returns the same values (modulo width), and overrunning the buffer sets the error flag without touching memory outside it.", "quantifier": "all field sequences, widths 1..64 and buffer sizes", "why_tests_cant": "all alignments", "anchors": ["nginx-mpegts-module/src/ngx_ts_bit_stream.c:ngx_ts_bit_stream_read", "nginx-mpegts-module/src/ngx_ts_bit_stream.c:ngx_ts_bit_stream_write"]}
{"id": "C40", "title": "AMF values round trip", "statement": "Writing any list of AMF values and reading them back with matching descriptors returns the same values, whatever the chunk size of the buffers used on either side.", "quantifier": "all value trees and all buffer sizes", "why_tests_cant": "unbounded nesting and all buffer boundaries", "anchors": ["nginx-rtmp-module/src/ngx_rtmp_amf.c:ngx_rtmp_amf_write", "nginx-rtmp-module/src/ngx_rtmp_amf.c:ngx_rtmp_amf_read"]}
{"id": "C41", "title": "AMF reading is safe on hostile input", "statement": "Whatever bytes are received, reading AMF values stores into each destination at most the declared number of bytes and strings are always terminated within their buffer.", "quantifier": "all byte strings and descriptors", "why_tests_cant": "all malformed inputs", "anchors": ["nginx-rtmp-module/src/ngx_rtmp_amf.c:ngx_rtmp_amf_read", "nginx-rtmp-module/src/ngx_rtmp_amf.c:ngx_rtmp_amf_read_object"]}
{"id": "C42", "title": "A resync of one track is followed by the others", "statement": "When a drift or a jump makes a track change the correction of the channel, every other track is told to resync, and a track that was told to resync does so within the configured number of its next audio or key frames.", "quantifier": "all channels, all frames", "why_tests_cant": "Depends on the interleaving of the frames of any number of tracks and on the countdown of each.", "anchors": ["nginx-live-module/src/ngx_live_syncer.c:ngx_live_syncer_enable_sync_flag", "nginx-live-module/src/ngx_live_syncer.c:ngx_live_syncer_add_frame"]}
{"id": "C43", "title": "A reconnecting track resumes with the time correction of the frame before the resume point", "statement": "When a publisher reconnects and the track is rewound to a frame id, the correction used from there on is the one that was applied to the last frame before that id, or the track is resynced from scratch.", "quantifier": "all histories of frames of all tracks, syncs and reconnects", "why_tests_cant": "The corrections are kept in a ring of three entries that is cut at every reconnect; only an invariant over all histories tells which entries are valid.", "anchors": ["nginx-live-module/src/ngx_live_syncer.c:ngx_live_syncer_track_reconnect", "nginx-live-module/src/ngx_live_syncer.c:ngx_live_syncer_get_log", "nginx-live-module/src/ngx_live_syncer.c:ngx_live_syncer_remove_future_logs"]}
{"id": "C44", "title": "A consistent KMP reconnect loses no frame", "statement": "A client that reconnects in consistent mode to an active low latency track, at or before the frame the track expects next, has every frame with data from the expected one on delivered, even if the first of them is not a key frame.", "quantifier": "all reconnect points, packet sequences and segmentations", "why_tests_cant": "relates the histories of two connections and depends on where exactly the client resumes", "anchors": ["nginx-live-module/src/ngx_live_segmenter_ll.c:ngx_live_lls_start_stream", "nginx-kmp-in-module/src/ngx_kmp_in.c:ngx_kmp_in_frame"]}
{"id": "C45", "title": "Every buffer link of a KMP input connection is released exactly once", "statement": "Whatever a client sends and whatever allocation or handler fails, once the connection is closed each chain link taken for it has been either freed or handed to the handler that accepted it, and no link twice.", "quantifier": "all byte streams, segmentations, handler answers and allocation failures", "why_tests_cant": "each packet boundary and each failure point moves ownership differently", "anchors": ["nginx-kmp-in-module/src/ngx_kmp_in.c:ngx_kmp_in_copy_packet_header", "nginx-kmp-in-module/src/ngx_kmp_in.c:ngx_kmp_in_process_buffer", "nginx-kmp-in-module/src/ngx_kmp_in.c:ngx_kmp_in_free"]}
{"id": "C46", "title": "Hostile KMP input is parsed in bounded space with honest sizes", "statement": "For any bytes received on a KMP connection parsing terminates, an open connection holds at most one packet of the largest allowed size, and every frame and media info passed on announces exactly the size of the data passed with it.", "quantifier": "all byte streams and segmentations", "why_tests_cant": "the input is chosen by an attacker", "anchors": ["nginx-kmp-in-module/src/ngx_kmp_in.c:ngx_kmp_in_read_packet_header", "nginx-kmp-in-module/src/ngx_kmp_in.c:ngx_kmp_in_process_buffer"]}
{"id": "C47", "title": "Data stored in the input buffers is kept whole", "statement": "Storing a block of data of any length in a track's input buffers (when a segment is restored) yields a chain of pieces whose concatenation is the data, each piece inside one buffer, the buffers being the newest ones of the track in order; and it always ends, whatever the allocator answers.", "quantifier": "all data lengths, buffer sizes above the header size, states of the track's buffers and answers of the allocator", "why_tests_cant": "piece boundaries depend on the length modulo the buffer size and on which buffers are cached; a test fixes a few lengths", "anchors": ["nginx-live-module/src/ngx_live_input_bufs.c: ngx_live_input_bufs_read_chain, ngx_live_input_bufs_get"]}
{"id": "C48", "title": "A timeline shows the last segments it took, in order, each readable", "statement": "Whatever segments are added, updated, expired or truncated, each timeline of a channel shows a run of the most recent segments that it took, without gaps, split into periods, all of them still readable from the channel's segment list; its counters of segments and duration are those of what it shows; a pending segment whose duration becomes known changes only that duration; and the result of adding a segment says whether some manifest shows it.", "quantifier": "all histories of segments, timelines, configuration changes, clock values and allocation results", "why_tests_cant": "a timeline is changed by other tracks' segments, expiry and truncation in any order; a test follows one order", "anchors": ["nginx-live-module/src/ngx_live_timeline.c: ngx_live_timelines_add_segment, ngx_live_timeline_add_segment, ngx_live_timelines_update_last_segment, ngx_live_timeline_remove_segment"]}
{"id": "C49", "title": "The windows of a timeline and its manifest stay within their limits", "statement": "After a segment is added, a manifest is within its configured duration and number of segments (unless the new segment alone is too long, or the manifest is to keep three target durations), and a timeline is within its own, unless the timeline must keep what its manifest shows; no segment is removed that the limits allow; and a timeline that gets no more segments loses exactly what is too old when it is looked up or cleaned.", "quantifier": "all histories, limits and clock values", "why_tests_cant": "limits interact with gaps, pending segments and elapsed time", "anchors": ["nginx-live-module/src/ngx_live_timeline.c: ngx_live_manifest_timeline_remove_segment, ngx_live_timeline_remove_segments, ngx_live_timeline_inactive_remove_segments"]}
{"id": "C50", "title": "A segment keeps its sequence number", "statement": "The media sequence number of a segment in a timeline is its position among all segments that the timeline ever took, so it does not change while the segment is there, and translating between segment indexes and sequence numbers is inverse in both directions.", "quantifier": "all histories", "why_tests_cant": "numbers depend on how many segments were removed before", "anchors": ["nginx-live-module/src/ngx_live_timeline.c: ngx_live_timeline_index_to_sequence, ngx_live_timeline_sequence_to_index, ngx_live_manifest_timeline_add_segment"]}
{"id": "C51", "title": "Segments are freed exactly when no timeline shows them", "statement": "After a segment is added or timelines are cleaned up, the lowest index to keep is at most the index of every segment that a timeline shows and is one of them (or the next index); only segments below it leave the segment list.", "quantifier": "all histories and any number of timelines", "why_tests_cant": "freeing too early is a use after free that only shows for one combination of windows", "anchors": ["nginx-live-module/src/ngx_live_timeline.c: ngx_live_timelines_add_segment, ngx_live_timelines_cleanup, ngx_live_timelines_free_old_segments"]}
{"id": "C52", "title": "Corrected times and discontinuity numbers of periods are consistent", "statement": "When a period starts, its corrected times begin the configured gap after the corrected end of what the timeline showed (an end of exactly 0 counts as nothing shown), or are not corrected when no gap is configured; the discontinuity number plus the number of periods in the manifest grows by one exactly when a period starts in the manifest.", "quantifier": "all histories of adds and removals", "why_tests_cant": "depends on removals of whole periods before", "anchors": ["nginx-live-module/src/ngx_live_timeline.c: ngx_live_manifest_timeline_add_period, ngx_live_manifest_timeline_remove_segment"]}
{"id": "C53", "title": "Looking up a segment in a timeline finds it exactly when it is shown", "statement": "A lookup by segment index succeeds exactly for the segments that the timeline shows, with the correction or start time of their period; other indexes are reported as removed, or not there, or an empty timeline.", "quantifier": "all timelines, all shapes of the tree of periods, all indexes", "why_tests_cant": "tree shapes depend on the history", "anchors": ["nginx-live-module/src/ngx_live_timeline.c: ngx_live_timeline_get_segment_info, ngx_live_timeline_get_period_by_index"]}
{"id": "C54", "title": "Truncating removes exactly the segments up to an index", "statement": "Truncating a channel at an index removes from every timeline and manifest that is not protected exactly the segments whose index is not above it, and leaves protected timelines as they are.", "quantifier": "all reachable channels and indexes", "why_tests_cant": "the cut can fall at any place in any period", "anchors": ["nginx-live-module/src/ngx_live_timeline.c: ngx_live_timelines_truncate, ngx_live_timeline_truncate"]}
{"id": "C55", "title": "Relative times map to the right place of a timeline", "statement": "A time relative to the start (or the end) of a timeline maps to the point that is that far from the start (or end) when its periods are laid one after the other with the configured gap, clamped to the first and last period.", "quantifier": "all timelines and offsets", "why_tests_cant": "any number of periods", "anchors": ["nginx-live-module/src/ngx_live_timeline.c: ngx_live_timeline_get_time"]}
{"id": "C56", "title": "The target duration covers every segment of the manifest", "statement": "When the target duration is not limited to the first segments, no segment that a manifest shows is longer than its announced target duration.", "quantifier": "all histories", "why_tests_cant": "pending segments get their duration later", "anchors": ["nginx-live-module/src/ngx_live_timeline.c: ngx_live_manifest_timeline_add_segment, ngx_live_timelines_update_last_segment"]}
{"id": "C57", "title": "The packager is told the manifest", "statement": "The periods that are sent to the packager for a timeline are exactly the periods of its manifest, cut at the last segment that was asked for; a last segment that is still open on the track has duration 0. The sequence number that goes with them is the number of the first one. The end of a timeline is announced only when all of its manifest is sent with its durations.", "quantifier": "all histories of a channel, all tracks and all last segments", "why_tests_cant": "segments are stored run length coded in a list that all timelines share, so the output depends on the whole history", "anchors": ["nginx-live-module/src/ngx_live_timeline.c: ngx_live_timeline_serve_write, ngx_live_timeline_serve_write_periods, ngx_live_timeline_serve_end_list"]}
{"id": "C58", "title": "A delta manifest leaves out the right segments", "statement": "When the client accepts a delta, the longest front part of the manifest is left out such that what is left (without the last, open segments) has at least the announced skip duration; the numbers of skipped segments and periods, the first period and the last skipped segment are given correctly.", "quantifier": "all histories of a channel, all percentages, tracks and last segments", "why_tests_cant": "any number of periods, any pattern of durations, and the place can fall on any boundary", "anchors": ["nginx-live-module/src/ngx_live_timeline.c: ngx_live_timeline_serve_skip_segments", "nginx-pckg-module/src/ngx_http_pckg_m3u8.c: ngx_http_pckg_m3u8_index_build"]}
{"id": "C59", "title": "RTMP input does not depend on how it arrives", "statement": "The messages an RTMP session hands to its handlers, how each is split over buffers, and whether the session is closed are the same however the bytes of the connection are cut into reads; what was delivered earlier is always a front part of that; and reading never touches memory that was freed, never overruns a buffer and never stalls while bytes are there.", "quantifier": "all byte sequences, all sizes of reads, all answers of the handlers, all settings", "why_tests_cant": "bytes can be cut at every position of every header, and unread bytes move between buffers of several chunk streams and pools", "anchors": ["nginx-rtmp-module/src/ngx_rtmp_handler.c: ngx_rtmp_recv, ngx_rtmp_receive_message, ngx_rtmp_set_chunk_size, ngx_rtmp_finalize_set_chunk_size, ngx_rtmp_alloc_in_buf"]}
{"id": "C60", "title": "RTMP messages arrive as they were sent", "statement": "For every sender that follows the chunk format, with any number of chunk streams, chunks interleaved in any order, any header types, extended timestamps and changes of the chunk size while messages are under way, the messages delivered are exactly the messages sent, in the order in which they were completed, each with its time, type, stream and content.", "quantifier": "all sequences of chunks a sender may send, all sizes of reads, the three settings for repeated extended timestamps", "why_tests_cant": "the state of every chunk stream depends on the whole history; interleavings are unbounded", "anchors": ["nginx-rtmp-module/src/ngx_rtmp_handler.c: ngx_rtmp_recv, ngx_rtmp_set_chunk_size", "nginx-rtmp-module/src/ngx_rtmp_receive.c: ngx_rtmp_protocol_message_handler"]}
{"id": "C61", "title": "Changing the chunk size holds no memory back", "statement": "Once all bytes are read a session holds one pool for input, at most two while bytes that arrived before a change are being used up.", "quantifier": "all sequences of chunk size changes, all sizes of reads", "why_tests_cant": "depends on which changes fall into the same buffer", "anchors": ["nginx-rtmp-module/src/ngx_rtmp_handler.c: ngx_rtmp_set_chunk_size, ngx_rtmp_finalize_set_chunk_size"]}
{"id": "C62", "title": "Messages above the size limit are refused", "statement": "A message larger than max_message is never delivered, and a session never buffers more than max_message bytes for a chunk stream.", "quantifier": "all byte sequences and sizes of reads", "why_tests_cant": "a peer may send any header in the middle of a message", "anchors": ["nginx-rtmp-module/src/ngx_rtmp_handler.c: ngx_rtmp_recv"]}
{"id": "C63", "title": "A server gets what is pushed over RTMP", "statement": "The bytes that are pushed to a server are chunks of exactly these messages, in order: connect, the chunk size, for each stream the commands, metadata and sequence headers, each frame with its time and FLV header, onFI messages once per period, and the closing commands. The reader of this project delivers them however the bytes arrive. Sizes computed in advance are those written; nothing is written outside the buffers.", "quantifier": "all histories of streams, metadata, frames and closes, all chunk sizes, frame sizes, splits of frames into buffers, times and contents of memory, all sizes of reads", "why_tests_cant": "chunk headers fall anywhere in metadata, extra data or frames; headers depend on the history of the stream", "anchors": ["nginx-kmp-rtmp-module/src/ngx_kmp_rtmp_encoder.c: ngx_kmp_rtmp_encoder_frame_write, ngx_kmp_rtmp_encoder_add_chunk_headers", "nginx-kmp-rtmp-module/src/ngx_kmp_rtmp_stream.c: ngx_kmp_rtmp_stream_write_frame, ngx_kmp_rtmp_stream_write_meta", "nginx-kmp-rtmp-module/src/ngx_kmp_rtmp_upstream.c: ngx_kmp_rtmp_upstream_write_connect"]}
{"id": "C64", "title": "Any server and any number of streams", "statement": "What is pushed reaches a server that follows the RTMP specification, for any times, and any number of streams may be published one after the other over one connection.", "quantifier": "all histories of streams and frames, all modes of the reader", "why_tests_cant": "needs more than 60 streams, or times above 16777215 ms (4.6 hours) in frames longer than a chunk", "anchors": ["nginx-kmp-rtmp-module/src/ngx_kmp_rtmp_encoder.c: ngx_kmp_rtmp_encoder_frame_write, ngx_kmp_rtmp_encoder_add_chunk_headers", "nginx-kmp-rtmp-module/src/ngx_kmp_rtmp_stream.c: ngx_kmp_rtmp_stream_create"]}
{"id": "C65", "title": "What is written to an RTMP server is what is sent", "statement": "The bytes that a connection to an RTMP server takes are the bytes that were written, in order, none twice and none missing, however many the connection takes each time and however buffers are reused. What is not yet on its way has a timer running, after which it is sent. The connection is closed after the last stream only when everything was sent, and then it is closed. No buffer is reused or released while it holds bytes to send.", "quantifier": "all sequences of writes, messages, timers, events of the connection and streams that come and go, all buffer sizes, limits and answers of the allocator", "why_tests_cant": "depends on how many bytes each send takes, on which addresses the allocator returns, and on when timers fire", "anchors": ["nginx-kmp-rtmp-module/src/ngx_kmp_rtmp_upstream.c: ngx_kmp_rtmp_upstream_send, ngx_kmp_rtmp_upstream_append, ngx_kmp_rtmp_upstream_write, ngx_kmp_rtmp_upstream_flush, ngx_kmp_rtmp_upstream_get_buf, ngx_kmp_rtmp_upstream_stream_removed"]}
{"id": "C66", "title": "A connection that is being closed takes no more data", "statement": "Once a connection to an RTMP server was closed as done, all that was accepted for it was sent.", "quantifier": "all histories of an upstream", "why_tests_cant": "a track has to connect between the end of the last send and the handling of the posted event", "anchors": ["nginx-kmp-rtmp-module/src/ngx_kmp_rtmp_upstream.c: ngx_kmp_rtmp_upstream_finalize, ngx_kmp_rtmp_upstream_get"]}
{"id": "C67", "title": "Each frame of a track is written to the RTMP server once and in order", "statement": "The frames of a track that were written to the server, followed by those that wait, are the frames that were accepted for it, in the order in which they arrived; a track that connects again loses only the frames that were not written yet. A track never holds more than 16384 frames. No frame is read where none was put, whatever the number of tracks and however frames, disconnects and timers interleave.", "quantifier": "all sequences of streams, tracks, frames, disconnects and timers, all results of the allocator and of writing", "why_tests_cant": "frame lists, two search trees and two kinds of timers have to agree after every interleaving", "anchors": ["nginx-kmp-rtmp-module/src/ngx_kmp_rtmp_track.c: ngx_kmp_rtmp_track_add_frame, ngx_kmp_rtmp_track_write_frame, ngx_kmp_rtmp_track_remove_pending_frames, ngx_kmp_rtmp_track_stream_ready", "nginx-kmp-rtmp-module/src/ngx_kmp_rtmp_upstream.c: ngx_kmp_rtmp_upstream_process"]}
{"id": "C68", "title": "Frames of different tracks are written in the order of their times", "statement": "When the process timer of a connection to an RTMP server fires, it first writes frames that waited for min_process_delay (less 50 ms), over all tracks in the order of their decoding times, and none of them is later than a frame left behind. It then writes frames that waited for max_process_delay. Nothing is left that waited for max_process_delay plus 200 ms. If frames are left, the timer is set to when the first of them is due; if not, it is not set.", "quantifier": "all histories of an upstream, all times of frames below 2^64 that do not decrease within a track", "why_tests_cant": "depends on how frames of several tracks interleave and on when the timer fires", "anchors": ["nginx-kmp-rtmp-module/src/ngx_kmp_rtmp_upstream.c: ngx_kmp_rtmp_upstream_process, ngx_kmp_rtmp_upstream_process_expired", "nginx-kmp-rtmp-module/src/ngx_kmp_rtmp_track.c: ngx_kmp_rtmp_track_process_frame, ngx_kmp_rtmp_track_process_expired_frame"]}
{"id": "C69", "title": "No frame waits for ever", "statement": "A frame that waits to be written to an RTMP server always has a timer running that leads to it: the process timer once the metadata of its stream was written, the metadata timer before that. If the process timer is never late by more than l < 300 ms, a frame of a stream whose metadata was written waits for at most max_process_delay + min_process_delay + 200 ms + l, or min_process_delay + l after the metadata was written.", "quantifier": "all histories of an upstream in which timers are at most l late", "why_tests_cant": "a timer that is kept, moved or cleared at the wrong moment shows only in rare interleavings", "anchors": ["nginx-kmp-rtmp-module/src/ngx_kmp_rtmp_upstream.c: ngx_kmp_rtmp_upstream_process", "nginx-kmp-rtmp-module/src/ngx_kmp_rtmp_track.c: ngx_kmp_rtmp_track_add_frame", "nginx-kmp-rtmp-module/src/ngx_kmp_rtmp_stream.c: ngx_kmp_rtmp_stream_attach_track, ngx_kmp_rtmp_stream_write_meta"]}
{"id": "C70", "title": "A track that is closed is not used after it was freed", "statement": "Closing the last track of a stream does not use memory of a connection that was freed meanwhile.", "quantifier": "all histories of an upstream, all results of getting a buffer", "why_tests_cant": "the message that ends the stream has to fail for lack of a buffer at that moment", "anchors": ["nginx-kmp-rtmp-module/src/ngx_kmp_rtmp_track.c: ngx_kmp_rtmp_track_close", "nginx-kmp-rtmp-module/src/ngx_kmp_rtmp_stream.c: ngx_kmp_rtmp_stream_detach_track"]}
{"id": "C71", "title": "No segment is in an index file before its media was dealt with", "statement": "When a live channel starts to write an index or delta file, the media of every segment the file covers was written to a media file, failed to be written, or was freed as not needed. The files a channel writes cover more and more segments, and no memory error happens.", "quantifier": "all histories of a channel: segments created and closed in any order of media, index and delta writes ending well or not, readers coming and going, memory running short, segments expiring", "why_tests_cant": "the order in which writes end, and which of them fail, is up to the storage", "anchors": ["nginx-live-module/src/ngx_live_segment_index.c: ngx_live_segment_index_ready, ngx_live_segment_index_persisted", "nginx-live-module/src/persist/ngx_live_persist_index.c: ngx_live_persist_index_snap_close, ngx_live_persist_index_write_file", "nginx-live-module/src/persist/ngx_live_persist_media.c: ngx_live_persist_media_write_complete"]}
{"id": "C72", "title": "Every snapshot of the frames of a channel is let go exactly once", "statement": "Every snapshot of the frame ids that was taken is, at any moment, either held in one place (by a segment, by the snapshot that waits, by the write in progress) or was acknowledged or dropped once, never both. The count of snapshots in the channel is the number held. The input is acknowledged at once ('ack frames') only when none is held.", "quantifier": "all histories of a channel", "why_tests_cant": "snapshots are passed from segment to segment in an order that depends on when writes end", "anchors": ["nginx-live-module/src/persist/ngx_live_persist_snap_frames.c: ngx_live_persist_snap_frames_create, ngx_live_persist_snap_frames_close, ngx_live_persist_snap_frames_free, ngx_live_persist_snap_frames_ack", "nginx-live-module/src/persist/ngx_live_persist_index.c: ngx_live_persist_index_snap_update, ngx_live_persist_index_snap_close", "nginx-live-module/src/ngx_live_segment_index.c: ngx_live_segment_index_free_snap"]}
{"id": "C73", "title": "A segment leaves memory once, for a reason, and not while it is read", "statement": "A segment is freed at most once; only as it left the timelines, as memory is short, as it is in no timeline, or as it is older than force_memory_segments and its media was dealt with. If it is freed with its media in no file, it is cut from the timelines. When a segment is closed, all segments of the last kind are freed. A reader of a segment keeps it until it is done, or is told when memory is short.", "quantifier": "all histories of a channel", "why_tests_cant": "depends on which writes fail and on when readers finish", "anchors": ["nginx-live-module/src/ngx_live_segment_index.c: ngx_live_segment_index_free_non_forced, ngx_live_segment_index_free, ngx_live_segment_index_watermark, ngx_live_segment_index_lock, ngx_live_segment_index_unlock"]}
{"id": "C74", "title": "A restart continues after the last file that was written", "statement": "After a restart the channel is what the index or delta file that was last reported as written covers, with the index file before it if it is a delta and no segment missing between them, and the next segment is the one after it.", "quantifier": "all histories of a channel", "why_tests_cant": "the files read are those that happen to be in storage at the moment of the crash", "anchors": ["nginx-live-module/src/persist/ngx_live_persist_index.c: ngx_live_persist_index_write_file, ngx_live_persist_index_write_complete, ngx_live_persist_index_read_channel"]}
{"id": "C75", "title": "Changes of the past are not lost by a restart", "statement": "If the history of a timeline was changed and a delta file was written after that, the index file the delta follows has the change.", "quantifier": "all histories of a channel", "why_tests_cant": "the change has to come between the writes of two files, one of which may fail", "anchors": ["nginx-live-module/src/persist/ngx_live_persist_index.c: ngx_live_persist_index_channel_history_changed, ngx_live_persist_index_write_file, ngx_live_persist_index_write_complete"]}
{"id": "C76", "title": "A channel can be freed at any moment", "statement": "Freeing a channel cuts off those who read its segments, lets go of every snapshot once, and makes no memory error. Nor does a segment whose snapshot could not be made for lack of memory.", "quantifier": "all histories of a channel, then its end", "why_tests_cant": "needs writes in flight and readers at the same moment, and one allocation that fails", "anchors": ["nginx-live-module/src/ngx_live_segment_index.c: ngx_live_segment_index_channel_free, ngx_live_segment_index_create_snap", "nginx-live-module/src/persist/ngx_live_persist_index.c: ngx_live_persist_index_channel_free, ngx_live_persist_index_snap_create"]}
{"id": "C77", "title": "What was acknowledged to the sender is in storage", "statement": "If the frames up to the end of a segment were acknowledged to the sender, the media of all segments up to it is in media files, and the segment is in the files a restart reads or left the timelines.", "quantifier": "all histories of a channel", "why_tests_cant": "the crash can come after any acknowledgment, and the writes end in any order", "anchors": ["nginx-live-module/src/persist/ngx_live_persist_index.c: ngx_live_persist_index_snap_close, ngx_live_persist_index_write_complete", "nginx-live-module/src/persist/ngx_live_persist_snap_frames.c: ngx_live_persist_snap_frames_close, ngx_live_persist_snap_frames_ack"]}
{"id": "C78", "title": "A player gets from an MPEG-TS segment the frames that were put in", "statement": "Any streams with frames pushed in any order the muxer may use, cut into writes anywhere, with or without interleaving and alignment: every packet of the segment is 188 bytes of well formed MPEG-TS of one of the streams; the data of the PES packets of a stream, as a demuxer puts them together, is the data that was pushed; there is one PES packet per frame with its clocks and a right length, with the pts of the first frame that begins in it; the continuity counters of a stream go up by one from packet to packet, and for audio and video from segment to segment. (Frames that are not aligned have a header of at least one byte, and audio that is not aligned has less than 65344 bytes per PES packet.)", "quantifier": "all streams, frames, splits into writes and interleavings of the streams; all combinations of the options", "why_tests_cant": "where a packet ends depends on the sizes of all frames before, so boundary cases (a header that just fits, a frame that ends with its packet, a PES header put in front of the end of the last frame) are too many", "anchors": ["nginx-pckg-module/src/media/mpegts/mpegts_encoder_filter.c: mpegts_encoder_start_frame, mpegts_encoder_write, mpegts_encoder_flush_frame, mpegts_encoder_start_sub_frame, mpegts_encoder_stuff_cur_packet, mpegts_write_pes_header, mpegts_add_stuffing, mpegts_append_null_packet"]}
{"id": "C79", "title": "The size of an MPEG-TS segment that is announced is the size that is sent", "statement": "The number of packets that the simulation computes in advance from the sizes of the frames is the number of packets that the encoder makes of them.", "quantifier": "all streams, frames, splits into writes and interleavings of the streams; all combinations of the options", "why_tests_cant": "two pieces of code that count in different ways have to agree on every input", "anchors": ["nginx-pckg-module/src/media/mpegts/mpegts_encoder_filter.c: mpegts_encoder_simulated_start_frame, mpegts_encoder_simulated_write, mpegts_encoder_simulated_flush_frame, mpegts_encoder_simulated_stuff_cur_packet"]}
{"id": "C80", "title": "A packet that was handed out is complete and never changed", "statement": "At any moment, the packets before the offset up to which the muxer sends are complete, and no later call changes any of them.", "quantifier": "all histories of calls, and any moment in them", "why_tests_cant": "needs a frame of one stream that is open while another stream writes, and a length that is patched into an old packet", "anchors": ["nginx-pckg-module/src/media/mpegts/mpegts_muxer.c: mpegts_muxer_send", "nginx-pckg-module/src/media/mpegts/mpegts_encoder_filter.c: mpegts_encoder_start_frame, mpegts_encoder_flush_frame"]}
{"id": "C81", "title": "The Content-Length of an MPEG-TS segment is its size", "statement": "For a segment of any streams, the size computed before anything is read, from the sizes of the frames only, is the number of bytes that the muxer then sends: also when audio frames are collected, joined, or flushed because video is ahead, and although the filters and the counters of the encoder go through the simulation first.", "quantifier": "all streams of well formed frames (video with 4 byte lengths), all sizes, durations and reads, all combinations of the options", "why_tests_cant": "the simulation is a second implementation of the muxer, its filters and its encoder, with sizes in place of data; any difference shows only for particular sizes and times", "anchors": ["nginx-pckg-module/src/media/mpegts/mpegts_muxer.c: mpegts_muxer_simulate_get_segment_size, mpegts_muxer_simulation_reset, mpegts_muxer_process", "nginx-pckg-module/src/media/mpegts/buffer_filter.c: buffer_filter_simulated_*", "nginx-pckg-module/src/media/mpegts/frame_joiner_filter.c: frame_joiner_simulated_*", "nginx-pckg-module/src/media/mpegts/mp4_to_annexb_filter.c, adts_encoder_filter.c, id3_encoder_filter.c: *_simulated_*"]}
{"id": "C82", "title": "A player gets from an MPEG-TS segment the frames of the source, as MPEG-TS wants them", "statement": "A segment of well formed streams is muxed without failure, whatever the reads give at a time. A demuxer finds for every stream the frames of the source one after the other: video as Annex B, with a delimiter before each frame, the parameter sets before a key frame and the units of the frame without its own delimiters; AAC with an ADTS header of the right length; metadata as an ID3 tag. Every PES packet has the clocks of a frame and the pts of the first frame that begins in it; video and metadata have one PES packet per frame.", "quantifier": "all streams of well formed frames, all splits into reads, all sizes and durations, all combinations of the options", "why_tests_cant": "the data goes through up to three filters that keep state over reads and over frames; lengths may be cut by a read, frames may be larger than the buffer, the ring of frames may be full", "anchors": ["nginx-pckg-module/src/media/mpegts/mpegts_muxer.c: mpegts_muxer_process, mpegts_muxer_choose_stream", "nginx-pckg-module/src/media/mpegts/mp4_to_annexb_filter.c: mp4_to_annexb_write", "nginx-pckg-module/src/media/mpegts/adts_encoder_filter.c: adts_encoder_start_frame", "nginx-pckg-module/src/media/mpegts/id3_encoder_filter.c", "nginx-pckg-module/src/media/mpegts/buffer_filter.c: buffer_filter_force_flush, buffer_filter_write, buffer_filter_flush_frame", "nginx-pckg-module/src/media/mpegts/frame_joiner_filter.c: frame_joiner_start_frame"]}
{"id": "C83", "title": "The streams of an MPEG-TS segment are together in time", "statement": "When a frame of video or metadata with decoding time d begins, exactly the first n frames of every other stream were written, for some n: these are not later than d, and all others are at most 0.35 seconds before d.", "quantifier": "all streams of well formed frames with any times, all combinations of the options", "why_tests_cant": "audio is held back in a buffer, and what forces it out depends on the times of all streams", "anchors": ["nginx-pckg-module/src/media/mpegts/mpegts_muxer.c: mpegts_muxer_choose_stream, mpegts_muxer_start_frame", "nginx-pckg-module/src/media/mpegts/buffer_filter.c: buffer_filter_get_dts, buffer_filter_force_flush"]}
{"id": "C84", "title": "A player gets from an fMP4 segment the frames of all its tracks", "statement": "From the body of a fragmented mp4 segment a player gets, for each track, all frames in their order, each with its bytes, presentation time, duration and sync flag, however the tracks are interleaved in the data. The tracks have the ids 1, 2, ....", "quantifier": "all segments of any number of audio and video tracks, frames of any sizes, durations and pts delays, smaller than 2 GB", "why_tests_cant": "the frames are put in order twice, once for the offsets in the header and once for the data; runs are split where another track interrupts; offsets, times and delays are relative to each other", "anchors": ["nginx-pckg-module/src/media/mp4/mp4_muxer.c: mp4_calculate_output_offsets, mp4_muxer_choose_stream, mp4_muxer_write_video_trun_atoms, mp4_muxer_write_audio_trun_atoms, mp4_muxer_build_fragment_header, mp4_muxer_process_frames", "nginx-pckg-module/src/ngx_http_pckg_core_module.c: ngx_http_pckg_source_read"]}
{"id": "C85", "title": "The announced size of an fMP4 segment is its size", "statement": "The size announced for a fragmented mp4 segment is the number of bytes of its body, also when only the size is asked for; the check of the size of the header never fails.", "quantifier": "all segments of any number of tracks smaller than 2 GB", "why_tests_cant": "the size is computed from counts of runs and frames before any box is written", "anchors": ["nginx-pckg-module/src/media/mp4/mp4_muxer.c: mp4_muxer_build_fragment_header, mp4_muxer_init_fragment", "nginx-pckg-module/src/ngx_http_pckg_core_module.c: ngx_http_pckg_core_write_segment"]}
{"id": "C86", "title": "The segment index of an fMP4 segment is right", "statement": "In a segment of one track, the segment index says how many bytes there are from the moof box to the end, when the first frame is presented, and how long the frames last.", "quantifier": "all segments of one track, times of 32 or 64 bits", "why_tests_cant": "the index is written before the boxes it describes, in two formats", "anchors": ["nginx-pckg-module/src/media/mp4/mp4_muxer.c: dash_packager_write_sidx_atom, dash_packager_write_sidx64_atom, mp4_muxer_get_earliest_pres_time"]}
{"id": "C87", "title": "The cues of a WebVTT track in fMP4 are shown at their times", "statement": "A player shows each cue of a WebVTT track of a segment from its time and for as long as it should.", "quantifier": "all segments of WebVTT tracks", "why_tests_cant": "needs the times of several cues through a player", "anchors": ["nginx-pckg-module/src/media/mp4/mp4_muxer.c: mp4_muxer_write_subtitle_trun_atoms, mp4_muxer_write_subtitle_trun_frame"]}
{"id": "C88", "title": "The tracks of an fMP4 segment are together in the data", "statement": "In the data of a fragmented mp4 segment a frame is put before another one only if its decoding time is at most a quarter of a second later, for each further track.", "quantifier": "all segments of any number of tracks, all times and durations", "why_tests_cant": "depends on the times of all frames of all tracks and on which track was chosen before", "anchors": ["nginx-pckg-module/src/media/mp4/mp4_muxer.c: mp4_muxer_choose_stream, mp4_muxer_process_frames"]}
{"id": "C89", "title": "The metadata of an fMP4 segment is an event a player understands", "statement": "When a segment has metadata and frames, a player finds one event with the time of the first frame, the index of the segment as its id, and the text of the metadata in an ID3 tag.", "quantifier": "all segments, all texts up to 256 MB", "why_tests_cant": "lengths of the tag are coded with 7 bits per byte, the sizes are computed in three places", "anchors": ["nginx-pckg-module/src/media/mp4/mp4_muxer.c: mp4_muxer_write_emsg_atom, mp4_muxer_write_id3_text_frame, mp4_muxer_build_fragment_header"]}
{"id": "C90", "title": "A player with the key gets the video of a segment encrypted with cenc", "statement": "When a segment of video is encrypted with the scheme cenc, a player that decrypts each frame as the boxes of the segment say gets all frames with their bytes, times, durations and sync flags, whether it goes by the senc box or by saiz and saio.", "quantifier": "all block ciphers, keys and initialization vectors, all sizes of the output buffers, all segments with frames of any number of nal units, AVC and HEVC, all lengths of the nal length field", "why_tests_cant": "the state is kept over buffers, nal units, frames and blocks of the cipher at the same time; the header is written after the data", "anchors": ["nginx-pckg-module/src/media/mp4/mp4_cenc_encrypt.c: mp4_cenc_encrypt_video_write_buffer, mp4_cenc_encrypt_video_end_frame, mp4_cenc_encrypt_video_add_subsample, mp4_cenc_encrypt_video_prepare_saiz_saio", "nginx-pckg-module/src/media/mp4/mp4_aes_ctr.c: mp4_aes_ctr_process", "nginx-pckg-module/src/media/mp4/mp4_dash_encrypt.c: mp4_dash_encrypt_video_build_fragment_header", "nginx-pckg-module/src/media/write_buffer.c: write_buffer_get_bytes, write_buffer_write, write_buffer_flush"]}
{"id": "C91", "title": "cenc encrypts the data of slices and nothing else", "statement": "Of each nal unit of a slice all bytes after the length and the first byte are encrypted, and no byte of other nal units, and the segment says so.", "quantifier": "all segments of AVC and HEVC video", "why_tests_cant": "depends on the types of all nal units of all frames", "anchors": ["nginx-pckg-module/src/media/mp4/mp4_cenc_encrypt.c: mp4_cenc_encrypt_video_write_buffer"]}
{"id": "C92", "title": "A player with the key gets the audio of a segment encrypted with cenc", "statement": "All bytes of all frames of audio are encrypted; a player that decrypts them as the boxes say gets all frames with their bytes, times and durations; the body has the announced size.", "quantifier": "all block ciphers and initialization vectors, all sizes of the output buffers, all segments of one audio track", "why_tests_cant": "the state is kept over buffers, frames and blocks of the cipher", "anchors": ["nginx-pckg-module/src/media/mp4/mp4_cenc_encrypt.c: mp4_cenc_encrypt_audio_write_buffer, mp4_cenc_encrypt_audio_write_auxiliary_data", "nginx-pckg-module/src/media/mp4/mp4_dash_encrypt.c: mp4_dash_encrypt_audio_build_fragment_header"]}
{"id": "C93", "title": "Initialization vectors are not used twice", "statement": "With one key, the initialization vectors of all frames of a segment, and of segments of a track one after the other, are different.", "quantifier": "all segments, all times, also when the vectors wrap around", "why_tests_cant": "ranges over all pairs of frames of all pairs of segments", "anchors": ["nginx-pckg-module/src/media/mp4/mp4_cenc_encrypt.c: mp4_cenc_encrypt_init_state, mp4_cenc_encrypt_video_start_frame, mp4_cenc_encrypt_audio_write_buffer"]}
{"id": "C94", "title": "A player gets every segment from the media playlist", "statement": "A player that reads the HLS media playlist of a channel gets every finished segment once and in order, with its uri, duration, discontinuity, gap, date, initialization segment, bitrate and parts, the parts of the segment that is not finished, the preload hint, the key, the rendition reports and the head; and the protocol version that is announced is one that allows all of these.", "quantifier": "all channels with any number of periods, segments, tracks, media infos, bitrates, gaps and parts; all configurations; playlists with and without skipped segments", "why_tests_cant": "the text is the concatenation of optional lines whose presence depends on iterators that are kept over segments and periods", "anchors": ["nginx-pckg-module/src/ngx_http_pckg_m3u8.c: ngx_http_pckg_m3u8_index_build, ngx_http_pckg_m3u8_append_period_segments, ngx_http_pckg_m3u8_write_server_control, ngx_http_pckg_m3u8_enc_key_write", "nginx-pckg-module/src/ngx_pckg_segment_info.c: ngx_pckg_segment_info_get", "nginx-pckg-module/src/ngx_pckg_media_info.c: ngx_pckg_media_info_get"]}
{"id": "C95", "title": "A media playlist fits the buffer that was allocated for it", "statement": "The size that is computed before a media playlist is written is never less than its length, so that nothing is written beyond the buffer and the playlist is always served.", "quantifier": "all channels and configurations as for C94", "why_tests_cant": "the size is computed by other code than the text, from counts of gaps and of changes of the bitrate over all periods", "anchors": ["nginx-pckg-module/src/ngx_http_pckg_m3u8.c: ngx_http_pckg_m3u8_index_build, ngx_http_pckg_m3u8_bitrate_size, ngx_http_pckg_m3u8_track_parts_size, ngx_http_pckg_m3u8_reports_size", "nginx-pckg-module/src/ngx_pckg_segment_info.c: ngx_pckg_segment_info_min_gap_count"]}
{"id": "C96", "title": "The durations in a media playlist do not drift and keep to the target", "statement": "From the start of a period, the durations of the segments add up to the real time to less than a millisecond, however many they are; and no duration, rounded, is more than the target duration.", "quantifier": "all channels, all times, timescales, durations and numbers of segments", "why_tests_cant": "rounding errors show only for some starts and durations and could add up over any number of segments", "anchors": ["nginx-pckg-module/src/ngx_http_pckg_m3u8.c: ngx_http_pckg_m3u8_append_period_segments, ngx_http_pckg_m3u8_append_extinf, ngx_http_pckg_m3u8_index_build"]}
{"id": "C97", "title": "The parts of a segment add up to the segment", "statement": "When the durations of the parts of a segment add up to its duration, so do the durations that the playlist announces; and none is more than the announced part target.", "quantifier": "all channels with parts, all times and durations", "why_tests_cant": "rounding errors show only for some starts and durations", "anchors": ["nginx-pckg-module/src/ngx_http_pckg_m3u8.c: ngx_http_pckg_m3u8_append_parts, ngx_http_pckg_m3u8_index_build"]}
{"id": "C98", "title": "A delta update gives the player what the whole playlist would", "statement": "A player that has the first segments of a playlist and reads one that skips them has the same segments, with the same uris, durations, discontinuities, gaps, initialization segments and parts, and the same sequence numbers, as from the whole playlist.", "quantifier": "all channels, all numbers of skipped segments and periods", "why_tests_cant": "ranges over pairs of playlists and all positions of the boundary: within a period, at its start, at a change of the initialization segment", "anchors": ["nginx-pckg-module/src/ngx_http_pckg_m3u8.c: ngx_http_pckg_m3u8_index_build"]}
{"id": "C99", "title": "Every uri of a media playlist is served as what it is announced as", "statement": "When a player requests the uri of a segment, part, preload hint, initialization segment, rendition report or key that it found in a media playlist, the packager accepts it and asks the live server for exactly that segment, part, media info or playlist, of the same channel, timeline, variant and media types.", "quantifier": "all channels and playlists as for C94, all variant ids, segment and part indexes, media types and containers, all configurations of the location", "why_tests_cant": "the uris are written by one piece of code and read by others, and escaped and decoded in between: an error shows only for some ids, numbers or combinations of media types", "anchors": ["nginx-pckg-module/src/ngx_http_pckg_utils.c: ngx_http_pckg_parse_uri_file_name", "nginx-pckg-module/src/ngx_http_pckg_core_module.c: ngx_http_pckg_core_parse", "nginx-pckg-module/src/ngx_http_pckg_fmp4.c: ngx_http_pckg_fmp4_init_ctx, ngx_http_pckg_fmp4_parse_m4s_request", "nginx-pckg-module/src/ngx_http_pckg_mpegts.c: ngx_http_pckg_mpegts_parse_ts_request", "nginx-pckg-module/src/ngx_pckg_utils.c: ngx_pckg_sep_selector_write"]}
{"id": "C100", "title": "The live server understands what the packager asks", "statement": "Every request that the packager sends to the live server fits the buffer that is allocated for it, and is read by the live server with the same channel, timeline, variants, media types, indexes, time and flags; a blocking playlist request waits for exactly the segment and part that the player named.", "quantifier": "all channel, timeline and variant ids as bytes, all indexes, times, masks and flags; all sequence numbers, parts and skip arguments", "why_tests_cant": "the text is written and read by two programs, with escaping in between: an error shows only for some bytes or numbers", "anchors": ["nginx-pckg-module/src/ngx_pckg_ksmp.c: ngx_pckg_ksmp_create_request", "nginx-live-module/src/ngx_http_live_ksmp_module.c: ngx_http_live_ksmp_args_handler, ngx_http_live_ksmp_parse", "nginx-common/src/ngx_http_api.c: ngx_http_api_parse_args", "nginx-pckg-module/src/ngx_http_pckg_m3u8.c: ngx_http_pckg_m3u8_args_handler, ngx_http_pckg_m3u8_parse_request"]}
{"id": "C101", "title": "The name of a media file says what is served", "statement": "A request for a media file is accepted if and only if its name is that of a segment or part, with a number, a variant and media types that the container can hold, and what is asked for is what the name says; no name makes the parser read past its end.", "quantifier": "all names, extensions and queries", "why_tests_cant": "the set of names is infinite; a parser that reads too far or accepts too much shows only for some", "anchors": ["nginx-pckg-module/src/ngx_http_pckg_utils.c: ngx_http_pckg_parse_uri_file_name, ngx_http_pckg_parse_uint32, ngx_http_pckg_extract_string", "nginx-pckg-module/src/ngx_http_pckg_enc.c: ngx_http_pckg_parse_key_request"]}
{"id": "C102", "title": "A range request is read as the bytes it names", "statement": "A range header is read as the bytes that it says, cut at the end of the file, and what is not a range is refused; numbers that do not fit are refused.", "quantifier": "all headers and all file sizes", "why_tests_cant": "ranges over all texts and sizes; the overflow check and the end of the file matter for few", "anchors": ["nginx-pckg-module/src/ngx_http_pckg_utils.c: ngx_http_pckg_range_parse"]}
{"id": "C103", "title": "A segment encrypted with AES-128 decrypts to the segment", "statement": "A player with the key and the vector gets exactly the bytes of the segment, whatever the buffers in which it is written; the size is the announced one, and no buffer is overrun. This holds for MPEG-TS and fragmented mp4 segments and for initialization segments, with every size of the buffers that can be configured.", "quantifier": "all ciphers that can be inverted, all vectors, all segments, all ways to write them, all sizes of buffers", "why_tests_cant": "padding and carried bytes matter at the borders of blocks and buffers: there are unboundedly many ways to split a segment", "anchors": ["nginx-pckg-module/src/media/aes_cbc_encrypt.c: aes_cbc_encrypt_write, aes_cbc_encrypt", "nginx-pckg-module/src/ngx_http_pckg_mpegts.c: ngx_http_pckg_mpegts_handle_ts_segment", "nginx-pckg-module/src/ngx_http_pckg_fmp4.c: ngx_http_pckg_fmp4_handle_init_segment", "nginx-pckg-module/src/media/write_buffer_queue.c: write_buffer_queue_get_buffer"]}
{"id": "C104", "title": "A player gets the video of SAMPLE-AES", "statement": "From every frame of AVC that is sent with SAMPLE-AES a player with the key gets the NAL units of the frame, in order, but for access unit delimiters; an encrypted unit contains no start code, and units that are not slices are not changed. It does not matter in which buffers the frame is read.", "quantifier": "all frames, all sizes of units and of their size field, all splits into buffers, all ciphers that can be inverted", "why_tests_cant": "the filter works with three counters and emulation prevention over buffers of any size: an error shows for some sizes and splits only", "anchors": ["nginx-pckg-module/src/media/mpegts/sample_aes_avc_filter.c: sample_aes_avc_start_nal_unit, sample_aes_avc_filter_write_nal_body", "nginx-pckg-module/src/media/mpegts/mp4_to_annexb_filter.c: mp4_to_annexb_start_frame, mp4_to_annexb_write"]}
{"id": "C105", "title": "A player gets the audio of SAMPLE-AES", "statement": "From every frame of AAC, AC-3 or Enhanced AC-3 that is sent with SAMPLE-AES a player with the key gets the frame, and the size of the frame is not changed. For Enhanced AC-3 the leader of every sync frame is clear and the chain of blocks goes on over the sync frames. It does not matter in which buffers the frames are read.", "quantifier": "all sequences of frames, all sizes, all splits into buffers, all ciphers that can be inverted", "why_tests_cant": "the state is kept over frames and buffers: an error shows for some sizes and splits only", "anchors": ["nginx-pckg-module/src/media/mpegts/frame_encrypt_filter.c: frame_encrypt_start_frame, frame_encrypt_write", "nginx-pckg-module/src/media/mpegts/eac3_encrypt_filter.c: eac3_encrypt_write"]}
{"id": "C106", "title": "A player gets the audio of cbcs", "statement": "From an audio segment that is sent with the scheme cbcs a player with the key gets every frame, of the same size, whatever the pieces in which the frames are written and the size of the write buffer; all of the segment is sent.", "quantifier": "all sequences of frames, all splits into buffers, all sizes of the write buffer, all ciphers that can be inverted", "why_tests_cant": "an error in the carried block or in the write buffer shows for some sizes and splits only", "anchors": ["nginx-pckg-module/src/media/mp4/mp4_cbcs_encrypt.c: mp4_cbcs_encrypt_audio_write_buffer, mp4_cbcs_encrypt_write_encrypted", "nginx-pckg-module/src/media/write_buffer.c: write_buffer_get_bytes, write_buffer_write, write_buffer_flush"]}
{"id": "C107", "title": "A player gets the video of cbcs", "statement": "From a video segment that is sent with the scheme cbcs a player with the key gets the NAL units of every frame: the headers of slices and other units are not changed, one block out of ten of the rest of a slice is encrypted, sizes are kept. It does not matter in which pieces the segment is written, and all of the segment is sent.", "quantifier": "all sequences of frames of units, all ways to tell slices and their headers, all splits into buffers, all sizes of the write buffer, all ciphers that can be inverted", "why_tests_cant": "the state machine has five states and several counters: an error shows for some sizes and splits only", "anchors": ["nginx-pckg-module/src/media/mp4/mp4_cbcs_encrypt.c: mp4_cbcs_encrypt_video_write_buffer, mp4_cbcs_encrypt_move_to_next_frame", "nginx-pckg-module/src/media/write_buffer.c: write_buffer_get_bytes, write_buffer_write, write_buffer_flush"]}
{"id": "C108", "title": "Gaps are known", "statement": "With gaps enabled, whether a track has segments in a range is answered right: if and only if some segment of the range was created with media. The same holds for timelines. Without gaps all segments exist; a copy of a track answers as the track.", "quantifier": "all histories of created and freed segments, all shapes of the search tree, all ranges that are not freed", "why_tests_cant": "an error in the choice of the node or of the element shows for some histories and some shapes of the tree only", "anchors": ["nginx-live-module/src/ngx_live_segment_info.c: ngx_live_segment_info_segment_exists, ngx_live_segment_info_timeline_exists, ngx_live_segment_info_lookup, ngx_live_segment_info_push, ngx_live_segment_info_segment_free"]}
{"id": "C109", "title": "Bitrates sent to the packager", "statement": "The list that is sent to the packager gives for every segment that is not freed a gap if and only if it was created without media, and otherwise, with bitrates enabled, its bitrate within the bounds of the configuration. Its indexes go up.", "quantifier": "all histories of created and freed segments, all segments, all bounds", "why_tests_cant": "small changes of the bitrate add up over a long history", "anchors": ["nginx-live-module/src/ngx_live_segment_info.c: ngx_live_segment_info_track_segment_created, ngx_live_segment_info_write_serve"]}
{"id": "C110", "title": "Gaps and bitrates after a restart", "statement": "What is known of gaps and bitrates is the same after a restart, from the first segment of the first index file to the last of the last one, and segments that are created later are recorded as without a restart.", "quantifier": "all histories between the index files, all ranges of files, all shapes of the search tree", "why_tests_cant": "files overlap by an element or not, and nodes are full or not: an error shows at some boundaries only", "anchors": ["nginx-live-module/src/ngx_live_segment_info.c: ngx_live_segment_info_write_index, ngx_live_segment_info_read_index"]}
{"id": "C111", "title": "Bytes of a NAL unit without emulation prevention", "statement": "A series of reads of a NAL unit gives the bytes of the unit without its emulation prevention bytes, in order; the first read beyond the end of the unit fails. What an encoder escaped is read back.", "quantifier": "all NAL units, all splits of them into buffers, all series of sizes of reads", "why_tests_cant": "the three bytes of an emulation prevention sequence can be in different buffers and different reads", "anchors": ["nginx-kmp-cc-module/src/ngx_buf_chain_reader.c: ngx_buf_chain_reader_ep_init, ngx_buf_chain_reader_ep_read, ngx_buf_chain_reader_ep_skip"]}
{"id": "C112", "title": "Captions of a frame are found", "statement": "The captions of all SEI messages of all SEI units of a frame are found, in order, and nothing else, for H.264 and H.265.", "quantifier": "all frames of well-formed units, all messages, all splits of a frame into buffers", "why_tests_cant": "sizes, types and emulation prevention bytes interact: an error shows for some contents of a message only", "anchors": ["nginx-kmp-cc-module/src/ngx_kmp_cc.c: ngx_kmp_cc_process_frame, ngx_kmp_cc_process_sei_nal, ngx_kmp_cc_process_udr_sei", "nginx-kmp-cc-module/src/ngx_buf_chain_reader.c: ngx_buf_chain_reader_read, ngx_buf_chain_reader_skip"]}
{"id": "C113", "title": "Captions are decoded in the order of presentation", "statement": "The decoders get all the captions of a stream once, in the order of presentation when groups of frames do not overlap, and those of the same time in the order of the frames.", "quantifier": "all streams of frames, all orders of decoding", "why_tests_cant": "the order depends on the key frames, on the delays and on the number of captions of every frame", "anchors": ["nginx-kmp-cc-module/src/ngx_kmp_cc.c: ngx_kmp_cc_add_frame, ngx_kmp_cc_packet_insert, ngx_kmp_cc_packet_push_all, ngx_kmp_cc_end_stream"]}
{"id": "C114", "title": "Parameter sets of the decoder configuration", "statement": "The parameter sets of an H.264 or H.265 decoder configuration are given with start codes, in order and all of them; other bytes are refused. Whatever the bytes are, nothing beyond them is read and nothing beyond the allocated buffer is written.", "quantifier": "all decoder configurations, all bytes", "why_tests_cant": "the size is computed by one function and the bytes are written by another one, which checks nothing: they must agree for all bytes", "anchors": ["nginx-pckg-module/src/media/codec_config.c: codec_config_avcc_nal_units_get_size, codec_config_avcc_nal_units_write, codec_config_hvcc_nal_units_get_size, codec_config_hvcc_nal_units_write", "nginx-pckg-module/src/ngx_pckg_ksmp.c: ngx_pckg_ksmp_parse_avc_extra_data, ngx_pckg_ksmp_parse_hevc_extra_data"]}
{"id": "C115", "title": "Codec names", "statement": "The codec name of a stream in a playlist tells what its decoder configuration says: profile, compatibility, tier, level and constraints of H.265 and H.264, the object types of AAC. Whatever the bytes of the configuration are, the name fits into its buffer.", "quantifier": "all values of the fields of decoder configurations, all bytes", "why_tests_cant": "bits in reverse order, bytes that are left out and numbers of different lengths: wrong for some values only", "anchors": ["nginx-pckg-module/src/media/codec_config.c: codec_config_get_hevc_codec_name, codec_config_hevc_config_parse, codec_config_flip_bits_32, codec_config_get_avc_codec_name, codec_config_get_mp4a_codec_name", "nginx-pckg-module/src/media/bit_read_stream.h: bit_read_stream_get, bit_read_stream_get_long, bit_read_stream_get_one"]}
{"id": "C116", "title": "AAC configurations", "statement": "The object type, the index of the sample rate and the channel configuration that are taken from the configuration of an AAC stream, and that end up in the headers of its frames, are those that the configuration says, with and without the extensions SBR and PS and whatever follows; a configuration that is cut is refused.", "quantifier": "all object types, rates, channel configurations and extensions, all bytes that follow, all cuts", "why_tests_cant": "fields of different lengths that shift all that follows, and a guess about the bits ahead: wrong for some values only", "anchors": ["nginx-pckg-module/src/media/codec_config.c: codec_config_mp4a_config_parse", "nginx-pckg-module/src/media/bit_read_stream.h: bit_read_stream_get", "nginx-pckg-module/src/media/mpegts/adts_encoder_filter.c: adts_encoder_set_media_info"]}
{"id": "C117", "title": "Bytes and numbers of parameter sets and slice headers", "statement": "What is parsed of a parameter set or a slice header of H.264 and H.265 is what the encoder wrote before it put the emulation prevention bytes in; its variable length numbers are read back; and the size of a slice header in the stream, up to which a sample stays in the clear, counts the emulation prevention bytes in it.", "quantifier": "all bytes of units, all numbers, all bytes of headers", "why_tests_cant": "zeros next to each other and codes of any length: patterns that do not occur in usual streams", "anchors": ["nginx-pckg-module/src/media/avc_hevc_parser.c: avc_hevc_parser_emulation_prevention_decode, avc_hevc_parser_emulation_prevention_encode_bytes", "nginx-pckg-module/src/media/avc_hevc_parser.h: bit_read_stream_get_unsigned_exp, bit_read_stream_get_signed_exp", "nginx-pckg-module/src/media/avc_parser.c: avc_parser_get_slice_header_size"]}
{"id": "C118", "title": "Skipped fields of parameter sets and slice headers", "statement": "When the parser of a parameter set or a slice header skips fields and variable length numbers, it goes on right behind them, wherever in a byte they start; a field whose length depends on the number of values is as long as these values need.", "quantifier": "all lengths, all numbers, all positions in a byte, all bytes", "why_tests_cant": "skips of whole bytes and bits at the same time: wrong for some positions and lengths only", "anchors": ["nginx-pckg-module/src/media/bit_read_stream.h: bit_read_stream_skip", "nginx-pckg-module/src/media/avc_hevc_parser.h: bit_read_stream_skip_unsigned_exp", "nginx-pckg-module/src/media/avc_hevc_parser.c: avc_hevc_parser_ceil_log2"]}
