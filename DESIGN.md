# Design

The work is a functional model of selected cores of kaltura/media-framework in
Rocq (Coq 8.16.1, standard library only), with one theorem (or several) per
property of `properties.jsonl`.

## Layout

* `rocq/theories/<Area>Model.v` - the model. Only definitions. Each definition
  cites the file and the lines it models and says what is simplified.
* `rocq/theories/<Area>Spec.v` - small specification vocabulary used by the
  statements, written without the model's helpers.
* `rocq/theories/<Area>Proofs.v` - lemmas.
* `rocq/theories/<Area>Properties.v` - the theorems with their non-vacuity
  examples and `Print Assumptions`.

Naming: `_partial` marks a theorem that proves only part of a property,
`_refuted` a proof that the code does not have the property (with a witness).

## General modelling decisions

* Bytes are `Z` values constrained by `0 <= b < 256`; sizes and indices are
  `nat` or `Z` (unbounded) unless a property is about wrap-around, in which case
  the width is explicit.
* A pointer into a buffer is a pair (buffer identity, offset). Undefined
  behaviour (out of range access, use of a freed object) is an explicit error
  outcome of the model.
* Loops become structural recursion, or recursion on fuel where the theorem
  shows that the fuel is always enough.
* Logging, statistics that are only printed, and nginx's own primitives (pools,
  timers, sockets) are not modelled; allocation failure is an input where it
  matters.

## Trusted base

* The kernel of Coq 8.16.1 (`coqc`), its parser and its `vm_compute`, which the
  examples use.  No plugin, no extraction, no kernel check switched off.
* Axioms: none of our own.  Every theorem of `*Properties.v` is followed by
  `Print Assumptions`, and each prints `Closed under the global context`.  The
  axioms a checker finds in the loaded libraries are those of
  `Coq.ssr.ssrunder` (loaded with `lia`'s dependencies), and no theorem uses them.
* That the definitions of `*Model.v` say what the C and C++ code does.  They
  were written by reading the code; nothing was compiled or run.  Every
  definition cites the lines it models, and where it leaves something out the
  comment says so.  The list below repeats it by file.
* That the statements say what the English properties say.  The vocabulary of a
  statement is in `*Spec.v`, apart from the proofs.
* `seeded/LOG.jsonl` records deliberate bugs put into the model (with
  `seeded/mutate.py`, in a scratch copy) and the theorems that then fail.

Assumptions common to all areas: one nginx worker or one transcoder thread, no
signal or thread interference inside a function; the C compiler does what the
standard says where the behaviour is defined; nginx's lists, queues and rbtrees
work (the queue primitives are modelled where their debug and release builds
differ, `LbaModel.v`).

## Modelled code

Code that is not named here is not modelled: configuration parsing, HTTP and
event glue, name resolution, JSON status output, the media codecs (ffmpeg in the
transcoder), the packager's muxers except where named, DRM except cenc, and the Lua/JS/Go
parts of the tree.

<!-- functions -->
* `AckModel.v`: Model of transcoder/ackHandler: audioAckMap.cpp, videoAckMap.cpp and the wrappers of ackHandlerInternal.cpp that turn exceptions into a default. Integers are Z. Sums and products of durations are not wrapped: they are 64 bit, or 32 bit products of one run, and wrap only after 2^31 samples of one duration without an acknowledgement. The casts of frame ids are modelled. Functions and types: addFrame, addIn, addFiltered, addOut.
* `AmfModel.v`: Model of nginx-rtmp-module/src/ngx_rtmp_amf.c: reading and writing AMF0 values through chains of buffers. Bytes are integers, a value in memory is the list of its bytes in memory order (little endian for numbers). A destination is an object with an identity and a size; reading reports the stores it makes. The flags of a type (ngx_rtmp_amf.h:33-35) are separate fields. Left out: logging, the name buffer of Windows builds, and the depth of the C stack. Functions and types: ngx_rtmp_amf_elt_t, ngx_rtmp_amf_get, ngx_rtmp_amf_is_compatible_type, ngx_rtmp_amf_reverse_copy, ngx_rtmp_amf_read_object, ngx_rtmp_amf_read_variant, ngx_rtmp_amf_read, ngx_rtmp_amf_put, ngx_rtmp_amf_write.
* `AscModel.v`: The configuration of AAC: codec_config_mp4a_config_parse, nginx-pckg-module/src/media/codec_config.c:475-536, over the bit reader of NameModel.v. Left out: logging. The fields of the result are bytes; no value here exceeds 95.
* `BitStreamModel.v`: Model of nginx-mpegts-module/src/ngx_ts_bit_stream.c. The buffer is a list of bytes; pos and last are indices into it. An access outside of the buffer or a shift by 64 or more is BUB. Functions and types: ngx_ts_bit_stream_t, ngx_ts_bit_stream_init, ngx_ts_bit_stream_read_one, ngx_ts_bit_stream_read, ngx_ts_bit_stream_write_one, ngx_ts_bit_stream_write, ngx_ts_bit_stream_size.
* `BlockPoolModel.v`: Model of nginx-live-module/src/ngx_block_pool.c (the default build, without NGX_BLOCK_POOL_SKIP) and ngx_block_str.c. Not modelled: logging, the JSON status, the NGX_DEBUG checks. Functions and types: ngx_block_str, ngx_block_pool_slot_t, ngx_block_pool_init_slot, ngx_block_pool_create, ngx_block_pool_alloc_internal, ngx_block_pool_alloc, ngx_block_pool_free_list_internal, ngx_block_pool_free_list, ngx_block_pool_free, ngx_block_pool_get_size, ngx_block_pool_auto_alloc, ngx_block_pool_auto_free, ngx_block_str_free_data, ngx_block_str_set, ngx_block_str_copy.
* `BufChainModel.v`: Model of nginx-common/src/ngx_buf_chain.c: helpers on a chain of data fragments. A chain (ngx_buf_chain_t list) is a list of byte lists; the NULL pointer is the empty list. Functions and types: ngx_buf_chain_seek, ngx_buf_chain_skip, ngx_buf_chain_copy, ngx_buf_chain_compare, ngx_buf_chain_get_tail, ngx_buf_chain_terminate.
* `BufQueueModel.v`: Model of nginx-common/src/ngx_buf_queue.c, a queue of fixed-size buffers. Addresses are integers. A node is identified by the address of its first byte; its payload starts 8 bytes later (sizeof(ngx_buf_queue_node_t)) and ends at the node address plus alloc_size (ngx_buf_queue.h:18-22). The linked lists used_head/used_tail and free are lists of node addresses. The allocator (ngx_lba) is outside this file: an allocation answer is an input of the operation, a release is recorded in the output. Functions and types: ngx_buf_queue_t, ngx_buf_queue_init, ngx_buf_queue_get, ngx_buf_queue_free, ngx_buf_queue_delete, ngx_buf_queue_detach.
* `BufQueueStreamModel.v`: Model of nginx-common/src/ngx_buf_queue_stream.c: reading, writing and skipping through the used buffers of a buffer queue. The payloads of the used buffers, oldest first, are a list of byte lists. A node pointer is an index into that list, a byte pointer is a pair (node index, offset in the payload). Functions and types: ngx_buf_queue_stream_t, ngx_buf_queue_stream_read, ngx_buf_queue_stream_md5, ngx_buf_queue_stream_write, ngx_buf_queue_stream_skip.
* `CbcsModel.v`: The encryption of fragmented mp4 segments with the scheme cbcs: nginx-pckg-module/src/media/mp4/mp4_cbcs_encrypt.c, nginx-pckg-module/src/media/write_buffer.c. One track; failures of allocations and of OpenSSL are not modelled. The block cipher under the key is a parameter E. The parsers of slice headers (avc_parser.c, hevc_parser.c) are the parameters slice : the first byte of a unit -> is it a slice (None: an error), hdr : the first bytes of a slice, at most 128 -> the size of its header, with the first byte (None: an error).
* `CcModel.v`: Closed captions out of the SEI units of video frames: nginx-kmp-cc-module/src/ngx_buf_chain_reader.c, nginx-kmp-cc-module/src/ngx_kmp_cc.c. A chain of buffers is a list of lists of bytes, the first is the current one. Failures of allocations, the limit of packets and the decoders of the captions are not modelled.
* `CencModel.v`: Encryption of fragmented mp4 segments in place, scheme "cenc" (AES in counter mode): nginx-pckg-module/src/media/mp4/mp4_cenc_encrypt.c, nginx-pckg-module/src/media/mp4/mp4_aes_ctr.c, nginx-pckg-module/src/media/mp4/mp4_dash_encrypt.c:1-213, nginx-pckg-module/src/media/write_buffer.c. The cipher of one block, AES-128 in ECB mode with the key of the track (mp4_aes_ctr.c:11-48), is a parameter E. Allocation and the cipher do not fail. The single_nalu_per_frame functions (mp4_cenc_encrypt.c:182-371) are never used: ngx_http_pckg_fmp4.c:366-374 passes FALSE. There is one track (ngx_http_pckg_fmp4.c:360-365); its frames are in one part of the list, as in Fmp4Model.
* `CfgModel.v`: Parameter sets out of the decoder configurations of H.264 and H.265: nginx-pckg-module/src/media/codec_config.c, and its use in ngx_pckg_ksmp.c. The extra data is a list of bytes; a read beyond its end is None in the functions that write.
* `EncModel.v`: A model of the RTMP encoder: how the connect command, the commands that open and close a stream, the metadata, the codec headers and the frames that are pushed to an RTMP server are written as RTMP chunks. Modelled: nginx-kmp-rtmp-module/src/ngx_kmp_rtmp_encoder.c:10-90 (constants) and 487-1175 (everything but the AMF field tables), ngx_kmp_rtmp_stream.c:81- 258 (publish, unpublish, write_meta), 273-354 (onfi, write_frame), 452-504 (create), ngx_kmp_rtmp_upstream.c:1201-1235 (write_connect) and the macros of ngx_kmp_rtmp_amf.h:21-32. The contents of the AMF messages are arguments: the same fields are measured and written (ngx_kmp_rtmp_amf with and without a buffer), so one list of bytes stands for both. How the upstream collects what is written and sends it is in UpModel.v; here the output is the bytes in the order in which they are written. Failing allocations, logging and timers are not modelled. Numbers are Z; fields wrap at their width. A write outside the memory that was asked for is the result None, and so is a size that does not match.
* `Fmp4Model.v`: How the packager makes a fragmented mp4 segment: nginx-pckg-module/src/media/mp4/mp4_muxer.c:150-1333 and nginx-pckg-module/src/ngx_http_pckg_core_module.c:1010-1045 (the source of the frames). The frames of a track are in one part of the list (ngx_http_pckg_core_module.c: 1333-1334), next to each other in memory from t_base. Memory is a function from addresses to bytes. Allocation does not fail. The list of the subtitle frames converted to TTML, and CBCS (per_stream_writer), are not modelled.
* `GapModel.v`: Gaps and bitrates of the segments of a track: nginx-live-module/src/ngx_live_segment_info.c. A track, and the counter of its channel. Failures of allocations are not modelled. The nodes of the red-black tree and of the queue are the same; the tree is a shape over the positions of the nodes in the queue (ngx_rbtree is not part of the code base).
* `HlsModel.v`: The encryption of HLS segments: nginx-pckg-module/src/media/aes_cbc_encrypt.c (AES-128: the whole segment), nginx-pckg-module/src/media/mpegts/sample_aes_avc_filter.c, nginx-pckg-module/src/media/mpegts/frame_encrypt_filter.c, nginx-pckg-module/src/media/mpegts/eac3_encrypt_filter.c (SAMPLE-AES: parts of the frames), and the loop of mp4_to_annexb_filter.c as it is used with SAMPLE-AES. The block cipher under the key is a parameter E; failures of allocations and of OpenSSL are not modelled. The calls to the next filter are its input, in order, as a list of bytes.
* `IdxModel.v`: The segments a live channel holds in memory, their way to storage and the snapshots of the channel index (nginx-live-module/src): ngx_live_segment_index.c, persist/ngx_live_persist_index.c, persist/ngx_live_persist_snap_frames.c and the callers of these in persist/ngx_live_persist_media.c. A segment is known by its number, its 'key'. What a segment, an index file or a snapshot contains is not modelled, only which segments it covers. Numbers are Z; that they fit in 32 bits is not modelled, except in the subtraction that decides between an index and a delta file. The memory errors that the code could make are recorded in the flag s_ub: once it is set the state means nothing. s_err is set when the code gives up on the channel, which is then freed by its caller.
* `InputBufsModel.v`: Model of nginx-live-module/src/ngx_live_input_bufs.c: the buffers that hold the input of the tracks, and the locks readers take on them. The buffer queues are those of BufQueueModel. Objects (buffer queues, locks) are identified by numbers that are never used again, so that a use of a freed lock or object shows as the outcome [UB]. The memory budget of a channel is shared by its queues in the code; here every queue has its own, and a refusal because of the others' use is a failed answer of the allocator, which has the same effect. Left out: logging, the JSON status, the channel's watermark event (whose handlers call set_min_used), the block pool (BlockPoolModel; an allocation may fail), and overflow of the 32 bit reference counts. Functions and types: ngx_live_input_bufs_lock_s, ngx_live_input_bufs_t, ngx_live_input_bufs_create, ngx_live_input_bufs_free_bufs, ngx_live_input_bufs_free, ngx_live_input_bufs_get, ngx_live_input_bufs_lock, ngx_live_input_bufs_unlock, ngx_live_input_bufs_set_min_used, ngx_live_input_bufs_link, ngx_live_input_bufs_channel_free, ngx_live_input_bufs_track_free, ngx_live_input_bufs_read_chain.
* `JsonModel.v`: Model of nginx-common/src/ngx_json_parser.c. Characters are Z. A position in the text is the list of the characters from there to the end of the memory of the text; reading beyond is JUB, as is a signed overflow. Allocations succeed. The layout of arrays in parts is not modelled, nor are the error messages. Object keys are changed to lower case in place, which only changes characters already read. Functions and types: ngx_json_get_value_type, ngx_json_skip_spaces, ngx_json_parse_string, ngx_json_parse_object_key, ngx_json_parse_int, ngx_json_parse_fraction, ngx_json_parse_value, ngx_json_parse_array, ngx_json_parse_object, ngx_json_parse, ngx_json_unicode_hex_to_utf8, ngx_json_decode_string, ngx_json_get_string.
* `JsonPrettyModel.v`: Model of nginx-common/src/ngx_json_pretty.c. Characters are Z; the text is a list and a position the rest of it. The bytes from start to p are kept as a list. Allocations succeed. Functions and types: ngx_json_pretty_write_init, ngx_json_pretty_write, ngx_json_pretty_write_close, ngx_json_pretty.
* `KmpInModel.v`: Model of nginx-kmp-in-module/src/ngx_kmp_in.c: the receiving side of a KMP connection (the connect packet, the packet parser, the frame filter and the acknowledgement writer). Left out: logging, the dump file, the latency statistics, timers, and the conversion of the channel and track names to JSON strings. Functions and types: ngx_buf_chain_skip, ngx_buf_chain_copy, ngx_kmp_in_connect_data, ngx_kmp_in_copy_packet_header, ngx_kmp_in_media_info, ngx_kmp_in_frame, ngx_kmp_in_process_buffer, ngx_kmp_in_create, ngx_kmp_in_read_header, ngx_kmp_in_recv, ngx_kmp_in_cleanup, ngx_live_segmenter_start_stream, ngx_kmp_in_ack_frames, ngx_kmp_in_write_handler.
* `KmpOutModel.v`: Model of the sending side of KMP: nginx-kmp-out-module/src/ ngx_kmp_out_upstream.c (one connection to a receiver) and ngx_kmp_out_track.c (the buffers of a track and its receivers). The bytes of a track are kept in a queue of buffers of equal size. Here they are one list, [t_stream], of every byte written so far, and a position is an offset in it: buffer number i holds the bytes [i*size, (i+1)*size). [t_nbufs] buffers were taken from the allocator and the first [t_base] of them were released. ngx_buf_queue_stream_t is an offset: reading through it succeeds when a byte follows in an allocated buffer (BufQueueStreamModel has the node by node version). Reading a released buffer or a byte that was not written is the outcome [RdFreed]/[RdUnwritten]. Left out: logging, statistics other than last_frame_written, the JSON status, name resolution, the HTTP body of a publish/republish call, the timers (each may fire at any time), pool allocation failures, and the ngx_chain_t links of the unsent data (kept as one byte string). The header of a frame written with ngx_kmp_out_track_write_frame_start/_end is filled in at the end, when nothing can have looked at it; here it is written at once. Frame ids and offsets do not wrap around. Functions and types: ngx_kmp_out_resume_from_e, ngx_kmp_out_upstream_t, ngx_buf_queue_stream_read, ngx_kmp_out_upstream_ack_packet, ngx_kmp_out_upstream_read_packet, ngx_kmp_out_upstream_auto_ack, ngx_kmp_out_upstream_republish_send, ngx_kmp_out_upstream_republish, ngx_kmp_out_upstream_ack_frames, ngx_kmp_out_upstream_send_chain, ngx_kmp_out_upstream_send, ngx_kmp_out_upstream_send_buffered, ngx_kmp_out_upstream_append_buffer, ngx_buf_queue_free, ngx_kmp_out_track_min_acked_upstream, ngx_kmp_out_track_append_all, ngx_kmp_out_track_send_all, ngx_kmp_out_track_mem_watermark, ngx_kmp_out_track_write_chain, ngx_kmp_out_track_flush, ngx_kmp_out_upstream_free_notify, ngx_kmp_out_upstream_error, ngx_kmp_out_upstream_write_handler, ngx_kmp_out_upstream_create, ngx_kmp_out_track_add_upstream, ngx_kmp_out_track_del_upstream, ngx_kmp_out_upstream_republish_handle.
* `LbaModel.v`: Model of nginx-common/src/ngx_lba.c, the allocator of large buffers (the default build, without NGX_LBA_SKIP). The queue of active bins is modelled with its pointers, because ngx_queue_remove of nginx clears the pointers of the removed node only in NGX_DEBUG builds and the code tests them; [debug] selects the build. The queues of blocks in a bin are lists: a block is removed from one queue only to be inserted in another, or unmapped. The list of free buffers of a block is a list of buffer numbers instead of links stored in the buffers. Functions and types: ngx_lba_block_header_t, ngx_lba_block_alloc, ngx_lba_block_free, ngx_lba_block_alloc_buf, ngx_lba_block_free_buf, ngx_lba_alloc, ngx_lba_free, ngx_lba_create.
* `M3u8Model.v`: Model of the HLS media playlist (the "index" playlist) that the packager builds from a channel it got from the live server: nginx-pckg-module/src/ngx_http_pckg_m3u8.c, with the iterators it uses in ngx_pckg_segment_info.c and ngx_pckg_media_info.c and the selectors of ngx_pckg_utils.c. Text is a list of byte values. A function that takes and returns a write pointer is modelled by the text it appends; the announced size of the buffer is computed by a separate function, as in the code. Not modelled, and taken as inputs: the evaluation of nginx complex values (the percents and flags of [conf]), the calendar of ngx_gmtime ([f_date]), the estimators of the containers ([f_est]), the base64 text of the pssh boxes ([k_pssh]). Functions and types: ngx_pckg_ksmp.
* `MuxModel.v`: How a segment becomes MPEG-TS: which frame is next, and what is done to it before it is cut into packets (nginx-pckg-module/src/media/mpegts): mpegts_muxer.c, mp4_to_annexb_filter.c, adts_encoder_filter.c, id3_encoder_filter.c, buffer_filter.c, frame_joiner_filter.c. The packets are those of TsModel.v. A stream has a filter at the top (it makes a byte stream of the frames), maybe one that collects frames, and the encoder. Filters only call the next one, and use nothing but its success, so a filter is a function that gives the calls it makes. None is an error of the filter; the request fails then. Allocations do not fail. Encryption is not modelled (mpegts_muxer.c:351-392, SAMPLE-AES). The parts of a list of frames are put together (mpegts_muxer.c:471-481); parts are never empty in the code. segment_limit is not used (ULLONG_MAX).
* `NameModel.v`: Codec names and the configuration of AAC: nginx-pckg-module/src/media/codec_config.c and bit_read_stream.h. Texts are lists of characters.
* `PersistModel.v`: Model of the persistence file format: nginx-common/src/ngx_persist_write.c, ngx_persist_read.c, ngx_persist.c, ngx_mem_rstream.h, ngx_wstream.h. Not modelled: compression (zlib), the memory pools, logging, the hash table of block handlers (a predicate on the 4 id bytes instead). Functions and types: ngx_persist_write_block_t, ngx_persist_write, ngx_persist_write_flush_buf, ngx_persist_write_append, ngx_persist_write_reserve, ngx_persist_write_marker_write, ngx_persist_write_block_set_header, ngx_persist_write_block_open, ngx_persist_write_block_close, ngx_persist_write_block, ngx_persist_write_init, ngx_persist_write_close, ngx_wstream_str, ngx_mem_rstream_read, ngx_mem_rstream_get_stream, ngx_mem_rstream_str_get, ngx_mem_rstream_str_fixed, ngx_persist_read_file_header, ngx_persist_read_block, ngx_persist_read_skip_block_header, ngx_persist_conf_read_blocks.
* `RbspModel.v`: What the parsers of parameter sets and slice headers of H.264 and H.265 read with: nginx-pckg-module/src/media/avc_hevc_parser.c and avc_hevc_parser.h, over the bit reader of NameModel.v. Left out: allocation failures.
* `RbspSkipModel.v`: The fields that the parsers of parameter sets and slice headers skip: nginx-pckg-module/src/media/bit_read_stream.h and avc_hevc_parser.h.
* `RtmpModel.v`: A model of the RTMP chunk reader: how the bytes of a connection are read into buffers, split into chunks of several chunk streams and put together into messages. Modelled: nginx-rtmp-module/src/ngx_rtmp_handler.c:103-131 (input buffers), 198-586 (ngx_rtmp_recv), 857-938 (ngx_rtmp_receive_message, up to the handlers), 941-1054 (chunk size changes); ngx_rtmp_receive.c:14-75 (the chunk size message); ngx_rtmp_init.c:200-221 (the initial state). Not modelled: failing allocations (they close the session), the ack and bandwidth counters, the input dump, logging, and what the message handlers do: a handler is a function of the messages delivered so far that says whether the session goes on. Numbers are Z; 32 bit fields wrap at 2^32. An access to memory that is not there (a destroyed pool, a position outside a buffer, bytes that were overwritten) is the result None.
* `SegListModel.v`: Model of nginx-live-module/src/ngx_live_segment_list.c: the list of the segments of a channel, as runs of equal durations grouped in nodes. The queue of the nodes is a list. The red-black tree over the nodes is a binary tree of their positions in the queue; how nginx balances it is not modelled, the theorems hold for any tree whose in-order walk is the queue. The numbers are unbounded: segment indexes (uint32_t) are below 2^32 - 1 and times (int64_t) do not overflow. Functions and types: ngx_live_segment_list_t, ngx_live_segment_list_add, ngx_live_segment_list_update_last, ngx_live_segment_list_free_nodes, ngx_live_segment_iter_t, ngx_live_segment_list_get_segment_index, ngx_live_segment_iter_init, ngx_live_segment_iter_last, ngx_live_segment_iter_move_next, ngx_live_segment_iter_peek, ngx_live_segment_iter_get_one, ngx_live_segment_iter_get_element, ngx_live_segment_list_get_period_end_time, ngx_live_segment_list_write_node_part, ngx_live_segment_list_write_periods, ngx_live_segment_list_read_period.
* `ServeModel.v`: Model of the part of nginx-live-module/src/ngx_live_timeline.c that writes a timeline for the packager. The tree of the nodes of the segment list is a binary tree over their positions, as in SegListModel.v. A block that is written is kept as its header and its list of durations with counts; the bytes are the matter of PersistModel.v. Writing does not fail. Numbers are unbounded, except where a definition says so. Functions and types: ngx_ksmp_timeline_header_t, ngx_live_timeline_serve_end_list, ngx_round_to_multiple, ngx_live_timeline_serve_skip_segments, ngx_live_timeline_serve_write.
* `SyncerModel.v`: Model of nginx-live-module/src/ngx_live_syncer.c: the corrections added to the time stamps of the frames of a channel. int64_t arithmetic that leaves the range, and a division by 0, are SUB. Not modelled: the log messages and pts_jump_time, which only limits them; the statistics in JSON; the persist blocks. Functions and types: ngx_live_syncer_preset_conf_t, ngx_live_syncer_log_t, ngx_live_syncer_track_ctx_t, ngx_live_syncer_channel_ctx_t, ngx_live_syncer_log_add, ngx_live_syncer_enable_sync_flag, ngx_live_syncer_wraparound_value, ngx_round_to_multiple, ngx_live_syncer_sync_track, ngx_abs_diff, ngx_live_syncer_add_frame, ngx_live_syncer_track_reset, ngx_live_syncer_get_log, ngx_live_syncer_remove_future_logs, ngx_live_syncer_track_reconnect.
* `TimelineModel.v`: Model of nginx-live-module/src/ngx_live_timeline.c: the timelines of a channel, that is, the windows of segments that viewers can play. The segments of the channel are in a segment list (SegListModel.v). A period holds an iterator into that list, a pointer to a node of the list; here the nodes are counted from the first one ever made, so that an iterator stays the same when old nodes are freed, and an iterator to a freed node is recognised. Periods have identities that are never used again, so that a pointer to a freed period is recognised. None is undefined behaviour: following a pointer to something freed or beyond the end of a queue. The red-black tree over the periods is a binary tree over their positions, as in SegListModel.v. Numbers are unbounded, except where a definition says so. Left out: logging, the notifications of waiting requests, the timer of the cleanup and the validations. Functions and types: ngx_live_segment_iter_get_one, ngx_live_segment_iter_peek, ngx_live_segment_iter_get_element, ngx_live_segment_iter_last, ngx_live_segment_list_free_nodes, ngx_live_timeline_conf_t, ngx_live_end_list_e, ngx_live_timeline_manifest_conf_t, ngx_live_period_t, ngx_live_manifest_timeline_t, ngx_live_timeline_s, ngx_live_timeline_channel_ctx_t, ngx_live_period_add_segment, ngx_live_period_pop_segment, ngx_live_manifest_timeline_remove_segment, ngx_live_manifest_timeline_remove_segments, ngx_live_manifest_timeline_add_first_period, ngx_live_manifest_timeline_add_period, ngx_live_manifest_timeline_add_segment, ngx_live_manifest_timeline_post_add_segment, ngx_live_manifest_timeline_truncate, ngx_live_timeline_conf_validate, ngx_live_timeline_remove_segment, ngx_live_timeline_remove_segments, ngx_live_timeline_inactive_remove_segments, ngx_live_timeline_add_segment, ngx_live_timeline_truncate, ngx_live_timelines_free_old_segments, ngx_live_timelines_add_segment, ngx_live_timeline_update_last_segment, ngx_live_timelines_update_last_segment, ngx_live_timelines_truncate, ngx_live_timelines_cleanup, ngx_live_timeline_get, ngx_live_timeline_create, ngx_live_timeline_update, ngx_live_timeline_free, ngx_live_timeline_get_segment_info, ngx_live_timeline_sequence_to_index, ngx_live_timeline_index_to_sequence, ngx_live_timeline_is_expired, ngx_live_timeline_get_start_relative_time, ngx_live_timeline_get_end_relative_time, ngx_live_timeline_get_time.
* `TrkModel.v`: A model of the tracks of an RTMP upstream: how their frames wait, in which order they are written, and when. Modelled: nginx-kmp-rtmp-module/src/ngx_kmp_rtmp_track.c:72-245 (the list of frames), 455-521 (add_frame), 524-533 (close), 536-595 (write_frame), 598-626 (process_frame), 629-653 (process_expired), 656-667 (stream_ready), 670-699 (remove_pending_frames), 713-727 (disconnected), 790-890 (connect); ngx_kmp_rtmp_stream.c:157-242 (write_meta), 351-382 (attach_track, detach_track); ngx_kmp_rtmp_upstream.c:440-505 (process_expired, process). The red-black trees of nginx are lists in the order of their keys: a node is inserted behind those with the same key. Timers are those of nginx: a timer that is set is only moved when it moves by 300 ms or more. Simplified: what is written is the pair of track and frame (EncModel.v and UpModel.v model the bytes); a frame has an identity in place of its data; the buffers of the input (InputBufs*.v) are not part of the model; times are unbounded, except for the keys of trees. An upstream that is finalized is gone at once. A use of freed memory is the result Ub. Functions and types: ngx_kmp_rtmp_frame_t, ngx_kmp_rtmp_frame_list_t, ngx_kmp_rtmp_frame_list_init, ngx_kmp_rtmp_frame_list_push, ngx_kmp_rtmp_frame_list_pop, ngx_kmp_rtmp_frame_list_head, ngx_kmp_rtmp_track_t, ngx_kmp_rtmp_stream_detach_track, ngx_kmp_rtmp_track_close, ngx_kmp_rtmp_track_write_frame, ngx_kmp_rtmp_upstream_process_expired, ngx_kmp_rtmp_upstream_process, ngx_kmp_rtmp_track_stream_ready, ngx_kmp_rtmp_stream_attach_track, ngx_kmp_rtmp_track_remove_pending_frames.
* `TsModel.v`: How frames become MPEG-TS packets: nginx-pckg-module/src/media/mpegts/mpegts_encoder_filter.c:192-384 (bytes), 708-1190 (the filter) and 1193-1335 (the simulation that computes the size of a segment in advance). A packet that is being made is the list of the bytes before cur_pos; what is after it is not known. It is kept in the state of its stream, and put in its place when it is complete: nobody else looks at the place until then (C80). The queue of write buffers is the list of the packets that were taken from it, with the stream that did. Getting a buffer does not fail. Counters are not bounded (uint32_t in the code).
* `TuModel.v`: Model of helpers of the transcoder: utils/samples_stats.c, utils/time_estimator.c, transcode/transcode_dropper.c and common/vector.c. Functions and types: samples_stats_add.
* `UpModel.v`: A model of how an RTMP upstream collects what is written to it and sends it. Modelled: nginx-kmp-rtmp-module/src/ngx_kmp_rtmp_upstream.c:96-176 (send), 179-205 (alloc_chain_buf), 208-252 (append), 254-333 (write), 336-361 (flush), 364-421 (get_buf), 424-438 (flush_handler), 527-535 (stream_removed), 586-625 (write_handler), over the buffer queue of BufQueueModel.v. Memory is a function from addresses to bytes. Whatever is not in a buffer that is in use may change at any time. A write outside the buffers in use is the result None. What the connection does is an argument of every event: it is not there or not ready (also: the handshake is not over), it takes a number of bytes, or it fails. Logging, statistics and the write timeout are not modelled.
* `UriModel.v`: Model of how the packager understands the name of a file that a player asks for, of the request it then sends to the live server, and of how the live server understands that request: nginx-pckg-module/src/ngx_http_pckg_utils.c and ngx_http_pckg_core_module.c (file names), the parsers of ngx_http_pckg_m3u8.c, ngx_http_pckg_fmp4.c, ngx_http_pckg_mpegts.c, ngx_http_pckg_webvtt.c and ngx_http_pckg_enc.c, ngx_pckg_ksmp.c (the request), nginx-common/src/ngx_http_api.c (query strings) and nginx-live-module/src/http/ngx_http_live_ksmp_module.c. A text between two pointers is a list of byte values. Not modelled: the .mpd and .jpg parsers, the logs, failed allocations. The functions of the nginx core that are used (ngx_escape_uri, ngx_unescape_uri, ngx_atoi, ngx_hextoi, ngx_sprintf) are not in the repository and are modelled after the nginx sources.
<!-- end functions -->

## State of the properties

<!-- state -->
* **C01 Buffer queue memory accounting is exact** - proved: `C01_accounting`, `C01_refused_get`, `C01_delete`, `C01_no_leak`. all histories of get/free/delete/detach; after a detach a get with an empty cache is undefined behaviour in the code (example get_after_detach_ub)
* **C02 Buffer queue is FIFO and releases exactly the prefix before the limit** - proved: `C02_disjoint`, `C02_get_appends`, `C02_free_prefix`, `C02_free_unknown`. assumes the allocator contract answer_ok (C09 proves it for ngx_lba)
* **C03 Reading, skipping and overwriting through a buffer-queue stream is byte-exact** - proved: `C03_read`, `C03_read_refused`, `C03_md5`, `C03_skip`, `C03_skip_refused`, `C03_write`, `C03_write_refused`, `C03_init`, `C03_refused_read_breaks_stream`. usable is the documented precondition of the stream; a refused read leaves the stream unusable (proved as a finding)
* **C04 Buffer-chain helpers are independent of how the data is split** - proved: `C04_seek`, `C04_seek_short`, `C04_skip`, `C04_copy`, `C04_compare`, `C04_compare_zero_iff`, `C04_compare_short`, `C04_split_independent`, `C04_get_tail`, `C04_terminate`. seek, get_tail and terminate have no end-of-chain check: outside their precondition they are modelled as undefined behaviour (None)
* **C05 Persisted block files are parsed back to what was written** - proved: `C05_written_bytes`, `C05_round_trip`, `C05_too_deep`, `C05_buffer_capacity`. Without compression. Also the room left in the current buffer is exact.
* **C06 Parsing a persisted file never reads outside the file** - proved: `C06_file_header`, `C06_block`, `C06_skip_header`, `C06_read`, `C06_blocks`, `C06_whole_file`. every memory access of the reader is checked in the model
* **C07 Unknown blocks are skipped, known ones are delivered in file order** - proved: `C07_blocks_in_order`, `C07_unknown_ignored`.
* **C08 Length-prefixed strings round trip through the persistence streams** - proved: `C08_string_written`, `C08_string_read`, `C08_string_truncated`, `C08_string_hostile`, `C08_fixed_read`, `C08_fixed_hostile`.
* **C09 The fixed-size allocator never hands out a buffer twice** - proved: `C09_distinct`, `C09_alloc_fresh`, `C09_unmap_unused`, `C09_geometry`, `C09_no_crash`, `C09_one_buffer_refuted`. All histories, both builds of the queue primitives. C09_no_crash adds that no NULL pointer is followed, except in debug builds with one buffer per block, where C09_one_buffer_refuted shows the crash.
* **C10 The fixed-size allocator reuses free space before mapping new memory** - partial: `C10_reuse_partial`, `C10_fullest`, `C10_one_spare`, `C10_release_refuted`, `C10_release_null_refuted`. Proved for debug builds with at least two buffers in a block. Refuted for release builds, where ngx_queue_remove leaves the pointers the code tests: a block is mapped although one has room, and an allocation returns NULL although mmap succeeds.
* **C11 Block pools never hand out a live item and recycle freed ones** - proved: `C11_live_distinct`, `C11_alloc`, `C11_memory_limit`. All histories of alloc, automatic alloc, free, free of a linked list, and user writes to held items.
* **C12 Automatic slot choice returns the smallest block size that fits** - proved: `C12_smallest_fit`, `C12_freed_to_its_slot`. Sizes sorted ascending, as the configuration code requires.
* **C13 Block strings store and return any byte string** - proved: `C13_set_copy`, `C13_empty`. Any string set over any previous string, with any number of other strings in the same pool; also on allocation failure.
* **C14 Freeing a block string returns all of its blocks** - partial: `C14_free_all_partial`, `C14_frees_only_first`, `C14_free_all_refuted`. The code is wrong: freeing a string of two or more blocks gives back only the first, because the link is read after the block was freed. Proved for strings of at most one block; refuted for all others.
* **C15 KMP packet parsing does not depend on how bytes arrive** - proved: `C15_segmentation`, `C15_delivery`, `C15_told_unique`, `C15_no_early_delivery`, `C15_end_of_stream`, `C15_second_connect_refuted`. For every owner, byte stream and schedule of reads and buffers. C15_second_connect_refuted records that a repeated connect packet is accepted and its header passed on as data.
* **C16 KMP frames are numbered consecutively and none is lost or duplicated across a resume** - proved: `C16_numbering`, `C16_one_fate`, `C16_resume`. Fates, counters and ids of all frames; the resume point is computed by the segmenter's start_stream.
* **C17 KMP acknowledgements are whole, increasing, and finally up to date** - proved: `C17_acks`, `C17_drains`. All interleavings of acknowledgements and partial writes.
* **C18 KMP input drops video until a key frame after a media info** - proved: `C18_key_first`, `C18_only_video`. C18_key_first holds for any bytes, any schedule and any failures; owners that ask not to wait for a key frame are covered by C16_numbering.
* **C19 KMP output resumes exactly at the first unacknowledged packet** - partial: `C19_connection_bytes_partial`, `C19_flush_partial`, `C19_resume_partial`, `C19_acked_position`, `C19_never_early_partial`, `C19_last_written_refuted`. Proved for histories with one upstream or with upstreams that all wait for acknowledgements (any number), over any schedule of writes, flushes, partial sends, failures, reconnections and acknowledgements. Refuted for an upstream that resumes from the last frame written and reconnects before that frame is handed over. Mixed kinds of upstreams are covered by the refutation of C20. End of stream packets are excluded (see C21).
* **C20 KMP output never frees data an upstream still has to send or resend** - partial: `C20_released_partial`, `C20_mixed_modes_refuted`. Proved for any number of upstreams that wait for acknowledgements and for single upstreams of any kind, including low memory. Refuted for a mix of kinds: the buffer to keep is chosen by the smallest frame id alone.
* **C21 KMP output acknowledges only complete packets that were really sent** - partial: `C21_acknowledged_partial`, `C21_end_of_stream_refuted`, `C19_last_written_refuted`. Proved for the histories of C19/C20 up to the end of the stream. Refuted at the end of stream packet (the reader moves, the position does not) and for reconnections ahead of the data handed over.
* **C22 The segment list is a faithful compressed sequence** - proved: `C22_history`, `C22_total`, `C22_free`, `C22_iterators`, `C22_period_end`. Any history of additions, updates, removals and reads from a file; any search tree over the nodes.
* **C23 Segment lookup by time returns the segment containing that time** - proved: `C23_lookup`. For segments in chronological order.
* **C24 Nearest-segment lookup returns a segment that exists** - partial: `C24_boundary`, `C24_nearest_partial`, `C24_nearest_refuted`. The nearest segment is returned when the segment that contains the time is followed without a gap; at the end of a run of segments the index returned does not exist (refuted with a witness).
* **C25 Segment list survives persistence** - proved: `C25_roundtrip`, `C25_backwards_refuted`, `C25_overlap_refuted`. Into any list that ends before the range, for segments in chronological order; without that order the file can not be read (refuted with a witness), and a file with overlapping periods is accepted (witness).
* **C26 Input buffers locked by a reader are never released** - proved: `C26_locked_stays`, `C26_lock_granted`, `C26_released_once`, `C26_lifetime`, `C26_frees`, `C26_defined`, `C26_plain_defined`, `C26_linked_get_refuted`. Over all interleavings of track creation, get, lock, unlock, set_min_used, link, channel and track free, for callers that store segments in index order. C26_linked_get_refuted records undefined behaviour of the code outside the claim: freeing a linked track detaches the shared queue.
* **C27 Video ack mapping never acknowledges input beyond what produced the acknowledged output** - proved: `C27_map`, `C27_monotone`, `C27_ack_available`, `C27_offset_refuted`, `C27_empty_refuted`, `C27_default_refuted`. The reported id is the last key frame at or before a matching input; ids never decrease; every output key frame stays acknowledgeable until a later one was. Refuted: the offset wraps, an ack with no outputs reads an empty deque, acks of other frames are answered with their own id.
* **C28 Audio frame history converts between frame ids and sample offsets consistently** - proved: `C28_offset`, `C28_range`, `C28_lookup`, `C28_map_partial`, `C28_monotone_partial`, `C28_zero_refuted`, `C28_first_gap_refuted`, `C28_gap_refuted`, `C28_lag_refuted`. The statement is C28_offset and C28_lookup. C28_map_partial and C28_monotone_partial extend it to the map of acks, for histories without corrections of output durations; with corrections they are refuted.
* **C29 Clock estimation uses the nearest of the last N samples** - proved: `C29_nearest`, `C29_exact`. The last 100 samples are kept; timestamps up to 2^61, so that nothing overflows.
* **C30 Bitrate window equals the bytes of the frames in the window** - partial: `C30_window_partial`, `C30_refuted`, `C30_order_refuted`. Holds while dts does not decrease and less than 700 frames are in the window; refuted with 700 frames in the window, and when dts goes back.
* **C31 Dropping under load never drops a key frame and always resumes at one** - partial: `C31_packet_key`, `C31_packet_resume`, `C31_packet_reason`, `C31_frame_row`, `C31_frame_flag`, `C31_frame_key_refuted`, `C31_frame_default`. All parts hold but one: the frame dropper tests a flag that does not mark key frames, and drops key frames (C31_frame_key_refuted).
* **C32 The growable vector behaves like a list** - proved: `C32_list`, `C32_capacity`, `C32_oom_refuted`. While reallocation succeeds; C32_oom_refuted shows the write beyond the end when it fails.
* **C33 The JSON parser accepts what it must and returns the encoded value** - proved: `C33_parse`, `C33_safe`, `C33_limits`, `C33_deep`. The parser accepts exactly the documents of the grammar in JsonSpec.v, with their meaning; no input makes it read beyond the NUL, overflow or not end.
* **C34 JSON numbers are exact or refused** - proved: `C34_int`, `C34_fraction`, `C33_parse`. Exact up to 9223372036854775799 and 19 decimals, refused beyond; C33_parse carries it over to numbers inside documents.
* **C35 JSON string unescaping inverts escaping, in place** - proved: `C35_in_place`, `C35_unique`, `C35_plain`, `C35_roundtrip`, `C35_surrogate_refuted`. Byte strings round-trip in place. Surrogate pairs are not combined (refuted).
* **C36 JSON pretty-printing changes white space only** - partial: `C36_size`, `C36_text_partial`, `C36_document`, `C36_text_refuted`, `C36_vtab_refuted`. Proved for every document the parser accepts without \v and \f, and every text in which no literal starts within a word; shown false beyond.
* **C37 The syncer keeps output timestamps close to the creation clock** - proved: `C37_drift`, `C37_no_overflow`, `C37_timescale_refuted`, `C37_wrap_partial`, `C37_wrap_refuted`. drift proved for every frame of every channel; a timescale below 1000 divides by 0 (C37_timescale_refuted); reuse of the channel correction across clock wraps holds for positive differences only (C37_wrap_partial, C37_wrap_refuted)
* **C38 The syncer never makes output time go backwards on an inter-frame jump** - proved: `C38_forward`. every non-key video frame over the jump threshold
* **C39 Bit stream writes read back** - proved: `C39_roundtrip`, `C39_read`, `C39_overrun_write`, `C39_overrun_read`, `C39_one`, `C39_dirty_refuted`. widths 0..64; the writer needs a zeroed buffer, C39_dirty_refuted shows what happens without
* **C40 AMF values round trip** - proved: `C40_write`, `C40_read`, `C40_read_optional`, `C40_round_trip`. values with empty field names, strings over 65535 bytes and variants on the writing side are outside the format; numbers are their eight bytes
* **C41 AMF reading is safe on hostile input** - partial: `C41_bounds`, `C41_ends`, `C41_strings_kept`, `C41_strings_ended`, `C41_int8_refuted`, `C41_failed_string_refuted`. proved for descriptors whose destination has the room of every type that matches them; refuted for INT8 descriptors that are not typeless and, after a failed read, for string buffers that were not cleared
* **C42 A resync of one track is followed by the others** - proved: `C42_countdown`, `C42_tell`.
* **C43 A reconnecting track resumes with the time correction of the frame before the resume point** - partial: `C43_reconnect_partial`, `C43_kept`, `C43_reconnect_refuted`. holds while every reconnect finds a logged correction; the general statement is refuted: ngx_live_syncer_track_reconnect does not remove the future entries when it finds none
* **C44 A consistent KMP reconnect loses no frame** - partial: `C44_consistent_resume_partial`, `C44_consistent_resume_refuted`. Proved when at least one duplicate is sent. Fails when the client resumes exactly at the expected frame: the wish not to wait for a key frame is only looked at when a duplicate is dropped.
* **C45 Every buffer link of a KMP input connection is released exactly once** - proved: `C45_links`. All streams, schedules, handler answers and allocation failures.
* **C46 Hostile KMP input is parsed in bounded space with honest sizes** - proved: `C46_hostile`. Assumes that links and buffers can be allocated (failures end the connection; C45 covers them).
* **C47 Data stored in the input buffers is kept whole** - proved: `C47_read_chain`, `C47_read_chain_ends`. The allocation of chain links is assumed to succeed.
* **C48 A timeline shows the last segments it took, in order, each readable** - proved: `C48_defined`, `C48_history`, `C48_counters`, `C48_add`, `C48_result`, `C48_update_last`. C48_history and the numbers of C50 are over histories in which no period allocation failed; the others allow failures. Integers are unbounded where the code uses 64 bits.
* **C49 The windows of a timeline and its manifest stay within their limits** - proved: `C49_manifest`, `C49_timeline`, `C49_expire`.
* **C50 A segment keeps its sequence number** - partial: `C50_numbers`, `C50_from_end`, `C50_inverse`, `C50_stable_refuted`. Stable as long as every added segment is shown in the manifest when it is added. Refuted otherwise: a segment longer than the manifest's window empties the manifest without being counted, and the numbers of the older segments shift by one.
* **C51 Segments are freed exactly when no timeline shows them** - proved: `C51_add`, `C51_cleanup`.
* **C52 Corrected times and discontinuity numbers of periods are consistent** - proved: `C52_correction`, `C52_discontinuity`.
* **C53 Looking up a segment in a timeline finds it exactly when it is shown** - proved: `C53_lookup`. The red-black tree of periods is any binary search tree holding the periods in order.
* **C54 Truncating removes exactly the segments up to an index** - proved: `C54_truncate`.
* **C55 Relative times map to the right place of a timeline** - proved: `C55_relative`.
* **C56 The target duration covers every segment of the manifest** - proved: `C56_target`.
* **C57 The packager is told the manifest** - proved: `C57_served`, `C57_end`.
* **C58 A delta manifest leaves out the right segments** - partial: `C58_skip`, `C58_last_partial`, `C58_last_refuted`. The index of the last skipped segment is wrong when the output starts inside a period: it is the index of the first segment that is written (post-decrement in ngx_live_timeline_serve_skip_segments). Times are assumed to be in order in the segment list.
* **C59 RTMP input does not depend on how it arrives** - proved: `C59_defined`, `C59_fragments`, `C59_prefix`, `C59_progress`. Failing allocations and what handlers do beyond accepting or refusing are outside the model.
* **C60 RTMP messages arrive as they were sent** - partial: `C60_messages`, `C60_auto_refuted`, `C60_small_chunk_refuted`. Proved for chunk sizes from 4 bytes on and for a reader that is told (on, off) what the sender does with extended timestamps, and for the default mode when the chunk that decides belongs to the message whose header came last. The default mode guesses wrong otherwise, and after a chunk size below 4 later changes are ignored: both are refuted with an example.
* **C61 Changing the chunk size holds no memory back** - partial: `C61_pools_refuted`, `C59_defined`. The code does not have this property: several changes within one large buffer leave pools behind (C61_pools_refuted). That no pool is used after it was freed is C59_defined.
* **C62 Messages above the size limit are refused** - partial: `C62_announced_partial`, `C62_buffered_refuted`. Messages that announce a size above the limit are never delivered; what is buffered is not limited when a header in the middle of a message announces a smaller size.
* **C63 A server gets what is pushed over RTMP** - proved: `C63_sent`, `C63_received`. Up to 60 streams per connection; the reader has to be told that extended timestamps are not repeated (see C64).
* **C64 Any server and any number of streams** - partial: `C64_spec_refuted`, `C64_streams_refuted`. Refuted: a reader that expects repeated extended timestamps closes the session at the first long frame after time 16777215; the 61st stream of a connection gets chunk stream 64, for which no correct header is written. What holds is C63.
* **C65 What is written to an RTMP server is what is sent** - proved: `C65_safe`, `C65_order`, `C65_timer`, `C65_flush`, `C65_done`, `C65_closes`, `C65_memory`, `C65_server`. Messages (get_buf) are put while there is a stream or before connecting, as the code does; writes of other code to buffers in use are excluded.
* **C66 A connection that is being closed takes no more data** - partial: `C66_reuse_refuted`. Refuted: a track that connects between the last send and the posted close is accepted and its bytes are lost. C65_done shows that everything was sent at the time the close is decided.
* **C67 Each frame of a track is written to the RTMP server once and in order** - proved: `C67_order`, `C67_safe`, `C67_bound`. Tracks of an RTMP upstream; unpublish is assumed to find a buffer (see C70).
* **C68 Frames of different tracks are written in the order of their times** - proved: `C68_merge`. One run of the process timer from any reachable state.
* **C69 No frame waits for ever** - proved: `C69_timers`, `C69_latency`. Timer lateness is a parameter of the histories.
* **C70 A track that is closed is not used after it was freed** - partial: `C70_close_refuted`. The property is false of the code: detach_track frees the upstream and track_close goes on to use the track.
* **C71 No segment is in an index file before its media was dealt with** - proved: `C71_media_before_index`, `C71_no_memory_error`. All histories of a channel whose callers behave as fits says.
* **C72 Every snapshot of the frames of a channel is let go exactly once** - proved: `C72_closed_once`, `C72_ack_all`. All histories, by a conservation law over weights of snapshots.
* **C73 A segment leaves memory once, for a reason, and not while it is read** - partial: `C73_freed_once`, `C73_freed_for_a_reason`, `C73_freed_in_time`, `C73_reader_keeps`, `C73_segment_0_refuted`. All of it but for the segment 0, which is not cut from the timelines: false of the code (refuted).
* **C74 A restart continues after the last file that was written** - partial: `C74_restart_partial`, `C74_restart_after_stored_partial`, `C74_failed_but_stored_refuted`, `C74_first_delta_refuted`. Proved when a failed write changed nothing and the first segment is at least 1; false without either (refuted).
* **C75 Changes of the past are not lost by a restart** - partial: `C75_history_partial`, `C75_failed_write_refuted`. Proved for storage that works; false when the write of an index file fails (refuted).
* **C76 A channel can be freed at any moment** - partial: `C76_channel_free_partial`, `C76_channel_free_refuted`, `C76_no_memory_refuted`. Proved when no media file is being written; false otherwise and when there is no memory for a snapshot (refuted).
* **C77 What was acknowledged to the sender is in storage** - partial: `C77_acked_is_stored_partial`, `C77_failed_media_refuted`. Proved for storage that works; false when a media write fails while an older one is in progress (refuted).
* **C78 A player gets from an MPEG-TS segment the frames that were put in** - proved: `C78_player_gets_frames`, `C78_one_pes_per_frame`, `C78_counters_continue`, `C78_metadata_counters_refuted`, `C78_no_header_unaligned_refuted`. All streams, frames and interleavings. The two refuted theorems are cases outside of the property: audio without a header (not AAC) with pckg_mpegts_align_frames off gives wrong PES packets, and the counters of metadata do not continue over segments when it needs more than one packet. PAT and PMT, encryption and failing allocations are not modelled; a packet that has only an adaptation field is read as one with an empty payload.
* **C79 The size of an MPEG-TS segment that is announced is the size that is sent** - proved: `C79_announced_size`. The encoder and its simulation, given calls of the same frames; the filters above them are not part of it.
* **C80 A packet that was handed out is complete and never changed** - proved: `C80_sent_is_final`. Packets before the lowest send_queue_offset.
* **C81 The Content-Length of an MPEG-TS segment is its size** - proved: `C81_content_length`. the announced size is the sent size for any segment that is muxed after a simulation
* **C82 A player gets from an MPEG-TS segment the frames of the source, as MPEG-TS wants them** - proved: `C82_segment`. for well formed streams; unaligned audio without a header is excluded by good_top (see C78_no_header_unaligned_refuted)
* **C83 The streams of an MPEG-TS segment are together in time** - proved: `C83_streams_together`. durations are not negative (they are unsigned in the code)
* **C84 A player gets from an fMP4 segment the frames of all its tracks** - proved: `C84_player_gets_tracks`. All segments of audio, video and WebVTT tracks (at most one cue, see C87) below 2 GB; decode times not negative.
* **C85 The announced size of an fMP4 segment is its size** - proved: `C85_announced_size`. Not encrypted segments; both GET and HEAD.
* **C86 The segment index of an fMP4 segment is right** - proved: `C86_segment_index`. Segments of one track whose durations sum to less than 2^32.
* **C87 The cues of a WebVTT track in fMP4 are shown at their times** - partial: `C87_second_cue_time_refuted`, `C87_one_cue_partial`. The code violates it for the second cue of a segment; it holds for a segment of one cue.
* **C88 The tracks of an fMP4 segment are together in the data** - proved: `C88_tracks_together`. Times of tracks are compared as they are, so the tracks have one timescale in practice; not encrypted segments.
* **C89 The metadata of an fMP4 segment is an event a player understands** - proved: `C89_metadata`. First decode time not negative; the tag below 2^28 bytes.
* **C90 A player with the key gets the video of a segment encrypted with cenc** - partial: `C90_encrypted_video_plays_partial`, `C90_41_nals_by_saiz_refuted`, `C90_long_nal_refuted`, `C90_empty_last_frame_refuted`. By senc for all frames of nal units; by saiz only up to 40 nal units per frame (refuted for 41); a nal unit that is not of a slice must be under 65536 bytes with its length (refuted for longer); the last frame must not be empty (refuted).
* **C91 cenc encrypts the data of slices and nothing else** - proved: `C91_slices_are_protected`. The entries a player reads are those of the slices of all nal units; with C90 what is sent is the input with these bytes encrypted.
* **C92 A player with the key gets the audio of a segment encrypted with cenc** - proved: `C92_encrypted_audio_plays`, `C92_all_audio_is_protected`, `C92_empty_last_frame_refuted`. For segments whose last frame is not empty; refuted otherwise: the body is shorter than announced.
* **C93 Initialization vectors are not used twice** - partial: `C93_vectors_differ_video`, `C93_vectors_differ_between_audio_segments_partial`, `C93_vectors_differ_between_video_segments_partial`, `C93_vectors_of_fast_frames_refuted`. In a segment for all frames; between segments if no frame is shorter than a sixtieth of a second, refuted otherwise (AAC of 96 kHz).
* **C94 A player gets every segment from the media playlist** - proved: `playlist_reaches_the_player`, `playlist_lists_every_segment`. For the answers of the segmenter that the reader lets through (playlist_ok).
* **C95 A media playlist fits the buffer that was allocated for it** - proved: `playlist_fits_the_buffer`.
* **C96 The durations in a media playlist do not drift and keep to the target** - partial: `durations_do_not_drift`, `durations_are_right_to_a_millisecond`, `segments_keep_to_the_target_partial`, `segments_exceed_the_target_refuted`, `durations_with_odd_timescale_refuted`. No drift is proved. A duration can be announced a millisecond longer than it is, which can exceed the target duration (refuted); it holds when times are whole milliseconds. With a timescale that is not a multiple of 1000 the durations are wrong (refuted).
* **C97 The parts of a segment add up to the segment** - partial: `parts_add_up`, `parts_exceed_the_target_refuted`. The sums are proved; a part can exceed the announced part target by a millisecond (refuted).
* **C98 A delta update gives the player what the whole playlist would** - proved: `delta_update_is_the_whole`. All but dates and bitrates, which a delta update may repeat or leave out.
* **C99 Every uri of a media playlist is served as what it is announced as** - partial: `announced_uris_are_served`, `reported_playlists_are_served`, `announced_key_is_served`, `variant_tpp_is_served_refuted`, `subtitles_in_ts_are_served_refuted`. Every uri of segments, parts, hints, initialization segments, rendition reports and keys in a playlist reaches what it announces. Not for the variant 'tpp' in fragmented mp4, nor with subtitles in mpeg-ts playlists: refuted.
* **C100 The live server understands what the packager asks** - partial: `request_is_understood`, `blocking_request_is_understood`, `blocking_request_is_exact_refuted`, `master_request_is_understood`. For all requests. A blocking request for a sequence number of 2^32 or more is read modulo 2^32: refuted.
* **C101 The name of a media file says what is served** - partial: `names_are_read_within_bounds`, `names_say_what_is_served`, `names_are_of_one_segment_refuted`, `keys_are_of_one_variant_refuted`. Segments and parts: exact characterization. Numbers are read modulo 2^32, and a key name may have two variants: refuted.
* **C102 A range request is read as the bytes it names** - partial: `ranges_are_read_partial`, `only_ranges_are_accepted`, `long_suffix_is_the_file_refuted`. Missing: a suffix longer than the file, which is read with a negative start: refuted.
* **C103 A segment encrypted with AES-128 decrypts to the segment** - partial: `aes128_segments_decrypt`, `aes128_never_overruns`, `ts_segments_decrypt`, `ts_segments_with_pool_refuted`, `init_segment_decrypts`, `init_segment_head_refuted`. Proved for every split of a segment into buffers, for MPEG-TS with any pool of buffers of s bytes with s mod 16 < s mod 188 or none, and for initialization segments. Refuted: a pool whose buffers are a multiple of 188 and 16 bytes fails every MPEG-TS segment that fills one; a HEAD request for an initialization segment reads through a pointer that was never set.
* **C104 A player gets the video of SAMPLE-AES** - proved: `sample_aes_video_decrypts`. Any split of the frame into buffers, any number and size of units. The cipher is a parameter with an inverse; memory allocation does not fail.
* **C105 A player gets the audio of SAMPLE-AES** - proved: `sample_aes_audio_decrypts`, `sample_aes_eac3_decrypts`. Any split of the frames into buffers. For Enhanced AC-3 the frames are sequences of sync frames. The cipher is a parameter with an inverse.
* **C106 A player gets the audio of cbcs** - partial: `cbcs_audio_decrypts_partial`, `cbcs_audio_large_frame_refuted`. Proved for all frames that fit the write buffer (whole blocks of it). Missing: larger frames; in one piece they are refused, which is proved (refuted). One track per segment.
* **C107 A player gets the video of cbcs** - partial: `cbcs_video_decrypts_partial`, `cbcs_video_short_last_unit_refuted`. Proved for all segments whose last unit is not short. For the others the code loses the end of the segment, which is proved (refuted). The parsers of slice headers are parameters; one track per segment.
* **C108 Gaps are known** - proved: `ranges_with_segments`, `timelines_with_segments`, `no_gaps_all_exist`, `copied_track_answers`. For all histories of a track with gaps enabled and bounds of at least one percent. Allocation failures are not modelled; the red-black tree is any tree over the nodes in order.
* **C109 Bitrates sent to the packager** - proved: `served_bitrates`, `served_indexes_go_up`. With gaps enabled.
* **C110 Gaps and bitrates after a restart** - partial: `restored_segments_partial`, `segments_after_restart_partial`, `gap_after_restart_refuted`. Everything saved is restored, and what is created after the restart is recorded right when the bitrates before it are less than 42.9 Mbit/s; above, the last bitrate times 100 is taken modulo 2^32 and a gap can be lost (refuted).
* **C111 Bytes of a NAL unit without emulation prevention** - proved: `reads_are_unescaped`, `escaped_is_read_back`. All splits into buffers and all series of reads.
* **C112 Captions of a frame are found** - partial: `frame_captions_found_partial`, `captions_with_escapes_lost_refuted`. Proved when every caption message has as many bytes after its captions as it has emulation prevention bytes. Refuted without it: the reader of the payload is limited to the size without emulation prevention bytes and counts them too (ngx_kmp_cc.c:1117).
* **C113 Captions are decoded in the order of presentation** - partial: `captions_pushed_once_partial`, `captions_in_order_partial`. Under the condition of C112 on the messages; the limit of pending packets and the decoders are not modelled.
* **C114 Parameter sets of the decoder configuration** - partial: `avc_parameter_sets_partial`, `hevc_parameter_sets`, `avc_any_bytes`, `hevc_any_bytes`, `many_picture_sets_lost_refuted`. Full for H.265 and for the safety of both. For H.264 the counts are those of the low 5 bits; refuted for records with 32 or more picture parameter sets, whose count is a byte in ISO/IEC 14496-15.
* **C115 Codec names** - partial: `hevc_name_tells`, `hevc_name_fits`, `avc_name_tells`, `mp4a_name_tells_partial`, `mp4a_escaped_type_refuted`. Full for H.265 and H.264. For AAC up to object type 30; refuted from 32 on: the escape value 31 is written.
* **C116 AAC configurations** - partial: `aac_config_read_partial`, `aac_config_cut_partial`, `ps_config_refuted`, `adts_tells_config_partial`, `adts_header_refuted`. All object types, rates, channels and SBR; with PS only extension rates given by an index, object types below 31 that are no multiples of 8, and uncut configurations. ps_config_refuted: other PS configurations are read as object type 29. The headers of frames tell it for object types 1 to 4 and up to 7 channels; adts_header_refuted: others do not fit and are not refused.
* **C117 Bytes and numbers of parameter sets and slice headers** - partial: `parsed_is_unescaped`, `numbers_read_back_partial`, `prevention_bytes_counted_partial`, `three_zeros_refuted`, `long_codes_refuted`. The bytes are proved in full, numbers below 2^31 - 1, and the count for headers without three zeros in a row. Refuted: with 0 0 0 0 and a byte up to 3 one emulation prevention byte is not counted; 31 zeros make a shift undefined.
* **C118 Skipped fields of parameter sets and slice headers** - partial: `skipped_fields_partial`, `field_length_is_least`, `long_skip_refuted`. Fields and codes of up to 120 bits and zeros, which all fields of the formats are; lengths of fields in full. Refuted for codes of 167 zeros: the position in the byte overflows.
<!-- end state -->

## Plan per property

* **C01 Buffer queue memory accounting is exact** - area `BufQueue`: state (used, cached, mem_left, free_left) with step functions get/free/delete; invariant by induction over op list.
* **C02 Buffer queue is FIFO and releases exactly the prefix before the limit** - area `BufQueue`: same model; refinement to a list of ids; release = removal of a prefix.
* **C03 Reading, skipping and overwriting through a buffer-queue stream is byte-exact** - area `BufQueueStream`: stream position = (node, offset); read/skip/write over a list of equal-size nodes; refinement to firstn/skipn of the concatenation.
* **C04 Buffer-chain helpers are independent of how the data is split** - area `BufChain`: chain = list of byte lists; each helper refines the same operation on concat.
* **C05 Persisted block files are parsed back to what was written** - area `Persist`: writer with back-patched markers over a growing byte list; recursive tree parser; round trip by mutual induction on trees.
* **C06 Parsing a persisted file never reads outside the file** - area `Persist`: every reader returns either an in-range window or a bad-data value; theorem over all byte lists.
* **C07 Unknown blocks are skipped, known ones are delivered in file order** - area `Persist`: block loop with a set of registered ids; callbacks = filter of the block list.
* **C08 Length-prefixed strings round trip through the persistence streams** - area `Persist`: wstream_str / rstream_str round trip and truncation.
* **C09 The fixed-size allocator never hands out a buffer twice** - area `Lba`: blocks with free lists in bins; invariant over alloc/free history.
* **C10 The fixed-size allocator reuses free space before mapping new memory** - area `Lba`: parametrised by the queue-remove primitive (debug/release); proved in debug, refuted in release.
* **C11 Block pools never hand out a live item and recycle freed ones** - area `BlockPool`: slot state machine; invariant by induction.
* **C12 Automatic slot choice returns the smallest block size that fits** - area `BlockPool`: binary search over sorted sizes.
* **C13 Block strings store and return any byte string** - area `BlockPool`: heap of blocks with explicit next word; round trip.
* **C14 Freeing a block string returns all of its blocks** - area `BlockPool`: same heap; expected to be refuted (next is read after being overwritten).
* **C15 KMP packet parsing does not depend on how bytes arrive** - area `KmpIn`: parser state machine over chunks; split-independence by a simulation with a whole-stream parser.
* **C16 KMP frames are numbered consecutively and none is lost or duplicated across a resume** - area `KmpIn`: frame handler state machine; counting invariants.
* **C17 KMP acknowledgements are whole, increasing, and finally up to date** - area `KmpIn`: ack writer with partial sends; invariant on bytes on the wire.
* **C18 KMP input drops video until a key frame after a media info** - area `KmpIn`: trace property of the frame handler.
* **C19 KMP output resumes exactly at the first unacknowledged packet** - area `KmpOut`: packet stream + acked position; resume content.
* **C20 KMP output never frees data an upstream still has to send or resend** - area `KmpOut`: min over upstreams; expected partly refuted when equal frame ids hide different byte positions.
* **C21 KMP output acknowledges only complete packets that were really sent** - area `KmpOut`: auto-ack loop; invariant reader position = acked bytes (refuted after end of stream header).
* **C22 The segment list is a faithful compressed sequence** - area `SegList`: nodes of runs; refinement to plain list.
* **C23 Segment lookup by time returns the segment containing that time** - area `SegList`: lookup against the plain list.
* **C24 Nearest-segment lookup returns a segment that exists** - area `SegList`: nearest mode; expected refuted at half-duration boundary.
* **C25 Segment list survives persistence** - area `SegList`: write/read round trip.
* **C26 Input buffers locked by a reader are never released** - area `InputBufs`: lock table + buffer queue; invariant.
* **C27 Video ack mapping never acknowledges input beyond what produced the acknowledged output** - area `Ack`: deques as lists.
* **C28 Audio frame history converts between frame ids and sample offsets consistently** - area `Ack`: run-length history against list of durations.
* **C29 Clock estimation uses the nearest of the last N samples** - area `Tu`: ring against list of last N samples.
* **C30 Bitrate window equals the bytes of the frames in the window** - area `Tu`: ring of 700; refuted above 70 frames/s, proved below.
* **C31 Dropping under load never drops a key frame and always resumes at one** - area `Tu`: state machine.
* **C32 The growable vector behaves like a list** - area `Tu`: array with capacity against list.
* **C33 The JSON parser accepts what it must and returns the encoded value** - area `Json`: parser over NUL-terminated byte list with explicit depth; printer spec.
* **C34 JSON numbers are exact or refused** - area `Json`: digit loops with overflow guards.
* **C35 JSON string unescaping inverts escaping, in place** - area `Json`: escape spec vs decode.
* **C36 JSON pretty-printing changes white space only** - area `JsonPretty`: tokenising loop; strip function.
* **C37 The syncer keeps output timestamps close to the creation clock** - area `Syncer`: channel with tracks; step per frame.
* **C38 The syncer never makes output time go backwards on an inter-frame jump** - area `Syncer`: same.
* **C39 Bit stream writes read back** - area `BitStream`: bit-level reader/writer against list of bools.
* **C40 AMF values round trip** - area `Amf`: value trees; chunked buffers.
* **C41 AMF reading is safe on hostile input** - area `Amf`: bounded stores.
* **C42 A resync of one track is followed by the others** - area `Syncer`: per-track countdown; induction over the frames of a history.
* **C43 A reconnecting track resumes with the right time correction** - area `Syncer`: log of corrections against the list of (frame id, correction) applied.
* **C44 A consistent KMP reconnect loses no frame** - area `KmpIn`: the frame filter run over a resumed stream.
* **C45 Every buffer link of a KMP input connection is released exactly once** - area `KmpIn`: link ledger as an invariant of the connection.
* **C46 Hostile KMP input is parsed in bounded space** - area `KmpIn`: size invariant of the parser.
* **C47 Data stored in the input buffers is kept whole** - area `InputBufs`: the copy loop against the data list.
* **C48 A timeline shows the last segments it took** - area `Timeline`: channel with its segment list, timelines and manifests; invariant over all histories relating pointers and counters to the list of segments taken.
* **C49 The windows stay within their limits** - area `Timeline`: removal loops against a recursive specification of trimming.
* **C50 A segment keeps its sequence number** - area `Timeline`: counter of the manifest against the log of segments taken; refuted where the manifest empties.
* **C51 Segments are freed exactly when no timeline shows them** - area `Timeline`: minimum over the timelines against what they show.
* **C52 Corrected times and discontinuity numbers** - area `Timeline`: effect of one add on the views.
* **C53 Looking up a segment in a timeline** - area `Timeline`: walk of any ordered tree of the periods.
* **C54 Truncation** - area `Timeline`: filter of the views.
* **C55 Relative times** - area `Timeline`: the loops against the periods laid end to end.
* **C56 Target duration** - area `Timeline`: invariant over histories.
* **C57 Served manifest** - area `Serve`: the loop over periods and run length elements against the view of the manifest, by induction over the periods.
* **C58 Delta manifest** - area `Serve`: the backward walk over the periods against the list of segments; the last skipped index is refuted.
* **C59 RTMP input** - area `Rtmp`: the reader is a state machine over buffers and pools, in which an access to freed or overwritten memory is the result None; a history is the list of the sizes of the reads. It is proved to refine a decoder of the flat byte sequence, which does not see reads or buffers.
* **C60 RTMP messages** - area `Rtmp`: a sender is specified from the chunk format alone, as a list of acts (start a message, send one more chunk); an invariant relates its state to the decoder's. The default mode, which guesses whether extended timestamps are repeated, and chunk sizes below 4 are refuted with an example.
* **C61 Pools of a session** - area `Rtmp`: refuted with an example; that no pool is used after it is freed is part of C59.
* **C62 Size limit** - area `Rtmp`: proved for the size in the header; refuted for what is buffered.
* **C63 Pushed over RTMP** - area `Enc`: refinement of each writing function to the sender of `RtmpSpec.v` (an invariant over histories), then the theorem about the reader (C60).
* **C64 Any server** - area `Enc`: refuted by two histories.
* **C65 What is written to an RTMP server is what is sent** - area `Up`: memory is a function from addresses to bytes; the buffers in use are a list of nodes; invariant by induction over histories, refinement to the list of what was written.
* **C66 A connection that is being closed takes no more data** - area `Up`: the same model; a counterexample with a track that connects between the last send and the close.
* **C67 Each frame of a track is written to the RTMP server once and in order** - area `Trk`: frames have identities; the lists of the tracks refine one queue per track; invariant over histories.
* **C68 Frames of different tracks are written in the order of their times** - area `Trk`: one run of the timer from any reachable state; induction over the number of frames that wait.
* **C69 No frame waits for ever** - area `Trk`: timers are part of the state; an invariant ties the oldest frame to the timer that leads to it, with the lateness as a parameter.
* **C70 A track that is closed is not used after it was freed** - area `Trk`: the same model; a counterexample in which the last message of a stream finds no buffer.
* **C71 No segment is in an index file before its media was dealt with** - area `Idx`: `IdxModel` runs a channel as a state machine over what its callers and the storage can do; an invariant over all histories (`reach_inv`), then one on the events (`reach_ord`).
* **C72 Every snapshot of the frames of a channel is let go exactly once** - area `Idx`: a conservation law: for every weight of a snapshot, what was taken weighs what is held plus what was closed (`reach_bal`); weights that pick one snapshot give the permutation.
* **C73 A segment leaves memory once, for a reason, and not while it is read** - area `Idx`: each step is split into primitive changes; the reasons of a free are carried along. Segment 0 is an exception (`_refuted`): the code uses 0 for 'nothing to cut'.
* **C74 A restart continues after the last file that was written** - area `Idx`: invariant on the two files and the last success index. Needs that a failed write changed nothing, and a first segment of at least 1; `_refuted` without either.
* **C75 Changes of the past are not lost by a restart** - area `Idx`: invariant with storage that works; `_refuted` when the write of the index fails.
* **C76 A channel can be freed at any moment** - area `Idx`: proved when no media write is in flight; `_refuted` otherwise, and when there is no memory for a snapshot.
* **C77 What was acknowledged to the sender is in storage** - area `Idx`: proved with storage that works; `_refuted` when a media write fails while an older one is in progress.
* **C78 A player gets from an MPEG-TS segment the frames that were put in** - area `Ts`: `TsModel` works on the bytes of the packets; `TsSpec` has a demuxer of its own. The bytes are shown to refine packets as records (`R`), on which an invariant relates what a demuxer would have by now, and what is pending, to what was pushed (`J`, `K`). Frames without a header and without alignment, and the counters of metadata, are exceptions (`_refuted`).
* **C79 The size of an MPEG-TS segment that is announced is the size that is sent** - area `Ts`: a relation of the simulation to the encoder (`SM`), kept by every call; sums over the streams.
* **C80 A packet that was handed out is complete and never changed** - area `Ts`: the same invariant with a bound below which nothing is patched; it is the limit of what is sent.
* **C81 The Content-Length of an MPEG-TS segment is its size** - area `Mux`: `MuxModel` has the muxer and the simulation side by side; a relation of their states (`lock`, `SRb`) is kept frame by frame, and the calls they make of the encoder are related by `eqv`; C79 then gives the number. The simulation is shown to leave the filters and the counters as they were (`SI`, `rest`).
* **C82 A player gets from an MPEG-TS segment the frames of the source, as MPEG-TS wants them** - area `Mux`: an invariant per stream (`CI`): the frames done are those pushed (`F`) and those in the buffer (`B`); the history of the encoder has the data of `F`, and marks that agree with the true frame starts wherever a PES packet may begin (`HI`); C78 for the encoder. `MuxSpec` has Annex B, ADTS and ID3.
* **C83 The streams of an MPEG-TS segment are together in time** - area `Mux`: the same invariant with what the choice of the stream and the forced flush give (`step_at`, `fresh`); what has been chosen is not later than what is to come (`PW`).
* **C84 A player gets from an fMP4 segment the frames of all its tracks** - area `Fmp4`: `Fmp4Spec` has a parser of boxes and a player by ISO/IEC 14496-12. The order of the frames is one list (`frames_of`); its restriction to a track is the track (`order_of`); the offsets are the places in the data (`ats`, `offsets_spec`, `mdat_cut`); the runs are parsed back (`truns_none`), the whole header is a list of boxes (`header_gen`) which is read back (`demux_gen`).
* **C85 The announced size of an fMP4 segment is its size** - area `Fmp4`: from `header_gen`: the number of runs counted is the number of runs written (`nsws`).
* **C86 The segment index of an fMP4 segment is right** - area `Fmp4`: from `header_gen`, the fields are read back.
* **C87 The cues of a WebVTT track in fMP4 are shown at their times** - area `Fmp4`: refuted: durations of the runs put a cue after those before it, and the sum of the times between the cues is added again as the composition offset. With one cue per segment it holds.
* **C88 The tracks of an fMP4 segment are together in the data** - area `Fmp4`: what the choice of the stream gives (`choose_min`), kept over the order by induction (`order_near`); the data is the frames in this order with their times (`annot`).
* **C89 The metadata of an fMP4 segment is an event a player understands** - area `Fmp4`: the box is read back (`event_plain`).
* **C90 A player with the key gets the video of a segment encrypted with cenc** - area `Cenc`: the model writes what it gets into buffers of any size; an invariant over the rounds of the loop (`nals_rounds`, `writes_ok`) gives the auxiliary data and the encrypted bytes; the entries are read back (`entries_back`, `cut_back`) and decrypted (`decrypt_back`). Partial: with more than 40 nal units in a frame saiz is wrong, a long nal unit that is not of a slice cannot be decrypted, and after an empty last frame nothing is sent; these are proved too.
* **C91 cenc encrypts the data of slices and nothing else** - area `Cenc`: the entries read from the senc box (`ents_of`) are `protect` of the nal units.
* **C92 A player with the key gets the audio of a segment encrypted with cenc** - area `Cenc`: as C90 (`audio_writes_ok`, `aentries_back`, `acut_back`). An empty last frame is left out, and proved to break it.
* **C93 Initialization vectors are not used twice** - area `Cenc`: the vectors are consecutive numbers (`ents_ivs`), from 60 times the time in seconds. Partial: with frames shorter than a sixtieth of a second the next segment uses vectors again, as is proved for AAC of 96 kHz.
* **C94 A player gets every segment from the media playlist** - area `M3u8`: a specification of a player (`play`: lines, tags, attribute lists) reads the text that the model writes; each line is a step of the player (`plays_*`), the iterators are related to the values at an index (`lag`, `mlag`), and the loops are inductions over segments and periods (`run_plays`, `periods_plays`).
* **C95 A media playlist fits the buffer that was allocated for it** - area `M3u8`: each piece of text is bounded by the piece of the size (`*_fits`); the counter of gaps and bitrates makes the same steps as the writer (`run_together`), and when there are no bitrates the number of gaps is bounded by the minimum over the tracks (`bin_loop`, `gap_count_spec`).
* **C96 The durations in a media playlist do not drift and keep to the target** - area `M3u8`: the sum telescopes (`run_ms`). Partial: the rounding of the ends can make a duration a millisecond more than it is, which with an unlucky start exceeds the target (refuted), and a timescale that is not a multiple of 1000 gives wrong durations (refuted).
* **C97 The parts of a segment add up to the segment** - area `M3u8`: the sum telescopes (`parts_total`). Partial: a part can exceed the announced part target by a millisecond (refuted).
* **C98 A delta update gives the player what the whole playlist would** - area `M3u8`: `delta_expected`: what is expected of both, compared period by period. The bitrates and dates of segments may differ, since a delta update announces the date of its first segment, and a bitrate that was announced before is not repeated.
* **C99 Every uri of a media playlist is served as what it is announced as** - area `Uri`: `reaches` (UriSpec) follows a uri from the request line to the parameters of the live server; the announced names are shown to be accepted (`seg_fetched`, `part_fetched`, `init_fetched`, `index_fetched`, `key_fetched`), and what the packager asks to be understood (`reaches_intro`). With the playlist theorem of C94 this covers every uri a player finds. Partial: not for the variant "tpp" with fragmented mp4, nor for playlists with subtitles and mpeg-ts segments (both refuted).
* **C100 The live server understands what the packager asks** - area `Uri`: the query string is a list of keys and escaped values, read back by the loop of the parser (`parse_args_fold`); each handler is evaluated on each key (`args_understood`). Refuted: a sequence number of 2^32.
* **C101 The name of a media file says what is served** - area `Uri`: characterizations of the accepted names (`seg_name_iff`, `part_name_iff`, `media_iff`); `Over` is the outcome of a read past the end (`core_over`). Refuted: numbers wrap at 2^32, and a key may be asked for with two variants.
* **C102 A range request is read as the bytes it names** - area `Uri`: the loops over digits and spaces are inverted (`off_inv`, `skip_inv`). Partial: a suffix longer than the file gives a negative start (refuted).
* **C103 A segment encrypted with AES-128 decrypts to the segment** - area `Hls`: the cipher is a parameter with an inverse; CBC over pieces is CBC over the whole (`update_app`), and CBC with padding is undone by the player of HlsSpec (`padded_decrypts`). Partial: MPEG-TS segments cannot be sent with a pool of buffers whose size is a multiple of 188 and 16, and HEAD requests for initialization segments read through a pointer that was never set (both refuted).
* **C104 A player gets the video of SAMPLE-AES** - area `Hls`: an invariant relates the state of the filter and the rest of the unit to the encryption of the whole unit (`loop_ok`), and the loop over units to the byte stream (`writes_good`); the player of HlsSpec undoes emulation prevention and decrypts.
* **C105 A player gets the audio of SAMPLE-AES** - area `Hls`: as C104: the output still to come is a function of the state and of the rest of the frame (`write_ok`, `loop_all`).
* **C106 A player gets the audio of cbcs** - area `Cbcs`: the output still to come is a function of the state and of the rest of the segment (`atodo`). Partial: a frame with more whole blocks than the write buffer has is refused when it comes in one piece (refuted).
* **C107 A player gets the video of cbcs** - area `Cbcs`: an invariant over the five states gives the output still to come (`vtodo`, one lemma per state); two rounds of the loop take a byte. Partial: when the last unit of the segment is of one byte, or a small slice with no block to encrypt, the end of the segment is never sent (refuted).
* **C108 Gaps are known** - area `Gap`: the nodes are a list that goes up (`wf`), and its value at a segment stands for the created one (`rec_inv`, by induction over the history); the search gives the same as the whole list (`lookup_flat`).
* **C109 Bitrates sent to the packager** - area `Gap`: the same invariant.
* **C110 Gaps and bitrates after a restart** - area `Gap`: each file adds to the list what the range has (`block_step`); induction over the files; a state read from files is one of the invariant again (`restart_inv`). Partial: the last bitrate is read modulo 2^32 after the multiplication by 100, so bitrates over 42.9 Mbit/s are left out (refuted).
* **C111 Bytes of a NAL unit without emulation prevention** - area `Cc`: the state of the reader stands for the number of zeros before (`zs`); induction over the bytes (`ep_loop_gen`).
* **C112 Captions of a frame are found** - area `Cc`: the reader stays at the escaped rest of the messages (`eview`), induction over messages and units. Partial: a message needs as many bytes after its captions as it has emulation prevention bytes, since the reader of a payload counts both as bytes of the payload (refuted otherwise).
* **C113 Captions are decoded in the order of presentation** - area `Cc`: the place of an inserted packet (`insert_split`), induction over the frames. Partial as C112.
* **C114 Parameter sets of the decoder configuration** - area `Cfg`: the loops over the units agree (`units_ok`) and are inverted (`units_inv`): what is accepted is a record. Partial for H.264: the number of picture parameter sets is read modulo 32 (refuted).
* **C115 Codec names** - area `Name`: the bits that the reader has not given yet (`rbits`) are cut into fields (`gets_ok`); the texts by induction or, for bytes, by checking all 256 values. Partial: the names of AAC streams with an object type from 32 on are wrong (refuted).
* **C116 AAC configurations** - area `Asc`: one lemma for complete and cut configurations (`parse_cut`): after each read, the bits that are left and the missing ones are what is still to be read, or the end was met and bits are missing. Partial: with PS, configurations are misread when the rate of the extension is not an index, and cut ones are taken (refuted).
* **C117 Bytes and numbers of parameter sets and slice headers** - area `Rbsp`: the windows of three bytes agree with the automaton that counts zeros (`strip_unescape`, `encode_bytes_ok`); codes by the bits that are left (`unsigned_ok`). Partial: with three zeros in a row the bytes are not all counted, and codes of 31 zeros are undefined (both refuted). The parsers themselves are not modelled.
* **C118 Skipped fields of parameter sets and slice headers** - area `RbspSkip`: the bits that are left after a skip are the bits before without the first ones (`skip_ok`), by whole bytes (`skipn_bytes`) and the bits of the last one (`skipn_lows`). Partial: skips of more than about 120 bits overflow the position in the byte, which codes of that many zeros reach (refuted).
