{
 "claims": [
  {
   "property": "C01",
   "status": "proved",
   "theorems": [
    "C01_encode_writes_announced_length",
    "C01_parse_roundtrip",
    "C01_read_roundtrip",
    "C01_self_delimiting",
    "C01_format"
   ],
   "note": "All 64-bit numbers, any following bytes, both reader kinds."
  },
  {
   "property": "C02",
   "status": "proved",
   "theorems": [
    "C02_truncated"
   ],
   "note": "All strict prefixes, both reader kinds."
  },
  {
   "property": "C03",
   "status": "proved",
   "theorems": [
    "C03_nat_roundtrip",
    "C03_parse_accepts",
    "C03_encode_into"
   ],
   "note": "All 64-bit numbers and all byte strings."
  },
  {
   "property": "C04",
   "status": "proved",
   "theorems": [
    "C04_shrink_length"
   ],
   "note": "All types, lengths, shrink amounts (also shrink = length)."
  },
  {
   "property": "C05",
   "status": "partial",
   "theorems": [
    "C05_bytes_length",
    "C05_roundtrip_iff_partial",
    "C05_decode_prefix_partial",
    "C05_read_any_reader_partial",
    "C05_roundtrip_refuted"
   ],
   "note": "The round trip is proved to hold exactly for values of at most 252 bytes; for every longer value it is proved to fail (the length is written with Nat instead of TLNum). An empty value at the very end of a multi-segment reader is excluded (ReadBuf(0) panics there, see C14)."
  },
  {
   "property": "C06",
   "status": "partial",
   "theorems": [
    "C06_bytes_total",
    "C06_roundtrip_iff_partial",
    "C06_read_name_partial",
    "C06_encoding_injective_partial",
    "C06_roundtrip_refuted"
   ],
   "note": "The round trip is proved to hold exactly for names whose components take at most 252 bytes together, and to fail for every other name."
  },
  {
   "property": "C07",
   "status": "proved",
   "theorems": [
    "C07_name_total_order",
    "C07_component_total_order",
    "C07_canonical",
    "C07_equal_agrees",
    "C07_component_equal_agrees",
    "C07_prefix_smaller",
    "C07_byte_order",
    "C07_byte_order_unbounded_refuted",
    "C07_pattern_total_order"
   ],
   "note": "Byte order is proved for component values of up to 255 bytes and shown false beyond."
  },
  {
   "property": "C08",
   "status": "proved",
   "theorems": [
    "C08_is_prefix_iff",
    "C08_partial_order",
    "C08_pattern_is_prefix_iff"
   ],
   "note": "Names and name patterns."
  },
  {
   "property": "C09",
   "status": "proved",
   "theorems": [
    "C09_canonical_roundtrip",
    "C09_component_roundtrip",
    "C09_name_roundtrip",
    "C09_number_components",
    "C09_hex_even",
    "C09_slash"
   ],
   "note": "All component types 1..65535 and all byte values."
  },
  {
   "property": "C10",
   "status": "partial",
   "theorems": [
    "C10_component_collisions_partial",
    "C10_name_collisions_partial",
    "C10_canonical_injective",
    "C10_string_injective_refuted"
   ],
   "note": "False as stated; the exact set of colliding pairs is proved."
  },
  {
   "property": "C11",
   "status": "partial",
   "theorems": [
    "C11_component_partial",
    "C11_name_partial",
    "C11_pattern_component_partial",
    "C11_pattern_partial",
    "C11_parsers_panic_refuted"
   ],
   "note": "False as stated; ComponentFromStr's panicking inputs are characterised exactly, the other parsers are proved to return outside the corresponding inputs."
  },
  {
   "property": "C12",
   "status": "proved",
   "theorems": [
    "C12_match_then_instantiate",
    "C12_match_content",
    "C12_instantiate_then_match",
    "C12_repeated_tag_refuted"
   ],
   "note": "All patterns, names and prior matchings; the repeated-tag condition is shown necessary."
  },
  {
   "property": "C13",
   "status": "partial",
   "theorems": [
    "C13_hash_input_refuted",
    "C13_same_shape_partial",
    "C13_prefix_hash"
   ],
   "note": "False in general (no delimiters in the hashed stream), proved injective among names with the same component lengths; PrefixHash proved to list the hashes of all prefixes."
  },
  {
   "property": "C14",
   "status": "partial",
   "theorems": [
    "C14_scripts_agree_partial",
    "C14_range_buffer",
    "C14_range_wire_partial",
    "C14_range_refuted",
    "C14_readbuf_at_end_refuted",
    "C14_empty_buffer_refuted",
    "C14_delegate_too_long_refuted",
    "C14_range_bounds",
    "C14_unread_start"
   ],
   "note": "Proved for every fragmentation without empty buffers and every script of in-contract calls; Range proved where the code is right. The unrestricted statement is false of the code: the refuted theorems give the witnesses."
  },
  {
   "property": "C15",
   "status": "proved",
   "theorems": [
    "C15_encode_exact",
    "C15_empty_refuted",
    "library_wf"
   ],
   "note": "All models codegen accepts (wf_model), any nesting, any value. Encode and EncodeInto on arbitrary buffers of the planned sizes succeed with the TLV encoding, length and plan exact. The excluded case (nocopy value with nothing set, e.g. Packet{}) is shown to panic. Signature and Interest-name fields require nocopy models as in the library; the signature bytes are the caller's."
  },
  {
   "property": "C16",
   "status": "proved",
   "theorems": [
    "C16_round_trip",
    "C16_round_trip_wire",
    "C16_exact",
    "C16_exact_wire",
    "library_parsable",
    "C16_probe_refuted",
    "C16_wire_refuted"
   ],
   "note": "For every model that satisfies the boolean conditions wf_model and parsable, and every value; library_parsable shows that the library's models do, all but ndncert ProbeRes and ProbeResContent, and C16_probe_refuted that the first of these does not round-trip. C16_wire_refuted shows why values with empty parts are excepted on a WireReader. Lengths below 2^43 bytes."
  },
  {
   "property": "C17",
   "status": "proved",
   "theorems": [
    "C17_skip",
    "C17_mixed",
    "C17_critical",
    "C17_elements",
    "C17_ordered_refuted",
    "C17_ordered_critical_refuted"
   ],
   "note": "For every unordered model, value, position and element on a BufferReader; C17_mixed for any number of foreign elements, in nested structures, and any order of fields. The two refutations show what happens in ordered models (Data, Interest)."
  },
  {
   "property": "C18",
   "status": "partial",
   "theorems": [
    "C18_partial",
    "C18_short",
    "C18_no255",
    "C18_hang_refuted",
    "C18_panic_refuted"
   ],
   "note": "Proved for every model and every input over a BufferReader without a nine-byte number of 2^40 or more; false beyond that: a ten-byte input makes every parser loop for ever and a twelve-byte one makes it panic."
  },
  {
   "property": "C19",
   "status": "partial",
   "theorems": [
    "C19_signed_partial",
    "C19_unsigned_partial",
    "C19_errors",
    "C19_read",
    "C19_read_wire",
    "C19_signed_wire_partial",
    "C19_unsigned_wire_partial",
    "C19_refuted",
    "C19_wire_refuted",
    "C19_refuses",
    "C19_arguments",
    "C19_signer",
    "C19_no_signature"
   ],
   "note": "Proved for all names with components of at most 252 bytes, configs, contents in any fragmentation, and signers whose signature length fits; refuted for an estimate of 300 and a signature of 64 bytes (the length patch changes one byte only). Read over a BufferReader, and over a WireReader on the wire that MakeData returns if there is no empty buffer or name component (a crash otherwise: C19_wire_refuted); size below 4 TiB."
  },
  {
   "property": "C20",
   "status": "partial",
   "theorems": [
    "C20_data_partial",
    "C20_interest_partial",
    "C20_read",
    "C19_read",
    "C19_read_wire",
    "C20_fragments_refuted"
   ],
   "note": "Same restrictions as C19 and C21; C20_read and C19_read give the covered bytes for every packet in the format, C19_read_wire also from several buffers if the first one goes beyond the header; otherwise bytes of the signed portion are lost (C20_fragments_refuted)."
  },
  {
   "property": "C21",
   "status": "partial",
   "theorems": [
    "C21_signed_partial",
    "C21_params_partial",
    "C21_plain_partial",
    "C21_base",
    "C21_errors",
    "C21_refuted",
    "C21_refuses",
    "C21_arguments",
    "C21_signer",
    "C21_no_signature"
   ],
   "note": "Proved with the final name base_name n (+ digest); refuted for names that end with a digest component, which MakeInterest drops. Components of at most 252 bytes, below 4 TiB, BufferReader."
  },
  {
   "property": "C22",
   "status": "partial",
   "theorems": [
    "C22_partial",
    "C22_change_partial",
    "C22_type",
    "C22_refuted",
    "C22_tail_refuted"
   ],
   "note": "Proved for all packets in the Interest format; refuted for byte strings with eight unknown elements before the parameters (digest of nothing is accepted) and with an out-of-order element after them."
  },
  {
   "property": "C23",
   "status": "proved",
   "theorems": [
    "C23_priority_queue",
    "C23_total"
   ],
   "note": "Refinement of every Push/Pop/Update history to a bag of entries with positions, for any priority type with a strict weak order (excludes float NaN). Modelled: heap.go and priority-queue.go in full; slice lengths assumed below 2^62."
  },
  {
   "property": "C24",
   "status": "proved",
   "theorems": [
    "C24_trie_map",
    "C24_stale_delete_refuted"
   ],
   "note": "Refinement of every history of calls on nodes found by name to a prefix-closed map over component strings. Calls on a node kept after its removal are outside the property; C24_stale_delete_refuted shows what goes wrong then. FirstNodeIf and map iteration order are not modelled."
  },
  {
   "property": "C25",
   "status": "partial",
   "theorems": [
    "C25_callback_or_timer",
    "C25_called_when_due",
    "C25_cause",
    "C25_at_most_once_partial",
    "C25_results",
    "C25_results_any",
    "C25_no_nack",
    "C25_send",
    "C25_at_most_once_refuted",
    "C25_unsent_refuted"
   ],
   "note": "At least once for all histories; at most once for every Interest whose own name gets no Nack; with such a Nack the results are none, one, or a Nack and then a timeout (for a digest alone: Nacks, then at most one other), so the full statement is refuted (a Nack leaves the entries in the node, a later timer calls them again). Whether the face could send changes only what Express returns: an Interest that was not sent is called back too (C25_unsent_refuted)."
  },
  {
   "property": "C26",
   "status": "partial",
   "theorems": [
    "C26_data_partial",
    "C26_express_files",
    "C26_data_keeps_partial",
    "C26_unsolicited_data_refuted",
    "C26_shorter_data_refuted",
    "C26_shorter_nack_refuted",
    "C26_longer_nack_refuted"
   ],
   "note": "Sound for all histories; complete for Interests filed in the tree. The full statement is false: a Data whose deepest node holds no pending Interest deletes everything beneath that node, and a Nack removes the Interests for longer names and for shorter names without other children."
  },
  {
   "property": "C27",
   "status": "partial",
   "theorems": [
    "C27_handlers_partial",
    "C27_detach_others_refuted",
    "C27_detach_root_refuted",
    "C27_nil_handler_refuted"
   ],
   "note": "Attach and delivery as stated for all histories with non-nil handlers; Detach removes everything at and below the prefix, so the last clause is refuted."
  },
  {
   "property": "C28",
   "status": "proved",
   "theorems": [
    "C28_late",
    "C28_down",
    "C28_bare",
    "C28_token",
    "C28_received"
   ],
   "note": "Replies for every argument record, clock value and Data; C28_received shows the record a handler gets for every Interest packet in the NDN format (component values up to 252 bytes, 4 TiB). What Send does with the bytes is the face's business."
  },
  {
   "property": "C29",
   "status": "proved",
   "theorems": [
    "C29_chunking",
    "C29_framing",
    "C29_nonminimal_refuted",
    "C29_tolerant_error_refuted",
    "C29_tolerant_truncation_refuted",
    "C29_length_panics_refuted"
   ],
   "note": "Proved for well-formed elements. The refuted variants record what falls outside the statement: non-minimal numbers are re-encoded, an onError that returns nil makes the face invent packets, a huge length panics."
  },
  {
   "property": "C30",
   "status": "partial",
   "theorems": [
    "C30_timer_partial",
    "C30_double_cancel_refuted",
    "C30_schedule_in_callback_refuted",
    "C30_cancel_in_callback_refuted",
    "C30_order_refuted"
   ],
   "note": "Proved for callbacks that do not use the timer and events cancelled at most once; the refuted theorems show that both conditions are needed and that events passed together do not run in the order of their due times."
  },
  {
   "property": "C31",
   "status": "proved",
   "theorems": [
    "C31_fifo"
   ],
   "note": "Buffers are values; a Send of a wire without buffers succeeds and queues nothing."
  },
  {
   "property": "C32",
   "status": "proved",
   "theorems": [
    "C32_monotone",
    "C32_set",
    "C32_incr",
    "C32_wrap"
   ],
   "note": "for every history without IncrSeqNo at 2^64-1 and every hash; C32_wrap shows the exception"
  },
  {
   "property": "C33",
   "status": "partial",
   "theorems": [
    "C33_ranges",
    "C33_once",
    "C33_source",
    "C33_collision_refuted"
   ],
   "note": "exactly-once and contiguity proved per hash value of the node name; false per node name (C33_collision_refuted: for every hash of the name bytes two names exist that are taken for one node)"
  },
  {
   "property": "C34",
   "status": "proved",
   "theorems": [
    "C34_timer",
    "C34_steady",
    "C34_sends",
    "C34_enter",
    "C34_missing_refuted"
   ],
   "note": "also characterises when suppression is entered; C34_missing_refuted shows a vector lacking a node that is dropped"
  },
  {
   "property": "C35",
   "status": "proved",
   "theorems": [
    "C35_merge",
    "C35_order",
    "C35_converges"
   ],
   "note": "any number of participants, any history; numbers are per hash value of the name"
  },
  {
   "property": "C36",
   "status": "proved",
   "theorems": [
    "C36_sound",
    "C36_exact",
    "C36_match_apply",
    "C36_apply_iff",
    "C36_apply",
    "C36_apply_match",
    "C36_refine",
    "C36_refine_digest",
    "C36_complete_refuted"
   ],
   "note": "C36_complete_refuted: a name that fits a path of the tree may match no node (no backtracking)"
  },
  {
   "property": "C37",
   "status": "partial",
   "theorems": [
    "C37_provide_partial",
    "C37_pieces",
    "C37_served",
    "C37_fetch",
    "C37_end_to_end_partial",
    "C37_readable",
    "C37_manifest",
    "C37_empty_buffer_refuted",
    "C37_size_refuted",
    "C37_large_size_refuted",
    "C37_empty_refuted",
    "C37_no_final_refuted",
    "C37_endless_refuted",
    "C37_trials"
   ],
   "note": "Content in non-empty buffers, any segment size and division: packets, storage, fetching with losses and retries. Refuted for empty buffers, segment size 0 or near 2^64, empty objects, segments without FinalBlockID. Missing: components of more than 252 bytes, signatures shorter than estimated (C19)."
  },
  {
   "property": "C38",
   "status": "partial",
   "theorems": [
    "C38_asked",
    "C38_data",
    "C38_sound",
    "C38_rule_refuted"
   ],
   "note": "Every chain of validators: which are asked is determined; accepted Data is saved and delivered with content, other Data is delivered as unverified without content and not saved; accepted implies the documented rule. The converse is false: C38_rule_refuted (pass followed by silence)."
  },
  {
   "property": "C39",
   "status": "partial",
   "theorems": [
    "C39_get",
    "C39_same_name",
    "C39_exact_refuted",
    "C39_order_refuted"
   ],
   "note": "Proved for every history of Put and every iteration order of Go maps: Get returns a packet last put under its name at or below the one asked for, eligible, and the exact one if eligible. False: CanBePrefix is ignored, so an exact query may return a packet of a longer name (C39_exact_refuted); which one depends on map order (C39_order_refuted)."
  },
  {
   "property": "C40",
   "status": "proved",
   "theorems": [
    "C40_sha256",
    "C40_hmac",
    "C40_ecdsa",
    "C40_only",
    "C40_empty",
    "C40_estimate",
    "C40_int_sha256",
    "C40_int_hmac",
    "C40_int_ecdsa",
    "C40_policy",
    "C40_policy_provide",
    "C40_estimate_refuted",
    "C40_rsa_refuted",
    "C40_rsa_interest_refuted"
   ],
   "note": "For every name, configuration and content within the packet limit (4 TiB), with the primitives as parameters (hash and HMAC of 32 bytes; a key pair whose signatures verify and fit the estimate). The estimate is proved sufficient for the curves of crypto/elliptic. Refuted for RSA as the statement says."
  },
  {
   "property": "C41",
   "status": "proved",
   "theorems": [
    "C41_info",
    "C41_data",
    "C41_info_refuted",
    "C41_hmac_int_refuted"
   ],
   "note": "Refuted for the HMAC Interest signer as the statement says."
  },
  {
   "property": "C42",
   "status": "partial",
   "theorems": [
    "C42_start",
    "C42_result",
    "C42_expressed",
    "C42_once_partial",
    "C42_empty_name",
    "C42_send_failure_refuted",
    "C42_nack_refuted",
    "C42_chan"
   ],
   "note": "Every path of NeedCallback makes exactly one call or expresses exactly one Interest; each result makes one call; an Interest that was sent has exactly one result in every history of the engine without a Nack for its name. False when sending fails (two calls; NeedChan panics on the second) and with such a Nack (C25)."
  },
  {
   "property": "C43",
   "status": "proved",
   "theorems": [
    "C43_round_trip",
    "C43_encrypts",
    "C43_end_to_end",
    "C43_no_key",
    "C43_fails",
    "C43_malformed_refuted",
    "C43_repeat_refuted",
    "C43_leak_refuted"
   ],
   "note": "For every content below 4 TiB in any division into buffers, every 8-byte id, 32-byte key, 16-byte IV and every block cipher: Decrypt of what Encrypt returned (or of the same bytes divided otherwise) is the content. Also proved that crafted packets make Decrypt panic or return memory beyond the ciphertext, and that decrypting in place makes a second Decrypt of the same buffer wrong."
  },
  {
   "property": "C44",
   "status": "partial",
   "theorems": [
    "C44_insert",
    "C44_delete",
    "C44_local_insert",
    "C44_local_delete",
    "C44_history_partial",
    "C44_order_kept",
    "C44_one_list",
    "C44_fresh_partial",
    "C44_type_partial",
    "C44_erase_partial",
    "C44_text",
    "C44_offset_refuted",
    "C44_fresh_refuted",
    "C44_between_refuted"
   ],
   "note": "Every operation and every history from an empty document: one doubly linked list holding exactly the accepted items, order kept, deletions only hide. Exactly when a remote insertion is refused; the only panic is characterised. Partial because the full statement is false: it may panic (C63_no_panic_refuted), offsets are wrong once the first item is deleted, identifiers repeat when the clock wraps, and a right origin left of the origin is not respected."
  },
  {
   "property": "C45",
   "status": "partial",
   "theorems": [
    "C45_component_type_partial",
    "C45_component_type_refuted"
   ],
   "note": "False as stated: types of 2^63 and more are accepted; everything else is proved in range."
  },
  {
   "property": "C46",
   "status": "partial",
   "theorems": [
    "C46_pattern_roundtrip_partial",
    "C46_element_roundtrip",
    "C46_trailing_empty_refuted",
    "C46_canonical_roundtrip"
   ],
   "note": "Proved except for a trailing empty generic component, where it fails."
  },
  {
   "property": "C47",
   "status": "partial",
   "theorems": [
    "C47_data_partial",
    "C47_interest_partial",
    "C47_refuted",
    "C19_unsigned_partial",
    "C21_params_partial",
    "C21_plain_partial"
   ],
   "note": "Refuted for name components of 253 bytes and more; otherwise the exact bytes are proved."
  },
  {
   "property": "C48",
   "status": "partial",
   "theorems": [
    "C48_data",
    "C48_data_fields",
    "C48_nack",
    "C48_fragment",
    "C48_nack_data",
    "C48_nested",
    "C28_received",
    "C48_refuted",
    "C48_nack_refuted"
   ],
   "note": "Proved for every packet in the NDN format (component values up to 252 bytes, 4 TiB) and every state; refuted for packets with both a Data and an Interest element and for Nacks with reason 0 or without reason."
  },
  {
   "property": "C49",
   "status": "partial",
   "theorems": [
    "C49_partial",
    "C49_refuted"
   ],
   "note": "Proved for every byte string without 9-byte numbers, every state; refuted with a packet of 12 bytes that panics."
  },
  {
   "property": "C50",
   "status": "proved",
   "theorems": [
    "C50_exchange"
   ],
   "note": "Packets are read from one buffer, as the faces deliver them."
  },
  {
   "property": "C51",
   "status": "proved",
   "theorems": [
    "C51_vector",
    "C51_unique",
    "C51_encode",
    "C51_received"
   ],
   "note": "vectors below 2^43 bytes with component values up to 252 bytes"
  },
  {
   "property": "C52",
   "status": "partial",
   "theorems": [
    "C52_total_partial",
    "C52_huge_refuted"
   ],
   "note": "proved for all byte strings without numbers of 2^40 or more; false otherwise"
  },
  {
   "property": "C53",
   "status": "partial",
   "theorems": [
    "C53_stop_partial",
    "C53_stop_refuted"
   ],
   "note": "proved if main runs and no vector is in flight when Stop is called; false otherwise"
  },
  {
   "property": "C54",
   "status": "proved",
   "theorems": [
    "C54_put",
    "C54_match_stable"
   ],
   "note": "trees as values; the locking of Tree and OnAttach are not modelled"
  },
  {
   "property": "C55",
   "status": "partial",
   "theorems": [
    "C55_order_partial",
    "C55_panic_refuted",
    "C55_match_refuted"
   ],
   "note": "proved for descriptions in which no path is a prefix of another: every order gives the same nodes; refuted otherwise and for the order of overlapping siblings"
  },
  {
   "property": "C56",
   "status": "partial",
   "theorems": [
    "C56_interest",
    "C56_cases",
    "C56_empty_name_refuted"
   ],
   "note": "All Interests with a non-empty name, storages and validators. Refuted for the empty name."
  },
  {
   "property": "C57",
   "status": "partial",
   "theorems": [
    "C57_provide",
    "C57_provide_signed",
    "C57_provided",
    "C57_fetched",
    "C57_need_partial",
    "C57_need_signed_partial",
    "C57_need_fetched",
    "C57_need_refuted",
    "C57_freshness_refuted",
    "C57_node_refuted"
   ],
   "note": "For every history of the storage. Need is answered for names without empty components and content without empty buffers; with empty buffers it crashes (C57_need_refuted). Refuted for accepted Data without FreshnessPeriod or without a node."
  },
  {
   "property": "C58",
   "status": "partial",
   "theorems": [
    "C58_provide_partial",
    "C58_end_to_end_partial",
    "C58_discovered",
    "C58_no_metadata",
    "C58_version_refuted",
    "C58_malformed_refuted",
    "C58_other_refuted",
    "C58_latest_refuted"
   ],
   "note": "Providing and fetching one version end to end, and discovery in a storage with no older metadata. Refuted: latest version, explicit version, malformed or foreign metadata. Missing: empty objects and buffers, names with empty components."
  },
  {
   "property": "C59",
   "status": "partial",
   "theorems": [
    "C59_provide_partial",
    "C59_end_to_end_partial",
    "C59_no_manifest",
    "C59_malformed",
    "C59_empty_refuted"
   ],
   "note": "Providing and fetching end to end, with arbitrary senders of the segments. Refuted: empty manifest. Missing: empty objects and buffers, names with empty components."
  },
  {
   "property": "C60",
   "status": "proved",
   "theorems": [
    "C60_sequence",
    "C60_increasing",
    "C60_hmac_refuted"
   ],
   "note": "Refuted for the HMAC Interest signer as the statement says."
  },
  {
   "property": "C61",
   "status": "proved",
   "theorems": [
    "C61_key_name",
    "C61_signs",
    "C61_accepts",
    "C61_end_to_end",
    "C61_locator_refuted",
    "C61_mapping_refuted",
    "C61_unmatched_refuted",
    "C61_digest_refuted"
   ],
   "note": "Within the packet limit (4 TiB), HMAC a parameter with 32 byte values, SignedByPolicy the only validator of the node. Refuted where the statement says."
  },
  {
   "property": "C62",
   "status": "proved",
   "theorems": [
    "C62_enroll",
    "C62_history",
    "C62_anchor",
    "C62_self_signed",
    "C62_serves",
    "C62_locator_refuted",
    "C62_renew_refuted",
    "C62_anchor_type_refuted"
   ],
   "note": "Within the packet limit (4 TiB). Refuted where the statement says."
  },
  {
   "property": "C63",
   "status": "partial",
   "theorems": [
    "C63_converge_partial",
    "C63_same_text_partial",
    "C63_any_order",
    "C63_typed_any_order",
    "C63_handle",
    "C63_no_panic_refuted",
    "C63_once_refuted",
    "C63_blocked_refuted"
   ],
   "note": "Convergence is proved for one round of editing: any number of users type one piece each at any place of a common document (one item each at the very start) while items of it are deleted, in any interleaving; the next round may start from the result. Records of a history with growing clocks may arrive in any order. General convergence is false (crash, duplicates, blocked queue) and not proved for editing inside each other's concurrent pieces."
  },
  {
   "property": "C64",
   "status": "partial",
   "theorems": [
    "C64_learns",
    "C64_missing_partial",
    "C64_missing_refuted",
    "C64_own_partial",
    "C64_own_refuted",
    "C64_new_data",
    "C64_no_data",
    "C64_suppress",
    "C64_timer",
    "C64_answer",
    "C64_alive",
    "C64_alive_refuted",
    "C64_detach_partial",
    "C64_detach_refuted",
    "C64_names",
    "C64_names_differ",
    "C64_intervals_partial",
    "C64_agg_interval",
    "C64_intervals_refuted",
    "C64_wire"
   ],
   "note": "Proved for all histories; false as stated for the cases the _refuted theorems show (number 2^64-1, restart, unparseable vector, detach, intervals under 4 ns). Not modelled: a full channel of missing data blocks the node; the Interest that carries the vector (C57 covers the schema tree)."
  },
  {
   "property": "C65",
   "status": "proved",
   "theorems": [
    "C65_safe",
    "C65_no_panic",
    "C65_converge"
   ],
   "note": "Up to 2^64 packets in total. Vectors arrive as they were sent (C64_wire); the channel of missing data never fills."
  },
  {
   "property": "C66",
   "status": "partial",
   "theorems": [
    "C66_command_partial",
    "C66_params",
    "C66_route",
    "C66_route_sent",
    "C66_large_signer",
    "C66_long_refuted"
   ],
   "note": "Full statement false: parameters over 252 bytes make an unreadable Interest; estimates of 253 and more are refused."
  },
  {
   "property": "C67",
   "status": "partial",
   "theorems": [
    "C67_response",
    "C67_no_success",
    "C67_any_content_partial",
    "C67_channel_partial",
    "C67_returns_partial",
    "C67_nack_refuted",
    "C67_unsent_refuted",
    "C67_content_refuted"
   ],
   "note": "Proved of every response and of histories without a Nack for the name of the command; false with a Nack while the timer waits for the lock, and when the Interest could not be sent."
  },
  {
   "property": "C68",
   "status": "partial",
   "theorems": [
    "C68_identity_partial",
    "C68_key_partial",
    "C68_cert_partial",
    "C68_first",
    "C68_first_of_identity",
    "C68_key_find_partial",
    "C68_ident_find_partial",
    "C68_key_identity_partial",
    "C68_self_signed_partial",
    "C68_files",
    "C68_exists_partial",
    "C68_sign_partial",
    "C68_long_refuted",
    "C68_foreign_refuted",
    "C68_rsa_refuted"
   ],
   "note": "For names of at most 252 encoded bytes in a PIB that a key chain has filled (unique names, keys named after identities, certificates after keys, readable packets). Longer names are refuted for every PIB up to 64767 bytes (Name.Bytes does not encode their length as the packet format does); GetKey/GetCert of an identity/key do not look at it; RSA keys sign what nobody accepts. Database errors are not modelled."
  },
  {
   "property": "C69",
   "status": "partial",
   "theorems": [
    "C69_entries",
    "C69_reads",
    "C69_errors",
    "C69_roundtrip_partial",
    "C69_struct_refuted",
    "C69_args_partial",
    "C69_response_partial"
   ],
   "note": "Complete for what ToDict writes and DictTo... reads. The round trip is characterised exactly: it holds iff no structure field is set (and no time or wire field); with a structure field set it always fails (refuted)."
  },
  {
   "property": "C70",
   "status": "partial",
   "theorems": [
    "C70_set_partial",
    "C70_unchanged",
    "C70_types",
    "C70_history",
    "C70_substitution",
    "C70_attrs_partial",
    "C70_order",
    "C70_duration_refuted",
    "C70_content_type_refuted",
    "C70_name_refuted",
    "C70_name_strings",
    "C70_matching_refuted",
    "C70_range_refuted",
    "C70_rounding_refuted",
    "C70_defaults_complete",
    "C70_defaults",
    "C70_inner_defaults"
   ],
   "note": "Proved for every class with properties, all legal values and all histories. False of the code for: time.Duration values, JSON numbers as content types, key names as strings, JSON numbers in matchings, times out of range or beyond 18 years as JSON numbers."
  },
  {
   "property": "C71",
   "status": "partial",
   "theorems": [
    "C71_stream_partial",
    "C71_received_partial",
    "C71_reopen_refuted",
    "C71_panic_refuted"
   ],
   "note": "Proved for every schedule in which no Open overlaps a Send or Open is called once. Without that the statement is false (C71_reopen_refuted), and Send may panic (C71_panic_refuted)."
  },
  {
   "property": "C72",
   "status": "partial",
   "theorems": [
    "C72_one_run",
    "C72_open",
    "C72_open_again",
    "C72_close",
    "C72_panic_partial",
    "C72_close_panic_refuted",
    "C72_two_opens_refuted",
    "C72_leak_refuted"
   ],
   "note": "All but the absence of panics is proved for all schedules in which Opens do not overlap; panics happen only to a Send or Close when the receiver has ended, and do happen (C71_panic_refuted, C72_close_panic_refuted). Overlapping Opens and the connections left open are refutations."
  },
  {
   "property": "C73",
   "status": "partial",
   "theorems": [
    "C73_received",
    "C73_refused",
    "C73_sent_partial",
    "C73_concurrent_refuted",
    "C73_end_refuted"
   ],
   "note": "Proved for schedules that do not panic; two Sends at once may panic, and the end of the connection is not reported (refuted). Of gorilla/websocket the documented behaviour is assumed."
  },
  {
   "property": "C74",
   "status": "proved",
   "theorems": [
    "C74_history",
    "C74_fire"
   ],
   "note": "Callbacks that fire events themselves and concurrent calls are not modelled."
  },
  {
   "property": "C75",
   "status": "partial",
   "theorems": [
    "C75_node",
    "C75_inner",
    "C75_others",
    "C75_classes",
    "C75_policies",
    "C75_described",
    "C75_order_partial",
    "C75_panics",
    "C75_empty"
   ],
   "note": "Partial: independence of the map order is proved when no described path is a prefix of another one; otherwise it is false (C55_panic_refuted)."
  },
  {
   "property": "C76",
   "status": "partial",
   "theorems": [
    "C76_returns",
    "C76_history_partial",
    "C76_plain",
    "C76_attach",
    "C76_attach_works",
    "C76_detach",
    "C76_detach_works",
    "C76_error_refuted",
    "C76_detach_twice_refuted",
    "C76_refused_refuted",
    "C76_refused_again_refuted",
    "C76_attach_twice_refuted",
    "C76_late_refuted",
    "C76_empty_refuted"
   ],
   "note": "Proved for histories that attach trees that are not attached and detach trees that are; false for the others and for errors of listeners (refuted theorems)."
  },
  {
   "property": "C77",
   "status": "partial",
   "theorems": [
    "C77_annotation",
    "C77_tag",
    "C77_order",
    "C77_partial",
    "C77_library",
    "C77_together_refuted",
    "C77_tag_refuted",
    "C77_annotation_refuted",
    "C77_panic_refuted"
   ],
   "note": "Every correctly annotated structure, any nesting of sequences and maps, any map order; the 57 structures of the library are derived from their source text. Partial because mistakes are not reported (refuted theorems). The templates that print the Go code are interpreted, not printed (C15-C18)."
  },
  {
   "property": "C78",
   "status": "proved",
   "theorems": [
    "C78_fields",
    "C78_shared",
    "C78_order",
    "C78_names",
    "C78_levels",
    "C78_parse",
    "C78_must_parse",
    "C78_lines",
    "C78_lines_go_on",
    "C78_text",
    "C78_change_refuted",
    "C78_handled_refuted",
    "C78_guard_refuted",
    "C78_text_refuted",
    "C78_json_refuted",
    "C78_handlers_refuted"
   ],
   "note": "Proved for all programs that do not change a map after giving it to an entry. Findings: a map changed later changes what is output (C78_change_refuted); an entry derived from one a handler was given loses its fields (C78_handled_refuted); the engine's test of its entry's Level before debug texts is always true (C78_guard_refuted); InvalidLevel has no text (C78_text_refuted); UnmarshalJSON accepts texts that are not JSON (C78_json_refuted); two handlers with one writer mix lines (C78_handlers_refuted)."
  },
  {
   "property": "C79",
   "status": "proved",
   "theorems": [
    "C79_progress",
    "C79_ends",
    "C79_finishes",
    "C79_exclusive",
    "C79_callback_refuted",
    "C79_tree_refuted",
    "C79_rlock_refuted",
    "C79_two_trees_refuted",
    "C79_channel_refuted",
    "C79_validator_refuted",
    "C79_update_refuted",
    "C79_order_refuted"
   ],
   "note": "For every number of goroutines and objects and every program that obeys the rules of LockSpec (a table of which call may be made where), in every schedule: no deadlock, an end within a bound, mutual exclusion. The refutations show that each condition of the property is needed. SvSync.Stop (C53) is not among the calls."
  },
  {
   "property": "C80",
   "status": "proved",
   "theorems": [
    "C80_values",
    "C80_slot",
    "C80_paths",
    "C80_received_refuted",
    "C80_remake_refuted",
    "C80_prefix_refuted",
    "C80_failed_refuted",
    "C80_fullname_refuted"
   ],
   "note": "Components are values in this model: the bytes of their values, shared with packets, are not. Calls are taken one after the other. The _refuted theorems show, for all names, that each limit is needed."
  },
  {
   "property": "C81",
   "status": "proved",
   "theorems": [
    "C81_one_socket",
    "C81_face",
    "C81_fails_refuted",
    "C81_close_refuted",
    "C81_lost_refuted",
    "C81_handler_refuted",
    "C81_late_refuted",
    "C81_sim",
    "C81_sim_sent",
    "C81_sim_packets",
    "C81_sim_two_refuted",
    "C81_sim_error_refuted"
   ],
   "note": "The WebSocket of the browser is modelled as connecting, open or closed. The _refuted theorems show that the conditions are needed; C81_fails_refuted and C81_lost_refuted hold for all histories of their kind."
  },
  {
   "property": "C82",
   "status": "proved",
   "theorems": [
    "C82_once",
    "C82_cancelled",
    "C82_runs",
    "C82_results",
    "C82_ran_refuted",
    "C82_both_refuted",
    "C82_panic_refuted"
   ],
   "note": "All histories. What nil means and overlapping cancels: the refuted theorems. Package time as documented; a data race on the variable is taken as reads and writes in some order."
  },
  {
   "property": "C83",
   "status": "partial",
   "theorems": [
    "C83_first",
    "C83_last",
    "C83_only",
    "C83_returns",
    "C83_object_partial",
    "C83_config_refuted",
    "C83_zero_refuted",
    "C83_pipeline_refuted",
    "C83_other_refuted"
   ],
   "note": "All trials and results; the object clause under the restrictions of C37 (non-empty buffers and objects). The refuted theorems give the cases in which the statement fails."
  },
  {
   "property": "C84",
   "status": "partial",
   "theorems": [
    "C84_one_element_partial",
    "C84_same_covered_partial",
    "C84_two_data_refuted",
    "C84_engine_refuted"
   ],
   "note": "Proved for every byte string that is one Data element read from a BufferReader and every signed portion MakeData makes with short components; refuted for packets of two Data elements, also through the engine. Missing: packets of 4 TiB and more, readers over several buffers, signed portions other signers make (no MetaInfo, unknown elements inside)."
  },
  {
   "property": "C85",
   "status": "partial",
   "theorems": [
    "C85_one_element_partial",
    "C85_same_covered_partial",
    "C85_two_interests_refuted",
    "C85_engine_refuted"
   ],
   "note": "Proved of every packet of one Interest element that carries a SignatureInfo and a SignatureValue; refuted, for every hash function, of packets of two Interest elements. Missing: packets of 4 TiB and more, names with components of type 7 or of more than 252 bytes."
  },
  {
   "property": "C86",
   "status": "proved",
   "theorems": [
    "C86_read_name_exactly",
    "C86_name_from_bytes_exactly",
    "C86_cut_name",
    "C86_cut_component",
    "C86_cut_packet",
    "C86_cut_data",
    "C86_cut_interest",
    "C86_cut_field",
    "C86_cut_element_refuted",
    "C86_cut_stream"
   ],
   "note": "Sizes below 2^62 (names), 4 TiB (packets) and 2^48 (stream packets); packets in one buffer. The refuted theorem shows what the statement leaves out: a cut element whose value begins with a whole packet. C86_cut_field: number, time, byte string, string and wire fields as the first element of any model; a single byte and a boolean do not look at the announced length."
  },
  {
   "property": "C87",
   "status": "proved",
   "theorems": [
    "C87_full_name",
    "C87_full_name_stable",
    "C87_full_name_injective",
    "C87_empty_name_refuted"
   ],
   "note": "For every hash function. The empty name, outside the statement, panics. That the result may share memory with the given name is C80."
  },
  {
   "property": "C88",
   "status": "partial",
   "theorems": [
    "C88_runs",
    "C88_start_stop",
    "C88_down",
    "C88_express",
    "C88_fifo",
    "C88_handler",
    "C88_reply",
    "C88_called",
    "C88_data",
    "C88_unsent_refuted",
    "C88_restart_refuted"
   ],
   "note": "All clauses proved for every sequence of calls; the two expectations in brackets are refuted. Calls run one after the other; concurrent calls are the subject of C71-C73 and C79."
  },
  {
   "property": "C89",
   "status": "proved",
   "theorems": [
    "C89_component_text",
    "C89_canonical_text",
    "C89_name_text",
    "C89_component_read",
    "C89_name_read",
    "C89_parts_unique",
    "C89_variable_text",
    "C89_element_read",
    "C89_pattern_read",
    "C89_variable_canonical"
   ],
   "note": "Types of 2^63 and more are accepted by the reader (C45); the strings on which the readers panic are those of C11. Go strings are byte lists; the code looks at runes only by comparing with ASCII characters."
  }
 ]
}