{
 "claims": [
  {
   "property": "C01",
   "status": "proved",
   "theorems": [
    "C01_connect_layout"
   ],
   "note": "Exact bytes written, for every key, custom data and state in which the call succeeds."
  },
  {
   "property": "C02",
   "status": "proved",
   "theorems": [
    "C02_ack_layout"
   ],
   "note": ""
  },
  {
   "property": "C03",
   "status": "proved",
   "theorems": [
    "C03_user_message_format"
   ],
   "note": ""
  },
  {
   "property": "C04",
   "status": "proved",
   "theorems": [
    "C04_frames_unambiguous",
    "C04_wire_unambiguous",
    "C04_datagrams_unambiguous"
   ],
   "note": "Frames of different kinds or content differ, and a datagram has at most one reading."
  },
  {
   "property": "C05",
   "status": "proved",
   "theorems": [
    "C05_connect_canonical",
    "C05_ack_canonical"
   ],
   "note": "Both directions: an accepted CONNECT or ACK is the canonical datagram of its fields plus a signature that verifies."
  },
  {
   "property": "C06",
   "status": "proved",
   "theorems": [
    "C06_user_canonical"
   ],
   "note": "Authenticity is 'opens under the session key'; C61 adds the unforgeability hypothesis, C78 says when that hypothesis can fail."
  },
  {
   "property": "C07",
   "status": "proved",
   "theorems": [
    "C07_connect_round_trip",
    "C07_ack_round_trip",
    "C07_handshake"
   ],
   "note": ""
  },
  {
   "property": "C08",
   "status": "proved",
   "theorems": [
    "C08_user_round_trip",
    "C08_bad_keystream"
   ],
   "note": "Needs a key stream that does not start with four zero bytes (C08_bad_keystream shows what happens otherwise)."
  },
  {
   "property": "C09",
   "status": "proved",
   "theorems": [
    "C09_read_panics_iff",
    "C09_never_panics_refuted"
   ],
   "note": "Exact: the panicking datagrams are characterised by an independent grammar of datagrams."
  },
  {
   "property": "C10",
   "status": "proved",
   "theorems": [
    "C10_well_framed_total"
   ],
   "note": ""
  },
  {
   "property": "C11",
   "status": "proved",
   "theorems": [
    "C11_negotiation_iff",
    "C11_after_caught_panic_refuted"
   ],
   "note": ""
  },
  {
   "property": "C12",
   "status": "proved",
   "theorems": [
    "C12_at_most_once"
   ],
   "note": ""
  },
  {
   "property": "C13",
   "status": "proved",
   "theorems": [
    "C13_negotiation_order"
   ],
   "note": ""
  },
  {
   "property": "C14",
   "status": "proved",
   "theorems": [
    "C14_failure_is_permanent",
    "C14_failed_layer_is_inert"
   ],
   "note": ""
  },
  {
   "property": "C15",
   "status": "proved",
   "theorems": [
    "C15_read_fails_iff",
    "C15_fails_exactly"
   ],
   "note": ""
  },
  {
   "property": "C16",
   "status": "proved",
   "theorems": [
    "C16_refused_calls"
   ],
   "note": ""
  },
  {
   "property": "C17",
   "status": "proved",
   "theorems": [
    "C17_write_too_early"
   ],
   "note": ""
  },
  {
   "property": "C18",
   "status": "proved",
   "theorems": [
    "C18_internal_panics",
    "C18_missing_secret_iff",
    "C18_no_dev_panic_refuted"
   ],
   "note": "The naive claim (no reachable panic) is refuted; the exact condition is proved."
  },
  {
   "property": "C19",
   "status": "proved",
   "theorems": [
    "C19_secret_is_final",
    "C19_secret_origin",
    "C19_accepted_connect_decides"
   ],
   "note": ""
  },
  {
   "property": "C20",
   "status": "proved",
   "theorems": [
    "C20_pinned_key_only"
   ],
   "note": ""
  },
  {
   "property": "C21",
   "status": "proved",
   "theorems": [
    "C21_one_peer_key"
   ],
   "note": ""
  },
  {
   "property": "C22",
   "status": "proved",
   "theorems": [
    "C22_rejected_no_trace",
    "C22_forged_connect_pins",
    "C22_forged_connect_blocks",
    "C22_no_trace_refuted"
   ],
   "note": "The naive claim (a rejected datagram has no effect) is refuted; the exceptions are listed exactly."
  },
  {
   "property": "C23",
   "status": "proved",
   "theorems": [
    "C23_ack_fresh"
   ],
   "note": ""
  },
  {
   "property": "C24",
   "status": "proved",
   "theorems": [
    "C24_encryption_state"
   ],
   "note": ""
  },
  {
   "property": "C25",
   "status": "proved",
   "theorems": [
    "C25_kept_iff",
    "C25_kept",
    "C25_taken"
   ],
   "note": ""
  },
  {
   "property": "C26",
   "status": "proved",
   "theorems": [
    "C26_forged_early_ack"
   ],
   "note": "A weakness of the protocol, proved as such."
  },
  {
   "property": "C27",
   "status": "proved",
   "theorems": [
    "C27_replay_free",
    "C27_replay_free_handle"
   ],
   "note": ""
  },
  {
   "property": "C28",
   "status": "proved",
   "theorems": [
    "C28_acceptance_rule"
   ],
   "note": ""
  },
  {
   "property": "C29",
   "status": "proved",
   "theorems": [
    "C29_replay_memory_bounded"
   ],
   "note": ""
  },
  {
   "property": "C30",
   "status": "proved",
   "theorems": [
    "C30_sent_nonces",
    "C30_sent_nonces_handle"
   ],
   "note": ""
  },
  {
   "property": "C31",
   "status": "proved",
   "theorems": [
    "C31_failed_write_no_reuse",
    "C31_failed_write_prefix"
   ],
   "note": ""
  },
  {
   "property": "C32",
   "status": "proved",
   "theorems": [
    "C32_clone_sends_same_nonce",
    "C32_clone_replays"
   ],
   "note": ""
  },
  {
   "property": "C33",
   "status": "proved",
   "theorems": [
    "C33_send_panics",
    "C33_send_wraps",
    "C33_receive_panics",
    "C33_receive_wraps",
    "C33_send_counter_reaches",
    "C33_receive_counter_reaches",
    "C33_counters_safe"
   ],
   "note": "Both builds: with overflow checks the layer panics, without them the counter wraps."
  },
  {
   "property": "C34",
   "status": "proved",
   "theorems": [
    "C34_early_messages"
   ],
   "note": ""
  },
  {
   "property": "C35",
   "status": "proved",
   "theorems": [
    "C35_drain_too_early"
   ],
   "note": ""
  },
  {
   "property": "C36",
   "status": "proved",
   "theorems": [
    "C36_early_replay_loses_all",
    "C36_early_queue_grows"
   ],
   "note": "A weakness of the code, proved as such."
  },
  {
   "property": "C37",
   "status": "proved",
   "theorems": [
    "C37_same_secret"
   ],
   "note": ""
  },
  {
   "property": "C38",
   "status": "proved",
   "theorems": [
    "C38_derivation"
   ],
   "note": ""
  },
  {
   "property": "C39",
   "status": "proved",
   "theorems": [
    "C39_no_call_fails",
    "C39_no_call_fails_wider",
    "C39_bounded_reordering",
    "C39_network",
    "C39_inbox",
    "C39_established",
    "C39_negotiated",
    "C39_exactly_once",
    "C39_never_stuck"
   ],
   "note": "Every schedule of Spec/Network: any interleaving and reordering, as long as a message arrives while the receiver's window takes its number; C39_bounded_reordering gives a sufficient condition."
  },
  {
   "property": "C40",
   "status": "proved",
   "theorems": [
    "C40_reflection",
    "C40_self_negotiation"
   ],
   "note": "A weakness of the protocol, proved as such."
  },
  {
   "property": "C41",
   "status": "proved",
   "theorems": [
    "C41_misbinding"
   ],
   "note": "A weakness of the protocol, proved as such."
  },
  {
   "property": "C42",
   "status": "proved",
   "theorems": [
    "C42_keystream_reuse",
    "C42_written"
   ],
   "note": "A weakness of the code, proved as such; C78 is its counterpart for authenticity."
  },
  {
   "property": "C43",
   "status": "proved",
   "theorems": [
    "C43_connect",
    "C43_ack",
    "C43_message"
   ],
   "note": ""
  },
  {
   "property": "C44",
   "status": "proved",
   "theorems": [
    "C44_shape",
    "C44_content"
   ],
   "note": ""
  },
  {
   "property": "C45",
   "status": "proved",
   "theorems": [
    "C45_not_stranded",
    "C45_not_stranded_handle",
    "C45_refuted"
   ],
   "note": ""
  },
  {
   "property": "C46",
   "status": "proved",
   "theorems": [
    "C46_consumed",
    "C46_message",
    "C46_typed"
   ],
   "note": ""
  },
  {
   "property": "C47",
   "status": "proved",
   "theorems": [
    "C47_clones_cannot_negotiate"
   ],
   "note": ""
  },
  {
   "property": "C48",
   "status": "proved",
   "theorems": [
    "C48_unless_cloned",
    "C48_never_on_clone",
    "C48_read_independent",
    "C48_minimal_independent"
   ],
   "note": ""
  },
  {
   "property": "C49",
   "status": "proved",
   "theorems": [
    "C49_connect",
    "C49_ack",
    "C49_message",
    "C49_typed_reachable"
   ],
   "note": ""
  },
  {
   "property": "C50",
   "status": "proved",
   "theorems": [
    "C50_headers",
    "C50_decode",
    "C50_read",
    "C50_payload",
    "C50_disabled"
   ],
   "note": ""
  },
  {
   "property": "C51",
   "status": "proved",
   "theorems": [
    "C51_no_effect"
   ],
   "note": ""
  },
  {
   "property": "C52",
   "status": "proved",
   "theorems": [
    "C52_write_panics",
    "C52_message_panics",
    "C52_connect_panics"
   ],
   "note": "A weakness of the code, proved as such."
  },
  {
   "property": "C53",
   "status": "proved",
   "theorems": [
    "C53_connect",
    "C53_ack",
    "C53_message",
    "C53_minimal_message"
   ],
   "note": ""
  },
  {
   "property": "C54",
   "status": "proved",
   "theorems": [
    "C54_message",
    "C54_minimal_message",
    "C54_small_buffer_refuted",
    "C54_connect",
    "C54_ack",
    "C54_connect_truncated"
   ],
   "note": "That a writer with a small buffer gets the whole message is refuted; what it gets is proved."
  },
  {
   "property": "C55",
   "status": "proved",
   "theorems": [
    "C55_connect",
    "C55_ack",
    "C55_other_errors"
   ],
   "note": ""
  },
  {
   "property": "C56",
   "status": "proved",
   "theorems": [
    "C56_minimal",
    "C56_complete"
   ],
   "note": ""
  },
  {
   "property": "C57",
   "status": "proved",
   "theorems": [
    "C57_lost_message",
    "C57_first_message_lost",
    "C57_first_message_waits"
   ],
   "note": "A limit of the code, proved as such."
  },
  {
   "property": "C58",
   "status": "proved",
   "theorems": [
    "C58_junk",
    "C58_repeated_connect",
    "C58_repeated_ack"
   ],
   "note": ""
  },
  {
   "property": "C59",
   "status": "proved",
   "theorems": [
    "C59_connect_authentic",
    "C59_ack_authentic",
    "C59_established_authentic"
   ],
   "note": "Unforgeability of Ed25519 is a hypothesis on the datagrams the layer was given (unforged)."
  },
  {
   "property": "C60",
   "status": "proved",
   "theorems": [
    "C60_session_mixing",
    "C60_matching_session_refuted"
   ],
   "note": "A weakness of the protocol, proved as such."
  },
  {
   "property": "C61",
   "status": "proved",
   "theorems": [
    "C61_messages_authentic"
   ],
   "note": "Unforgeability of the tags is a hypothesis on the datagrams the layer was given (unforged_tags); see C78 for its limits."
  },
  {
   "property": "C62",
   "status": "proved",
   "theorems": [
    "C62_receiver",
    "C62_deterministic",
    "C62_delivered_once"
   ],
   "note": ""
  },
  {
   "property": "C63",
   "status": "proved",
   "theorems": [
    "C63_projection"
   ],
   "note": ""
  },
  {
   "property": "C64",
   "status": "proved",
   "theorems": [
    "C64_connect_authentic",
    "C64_ack_authentic",
    "C64_established_authentic",
    "C64_messages_authentic"
   ],
   "note": "Unforgeability is a hypothesis on the datagrams the layer was given; see C78 for its limits."
  },
  {
   "property": "C65",
   "status": "proved",
   "theorems": [
    "C65_receive_and_send_apart",
    "C65_send_and_receive_apart",
    "C65_complete_mode",
    "C65_clone_receives_alike_refuted",
    "C65_fail_together_refuted"
   ],
   "note": ""
  },
  {
   "property": "C66",
   "status": "proved",
   "theorems": [
    "C66_projection",
    "C66_connect_authentic",
    "C66_ack_authentic",
    "C66_established_authentic",
    "C66_messages_authentic",
    "C66_same_interface_refuted"
   ],
   "note": ""
  },
  {
   "property": "C67",
   "status": "proved",
   "theorems": [
    "C67_length_announced",
    "C67_prefix_free",
    "C67_glued_connect",
    "C67_glued_ack",
    "C67_glued_user",
    "C67_one_writer",
    "C67_glued_connect_complete",
    "C67_glued_ack_complete",
    "C67_one_writer_complete"
   ],
   "note": ""
  },
  {
   "property": "C68",
   "status": "proved",
   "theorems": [
    "C68_only_lengths",
    "C68_size",
    "C68_only_packed_lengths",
    "C68_complete_refuted"
   ],
   "note": "The naive claim for complete mode (equal data lengths give equal traffic) is refuted: compression shows."
  },
  {
   "property": "C69",
   "status": "proved",
   "theorems": [
    "C69_no_call_fails",
    "C69_no_call_fails_wider",
    "C69_network",
    "C69_inbox",
    "C69_established",
    "C69_exactly_once",
    "C69_never_stuck",
    "C69_any_build_refuted"
   ],
   "note": ""
  },
  {
   "property": "C70",
   "status": "proved",
   "theorems": [
    "C70_receiver",
    "C70_deterministic",
    "C70_returned_once",
    "C70_values_once"
   ],
   "note": ""
  },
  {
   "property": "C71",
   "status": "proved",
   "theorems": [
    "C71_refines",
    "C71_deterministic",
    "C71_view",
    "C71_no_hidden_state",
    "C71_order_forgotten"
   ],
   "note": ""
  },
  {
   "property": "C72",
   "status": "proved",
   "theorems": [
    "C72_refines",
    "C72_typed_refines",
    "C72_deterministic",
    "C72_typed_deterministic",
    "C72_view",
    "C72_no_hidden_state",
    "C72_typed_no_hidden_state",
    "C72_order_forgotten"
   ],
   "note": ""
  },
  {
   "property": "C73",
   "status": "proved",
   "theorems": [
    "C73_no_call_fails",
    "C73_inbox",
    "C73_asked",
    "C73_established",
    "C73_exactly_once",
    "C73_never_stuck"
   ],
   "note": ""
  },
  {
   "property": "C74",
   "status": "proved",
   "theorems": [
    "C74_builds_agree",
    "C74_same_life",
    "C74_complete_builds_agree",
    "C74_complete_same_life",
    "C74_honest",
    "C74_refuted"
   ],
   "note": ""
  },
  {
   "property": "C75",
   "status": "proved",
   "theorems": [
    "C75_harmless",
    "C75_lost",
    "C75_delivered",
    "C75_builds_agree",
    "C75_refuted"
   ],
   "note": ""
  },
  {
   "property": "C76",
   "status": "proved",
   "theorems": [
    "C76_memory",
    "C76_complete",
    "C76_replay",
    "C76_created",
    "C76_clone",
    "C76_settled",
    "C76_complete_settled",
    "C76_released",
    "C76_queue",
    "C76_bounded_refuted"
   ],
   "note": "The bound is in terms of the datagrams put aside; a bound by the configuration alone is refuted."
  },
  {
   "property": "C77",
   "status": "proved",
   "theorems": [
    "C77_exactly",
    "C77_complete_exactly",
    "C77_session_key",
    "C77_complete_session_key",
    "C77_eavesdrop",
    "C77_forge",
    "C77_waiting",
    "C77_seed"
   ],
   "note": "Rests on ring's Debug showing public halves only (RingDebug, RingDebugLaws)."
  },
  {
   "property": "C78",
   "status": "proved",
   "theorems": [
    "C78_forge",
    "C78_delivered"
   ],
   "note": "Rests on the tag being that of RFC 8439 (tags_are_poly1305); the cost of the attack is not modelled."
  },
  {
   "property": "C79",
   "status": "proved",
   "theorems": [
    "C79_minimal",
    "C79_complete",
    "C79_create",
    "C79_typed",
    "C79_unused"
   ],
   "note": "Both directions, as equivalences, for the minimal, binary and typed methods and for create. Errors that only in-memory writes or Ed25519 key construction could give (WriteError, FailtoGenSigKeyPair, a ZipError while compressing) are outside the model."
  },
  {
   "property": "C80",
   "status": "proved",
   "theorems": [
    "C80_traffic",
    "C80_symmetric",
    "C80_active_observer_refuted",
    "C80_complete_traffic",
    "C80_complete_symmetric"
   ],
   "note": "The traffic is a closed formula of keys, peer key and requests. C80_active_observer_refuted is the limit of the README's claim: an observer who sends a CONNECT of their own tells a pinned layer from an unpinned one."
  },
  {
   "property": "C81",
   "status": "proved",
   "theorems": [
    "C81_thief",
    "C81_complete_thief",
    "C81_authentic_later",
    "C81_before"
   ],
   "note": "Both modes against any set of further signatures; authenticity after the theft, and the impersonation when the theft comes first."
  },
  {
   "property": "C82",
   "status": "proved",
   "theorems": [
    "C82_numbers",
    "C82_reuse",
    "C82_one_writer",
    "C82_accounts",
    "C82_receiver",
    "C82_replay",
    "C82_one_reader",
    "C82_replay_refuted",
    "C82_complete_numbers",
    "C82_complete_reuse",
    "C82_complete_one_writer",
    "C82_complete_replay",
    "C82_complete_receiver"
   ],
   "note": "Both modes, any tree of clones: numbers, the exact condition of reuse, one writer, per-handle accounts, every further answer of a handle as the receiver of C62/C70 started with its own life, no replay in the past of a handle, one reader. That no message is delivered twice whatever the handles is refuted (C82_replay_refuted)."
  },
  {
   "property": "C83",
   "status": "proved",
   "theorems": [
    "C83_authentic",
    "C83_end_to_end",
    "C83_one_reader",
    "C83_any_readers_refuted",
    "C83_complete_authentic",
    "C83_complete_end_to_end",
    "C83_complete_one_reader"
   ],
   "note": "Unforgeability of the tags is a hypothesis on the datagrams the handles were given (unforged_datagrams); see C78 for its limits. C61 and C64 for families of handles; that a message is delivered once whatever the reading handles is refuted (C83_any_readers_refuted)."
  },
  {
   "property": "C84",
   "status": "proved",
   "theorems": [
    "C84_delivered_once",
    "C84_all_delivered",
    "C84_any_writers_refuted",
    "C84_complete_returned_once",
    "C84_complete_all_returned"
   ],
   "note": "The datagrams are those the writing handle put on its writers (posted, sposted), numbered by their places; the reading handle reads them one after the other. That any handles may write is refuted (C84_any_writers_refuted). The session's key stream must not start with four zero bytes, and the datagrams must fit the address space."
  },
  {
   "property": "C85",
   "status": "proved",
   "theorems": [
    "C85_written",
    "C85_typed_refused",
    "C85_typed_none",
    "C85_any_configuration_refuted"
   ],
   "note": "That it holds for any configuration is refuted (C85_any_configuration_refuted). The levels are those of flate2's Compression::none (0) and fast (1)."
  }
 ]
}