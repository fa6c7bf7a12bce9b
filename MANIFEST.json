{
 "claims": [
  {
   "property": "C01",
   "status": "proved",
   "theorems": [
    "C01_nonces_never_repeat",
    "C01_nonce_counter_never_wraps",
    "C01_node_nonces"
   ],
   "note": "First for a single session, then for all sessions of a whole node."
  },
  {
   "property": "C02",
   "status": "proved",
   "theorems": [
    "C02_directions_disjoint"
   ],
   "note": ""
  },
  {
   "property": "C03",
   "status": "proved",
   "theorems": [
    "C03_iv_injective",
    "C03_iv_not_key_derivation_iv",
    "C03_ctr_blocks_disjoint",
    "C03_ctr_key_derivation_disjoint"
   ],
   "note": "Packets up to 2^79 blocks; counter mode as specified for EVP_aes_128_ctr."
  },
  {
   "property": "C04",
   "status": "proved",
   "theorems": [
    "C04_at_most_once",
    "C04_at_most_once_refuted",
    "C04_bounded"
   ],
   "note": "Proved for all histories of packets of the peer. False when a node's own packets are reflected to it (witness); then at most 129 times."
  },
  {
   "property": "C05",
   "status": "proved",
   "theorems": [
    "C05_window_exact",
    "C05_no_undefined_shift",
    "C05_top_byte_refuted"
   ],
   "note": "Exact agreement with a history-based specification; the parity restriction in the quantifier is shown to be necessary."
  },
  {
   "property": "C06",
   "status": "proved",
   "theorems": [
    "C06_reflection_refuted",
    "C06_reflection_exactly"
   ],
   "note": "The original claim is false of the code; the exact condition for acceptance is proved."
  },
  {
   "property": "C07",
   "status": "proved",
   "theorems": [
    "C07_session_expires",
    "C07_superseded_expires",
    "C07_node_sessions_expire",
    "C07_node_superseded",
    "C07_null_refuted"
   ],
   "note": "False for the null methods, whose sessions never expire by themselves; proved for all other methods and all node executions. The 60 seconds after a newer session are proved for all methods."
  },
  {
   "property": "C08",
   "status": "proved",
   "theorems": [
    "C08_round_trip",
    "C08_encrypt_seals",
    "C08_null_round_trip",
    "C08_l2tp_encrypt",
    "C08_l2tp_decrypt"
   ],
   "note": "Every stream cipher and MAC; buffers with the headroom and alignment the callers provide."
  },
  {
   "property": "C09",
   "status": "proved",
   "theorems": [
    "C09_only_authentic_accepted"
   ],
   "note": "Unforgeability of the MACs themselves is not modelled."
  },
  {
   "property": "C10",
   "status": "proved",
   "theorems": [
    "C10_rejected_packet_intact",
    "C10_other_session_accepts"
   ],
   "note": ""
  },
  {
   "property": "C11",
   "status": "proved",
   "theorems": [
    "C11_ghash_input_injective",
    "C11_uhash_input_injective",
    "C11_uhash_hashes_input"
   ],
   "note": "Together with C15/C16/C17, which show that the code hashes exactly these inputs."
  },
  {
   "property": "C12",
   "status": "proved",
   "theorems": [
    "C12_packet_growth",
    "C12_l2tp_keepalive"
   ],
   "note": ""
  },
  {
   "property": "C13",
   "status": "proved",
   "theorems": [
    "C13_sha256_blocks",
    "C13_sha256_buffer"
   ],
   "note": ""
  },
  {
   "property": "C14",
   "status": "proved",
   "theorems": [
    "C14_hmac",
    "C14_hmac_blocks",
    "C14_hkdf_extract",
    "C14_hkdf_expand"
   ],
   "note": ""
  },
  {
   "property": "C15",
   "status": "proved",
   "theorems": [
    "C15_digest_is_ghash",
    "C15_too_long",
    "C15_field"
   ],
   "note": ""
  },
  {
   "property": "C16",
   "status": "proved",
   "theorems": [
    "C16_implementations_agree",
    "C16_digest_is_ghash"
   ],
   "note": "Intel's description of the vector instructions is part of the model."
  },
  {
   "property": "C17",
   "status": "proved",
   "theorems": [
    "C17_uhash_is_rfc4418",
    "C17_too_long",
    "C17_poly_step"
   ],
   "note": "Messages above 2^24 bytes, for which the code lacks the RFC's wider polynomial, stop the program."
  },
  {
   "property": "C18",
   "status": "proved",
   "theorems": [
    "C18_secure_memequal",
    "C18_block_equal",
    "C18_hmac_verify"
   ],
   "note": "Timing is not modelled."
  },
  {
   "property": "C19",
   "status": "proved",
   "theorems": [
    "C19_round_trip",
    "C19_composes",
    "C19_integers",
    "C19_mac_round_trip"
   ],
   "note": ""
  },
  {
   "property": "C20",
   "status": "proved",
   "theorems": [
    "C20_dispatch",
    "C20_parse_inside",
    "C20_handle_safe",
    "C20_field_reads_safe",
    "C20_handle_verdict"
   ],
   "note": ""
  },
  {
   "property": "C21",
   "status": "proved",
   "theorems": [
    "C21_init_fits",
    "C21_reply_fits",
    "C21_error_fits"
   ],
   "note": "A configuration whose records need more than 1232 bytes makes the daemon stop with exit_bug, as the property says."
  },
  {
   "property": "C22",
   "status": "proved",
   "theorems": [
    "C22_error_reply_unanswered"
   ],
   "note": ""
  },
  {
   "property": "C23",
   "status": "proved",
   "theorems": [
    "C23_initial_processed_once",
    "C23_initial_accepted",
    "C23_flag_without_header_ignored",
    "C23_no_flag_same",
    "C23_reply_once"
   ],
   "note": "Old nodes are other programs; only the format of the packet sent to them is covered."
  },
  {
   "property": "C24",
   "status": "proved",
   "theorems": [
    "C24_agreement",
    "C24_choice",
    "C24_config_order"
   ],
   "note": ""
  },
  {
   "property": "C25",
   "status": "proved",
   "theorems": [
    "C25_exchange_agrees",
    "C25_ephemeral_good",
    "C25_static_good",
    "C25_session_key",
    "C25_inputs_determined",
    "C25_nodes_agree"
   ],
   "note": "In any group with the laws listed in KexSpec; also for two whole nodes."
  },
  {
   "property": "C26",
   "status": "proved",
   "theorems": [
    "C26_session_needs_proof",
    "C26_connected_has_session"
   ],
   "note": "The MAC and the shared secret are universally quantified functions; unforgeability is not modelled."
  },
  {
   "property": "C27",
   "status": "proved",
   "theorems": [
    "C27_keys_used_once",
    "C27_keys_used_once_configured",
    "C27_keys_expire",
    "C27_dynamic_refuted"
   ],
   "note": "Proved for configured peers, as stated. For dynamic peers the refutation shows the same ephemeral key in two sessions."
  },
  {
   "property": "C28",
   "status": "proved",
   "theorems": [
    "C28_sessions_spaced",
    "C28_responses_paused",
    "C28_same_address_spaced",
    "C28_one_per_address_refuted"
   ],
   "note": "The unrestricted claim (one response per address) is refuted with a witness: only the last address is remembered."
  },
  {
   "property": "C29",
   "status": "proved",
   "theorems": [
    "C29_defined",
    "C29_suppressed_iff_recorded",
    "C29_current_cycle",
    "C29_no_second_handshake"
   ],
   "note": ""
  },
  {
   "property": "C30",
   "status": "proved",
   "theorems": [
    "C30_address_unique",
    "C30_received_by"
   ],
   "note": ""
  },
  {
   "property": "C31",
   "status": "proved",
   "theorems": [
    "C31_operations_defined",
    "C31_lookup_agrees",
    "C31_lookup_finds",
    "C31_lookup_denotes"
   ],
   "note": "With the hash function of the code, for all seeds."
  },
  {
   "property": "C32",
   "status": "proved",
   "theorems": [
    "C32_limits_kept",
    "C32_up_down_alternate",
    "C32_up_is_connected"
   ],
   "note": ""
  },
  {
   "property": "C33",
   "status": "proved",
   "theorems": [
    "C33_exact",
    "C33_known_destination",
    "C33_unknown_destination",
    "C33_forgotten_destination",
    "C33_multicast",
    "C33_never_back"
   ],
   "note": ""
  },
  {
   "property": "C34",
   "status": "proved",
   "theorems": [
    "C34_sorted",
    "C34_lookup",
    "C34_never_reused",
    "C41_result_source"
   ],
   "note": ""
  },
  {
   "property": "C35",
   "status": "proved",
   "theorems": [
    "C35_configured",
    "C35_kept",
    "C35_dropped",
    "C35_dynamic"
   ],
   "note": "For every reload in every execution of the node model."
  },
  {
   "property": "C36",
   "status": "proved",
   "theorems": [
    "C36_options",
    "C36_mtu",
    "C36_refuted"
   ],
   "note": "Everything but the MTU is applied; a change of the MTU alone is ignored."
  },
  {
   "property": "C37",
   "status": "proved",
   "theorems": [
    "C37_task",
    "C37_refuted"
   ],
   "note": "C37_task holds in every state reached without the two situations of C53; C37_refuted is the witness for a peer without remotes."
  },
  {
   "property": "C38",
   "status": "proved",
   "theorems": [
    "C38_task_scheduled",
    "C38_keepalive_sent",
    "C38_silent_dropped",
    "C38_not_dropped_early",
    "C38_dynamic_refuted"
   ],
   "note": "Proved for configured peers (keepalives for all). For verified peers a verification extends the time (witness)."
  },
  {
   "property": "C39",
   "status": "proved",
   "theorems": [
    "C39_operations",
    "C39_run",
    "C39_runs_compose",
    "C39_once_in_order",
    "C39_terminates",
    "C39_ordered"
   ],
   "note": ""
  },
  {
   "property": "C40",
   "status": "proved",
   "theorems": [
    "C40_limit_kept",
    "C40_slots_accounted",
    "C40_slot_returned_once",
    "C40_refused_only_full",
    "C40_recovers",
    "C40_one_result",
    "C40_limit_wait_error_refuted",
    "C40_result_sent_refuted"
   ],
   "note": "The limit assumes that waitpid does not fail; that this is needed is shown."
  },
  {
   "property": "C41",
   "status": "proved",
   "theorems": [
    "C41_verified_before",
    "C41_result_source",
    "C41_address_refuted"
   ],
   "note": "Key and time are proved; the address is not checked by the code (witness)."
  },
  {
   "property": "C42",
   "status": "proved",
   "theorems": [
    "C42_three_suffice",
    "C42_three_needed"
   ],
   "note": "over all choices a path through the functions can depend on; exits because of oversized packets are the subject of C43"
  },
  {
   "property": "C43",
   "status": "proved",
   "theorems": [
    "C43_receive_fatal_exactly",
    "C43_small_mtu_refuted",
    "C43_receive",
    "C43_receive_data",
    "C43_interface_to_peer",
    "C43_multiaf_interface_to_peer",
    "C43_keepalive",
    "C43_forward",
    "C43_received_payload_fits",
    "C43_mixed_forward_refuted"
   ],
   "note": "False for small MTUs (any datagram stops the daemon) and for forwarding between methods of different overhead; otherwise proved."
  },
  {
   "property": "C44",
   "status": "proved",
   "theorems": [
    "C44_reload_refuted",
    "C44_pool"
   ],
   "note": "False in TUN mode when a peer directory entry raises the maximal MTU after start."
  },
  {
   "property": "C45",
   "status": "proved",
   "theorems": [
    "C45_encrypt_safe",
    "C45_decrypt_safe",
    "C45_receive_path",
    "C45_control_header_refuted"
   ],
   "note": "False for a data packet behind a control header (misaligned block access); proved for all other paths."
  },
  {
   "property": "C46",
   "status": "proved",
   "theorems": [
    "C46_exact",
    "C46_chunking",
    "C46_wellformed",
    "C46_malformed",
    "C46_read_error",
    "C46_long_number_refuted"
   ],
   "note": "Exact for every contents and every splitting of the reads. The statement excepts numbers that fill the buffer: C46_long_number_refuted shows that the file is then cut silently."
  },
  {
   "property": "C47",
   "status": "proved",
   "theorems": [
    "C47_widen_lossless",
    "C47_simplify_lossless",
    "C47_simplify_denotes",
    "C47_widen_denotes",
    "C47_equal_iff_same",
    "C47_equal_hash",
    "C47_hash_defined",
    "C47_equivalence"
   ],
   "note": ""
  },
  {
   "property": "C48",
   "status": "proved",
   "theorems": [
    "C48_respected",
    "C48_kept",
    "C48_reload",
    "C48_refuted"
   ],
   "note": "Without reloads, and with reloads for addresses not in use; a reload may assign an address that another peer goes on using: witness."
  },
  {
   "property": "C49",
   "status": "proved",
   "theorems": [
    "C49_poll",
    "C49_handlers",
    "C49_epoll_refuted",
    "C49_epoll_misdirected_refuted",
    "C49_epoll_careful"
   ],
   "note": "Proved for poll and select; with epoll a freed object is accessed when a handler closes an object whose event comes later in the batch."
  },
  {
   "property": "C50",
   "status": "proved",
   "theorems": [
    "C50_snprintf_safe",
    "C50_vsnprintf",
    "C50_log_message",
    "C50_interface_name",
    "C50_no_interface_name",
    "C50_terminated_refuted",
    "C50_length_refuted"
   ],
   "note": "Log messages and interface names are terminated and bounded. fastd_vsnprintf alone does not terminate when literal text fills the buffer, and reports too large a length for an address cut off (witnesses)."
  },
  {
   "property": "C51",
   "status": "proved",
   "theorems": [
    "C51_pointer_array_refuted",
    "C51_pointer_array"
   ],
   "note": "The claim is false; the exact number of entries read behind the end is proved."
  },
  {
   "property": "C52",
   "status": "proved",
   "theorems": [
    "C52_environment_leak_refuted",
    "C52_environment_freed"
   ],
   "note": "False for refused verifications (leaked without bound); all other environments are freed, in all interleavings."
  },
  {
   "property": "C53",
   "status": "proved",
   "theorems": [
    "C53_no_crash",
    "C53_bound",
    "C53_refuted_bug",
    "C53_refuted_freed"
   ],
   "note": "A weakest-precondition proof over the whole node model. exit_fatal is not a crash. The refuted theorems are witnesses for the second exception, C37_refuted for the first."
  },
  {
   "property": "C54",
   "status": "proved",
   "theorems": [
    "C54_names",
    "C54_unambiguous",
    "C54_one_name",
    "C54_configured",
    "C54_preference",
    "C54_complete",
    "C54_empty_name_refuted"
   ],
   "note": "The empty name is the exception (witness)."
  },
  {
   "property": "C55",
   "status": "proved",
   "theorems": [
    "C55_vector_is_list",
    "C55_allocation",
    "C55_growing_stops",
    "C55_any_size_refuted"
   ],
   "note": "for sizes below 2^64/3; witness for larger ones"
  },
  {
   "property": "C56",
   "status": "proved",
   "theorems": [
    "C56_read_key",
    "C56_texts_of_a_key",
    "C56_hexdump",
    "C56_round_trip",
    "C56_describe"
   ],
   "note": ""
  },
  {
   "property": "C57",
   "status": "proved",
   "theorems": [
    "C57_environment",
    "C57_nearest_group",
    "C57_all_commands_refuted"
   ],
   "note": "the manual's promise about all commands is refuted by witnesses"
  },
  {
   "property": "C58",
   "status": "proved",
   "theorems": [
    "C58_reason",
    "C58_stays_up",
    "C58_forged_harmless",
    "C58_refuted_dynamic"
   ],
   "note": "the part about peers accepted by on-verify is refuted by a witness; the exact exception is part of C58_reason"
  },
  {
   "property": "C59",
   "status": "proved",
   "theorems": [
    "C59_answered",
    "C59_initiator_connects",
    "C59_responder_connects",
    "C59_connect"
   ],
   "note": "liveness of the three-packet handshake for configured peers; peers accepted by on verify are not covered"
  },
  {
   "property": "C60",
   "status": "proved",
   "theorems": [
    "C60_meaning",
    "C60_ranges",
    "C60_total",
    "C60_exit",
    "C60_self_include"
   ],
   "note": "grammar as recursive descent; equivalence with the generated LALR tables is trusted"
  },
  {
   "property": "C61",
   "status": "proved",
   "theorems": [
    "C61_meaning",
    "C61_help",
    "C61_total",
    "C61_ranges",
    "C61_scope_refuted",
    "C61_peer_name_refuted",
    "C61_default_level_refuted"
   ],
   "note": "the last three are the parts that are false, with witnesses"
  },
  {
   "property": "C62",
   "status": "proved",
   "theorems": [
    "C62_identity",
    "C62_groups",
    "C62_caps",
    "C62_irrevocable",
    "C62_order",
    "C62_events",
    "C62_commands",
    "C62_off",
    "C62_sufficient",
    "C62_off_refuted",
    "C62_mark_refuted",
    "C62_early_iface_refuted",
    "C62_ready_refuted",
    "C62_root_commands_refuted"
   ],
   "note": "the last five are the parts that are false, with witnesses"
  },
  {
   "property": "C63",
   "status": "proved",
   "theorems": [
    "C63_binding",
    "C63_responder",
    "C63_responder_always",
    "C63_once",
    "C63_initiator",
    "C63_offer",
    "C63_initiator_first_refuted"
   ],
   "note": "the last one is the part that is false, with a witness; perfect message authentication is a hypothesis of the theorems (`unforged`)"
  },
  {
   "property": "C64",
   "status": "proved",
   "theorems": [
    "C64_retry_scheduled",
    "C64_refresh_scheduled",
    "C64_not_postponed",
    "C64_turn",
    "C64_round"
   ],
   "note": ""
  },
  {
   "property": "C65",
   "status": "proved",
   "theorems": [
    "C65_lawful",
    "C65_lawful_meanwhile",
    "C65_ends_clean",
    "C65_present",
    "C65_ends_clean_after_error_refuted"
   ],
   "note": ""
  },
  {
   "property": "C66",
   "status": "proved",
   "theorems": [
    "C66_delivered",
    "C66_once",
    "C66_drained"
   ],
   "note": ""
  },
  {
   "property": "C67",
   "status": "proved",
   "theorems": [
    "C67_control_safe",
    "C67_reply",
    "C67_unknown_target",
    "C67_data",
    "C67_fits",
    "C67_fits_any",
    "C67_fits_refuted",
    "C67_closed"
   ],
   "note": "false in part: with separate sockets for both families the wrong one is used, see C67_fits_refuted"
  },
  {
   "property": "C68",
   "status": "proved",
   "theorems": [
    "C68_messages",
    "C68_texts",
    "C68_hidden",
    "C68_one_line",
    "C68_one_line_refuted",
    "C68_unknown_endless"
   ],
   "note": "false in part: the version sent by a peer is logged unescaped, see C68_one_line_refuted"
  },
  {
   "property": "C69",
   "status": "proved",
   "theorems": [
    "C69_status",
    "C69_sent",
    "C69_lock"
   ],
   "note": "json-c and inet_ntop trusted"
  },
  {
   "property": "C70",
   "status": "proved",
   "theorems": [
    "C70_served",
    "C70_stops",
    "C70_sleep",
    "C70_opens",
    "C70_opens_refuted",
    "C70_ends",
    "C70_exit_refuted",
    "C70_deferred",
    "C70_ignored",
    "C70_commands"
   ],
   "note": "rules of the kernel for signals and waiting are part of the model"
  },
  {
   "property": "C71",
   "status": "proved",
   "theorems": [
    "C71_safe",
    "C71_parent_refuted",
    "C71_resources",
    "C71_working",
    "C71_distinct",
    "C71_success_refuted",
    "C71_stuck",
    "C71_recovers_refuted"
   ],
   "note": "kernel side is modelled; C71_parent_refuted, C71_success_refuted and C71_recovers_refuted are the parts that are false"
  },
  {
   "property": "C72",
   "status": "proved",
   "theorems": [
    "C72_requests",
    "C72_reply",
    "C72_safe",
    "C72_overread_refuted",
    "C72_endless_refuted",
    "C72_junk_refuted",
    "C72_success_refuted",
    "C72_sessions"
   ],
   "note": "C72_overread_refuted, C72_endless_refuted, C72_junk_refuted and C72_success_refuted are the parts that are false"
  },
  {
   "property": "C73",
   "status": "proved",
   "theorems": [
    "C73_counters",
    "C73_totals",
    "C73_safe",
    "C73_frame",
    "C73_packet",
    "C73_live_sum_refuted",
    "C73_delivered_refuted",
    "C73_all_counted_refuted"
   ],
   "note": "C73_live_sum_refuted, C73_delivered_refuted and C73_all_counted_refuted are the parts that are false"
  },
  {
   "property": "C74",
   "status": "proved",
   "theorems": [
    "C74_accounts",
    "C74_safe",
    "C74_configured",
    "C74_device",
    "C74_failed",
    "C74_close",
    "C74_written",
    "C74_read",
    "C74_read_mtu_refuted",
    "C74_cipher_test_refuted",
    "C74_gives_up_refuted"
   ],
   "note": "C74_read_mtu_refuted, C74_cipher_test_refuted and C74_gives_up_refuted are the parts that are false"
  },
  {
   "property": "C75",
   "status": "proved",
   "theorems": [
    "C75_defined",
    "C75_one",
    "C75_total",
    "C75_back",
    "C75_ends_refuted",
    "C75_kept_refuted"
   ],
   "note": "C75_ends_refuted and C75_kept_refuted are the parts that are false"
  },
  {
   "property": "C76",
   "status": "proved",
   "theorems": [
    "C76_status",
    "C76_waited",
    "C76_not_stuck",
    "C76_calls",
    "C76_detached",
    "C76_commands",
    "C76_up_refuted",
    "C76_closed_refuted",
    "C76_stuck_refuted"
   ],
   "note": "C76_up_refuted, C76_closed_refuted and C76_stuck_refuted are the parts that are false"
  },
  {
   "property": "C77",
   "status": "proved",
   "theorems": [
    "C77_choice",
    "C77_refused",
    "C77_runs",
    "C77_found",
    "C77_safe",
    "C77_account",
    "C77_end",
    "C77_wiped",
    "C77_keys",
    "C77_cache",
    "C77_cache_refuted"
   ],
   "note": "C77_cache_refuted is the part that is false"
  },
  {
   "property": "C78",
   "status": "proved",
   "theorems": [
    "C78_safe",
    "C78_exit",
    "C78_account",
    "C78_refs",
    "C78_end",
    "C78_dropped",
    "C78_unchanged"
   ],
   "note": ""
  },
  {
   "property": "C79",
   "status": "proved",
   "theorems": [
    "C79_verify",
    "C79_generate",
    "C79_show",
    "C79_start",
    "C79_dry_run",
    "C79_shown",
    "C79_fresh",
    "C79_safe",
    "C79_verify_suffices_refuted",
    "C79_empty_name_refuted"
   ],
   "note": ""
  },
  {
   "property": "C80",
   "status": "proved",
   "theorems": [
    "C80_exact",
    "C80_only_sent",
    "C80_once",
    "C80_in_order",
    "C80_reflection_refuted"
   ],
   "note": ""
  },
  {
   "property": "C81",
   "status": "proved",
   "theorems": [
    "C81_safe",
    "C81_use",
    "C81_memory",
    "C81_forgotten",
    "C81_kept",
    "C81_cache",
    "C81_cleared",
    "C81_erased_refuted",
    "C81_late_response_refuted",
    "C81_cache_forgotten_refuted"
   ],
   "note": ""
  },
  {
   "property": "C82",
   "status": "proved",
   "theorems": [
    "C82_notify",
    "C82_answer",
    "C82_protected",
    "C82_interface",
    "C82_over",
    "C82_off",
    "C82_notify_long_refuted",
    "C82_early_refuted",
    "C82_closed_refuted",
    "C82_no_descriptor_refuted"
   ],
   "note": ""
  },
  {
   "property": "C83",
   "status": "proved",
   "theorems": [
    "C83_rounds",
    "C83_salsa20",
    "C83_salsa2012",
    "C83_inverse",
    "C83_distinct",
    "C83_wiped_refuted"
   ],
   "note": ""
  }
 ]
}