{
 "claims": [
  {
   "property": "C01",
   "status": "proved",
   "theorems": [
    "C01_handshake_roundtrip",
    "C01_alert_roundtrip",
    "C01_null_session_id_refuted"
   ],
   "note": "Messages with null ServerHello session id / NST nonce do not round-trip: C01_null_session_id_refuted."
  },
  {
   "property": "C02",
   "status": "proved",
   "theorems": [
    "C02_decode_canonical",
    "C02_decode_injective",
    "C02_alert_canonical",
    "C02_clienthello_exception_refuted",
    "C02_decode_total"
   ],
   "note": "The ClientHello exception is exhibited by C02_clienthello_exception_refuted."
  },
  {
   "property": "C03",
   "status": "proved",
   "theorems": [
    "C03_encode_exact",
    "C03_overflow_is_error",
    "C03_extension_exact"
   ],
   "note": ""
  },
  {
   "property": "C04",
   "status": "proved",
   "theorems": [
    "C04_extension_roundtrip",
    "C04_extension_absent",
    "C04_extension_strict",
    "C04_lenient_prefix",
    "C04_delegated_trailing_bytes_refuted",
    "C04_getExtension_total"
   ],
   "note": "DelegatedCredential, DelegatedCredentialSupport and TokenBindingParameters skip the end check (C04_delegated_trailing_bytes_refuted, C04_lenient_prefix); all others strict."
  },
  {
   "property": "C05",
   "status": "proved",
   "theorems": [
    "C05_plaintext_roundtrip",
    "C05_plaintext_wire",
    "C05_no_plaintext_appdata"
   ],
   "note": ""
  },
  {
   "property": "C06",
   "status": "proved",
   "theorems": [
    "C06_chunk_independence",
    "C06_need_more",
    "C06_complete_or_wait",
    "C06_read_event_chunks"
   ],
   "note": "AEAD abstract; for readEvent the AEAD is assumed not to lengthen ciphertexts."
  },
  {
   "property": "C07",
   "status": "proved",
   "theorems": [
    "C07_version_additional_data",
    "C07_encrypted_roundtrip"
   ],
   "note": "AEAD abstract with decrypt-inverts-encrypt as explicit hypothesis (met by toy_aead)."
  },
  {
   "property": "C08",
   "status": "proved",
   "theorems": [
    "C08_record_bounds",
    "C08_padding",
    "C08_max_record_unchecked_refuted"
   ],
   "note": "setMaxRecord above 2^14 is only DCHECKed: C08_max_record_unchecked_refuted shows the emitted record is then rejected by the peer."
  },
  {
   "property": "C09",
   "status": "proved",
   "theorems": [
    "C09_no_seq_reuse",
    "C09_refuse_at_max",
    "C09_key_install",
    "C09_nonce_injective",
    "C09_no_nonce_reuse"
   ],
   "note": ""
  },
  {
   "property": "C10",
   "status": "proved",
   "theorems": [
    "C10_accepted",
    "C10_nth_record",
    "C10_undecryptable",
    "C10_exhausted"
   ],
   "note": ""
  },
  {
   "property": "C11",
   "status": "proved",
   "theorems": [
    "C11_cut_independence",
    "C11_reassembly_plaintext",
    "C11_reassembly_encrypted",
    "C11_no_splicing",
    "C11_too_big",
    "C11_other_records"
   ],
   "note": ""
  },
  {
   "property": "C12",
   "status": "proved",
   "theorems": [
    "C12_plaintext_surface",
    "C12_plaintext_reject",
    "C12_plaintext_ccs",
    "C12_plaintext_skip",
    "C12_encrypted_surface",
    "C12_encrypted_reject",
    "C12_encrypted_ccs",
    "C12_inner_plaintext"
   ],
   "note": ""
  },
  {
   "property": "C13",
   "status": "proved",
   "theorems": [
    "C13_expand_is_rfc5869",
    "C13_expand_length",
    "C13_expand_prefix",
    "C13_hkdf_is_rfc5869"
   ],
   "note": ""
  },
  {
   "property": "C14",
   "status": "proved",
   "theorems": [
    "C14_hmac_is_rfc2104"
   ],
   "note": ""
  },
  {
   "property": "C15",
   "status": "proved",
   "theorems": [
    "C15_label_injective",
    "C15_overlong_rejected",
    "C15_expandLabel_is_rfc8446",
    "C15_length_narrowing_refuted"
   ],
   "note": ""
  },
  {
   "property": "C16",
   "status": "proved",
   "theorems": [
    "C16_refines_rfc8446",
    "C16_cleared_master_unreachable",
    "C16_key_updates"
   ],
   "note": ""
  },
  {
   "property": "C17",
   "status": "proved",
   "theorems": [
    "C17_in_order",
    "C17_no_reuse",
    "C17_failure_keeps_counter",
    "C17_roles",
    "C17_limit",
    "C17_limit_ciphertext_refuted",
    "C17_roundtrip"
   ],
   "note": ""
  },
  {
   "property": "C18",
   "status": "proved",
   "theorems": [
    "C18_transform_calls",
    "C18_transform_flat",
    "C18_blocks_calls",
    "C18_blocks_flat",
    "C18_block_size_checked",
    "C18_trimStart",
    "C18_trimBytes"
   ],
   "note": ""
  },
  {
   "property": "C19",
   "status": "proved",
   "theorems": [
    "C19_equal_iff"
   ],
   "note": ""
  },
  {
   "property": "C20",
   "status": "proved",
   "theorems": [
    "C20_hybrid_agreement",
    "C20_share_splitting",
    "C20_wrong_size_rejected",
    "C20_zero_size_refused",
    "C20_component_failure"
   ],
   "note": ""
  },
  {
   "property": "C21",
   "status": "proved",
   "theorems": [
    "C21_exact",
    "C21_no_false_negative",
    "C21_forgets",
    "C21_window",
    "C21_ttl_refuted",
    "C21_width",
    "C21_zero_cells_refuted"
   ],
   "note": "C21_ttl_refuted exhibits a replay that is missed although less than the constructor's TTL has passed (only 11 of 12 bucket widths are guaranteed); zero cells: C21_zero_cells."
  },
  {
   "property": "C22",
   "status": "proved",
   "theorems": [
    "C22_update",
    "C22_in_force",
    "C22_token_format",
    "C22_roundtrip",
    "C22_foreign_rejected",
    "C22_no_secrets",
    "C22_short_token",
    "C22_no_context_refuted"
   ],
   "note": "Round trip assumes that no earlier configured secret authenticates the token (the code tries secrets in order). A configuration without context strings aborts: C22_no_context."
  },
  {
   "property": "C23",
   "status": "proved",
   "theorems": [
    "C23_wire",
    "C23_roundtrip",
    "C23_lossless",
    "C23_old_formats",
    "C23_end_to_end"
   ],
   "note": "Times at one-second granularity as in the statement; ticket certificates abstract."
  },
  {
   "property": "C24",
   "status": "proved",
   "theorems": [
    "C24_issue",
    "C24_issue_maximal",
    "C24_accept",
    "C24_renewal",
    "C24_ticket_lifetime_not_enforced_refuted"
   ],
   "note": "The accept check does not enforce the ticket's own lifetime: C24_ticket_lifetime_not_enforced_refuted."
  },
  {
   "property": "C25",
   "status": "proved",
   "theorems": [
    "C25_encode",
    "C25_codec_roundtrip",
    "C25_stateless_retry",
    "C25_token_authentic"
   ],
   "note": ""
  },
  {
   "property": "C26",
   "status": "proved",
   "theorems": [
    "C26_clamp",
    "C26_total",
    "C26_roundtrip",
    "C26_pre_epoch_refuted"
   ],
   "note": "Times before the epoch do not survive: C26_pre_epoch_refuted."
  },
  {
   "property": "C27",
   "status": "proved",
   "theorems": [
    "C27_inclusion",
    "C27_binding",
    "C27_index_malleable_refuted"
   ],
   "note": "Index is only significant modulo 2^height (C27_index_malleable); trees up to 2^31 leaves; collision exhibited explicitly."
  },
  {
   "property": "C28",
   "status": "proved",
   "theorems": [
    "C28_slots",
    "C28_slots_distinct",
    "C28_progress",
    "C28_signed_once",
    "C28_verifies",
    "C28_zero_threshold",
    "C28_thread_local",
    "C28_scheme_agrees",
    "C28_first_scheme_refuted",
    "C28_signed_content"
   ],
   "note": "Threshold 1..2^30; every method body runs under the lock and is one atomic step of the model. C28_first_scheme: which scheme the constructor takes."
  },
  {
   "property": "C29",
   "status": "proved",
   "theorems": [
    "C29_tiers",
    "C29_flat"
   ],
   "note": ""
  },
  {
   "property": "C30",
   "status": "proved",
   "theorems": [
    "C30_select",
    "C30_sound",
    "C30_complete",
    "C30_exact_preferred",
    "C30_default",
    "C30_malformed_identity_refuted"
   ],
   "note": "Identities that are not well-formed host names are refuted by C30_malformed_identity; default certificate is looked up by key."
  },
  {
   "property": "C31",
   "status": "proved",
   "theorems": [
    "C31_duplicates",
    "C31_encrypted_extensions",
    "C31_server_hello",
    "C31_hello_retry_request",
    "C31_certificate_entry"
   ],
   "note": ""
  },
  {
   "property": "C32",
   "status": "proved",
   "theorems": [
    "C32_serial",
    "C32_fifo",
    "C32_after_error",
    "C32_after_terminal",
    "C32_paused",
    "C32_quiescent",
    "C32_progress",
    "C32_returned_iff_token",
    "C32_error_flush",
    "C32_late_write_refuted"
   ],
   "note": "Writes submitted after an error stay queued instead of failing (C32_late_write_refuted); C++ exceptions thrown by user callbacks not modelled."
  },
  {
   "property": "C33",
   "status": "proved",
   "theorems": [
    "C33_setup_agreement",
    "C33_setup_then_messages",
    "C33_psk_inputs",
    "C33_unknown_group",
    "C33_identifiers",
    "C33_export",
    "C33_export_too_long"
   ],
   "note": ""
  },
  {
   "property": "C34",
   "status": "proved",
   "theorems": [
    "C34_success",
    "C34_once",
    "C34_deliver",
    "C34_data_exact",
    "C34_data_prefix"
   ],
   "note": "AEAD, hash, signatures, key exchange, certificates, ticket cipher and clock are arbitrary functions of the environment; authenticity of records is not assumed."
  },
  {
   "property": "C35",
   "status": "proved",
   "theorems": [
    "C35_client_certificate"
   ],
   "note": ""
  },
  {
   "property": "C36",
   "status": "proved",
   "theorems": [
    "C36_early_data",
    "C36_rejected_skipped",
    "C36_retry_skipped"
   ],
   "note": ""
  },
  {
   "property": "C37",
   "status": "proved",
   "theorems": [
    "C37_flight",
    "C37_one_flight",
    "C37_retry",
    "C37_one_retry",
    "C37_retry_keeps"
   ],
   "note": ""
  },
  {
   "property": "C38",
   "status": "proved",
   "theorems": [
    "C38_psk"
   ],
   "note": ""
  },
  {
   "property": "C39",
   "status": "proved",
   "theorems": [
    "C39_error_final",
    "C39_alert",
    "C39_end_final"
   ],
   "note": ""
  },
  {
   "property": "C40",
   "status": "proved",
   "theorems": [
    "C40_secrets"
   ],
   "note": ""
  },
  {
   "property": "C41",
   "status": "proved",
   "theorems": [
    "C41_keys",
    "C41_key_update",
    "C41_boundary"
   ],
   "note": ""
  },
  {
   "property": "C42",
   "status": "proved",
   "theorems": [
    "C42_check",
    "C42_set_check",
    "C42_check_retry",
    "C42_set_check_retry"
   ],
   "note": "Hash assumed only to have fixed digest length (hash_ok)."
  },
  {
   "property": "C43",
   "status": "proved",
   "theorems": [
    "C43_layout",
    "C43_injective",
    "C43_not_tls12"
   ],
   "note": ""
  },
  {
   "property": "C44",
   "status": "proved",
   "theorems": [
    "C44_roundtrip",
    "C44_expansion_sound",
    "C44_server_outcome",
    "C44_scattered_outer_extensions",
    "C44_outer_value_wins"
   ],
   "note": "HPKE primitives abstract (good_factory, met by toy_fac). C44_scattered_outer_extensions: outer extension types that are not contiguous in the inner hello change the recovered hello; C44_outer_value_wins."
  },
  {
   "property": "C45",
   "status": "proved",
   "theorems": [
    "C45_aad_binds",
    "C45_trailing_not_bound"
   ],
   "note": "About the additional data; the AEAD's unforgeability is not modelled. Bytes after the payload in the extension are not bound by the decrypter (C45_trailing_not_bound), the server rejects them before."
  },
  {
   "property": "C46",
   "status": "proved",
   "theorems": [
    "C46_blocks",
    "C46_name_hidden",
    "C46_long_name_leaks",
    "C46_grease_psk",
    "C46_grease_hrr"
   ],
   "note": "Names longer than the maximum show: C46_long_name_leaks."
  },
  {
   "property": "C47",
   "status": "proved",
   "theorems": [
    "C47_public_name",
    "C47_negotiate",
    "C47_unknown_aead_throws",
    "C47_encode",
    "C47_config_roundtrip",
    "C47_config_canonical",
    "C47_parse",
    "C47_trailing_ignored",
    "C47_retry_configs",
    "C47_kem_hash_is_kdf_hash",
    "C47_kem_hash_not_rfc9180"
   ],
   "note": "C47_unknown_aead_throws, C47_trailing_ignored, C47_kem_hash_not_rfc9180 exhibit deviations."
  },
  {
   "property": "C48",
   "status": "proved",
   "theorems": [
    "C48_success",
    "C48_once"
   ],
   "note": ""
  },
  {
   "property": "C49",
   "status": "proved",
   "theorems": [
    "C49_parameters"
   ],
   "note": ""
  },
  {
   "property": "C50",
   "status": "proved",
   "theorems": [
    "C50_first",
    "C50_second",
    "C50_count",
    "C50_grease"
   ],
   "note": "With a GREASE ECH extension computed from the hello, pre_shared_key is not last: C50_grease."
  },
  {
   "property": "C51",
   "status": "proved",
   "theorems": [
    "C51_secrets"
   ],
   "note": ""
  },
  {
   "property": "C52",
   "status": "proved",
   "theorems": [
    "C52_keys",
    "C52_key_update",
    "C52_key_update_sent"
   ],
   "note": ""
  },
  {
   "property": "C53",
   "status": "proved",
   "theorems": [
    "C53_deliver",
    "C53_data_exact",
    "C53_data_prefix"
   ],
   "note": "After appClose during the handshake the client delivers data of an unauthenticated server: C53_unauthenticated (Example in PropsClientEx)."
  },
  {
   "property": "C54",
   "status": "proved",
   "theorems": [
    "C54_error_final",
    "C54_end_final",
    "C54_alert"
   ],
   "note": ""
  },
  {
   "property": "C55",
   "status": "proved",
   "theorems": [
    "C55_ticket"
   ],
   "note": ""
  },
  {
   "property": "C56",
   "status": "proved",
   "theorems": [
    "C56_secrets",
    "C56_data",
    "C56_reported",
    "C56_outcome",
    "C56_grease"
   ],
   "note": "With a GREASE ECH extension computed from the hello, the early secrets are not those of the ClientHello sent: C56_grease. Hypothesis psk_last of C56_secrets excludes it."
  },
  {
   "property": "C57",
   "status": "proved",
   "theorems": [
    "C57_public",
    "C57_hides",
    "C57_outcome",
    "C57_retry_configs"
   ],
   "note": "The alert ech_required goes out under handshake keys; retry configurations are reported before the server is authenticated (C57_retry_configs states only where they come from)."
  },
  {
   "property": "C58",
   "status": "proved",
   "theorems": [
    "C58_flight",
    "C58_before_success",
    "C58_change_cipher_spec"
   ],
   "note": ""
  },
  {
   "property": "C59",
   "status": "proved",
   "theorems": [
    "C59_flight",
    "C59_retry",
    "C59_fallback"
   ],
   "note": "Retry configurations after a stateless (cookie) retry with rejected ECH are not sent: this is part of the statement, following the code. Cryptography and certificates abstract."
  },
  {
   "property": "C60",
   "status": "proved",
   "theorems": [
    "C60_reports"
   ],
   "note": "The PSK type is reported Rejected (not NotSupported) when no psk mode is shared."
  },
  {
   "property": "C61",
   "status": "proved",
   "theorems": [
    "C61_ticket",
    "C61_sent",
    "C61_on_request"
   ],
   "note": "A client with no shared PSK mode still gets tickets; psk_kind says so."
  },
  {
   "property": "C62",
   "status": "proved",
   "theorems": [
    "C62_no_abort",
    "C62_cookie",
    "C62_ech",
    "C62_ticket"
   ],
   "note": "The hypotheses env_safe/world_safe say what the plugged-in objects promise; C62_cookie, C62_ech and C62_ticket show that fizz's own keep them. Memory safety of IOBuf and container code is not modelled. C62_needs_secret: a ticket cipher handing out a state without secret, or an absurd issue time, does abort."
  },
  {
   "property": "C63",
   "status": "proved",
   "theorems": [
    "C63_no_abort",
    "C63_own_psk"
   ],
   "note": "The hypotheses cenv_safe/cworld_safe/conn_safe say what the plugged-in objects promise. Memory safety of IOBuf and container code is not modelled. C63_needs_times: a stored PSK with an absurd handshake time, or a clock near 2^63 ns, does overflow. A ticket obtained on a connection with an external PSK inherits that PSK's handshake time, so C63_own_psk bounds that one too."
  },
  {
   "property": "C64",
   "status": "proved",
   "theorems": [
    "C64_exporter",
    "C64_server",
    "C64_client",
    "C64_client_null"
   ],
   "note": "The client's early export is not linked (the early exporter secret itself is C56)."
  },
  {
   "property": "C65",
   "status": "proved",
   "theorems": [
    "C65_sound",
    "C65_complete",
    "C65_declines",
    "C65_scheme",
    "C65_roundtrip",
    "C65_transport",
    "C65_accepted",
    "C65_bound",
    "C65_trailing",
    "C65_request"
   ],
   "note": "makePeerCert, SelfCert and the hash are parameters. Proved of the code though RFC 9261 differs: bytes after an accepted authenticator are ignored (C65_trailing), the Certificate's context is not compared with the request's (C65_context_unchecked, left to the caller), requests carry no handshake header and bytes after them are ignored (C65_request), a scheme the request does not list may be used (C65_unrequested), and before the exporter secret exists the finished key is a null pointer (C65_too_early)."
  },
  {
   "property": "C66",
   "status": "proved",
   "theorems": [
    "C66_sound",
    "C66_complete",
    "C66_unreadable",
    "C66_alerts",
    "C66_plain",
    "C66_binds",
    "C66_generated",
    "C66_expires",
    "C66_client",
    "C66_server",
    "C66_met",
    "C66_key_types_refuted",
    "C66_key_types_made",
    "C66_overflow",
    "C66_private_key_unchecked"
   ],
   "note": "OpenSSL's parsers and raw signature checks are parameters; the clock is given when the factory is called. Proved of the code though RFC 9345 differs or one might expect otherwise: the delegated key must have the type of the certificate's key, though a credential for another can be made (C66_key_types_refuted, C66_key_types_made); a peer-chosen notBefore overflows the time check before the chain is verified (C66_overflow), so this factory does not meet the hypothesis of C62/C63 that plugged-in certificates do not abort; the installed private key is not compared with the credential's (C66_private_key_unchecked)."
  },
  {
   "property": "C67",
   "status": "proved",
   "theorems": [
    "C67_choice",
    "C67_unoffered",
    "C67_preferred",
    "C67_met"
   ],
   "note": "The scheme of the credential's own signature is not compared with signature_algorithms."
  },
  {
   "property": "C68",
   "status": "proved",
   "theorems": [
    "C68_client",
    "C68_server"
   ],
   "note": "The premise is 'the Finished received is the Finished sent': that an attacker cannot produce it otherwise is the security of HMAC, outside this model. no_collision ranges over the listed strings only (no global collision-freeness, which is false). The client direction gives the application secrets (they are computed from the transcript through the server's Finished, which is agreed); the server direction gives the resumption secret. typed: code points have their C++ width, server randoms 32 bytes, the ECH decrypter returns the encoding of the hello it returns (ech_decrypter_encodes proves it of fizz's own)."
  },
  {
   "property": "C69",
   "status": "proved",
   "theorems": [
    "C69_history",
    "C69_safe",
    "C69_done",
    "C69_one",
    "C69_buffered",
    "C69_split",
    "C69_met",
    "C69_destroyed_met",
    "C69_over_reported",
    "C69_split_met"
   ],
   "note": "whist ranges over all histories of moves of the environment (AsyncWrite.v). wlegal is the specification of what may follow a log. C69_over_reported: a finding, while writeErr callbacks of failed queued writes run, getAppBytesBuffered still counts bytes of writes that are over. writeErr's count is of bytes handed down, not of bytes written to the network (the model's event says so). Byte counters other than the queue's and the exception passed are not modelled."
  },
  {
   "property": "C70",
   "status": "proved",
   "theorems": [
    "C70_order",
    "C70_error_last",
    "C70_rest",
    "C70_error_kept",
    "C70_error_first",
    "C70_pressure",
    "C70_safe",
    "C70_met",
    "C70_rest_met",
    "C70_truncation",
    "C70_overtaken",
    "C70_lost",
    "C70_hole",
    "C70_destroyed",
    "C70_destroyed_met",
    "C70_destroyed_met2",
    "C70_pressure_undone"
   ],
   "note": "rhist P ranges over all histories of moves of the environment satisfying P (AsyncRead.v). The restrictions no_nested_data, no_nested and safe_destroy are needed; findings: C70_truncation (an error overtakes data if the callback sets a read callback while it is given data), C70_overtaken and C70_lost (data that arrives then), C70_hole (data dropped if getReadBuffer fails), C70_destroyed (setReadCB holds no guard), C70_pressure_undone."
  },
  {
   "property": "C71",
   "status": "proved",
   "theorems": [
    "C71_match",
    "C71_history",
    "C71_stream",
    "C71_resent",
    "C71_limit",
    "C71_one",
    "C71_replay_safe",
    "C71_replay_callback",
    "C71_told",
    "C71_met",
    "C71_success_lost",
    "C71_retry_loop",
    "C71_empty_early"
   ],
   "note": "chist ranges over all histories of moves of the environment (callowed states what is assumed of the state machine and of the transport). legal is the specification of each event given the log before it; isReplaySafe, order and limit follow. Findings: C71_success_lost (with the fatal policy a write is reported successful though it never reached anybody), C71_retry_loop (deliverAllErrors goes on as long as a write callback writes again), C71_empty_early (an empty write is handed down as early data after its rejection)."
  },
  {
   "property": "C72",
   "status": "proved",
   "theorems": [
    "C72_validate",
    "C72_validate_supported",
    "C72_bound",
    "C72_message",
    "C72_message_canonical",
    "C72_created",
    "C72_versions",
    "C72_negotiate",
    "C72_client",
    "C72_multi",
    "C72_one_sided",
    "C72_malleable",
    "C72_trailing",
    "C72_pieces"
   ],
   "note": "OpenSSL's EC, ECDSA and Ed25519 and SHA-256 are arbitrary functions (tbossl); C72_created assumes that the key's encoding decodes and that its signatures verify. Findings: C72_one_sided (the server takes token binding to be negotiated although the client does not), C72_malleable (bytes appended to an ECDSA key or signature are ignored, so one key has many IDs; the extensions are not signed), C72_trailing, C72_pieces (an Ed25519 key that arrives in two buffers is refused)."
  },
  {
   "property": "C73",
   "status": "proved",
   "theorems": [
    "C73_get",
    "C73_retained",
    "C73_evicted",
    "C73_bounded",
    "C73_basic",
    "C73_threads",
    "C73_progress",
    "C73_basic_expired"
   ],
   "note": "folly::EvictingCacheMap is modelled by its documented behaviour; a thread's call is cut at the lock, each access to the map and the return. C73_get, C73_retained, C73_evicted, C73_bounded hold of concurrent histories by C73_threads. Findings: capacity 0 means no bound (px_zero); C73_basic_expired (BasicPskCache hands out expired PSKs; the client checks the expiry of resumption PSKs again, C40)."
  },
  {
   "property": "C74",
   "status": "proved",
   "theorems": [
    "C74_decompress",
    "C74_safe",
    "C74_roundtrip",
    "C74_wrong_algorithm",
    "C74_manager",
    "C74_supported",
    "C74_self_cert",
    "C74_client",
    "C74_too_long"
   ],
   "note": "zlib, brotli, zstd are arbitrary functions (clib); C74_roundtrip, C74_self_cert, C74_client assume that they decompress what they compressed if the buffer is large enough. Finding: C74_too_long (a chain of more than 128 KiB is compressed and then refused by every decompressor; uncompressed it would be refused by the record layer)."
  },
  {
   "property": "C75",
   "status": "proved",
   "theorems": [
    "C75_issue",
    "C75_primary",
    "C75_fallback",
    "C75_lenient",
    "C75_only",
    "C75_error"
   ],
   "note": "Finding: C75_lenient (a ticket that the first cipher finds too old is still taken by the second if that knows the secret and has a longer validity)."
  },
  {
   "property": "C76",
   "status": "proved",
   "theorems": [
    "C76_choice",
    "C76_none",
    "C76_unique"
   ],
   "note": "A SelfCert is an opaque value with its list of schemes."
  },
  {
   "property": "C77",
   "status": "proved",
   "theorems": [
    "C77_once",
    "C77_history",
    "C77_error",
    "C77_writes",
    "C77_write",
    "C77_v2",
    "C77_v2_disabled",
    "C77_failure",
    "C77_v2_split_refuted",
    "C77_close_silent_refuted"
   ],
   "note": "C77_history is the specification `legal` of each callback event against the events before it; C77_once counts callbacks; C77_error says what holds after a failure when all calls have returned; C77_writes/C77_write the fate of writes; C77_v2* the SSLv2 check. C77_v2_split_refuted and C77_close_silent_refuted show two stronger claims false of the code. The state machine's actions are arbitrary here (Server.v models it). C77_failure: once any failure has been raised and all calls have returned, the outcome has been delivered, every pending write is settled and the connection is not good."
  },
  {
   "property": "C78",
   "status": "proved",
   "theorems": [
    "C78_encrypt",
    "C78_decrypt",
    "C78_encrypt_memory",
    "C78_decrypt_memory",
    "C78_roundtrip",
    "C78_set_key",
    "C78_no_key",
    "C78_record",
    "C78_failed_overwrites_refuted",
    "C78_refused_leaves_plaintext_refuted",
    "C78_inplace"
   ],
   "note": "C78_encrypt/C78_decrypt equate encryptHelper/tryDecrypt over any chain with seal/unseal (one library call each on flat bytes), for libraries satisfying good_elib/good_dlib (AeadChainSpec.v: pieces compose; stream modes write what they are given, block modes whole blocks); C78_encrypt_memory/C78_decrypt_memory need no law. C78_record: refinement to the record layer model's flat AEAD. C78_stream_lib and C78_block_lib: concrete libraries that satisfy the laws."
  },
  {
   "property": "C79",
   "status": "proved",
   "theorems": [
    "C79_decode",
    "C79_message",
    "C79_history",
    "C79_once",
    "C79_safe",
    "C79_success",
    "C79_failure",
    "C79_agree",
    "C79_destroyed_in_close_refuted",
    "C79_same_version_refuted",
    "C79_nothing_lost_refuted"
   ],
   "note": "C79_history is the specification `legal` of each event of the operation against the events before it; C79_decode/C79_message the messages; C79_agree two ends. Three stronger claims are refuted by concrete histories: use after destruction from within closeNow, equal versions in both directions, and nothing the peer sends after its association being lost."
  },
  {
   "property": "C80",
   "status": "proved",
   "theorems": [
    "C80_params",
    "C80_convert",
    "C80_convert_rx",
    "C80_failure",
    "C80_delivers",
    "C80_other",
    "C80_spliced",
    "C80_data",
    "C80_tickets",
    "C80_end",
    "C80_bounded",
    "C80_safe",
    "C80_ticket",
    "C80_ticket_psk",
    "C80_callback_safe",
    "C80_rx_write",
    "C80_coalesced_refuted",
    "C80_truncation_refuted",
    "C80_no_exception_refuted",
    "C80_failure_harmless_refuted",
    "C80_write_answered_refuted"
   ],
   "note": "The kernel is specified by kernel_reads/kernel_nonce (linux/tls.h). Refuted by concrete cases: several tickets in one record are all delivered (the second is lost); the end of the stream is reported as orderly only after close_notify; no exception leaves the read function with fizz's own callback (a peer's malformed early_data extension does it); a failed conversion leaves the socket usable (documented, but false when the kernel refuses only the sending key); every write is answered (a write without data is not). The write queue of AsyncKTLSRxSocket (a copy of AsyncFizzBase's, C69) is not modelled."
  },
  {
   "property": "C81",
   "status": "proved",
   "theorems": [
    "C81_base64",
    "C81_roundtrip",
    "C81_both",
    "C81_wrong_mode",
    "C81_bad_credential",
    "C81_sound",
    "C81_total",
    "C81_met",
    "C81_preamble_refuted",
    "C81_crlf",
    "C81_throws",
    "C81_footer_first",
    "C81_trailing"
   ],
   "note": "Text is bytes; std::string::find, substr (throws out_of_range), replace and folly's base64 are modelled as they are. Refuted by concrete files: text before the key's label is overwritten instead of it and makes a file that does not load; std::out_of_range leaves the Status-returning loader; a footer before its header; trailing bytes after the credential."
  },
  {
   "property": "C82",
   "status": "proved",
   "theorems": [
    "C82_asked",
    "C82_wire",
    "C82_generates",
    "C82_safe",
    "C82_uniform",
    "C82_all_values",
    "C82_met",
    "C82_empty",
    "C82_too_long_refuted"
   ],
   "note": "C82_uniform/C82_all_values give the exact preimage of each value under the 64-bit draw (folly's modulo). C82_too_long_refuted: a setting may ask for a payload that cannot be encoded."
  },
  {
   "property": "C83",
   "status": "proved",
   "theorems": [
    "C83_unhexlify",
    "C83_refused",
    "C83_hexlify",
    "C83_injective",
    "C83_met"
   ],
   "note": ""
  },
  {
   "property": "C84",
   "status": "proved",
   "theorems": [
    "C84_labels",
    "C84_never",
    "C84_log_injective",
    "C84_line",
    "C84_met"
   ],
   "note": "The file is a byte string to which lines are appended; the mutex is not modelled."
  },
  {
   "property": "C85",
   "status": "proved",
   "theorems": [
    "C85_verify",
    "C85_alert",
    "C85_refused",
    "C85_total",
    "C85_create",
    "C85_set",
    "C85_callback",
    "C85_set_failed_refuted",
    "C85_authorities",
    "C85_empty_refuted",
    "C85_client",
    "C85_server",
    "C85_chain",
    "C85_client_alert",
    "C85_server_alert",
    "C85_met"
   ],
   "note": "OpenSSL (X509_STORE, X509_verify_cert) is a parameter: the theorems say what it is asked and what is done with its answer. There is no host name check, by design of the code. Refuted: a failed setX509Store replaces the store but keeps the old names (C85_set_failed_refuted); an empty store sends a certificate_authorities list with no name, against RFC 8446 4.2.4 (C85_empty_refuted)."
  },
  {
   "property": "C86",
   "status": "proved",
   "theorems": [
    "C86_describes",
    "C86_logging",
    "C86_transparent",
    "C86_refused",
    "C86_handled",
    "C86_unused_matters",
    "C86_stale_refuted"
   ],
   "note": "C86_transparent is about Server.handle_hello, which contains the possible exception of filling in the log; that a hello gone on with has the eight extensions readable is legal_hello's lh_readable, used by C58 and C59. C86_unused_matters: a malformed compress_certificate extension ends a connection that compresses nothing. C86_stale_refuted: after a retry the log may hold what the first hello said."
  },
  {
   "property": "C87",
   "status": "proved",
   "theorems": [
    "C87_groups",
    "C87_share",
    "C87_agree",
    "C87_answered",
    "C87_size",
    "C87_length",
    "C87_client_pure",
    "C87_clone",
    "C87_unkeyed",
    "C87_latest",
    "C87_fresh",
    "C87_failed_keeps",
    "C87_concat",
    "C87_failed_keeps_refuted",
    "C87_length_refuted"
   ],
   "note": "OpenSSL, libsodium and liboqs are parameters (KexObj.ossl, sodium, oqs), their randomness (draws) new at every call. C87_failed_keeps_refuted: a second, failing generateKeyPair of a hybrid's client leaves a share that is not the old pair's, and a second, failing generateSharedSecret of its server another ciphertext. C87_length_refuted: a shorter encoding of a P-256 point is taken if OpenSSL's EC_POINT_oct2point takes it (compressed points, which RFC 8446 4.2.8.2 forbids); example with toy libraries in C87_met."
  },
  {
   "property": "C88",
   "status": "proved",
   "theorems": [
    "C88_alpn",
    "C88_alpn_heaviest",
    "C88_alpn_heaviest_refuted",
    "C88_rotation",
    "C88_only",
    "C88_too_short",
    "C88_ticket",
    "C88_old_seals_refuted",
    "C88_x25519",
    "C88_curve",
    "C88_other",
    "C88_none",
    "C88_keypair"
   ],
   "note": "C88_alpn_heaviest_refuted: getAlpnsFromNpnList never updates maxWeight, so with weights 1, 9, 2 it returns the last list, not the heaviest (FizzUtil.h says 'we use the highest weighted list'). C88_too_short: createTicketCipher drops what setTicketSecrets returns, so one secret under 32 bytes, wherever listed, silently disables tickets. C88_old_seals_refuted: with an empty current secret the first old one seals. The PEM reader is a parameter; reading files and passwords is not modelled."
  },
  {
   "property": "C89",
   "status": "proved",
   "theorems": [
    "C89_padding",
    "C89_choice",
    "C89_none",
    "C89_answers",
    "C89_has",
    "C89_plain",
    "C89_order_refuted"
   ],
   "note": "C89_order_refuted: a delegated credential for our last scheme goes before a certificate for our first. The history theorems are over DualTicket.v's client::CertManager (C76)."
  },
  {
   "property": "C90",
   "status": "proved",
   "theorems": [
    "C90_parse",
    "C90_refused",
    "C90_roundtrip",
    "C90_printed",
    "C90_registered",
    "C90_distinct",
    "C90_not_parsed_back",
    "C90_list",
    "C90_list_throws"
   ],
   "note": "C90_not_parsed_back (with C90_batch): Parse-inl.h's maps do not name the batch schemes, RSA PKCS1, SHA-1 schemes, x448 and SecP256r1MLKEM768. Kyber's deprecated group names are left out of the model."
  },
  {
   "property": "C91",
   "status": "proved",
   "theorems": [
    "C91_port",
    "C91_port_throws",
    "C91_plain",
    "C91_host",
    "C91_host_throws"
   ],
   "note": "C91_lax: folly/std::stoul is strtoul: blanks, signs and trailing characters pass. std::stoul is modelled for the C locale and a 64-bit unsigned long."
  },
  {
   "property": "C92",
   "status": "proved",
   "theorems": [
    "C92_arguments",
    "C92_calls"
   ],
   "note": "C92_met shows that -v and -vmodule swallow the argument after them. Handlers and the usage function are taken to return."
  },
  {
   "property": "C93",
   "status": "proved",
   "theorems": [
    "C93_text",
    "C93_configs",
    "C93_published",
    "C93_extensions",
    "C93_extensions_throw"
   ],
   "note": "Which texts decode besides base64Encode's own is C81_base64. Reading files and JSON is not modelled."
  },
  {
   "property": "C94",
   "status": "proved",
   "theorems": [
    "C94_validate",
    "C94_shares",
    "C94_refused"
   ],
   "note": "Factory::makeAead is a parameter; FIZZ_CONTEXT_VALIDATION_SHOULD_CHECK_CIPHER is taken to be always true (its default)."
  },
  {
   "property": "C95",
   "status": "proved",
   "theorems": [
    "C95_peer",
    "C95_peer_verifies",
    "C95_self",
    "C95_empty_chain",
    "C95_self_signs",
    "C95_agree",
    "C95_binding",
    "C95_text",
    "C95_text_defined",
    "C95_identity",
    "C95_peer_refused",
    "C95_text_refused",
    "C95_serialized",
    "C95_trailing"
   ],
   "note": "OpenSSL is a parameter: each signing and checking sequence is one outcome. C95_trailing: what follows a peer's certificate is only logged. RSA keys of any size are accepted. C95_empty_chain: CertUtils::makeSelfCert calls front() on an empty vector."
  },
  {
   "property": "C96",
   "status": "proved",
   "theorems": [
    "C96_stream",
    "C96_once",
    "C96_answered",
    "C96_answered_nonempty",
    "C96_answered_refuted"
   ],
   "note": "The queue is a list (the pointers of the same queue are in C69); destruction and a failing record layer are not modelled. C96_answered_refuted: writeAppData drops the callback of an empty queued request, which then stays at the front of the queue."
  }
 ]
}