{
 "claims": [
  {
   "property": "C01",
   "status": "proved",
   "theorems": [
    "C01_sum_is_SM3"
   ],
   "note": "for every byte string"
  },
  {
   "property": "C02",
   "status": "proved",
   "theorems": [
    "C02_chunking"
   ],
   "note": ""
  },
  {
   "property": "C03",
   "status": "proved",
   "theorems": [
    "C03_history"
   ],
   "note": ""
  },
  {
   "property": "C04",
   "status": "proved",
   "theorems": [
    "C04_no_panic_sizes",
    "C04_constants"
   ],
   "note": ""
  },
  {
   "property": "C05",
   "status": "proved",
   "theorems": [
    "C05_roundtrip",
    "C05_size"
   ],
   "note": ""
  },
  {
   "property": "C06",
   "status": "proved",
   "theorems": [
    "C06_canonical",
    "C06_format"
   ],
   "note": ""
  },
  {
   "property": "C07",
   "status": "proved",
   "theorems": [
    "C07_injective",
    "C07_decoding_injective"
   ],
   "note": ""
  },
  {
   "property": "C08",
   "status": "proved",
   "theorems": [
    "C08_digest"
   ],
   "note": ""
  },
  {
   "property": "C09",
   "status": "proved",
   "theorems": [
    "C09_default_uid"
   ],
   "note": ""
  },
  {
   "property": "C10",
   "status": "proved",
   "theorems": [
    "C10_entl",
    "C10_entl_exact_iff",
    "C10_refuted",
    "C10_hash_input_injective"
   ],
   "note": "exact value hashed for every id; the standard's reading is refuted for ids of 8192 bytes or more"
  },
  {
   "property": "C11",
   "status": "proved",
   "theorems": [
    "C11_nonce",
    "C11_onto"
   ],
   "note": ""
  },
  {
   "property": "C12",
   "status": "proved",
   "theorems": [
    "C12_sign_verify",
    "C12_observable",
    "C12_is_signature"
   ],
   "note": ""
  },
  {
   "property": "C13",
   "status": "proved",
   "theorems": [
    "C13_message",
    "C13_message_rs",
    "C13_digest_der"
   ],
   "note": ""
  },
  {
   "property": "C14",
   "status": "proved",
   "theorems": [
    "C14_range"
   ],
   "note": ""
  },
  {
   "property": "C15",
   "status": "proved",
   "theorems": [
    "C15_outcomes",
    "C15_small_keys",
    "C15_last_key_panics"
   ],
   "note": ""
  },
  {
   "property": "C16",
   "status": "proved",
   "theorems": [
    "C16_rejects_range",
    "C16_rejects_range_message",
    "C16_total"
   ],
   "note": ""
  },
  {
   "property": "C17",
   "status": "proved",
   "theorems": [
    "C17_exact"
   ],
   "note": ""
  },
  {
   "property": "C18",
   "status": "proved",
   "theorems": [
    "C18_message_is_digest",
    "C18_methods"
   ],
   "note": ""
  },
  {
   "property": "C19",
   "status": "proved",
   "theorems": [
    "C19_method_swaps",
    "C19_method_on_genuine",
    "C19_refuted"
   ],
   "note": "stated as the exact behaviour; agreement of method and function is refuted"
  },
  {
   "property": "C20",
   "status": "proved",
   "theorems": [
    "C20_generate",
    "C20_outcomes"
   ],
   "note": ""
  },
  {
   "property": "C21",
   "status": "proved",
   "theorems": [
    "C21_zero_key_exactly",
    "C21_refuted"
   ],
   "note": "stated as the exact behaviour; 'never the zero key' is refuted"
  },
  {
   "property": "C22",
   "status": "proved",
   "theorems": [
    "C22_public_equal",
    "C22_private_equal"
   ],
   "note": ""
  },
  {
   "property": "C23",
   "status": "proved",
   "theorems": [
    "C23_add",
    "C23_scalar_mult",
    "C23_scalar_base_mult",
    "C23_group",
    "C23_order",
    "C23_distinct"
   ],
   "note": "generic Go 1.18 Jacobian code modelled line by line; full associativity proved"
  },
  {
   "property": "C24",
   "status": "proved",
   "theorems": [
    "C24_domain_parameters"
   ],
   "note": "Pocklington certificates checked in the kernel; [n]G=O computed"
  },
  {
   "property": "C25",
   "status": "proved",
   "theorems": [
    "C25_roundtrip"
   ],
   "note": ""
  },
  {
   "property": "C26",
   "status": "proved",
   "theorems": [
    "C26_exact",
    "C26_no_randomness",
    "C26_all_lengths_refuted"
   ],
   "note": ""
  },
  {
   "property": "C27",
   "status": "proved",
   "theorems": [
    "C27_empty"
   ],
   "note": ""
  },
  {
   "property": "C28",
   "status": "proved",
   "theorems": [
    "C28_layout"
   ],
   "note": ""
  },
  {
   "property": "C29",
   "status": "proved",
   "theorems": [
    "C29_one_block",
    "C29_general",
    "C29_too_short",
    "C29_two_blocks_refuted"
   ],
   "note": ""
  },
  {
   "property": "C30",
   "status": "proved",
   "theorems": [
    "C30_integrity",
    "C30_tampered_tag"
   ],
   "note": ""
  },
  {
   "property": "C31",
   "status": "proved",
   "theorems": [
    "C31_panics_iff"
   ],
   "note": ""
  },
  {
   "property": "C32",
   "status": "proved",
   "theorems": [
    "C32_first_byte"
   ],
   "note": ""
  },
  {
   "property": "C33",
   "status": "proved",
   "theorems": [
    "C33_exact",
    "C33_plaintext_released"
   ],
   "note": ""
  },
  {
   "property": "C34",
   "status": "proved",
   "theorems": [
    "C34_encode",
    "C34_length",
    "C34_roundtrip",
    "C34_decode_total",
    "C34_encode_injective",
    "C34_decode_terminator"
   ],
   "note": "range over a Go string is modelled by the UTF-8 decoder in Utf8.v; round trip for valid UTF-8"
  },
  {
   "property": "C35",
   "status": "proved",
   "theorems": [
    "C35_decrypt_encrypt",
    "C35_encrypt_decrypt",
    "C35_permutation"
   ],
   "note": ""
  },
  {
   "property": "C36",
   "status": "proved",
   "theorems": [
    "C36_key_schedule",
    "C36_encrypt",
    "C36_bad_lengths_panic"
   ],
   "note": "also characterises the panics outside the RFC ranges"
  },
  {
   "property": "C37",
   "status": "proved",
   "theorems": [
    "C37_pbkdf",
    "C37_low_count",
    "C37_length"
   ],
   "note": "hash is any function with 20-byte results (SHA-1 in the code)"
  },
  {
   "property": "C38",
   "status": "proved",
   "theorems": [
    "C38_encrypt_spec",
    "C38_roundtrip"
   ],
   "note": "SHA-1, HMAC-SHA1 and Triple-DES are parameters satisfying prims_ok; the key/IV derivation and CBC are specified in P12Spec.v"
  },
  {
   "property": "C39",
   "status": "proved",
   "theorems": [
    "C39_total",
    "C39_exact",
    "C39_bad_length"
   ],
   "note": "SHA-1, HMAC-SHA1 and Triple-DES are parameters satisfying prims_ok"
  },
  {
   "property": "C40",
   "status": "proved",
   "theorems": [
    "C40_verify",
    "C40_compute"
   ],
   "note": "SHA-1, HMAC-SHA1 and Triple-DES are parameters satisfying prims_ok"
  },
  {
   "property": "C41",
   "status": "proved",
   "theorems": [
    "C41_mac_first",
    "C41_decode"
   ],
   "note": "SHA-1, HMAC-SHA1 and Triple-DES are parameters satisfying prims_ok"
  },
  {
   "property": "C42",
   "status": "proved",
   "theorems": [
    "C42_wrong_password"
   ],
   "note": "SHA-1, HMAC-SHA1 and Triple-DES are parameters satisfying prims_ok"
  },
  {
   "property": "C43",
   "status": "proved",
   "theorems": [
    "C43_topem_drops_errors",
    "C43_refuted",
    "C43_wrong_password_no_error"
   ],
   "note": "the natural reading is refuted; exact behaviour proved"
  },
  {
   "property": "C44",
   "status": "proved",
   "theorems": [
    "C44_outcome",
    "C44_two_keys_accepted",
    "C44_two_certs_accepted",
    "C44_exactly_one_refuted"
   ],
   "note": "the natural reading is refuted; the exact outcome as a function of the bag list is proved"
  },
  {
   "property": "C45",
   "status": "proved",
   "theorems": [
    "C45_encode_decode",
    "C45_encode_decode_any",
    "C45_encode_fails"
   ],
   "note": "SHA-1, HMAC-SHA1 and Triple-DES are parameters satisfying prims_ok; certificate parsing is a parameter"
  },
  {
   "property": "C46",
   "status": "proved",
   "theorems": [
    "C46_success",
    "C46_errors",
    "C46_decode_error",
    "C46_unreadable_file"
   ],
   "note": ""
  },
  {
   "property": "C47",
   "status": "proved",
   "theorems": [
    "C47_topem_sm2"
   ],
   "note": ""
  },
  {
   "property": "C48",
   "status": "proved",
   "theorems": [
    "C48_pkcs8_sm2_roundtrip",
    "C48_sec1_roundtrip"
   ],
   "note": ""
  },
  {
   "property": "C49",
   "status": "proved",
   "theorems": [
    "C49_parse_sec1_valid",
    "C49_parse_pkcs8_valid",
    "C49_zero_accepted"
   ],
   "note": ""
  },
  {
   "property": "C50",
   "status": "proved",
   "theorems": [
    "C50_trailing_ignored",
    "C50_reject_trailing_refuted"
   ],
   "note": "the natural reading (trailing bytes rejected) is refuted"
  },
  {
   "property": "C51",
   "status": "proved",
   "theorems": [
    "C51_pkix_sm2_roundtrip",
    "C51_pkix_sound",
    "C51_pkix_trailing_rejected"
   ],
   "note": ""
  },
  {
   "property": "C52",
   "status": "proved",
   "theorems": [
    "C52_pkcs1_public_roundtrip",
    "C52_pkcs1_public_sound",
    "C52_pkcs1_public_trailing_rejected"
   ],
   "note": "encodings of at least 2^31 bytes excluded (encoding/asn1 cannot read them)"
  },
  {
   "property": "C53",
   "status": "proved",
   "theorems": [
    "C53_decision"
   ],
   "note": "RSA/ECDSA/Ed25519 primitives and the non-SM3 hashes are parameters; SM2 is the modelled verifier. bytes_ok: bytes are 0..255"
  },
  {
   "property": "C54",
   "status": "proved",
   "theorems": [
    "C54_ed25519_never_verifies",
    "C54_refuted"
   ],
   "note": ""
  },
  {
   "property": "C55",
   "status": "proved",
   "theorems": [
    "C55_sm2_key",
    "C55_ecdsa_key_under_sm2",
    "C55_refuted"
   ],
   "note": ""
  },
  {
   "property": "C56",
   "status": "proved",
   "theorems": [
    "C56_from",
    "C56_v1_parent"
   ],
   "note": ""
  },
  {
   "property": "C57",
   "status": "proved",
   "theorems": [
    "C57_consistent",
    "C57_families_mixed"
   ],
   "note": ""
  },
  {
   "property": "C58",
   "status": "proved",
   "theorems": [
    "C58_sm2_keys_refused",
    "C58_refuted"
   ],
   "note": "exact behaviour; the naive expectation is refuted"
  },
  {
   "property": "C59",
   "status": "proved",
   "theorems": [
    "C59_roundtrip",
    "C59_exact"
   ],
   "note": ""
  },
  {
   "property": "C60",
   "status": "proved",
   "theorems": [
    "C60_roundtrip",
    "C60_fields"
   ],
   "note": ""
  },
  {
   "property": "C61",
   "status": "proved",
   "theorems": [
    "C61_roundtrip",
    "C61_canonical",
    "C61_self_delimiting"
   ],
   "note": ""
  },
  {
   "property": "C62",
   "status": "proved",
   "theorems": [
    "C62_table",
    "C62_known",
    "C62_encodes",
    "C62_roundtrip"
   ],
   "note": ""
  },
  {
   "property": "C63",
   "status": "proved",
   "theorems": [
    "C63_roundtrip"
   ],
   "note": ""
  },
  {
   "property": "C64",
   "status": "proved",
   "theorems": [
    "C64_encodes",
    "C64_roundtrip",
    "C64_parsed",
    "C64_bad_ip"
   ],
   "note": ""
  },
  {
   "property": "C65",
   "status": "proved",
   "theorems": [
    "C65_prefix_masks"
   ],
   "note": ""
  },
  {
   "property": "C66",
   "status": "proved",
   "theorems": [
    "C66_labels",
    "C66_trailing_dot"
   ],
   "note": ""
  },
  {
   "property": "C67",
   "status": "proved",
   "theorems": [
    "C67_mailbox",
    "C67_simple",
    "C67_empty_domain"
   ],
   "note": "C67_empty_domain: an address with an empty domain is accepted"
  },
  {
   "property": "C68",
   "status": "proved",
   "theorems": [
    "C68_printable",
    "C68_strings",
    "C68_total"
   ],
   "note": ""
  },
  {
   "property": "C69",
   "status": "proved",
   "theorems": [
    "C69_reverse",
    "C69_reverse_byte",
    "C69_bit_length",
    "C69_all_zero"
   ],
   "note": ""
  },
  {
   "property": "C70",
   "status": "proved",
   "theorems": [
    "C70_exact",
    "C70_trailing_data"
   ],
   "note": ""
  },
  {
   "property": "C71",
   "status": "proved",
   "theorems": [
    "C71_concatenation",
    "C71_exact"
   ],
   "note": ""
  },
  {
   "property": "C72",
   "status": "proved",
   "theorems": [
    "C72_same_algorithm",
    "C72_version_overflow"
   ],
   "note": ""
  },
  {
   "property": "C73",
   "status": "proved",
   "theorems": [
    "C73_unhandled",
    "C73_certificate"
   ],
   "note": ""
  },
  {
   "property": "C74",
   "status": "proved",
   "theorems": [
    "C74_verify",
    "C74_no_panic",
    "C74_ignored_fields"
   ],
   "note": "pkix.CertificateList is an arbitrary codec (no_panic: one that does not panic)."
  },
  {
   "property": "C75",
   "status": "proved",
   "theorems": [
    "C75_callback",
    "C75_roundtrip"
   ],
   "note": "asn1.Marshal(time.Now()) is an arbitrary byte string. Messages below 2^31 bytes."
  },
  {
   "property": "C76",
   "status": "proved",
   "theorems": [
    "C76_replay_refuted"
   ],
   "note": "The property as first thought of is false; the theorem builds the forged message for every accepted signer with attributes, C76_forged shows it end to end on a concrete message."
  },
  {
   "property": "C77",
   "status": "proved",
   "theorems": [
    "C77_sorted",
    "C77_success",
    "C77_order_independent"
   ],
   "note": ""
  },
  {
   "property": "C78",
   "status": "proved",
   "theorems": [
    "C78_only_signer"
   ],
   "note": ""
  },
  {
   "property": "C79",
   "status": "proved",
   "theorems": [
    "C79_malformed",
    "C79_verified",
    "C79_garbage_refuted"
   ],
   "note": "The rejection claim is refuted; what holds is proved."
  },
  {
   "property": "C80",
   "status": "proved",
   "theorems": [
    "C80_guards",
    "C80_each_guard"
   ],
   "note": "Before is related to a count of nanoseconds of the Gregorian calendar (X509Time.v)"
  },
  {
   "property": "C81",
   "status": "proved",
   "theorems": [
    "C81_one_digest"
   ],
   "note": ""
  },
  {
   "property": "C82",
   "status": "proved",
   "theorems": [
    "C82_unique"
   ],
   "note": ""
  },
  {
   "property": "C83",
   "status": "proved",
   "theorems": [
    "C83_pkcs1_private_roundtrip",
    "C83_two_primes_encoded",
    "C83_pkcs1_private_sound",
    "C83_pkcs1_private_trailing_rejected",
    "C83_encoding"
   ],
   "note": ""
  },
  {
   "property": "C84",
   "status": "proved",
   "theorems": [
    "C84_pkcs8_ecdsa_roundtrip",
    "C84_pkcs8_rsa_roundtrip",
    "C84_pkcs8_ed25519_roundtrip",
    "C84_pkix_ecdsa_roundtrip",
    "C84_pkix_rsa_roundtrip",
    "C84_pkix_ed25519_roundtrip"
   ],
   "note": ""
  },
  {
   "property": "C85",
   "status": "proved",
   "theorems": [
    "C85_roundtrip",
    "C85_mixed_mask"
   ],
   "note": ""
  },
  {
   "property": "C86",
   "status": "proved",
   "theorems": [
    "C86_key_ids",
    "C86_authority_info",
    "C86_distribution_points"
   ],
   "note": ""
  },
  {
   "property": "C87",
   "status": "proved",
   "theorems": [
    "C87_template"
   ],
   "note": ""
  },
  {
   "property": "C88",
   "status": "proved",
   "theorems": [
    "C88_extra_extensions"
   ],
   "note": ""
  },
  {
   "property": "C89",
   "status": "proved",
   "theorems": [
    "C89_hidden_bytes"
   ],
   "note": ""
  },
  {
   "property": "C90",
   "status": "proved",
   "theorems": [
    "C90_no_panic",
    "C90_parameters"
   ],
   "note": ""
  },
  {
   "property": "C91",
   "status": "proved",
   "theorems": [
    "C91_callback_failure",
    "C91_signing_failure"
   ],
   "note": ""
  },
  {
   "property": "C92",
   "status": "proved",
   "theorems": [
    "C92_revocation_list"
   ],
   "note": ""
  },
  {
   "property": "C93",
   "status": "proved",
   "theorems": [
    "C93_create_crl"
   ],
   "note": ""
  },
  {
   "property": "C94",
   "status": "proved",
   "theorems": [
    "C94_decision",
    "C94_revocation_list_verifies",
    "C94_create_crl_verifies",
    "C94_sm2_prehash",
    "C94_refuted"
   ],
   "note": "includes a concrete refutation for SM2"
  },
  {
   "property": "C95",
   "status": "proved",
   "theorems": [
    "C95_request"
   ],
   "note": "hypotheses: good_pub (positive RSA parameters, curve points), values that survive interface{} (strings, ints, OIDs, byte strings), no template attribute of type extensionRequest, no explicit SAN extension; C95_nonvacuous is a concrete template"
  },
  {
   "property": "C96",
   "status": "proved",
   "theorems": [
    "C96_merged",
    "C96_two_values_refuted"
   ],
   "note": "the two-valued case is refuted by a concrete request"
  },
  {
   "property": "C97",
   "status": "proved",
   "theorems": [
    "C97_decision",
    "C97_verifies",
    "C97_pss",
    "C97_sm2",
    "C97_pss_refuted",
    "C97_sm2_refuted"
   ],
   "note": "request_read (established by C95_request and C96_merged) ties the parsed request to the signer; PSS and SM2 requests are characterised exactly and refuted as a promise"
  },
  {
   "property": "C98",
   "status": "proved",
   "theorems": [
    "C98_no_panic"
   ],
   "note": ""
  },
  {
   "property": "C99",
   "status": "proved",
   "theorems": [
    "C99_created"
   ],
   "note": "extra extensions must not reuse an identifier the library interprets (C88 covers those)"
  },
  {
   "property": "C100",
   "status": "proved",
   "theorems": [
    "C100_extensions"
   ],
   "note": ""
  },
  {
   "property": "C101",
   "status": "proved",
   "theorems": [
    "C101_guards",
    "C101_sm2_private_key_refused",
    "C101_ed25519_refused"
   ],
   "note": ""
  },
  {
   "property": "C102",
   "status": "proved",
   "theorems": [
    "C102_chain",
    "C102_self_signed"
   ],
   "note": ""
  },
  {
   "property": "C103",
   "status": "proved",
   "theorems": [
    "C103_topem_of_encode",
    "C103_topem_rsa"
   ],
   "note": ""
  },
  {
   "property": "C104",
   "status": "proved",
   "theorems": [
    "C104_blocks",
    "C104_refused",
    "C104_friendly_name"
   ],
   "note": ""
  },
  {
   "property": "C105",
   "status": "proved",
   "theorems": [
    "C105_history",
    "C105_private",
    "C105_write_frame",
    "C105_sum3_frame",
    "C105_sum_frame"
   ],
   "note": "memory model Mem.v: arrays, slices as windows with capacity, append in place"
  },
  {
   "property": "C106",
   "status": "proved",
   "theorems": [
    "C106_encryt",
    "C106_decryt",
    "C106_decryt_short",
    "C106_short_depends_on_capacity"
   ],
   "note": "refines the list models of C25-C33"
  },
  {
   "property": "C107",
   "status": "proved",
   "theorems": [
    "C107_pbkdf",
    "C107_kdf"
   ],
   "note": "hash function with nonempty output is a parameter; bytes.Repeat, copy and append as in the Go specification"
  },
  {
   "property": "C108",
   "status": "proved",
   "theorems": [
    "C108_rc2_encrypt",
    "C108_rc2_roundtrip",
    "C108_rc2_short"
   ],
   "note": ""
  },
  {
   "property": "C109",
   "status": "proved",
   "theorems": [
    "C109_encrypt",
    "C109_decrypt",
    "C109_cbc_in_place"
   ],
   "note": "SHA-1 and DES are parameters with prims_ok; crypto/cipher CBC modelled from the standard library; asn1.Unmarshal of the parameters by the list model"
  },
  {
   "property": "C110",
   "status": "proved",
   "theorems": [
    "C110_validity",
    "C110_asn1",
    "C110_function"
   ],
   "note": "parseValidity and the time grammar of Go 1.18 (time.Parse with the layouts used) as an iff with an inductive grammar."
  },
  {
   "property": "C111",
   "status": "proved",
   "theorems": [
    "C111_registry",
    "C111_start"
   ],
   "note": "A constructor is modelled by its use f(); Write(data); Sum(nil)."
  },
  {
   "property": "C112",
   "status": "proved",
   "theorems": [
    "C112_accept",
    "C112_panic",
    "C112_initial"
   ],
   "note": "checkSignature with the registry as state; C112_initial ties it to the model behind C53."
  },
  {
   "property": "C113",
   "status": "proved",
   "theorems": [
    "C113_names",
    "C113_size"
   ],
   "note": "MD4 has a size but no name (its String is 'unknown hash value 1')."
  },
  {
   "property": "C114",
   "status": "proved",
   "theorems": [
    "C114_equal",
    "C114_parse_crl"
   ],
   "note": "encoding/pem's Decode is a parameter."
  },
  {
   "property": "C115",
   "status": "proved",
   "theorems": [
    "C115_signature_algorithm",
    "C115_unambiguous",
    "C115_pss_der",
    "C115_key_algorithm",
    "C115_certificate"
   ],
   "note": ""
  },
  {
   "property": "C116",
   "status": "proved",
   "theorems": [
    "C116_curves_good",
    "C116_scalar_base_mult",
    "C116_parsed_keys",
    "C116_roundtrip"
   ],
   "note": "The primality of the five field primes is proved by Pocklington certificates (NistPrimes.v, Primes.v). The NIST curves are represented by generic CurveParams arithmetic."
  },
  {
   "property": "C117",
   "status": "proved",
   "theorems": [
    "C117_key_parsers"
   ],
   "note": ""
  },
  {
   "property": "C118",
   "status": "proved",
   "theorems": [
    "C118_decode_total",
    "C118_topem_total",
    "C118_sm2_decrypt_total",
    "C118_decodeall_x509"
   ],
   "note": "Decode and SM2P12Decrypt: for every certificate parser that does not panic; C118_decodeall_x509 instantiates this module's own."
  },
  {
   "property": "C119",
   "status": "proved",
   "theorems": [
    "C119_keys",
    "C119_private_keys",
    "C119_signature",
    "C119_lists",
    "C119_certificate",
    "C119_certificates",
    "C119_pkcs7",
    "C119_pkcs12"
   ],
   "note": ""
  },
  {
   "property": "C120",
   "status": "proved",
   "theorems": [
    "C120_success",
    "C120_history",
    "C120_not_atomic"
   ],
   "note": "A file is modelled as keeping a prefix of what was written to it; nobody else writes to it. Certificates below 2^28 bytes."
  },
  {
   "property": "C121",
   "status": "proved",
   "theorems": [
    "C121_sec1",
    "C121_pkcs8",
    "C121_pkix",
    "C121_sign_lost"
   ],
   "note": "The RSA clause is about keys whose primes are above 1."
  },
  {
   "property": "C122",
   "status": "proved",
   "theorems": [
    "C122_untouched",
    "C122_template",
    "C122_same_result"
   ],
   "note": ""
  },
  {
   "property": "C123",
   "status": "proved",
   "theorems": [
    "C123_call",
    "C123_history"
   ],
   "note": ""
  },
  {
   "property": "C124",
   "status": "proved",
   "theorems": [
    "C124_parsed",
    "C124_issued",
    "C124_file"
   ],
   "note": ""
  },
  {
   "property": "C125",
   "status": "proved",
   "theorems": [
    "C125_alone",
    "C125_results",
    "C125_stable",
    "C125_no_race",
    "C125_progress",
    "C125_terminates",
    "C125_completes"
   ],
   "note": ""
  },
  {
   "property": "C126",
   "status": "proved",
   "theorems": [
    "C126_nonce_even",
    "C126_key_even"
   ],
   "note": ""
  },
  {
   "property": "C127",
   "status": "proved",
   "theorems": [
    "C127_nonce_reuse",
    "C127_nonce_known",
    "C127_keystream_reuse"
   ],
   "note": ""
  },
  {
   "property": "C128",
   "status": "proved",
   "theorems": [
    "C128_exact",
    "C128_sm2",
    "C128_extra",
    "C128_written"
   ],
   "note": "C128_extra refutes uniqueness of the encoding"
  },
  {
   "property": "C129",
   "status": "proved",
   "theorems": [
    "C129_reader",
    "C129_fuel",
    "C129_logged",
    "C129_pieces",
    "C129_last_error",
    "C129_waits"
   ],
   "note": "io.ReadFull and elliptic.GenerateKey (Go 1.18) are modelled from their sources"
  },
  {
   "property": "C130",
   "status": "proved",
   "theorems": [
    "C130_call",
    "C130_digest",
    "C130_history",
    "C130_private"
   ],
   "note": "the big-integer part of signing and verifying is the byte-level model applied to the bytes read; big integers themselves are the subject of C123"
  },
  {
   "property": "C131",
   "status": "proved",
   "theorems": [
    "C131_sec1",
    "C131_pkcs8",
    "C131_trailing",
    "C131_scalar_decides",
    "C131_outer_curve"
   ],
   "note": "exact grammar of the accepted encodings; findings: the PKCS#8 version and the lengths of the EXPLICIT wrappers are not checked, the embedded public key is not used, and the error \"invalid private key length\" cannot occur"
  },
  {
   "property": "C132",
   "status": "proved",
   "theorems": [
    "C132_sm2",
    "C132_sign_verify",
    "C132_message",
    "C132_verify",
    "C132_order_zero",
    "C132_order_one",
    "C132_encrypt_narrow"
   ],
   "note": "SM2Gen.v takes the curve as an argument; the curve methods are those of the generic elliptic.CurveParams; examples: the SM2 curve, a small curve, and P-224 for the encryption statement"
  },
  {
   "property": "C133",
   "status": "proved",
   "theorems": [
    "C133_pem_list",
    "C133_writes",
    "C133_other_types",
    "C133_sound",
    "C133_leading",
    "C133_broken_block"
   ],
   "note": "encoding/base64 and encoding/pem of Go 1.18 are modelled in Pem.v from knowledge of the library; base64 is specified by base64_of (six-bit digits), the text form by pem_body, both independent of the decoder"
  },
  {
   "property": "C134",
   "status": "proved",
   "theorems": [
    "C134_local_id",
    "C134_blocks_survive",
    "C134_encode_to_pem",
    "C134_injection",
    "C134_refuted"
   ],
   "note": "header maps are compared up to order; the proviso on names is shown to be needed by C134_injection"
  },
  {
   "property": "C135",
   "status": "proved",
   "theorems": [
    "C135_roundtrip",
    "C135_exact",
    "C135_no_randomness",
    "C135_integrity"
   ],
   "note": "curves are CurveParams-style curves (a = -3) with the generic Go 1.18 arithmetic; the SM2 curve is an instance"
  },
  {
   "property": "C136",
   "status": "proved",
   "theorems": [
    "C136_string",
    "C136_refused",
    "C136_name",
    "C136_unique",
    "C136_order_free"
   ],
   "note": "string-valued attributes only (the values pkix.Name.ToRDNSequence produces); found by a surviving mutant of the string encoder"
  },
  {
   "property": "C137",
   "status": "proved",
   "theorems": [
    "C137_p12_file"
   ],
   "note": "own DER combinators and literal OID octets; the ciphertexts are the relational CBC specification of C38"
  },
  {
   "property": "C138",
   "status": "proved",
   "theorems": [
    "C138_message",
    "C138_sm2"
   ],
   "note": "own DER combinators and literal OID octets"
  },
  {
   "property": "C139",
   "status": "proved",
   "theorems": [
    "C139_extensions",
    "C139_key_usage_names"
   ],
   "note": "own DER combinators and literal OIDs"
  },
  {
   "property": "C140",
   "status": "proved",
   "theorems": [
    "C140_certificate"
   ],
   "note": "own DER combinators and literal OIDs; the SPKI bytes are those of MarshalPKIXPublicKey (C128), names those of C136"
  },
  {
   "property": "C141",
   "status": "proved",
   "theorems": [
    "C141_revocation_list",
    "C141_crl"
   ],
   "note": "own DER combinators and literal OIDs"
  },
  {
   "property": "C142",
   "status": "proved",
   "theorems": [
    "C142_request"
   ],
   "note": "own DER combinators and literal OIDs; covers templates with and without their own extensionRequest attribute"
  },
  {
   "property": "C143",
   "status": "proved",
   "theorems": [
    "C143_public",
    "C143_private"
   ],
   "note": "own DER combinators, literal OIDs and curve table"
  },
  {
   "property": "C144",
   "status": "proved",
   "theorems": [
    "C144_parse",
    "C144_parse_all",
    "C144_shared",
    "C144_extension_fields",
    "C144_bits",
    "C144_equal"
   ],
   "note": "parser.go modelled a second time on Mem (MemParse.v); C144_parse relates it to the list model and locates every window, C144_shared and C144_extension_fields say what every field shows in any later memory, C144_bits when signatures and Ed25519 keys are windows, C144_equal is the consequence for Equal"
  },
  {
   "property": "C145",
   "status": "proved",
   "theorems": [
    "C145_certificate",
    "C145_one_reading",
    "C145_certificates"
   ],
   "note": "an equivalence between ParseCertificate (and, for concatenations, ParseCertificates) and a declarative description of the bytes and fields; the fields derived from the extensions are those processExtensions computes from the list of extensions, which C146 describes"
  },
  {
   "property": "C146",
   "status": "proved",
   "theorems": [
    "C146_extensions",
    "C146_certificate",
    "C146_one_reading"
   ],
   "note": "an equivalence between processExtensions and a declarative description of the ten interpreted extensions; net/url.Parse and net.ParseIP are arbitrary functions, with the host of a parsed URL being a string of bytes; the table of extended key usages is that of C62"
  },
  {
   "property": "C147",
   "status": "proved",
   "theorems": [
    "C147_public",
    "C147_private"
   ],
   "note": "an equivalence between the two parsers and a declarative description of the bytes; encoding/asn1 and rsa.PrivateKey.Validate are modelled from the Go 1.18 sources"
  }
 ]
}