{
 "claims": [
  {
   "property": "C01",
   "status": "proved",
   "theorems": [
    "C01_decrypt_inverts_encrypt",
    "C01_encrypt_inverts_decrypt",
    "C01_total"
   ],
   "note": "For every LazyKey (any key data, any Sbox, total or not) in both directions; C01_total shows the hypotheses are met by every total key."
  },
  {
   "property": "C02",
   "status": "proved",
   "theorems": [
    "C02_encrypted_is_Magma",
    "C02_decrypted_is_Magma"
   ],
   "note": "Against SpecMagma.v, a transcription of RFC 8891."
  },
  {
   "property": "C03",
   "status": "proved",
   "theorems": [
    "C03_EncryptionBase_is_BlkEncrypted"
   ],
   "note": "Equality of outcomes, including failures."
  },
  {
   "property": "C04",
   "status": "proved",
   "theorems": [
    "C04_SboxR3412_value",
    "C04_SboxR3412_permutation"
   ],
   "note": ""
  },
  {
   "property": "C05",
   "status": "proved",
   "theorems": [
    "C05_packed_tables",
    "C05_container_table"
   ],
   "note": ""
  },
  {
   "property": "C06",
   "status": "proved",
   "theorems": [
    "C06_hex_key_words",
    "C06_wrong_size",
    "C06_wrong_index"
   ],
   "note": ""
  },
  {
   "property": "C07",
   "status": "partial",
   "theorems": [
    "C07_nothing_rejected",
    "C07_refuted"
   ],
   "note": "REFUTED by C07_refuted (a malformed key is accepted; a blank word is an uninitialised read) and C07_nothing_rejected (no 64-character string is ever rejected)."
  },
  {
   "property": "C08",
   "status": "proved",
   "theorems": [
    "C08_history",
    "C08_history_unique",
    "C08_after_first_answer",
    "C08_pure"
   ],
   "note": "For every history of calls against every wrapped object (changing answers and exceptions included)."
  },
  {
   "property": "C09",
   "status": "proved",
   "theorems": [
    "C09_any_key",
    "C09_blocks",
    "C09_split",
    "C09_unaligned"
   ],
   "note": "Any Key, any underlying sink; C09_any_key also covers failing keys."
  },
  {
   "property": "C10",
   "status": "proved",
   "theorems": [
    "C10_round_trip",
    "C10_all_of_it",
    "C10_memory_source"
   ],
   "note": "Every underlying source that hands out whole blocks; every list of read sizes >= 8."
  },
  {
   "property": "C11",
   "status": "partial",
   "theorems": [
    "C11_refuted",
    "C11_no_error_x86",
    "C11_garbage_x86"
   ],
   "note": "REFUTED by C11_refuted (out-of-bounds read in ISO C++ for every incomplete block), C11_no_error_x86 and C11_garbage_x86 (no error on x86, output depends on stray memory)."
  },
  {
   "property": "C12",
   "status": "partial",
   "theorems": [
    "C12_refuted"
   ],
   "note": "REFUTED by C12_refuted: the object returned at the end is the bare source, for every key and size."
  },
  {
   "property": "C13",
   "status": "proved",
   "theorems": [
    "C13_magma",
    "C13_gost"
   ],
   "note": "Equality of results, states and underlying writes, from any state and for any key and sink."
  },
  {
   "property": "C14",
   "status": "proved",
   "theorems": [
    "C14_hex_keys",
    "C14_total_keys",
    "C14_magma",
    "C14_gost"
   ],
   "note": "C14_hex_keys/C14_total_keys show which keys meet the hypotheses."
  },
  {
   "property": "C15",
   "status": "partial",
   "theorems": [
    "C15_magma_tail_partial",
    "C15_gost_tail_partial",
    "C15_tail_returns_iff",
    "C15_magma_whole_blocks_partial",
    "C15_gost_whole_blocks_partial",
    "C15_magma_refuted",
    "C15_gost_refuted",
    "C15_x86_refuted"
   ],
   "note": "REFUTED by C15_magma_refuted, C15_gost_refuted (undefined in ISO C++ for every length that is not a multiple of 8) and C15_x86_refuted; whole blocks come back (C15_..._whole_blocks_partial), and C15_..._tail_partial with C15_tail_returns_iff say exactly which tail an x86 build returns."
  },
  {
   "property": "C16",
   "status": "proved",
   "theorems": [
    "C16_magma",
    "C16_gost",
    "C16_pieces"
   ],
   "note": ""
  },
  {
   "property": "C17",
   "status": "proved",
   "theorems": [
    "C17_magma_terminates",
    "C17_gost_terminates",
    "C17_magma_exact",
    "C17_gost_exact"
   ],
   "note": "Termination bound for every source and key; exact count on whole blocks."
  },
  {
   "property": "C18",
   "status": "proved",
   "theorems": [
    "C18_gost",
    "C18_magma"
   ],
   "note": ""
  },
  {
   "property": "C19",
   "status": "proved",
   "theorems": [
    "C19_ecb",
    "C19_magma",
    "C19_gost"
   ],
   "note": "Every underlying sink, whatever it does."
  },
  {
   "property": "C20",
   "status": "partial",
   "theorems": [
    "C20_refuted",
    "C20_ECBSink_any_key"
   ],
   "note": "REFUTED by C20_refuted for CFBSink, CFBSource and ECBSource (null dereference with any other Key); proved for ECBSink by C20_ECBSink_any_key."
  },
  {
   "property": "C21",
   "status": "partial",
   "theorems": [
    "C21_refuted",
    "C21_refuted_wide_shift",
    "C21_x86_partial",
    "C21_x86_any_length_partial"
   ],
   "note": "REFUTED in ISO C++ by C21_refuted and C21_refuted_wide_shift (a uint32_t is shifted right by 63, which is undefined); on x86, where the count is taken modulo 32, C21_x86_partial and C21_x86_any_length_partial say exactly what is computed."
  },
  {
   "property": "C22",
   "status": "partial",
   "theorems": [
    "C22_refuted"
   ],
   "note": "REFUTED by C22_refuted: a message and its zero extension get the same result."
  },
  {
   "property": "C23",
   "status": "partial",
   "theorems": [
    "C23_kuznyechik",
    "C23_magma_x86_partial"
   ],
   "note": "kuznyechik: proved in full by C23_kuznyechik. magma: the ISO outcome is always undefined (C21), on x86 proved by C23_magma_x86_partial."
  },
  {
   "property": "C24",
   "status": "partial",
   "theorems": [
    "C24_refuted"
   ],
   "note": "REFUTED by C24_refuted: a short read ends the message."
  },
  {
   "property": "C25",
   "status": "proved",
   "theorems": [
    "C25_mac",
    "C25_hex_keys",
    "C25_total",
    "C25_padding"
   ],
   "note": "C25_hex_keys/C25_total say which keys meet the hypotheses."
  },
  {
   "property": "C26",
   "status": "proved",
   "theorems": [
    "C26_encryption",
    "C26_key_blocks"
   ],
   "note": ""
  },
  {
   "property": "C27",
   "status": "proved",
   "theorems": [
    "C27_permutation",
    "C27_injective",
    "C27_unreadable_key"
   ],
   "note": "C27_unreadable_key: a key object whose data throws never returns a block."
  },
  {
   "property": "C28",
   "status": "proved",
   "theorems": [
    "C28_round_keys",
    "C28_iter_key",
    "C28_iter_key_empty",
    "C28_iter_key_overflow"
   ],
   "note": "C28_iter_key_overflow: for c2 = INT_MAX the loop counter overflows; the key schedule itself only uses 1..32."
  },
  {
   "property": "C29",
   "status": "proved",
   "theorems": [
    "C29_gmul",
    "C29_BlkR",
    "C29_BlkL",
    "C29_BlkR_linear",
    "C29_BlkL_linear",
    "C29_BlkR_bijective",
    "C29_BlkL_bijective"
   ],
   "note": ""
  },
  {
   "property": "C30",
   "status": "proved",
   "theorems": [
    "C30_increment",
    "C30_counter",
    "C30_no_repeat",
    "C30_no_repeat_across_iv"
   ],
   "note": ""
  },
  {
   "property": "C31",
   "status": "proved",
   "theorems": [
    "C31_block",
    "C31_shape",
    "C31_self_inverse",
    "C31_ctr_mode",
    "C31_presents_loop",
    "C31_keys",
    "C31_hex_keys"
   ],
   "note": "For every iterator implementation and every position; C31_keys/C31_hex_keys say which keys meet the hypothesis. What happens behind the end is C37."
  },
  {
   "property": "C32",
   "status": "proved",
   "theorems": [
    "C32_one_stream",
    "C32_across_iv"
   ],
   "note": ""
  },
  {
   "property": "C33",
   "status": "proved",
   "theorems": [
    "C33_enumeration",
    "C33_end",
    "C33_presents"
   ],
   "note": "The hypothesis 8*len < 2^64 holds for every vector that fits into memory."
  },
  {
   "property": "C34",
   "status": "partial",
   "theorems": [
    "C34_refuted_odd",
    "C34_refuted_empty",
    "C34_not_shared",
    "C34_whole_blocks_partial"
   ],
   "note": "REFUTED by C34_refuted_odd and C34_refuted_empty; C34_whole_blocks_partial is what holds."
  },
  {
   "property": "C35",
   "status": "proved",
   "theorems": [
    "C35_mac",
    "C35_mac_of_memory",
    "C35_mac_of_ciphertext"
   ],
   "note": ""
  },
  {
   "property": "C36",
   "status": "partial",
   "theorems": [
    "C36_refuted",
    "C36_value_partial"
   ],
   "note": "REFUTED by C36_refuted (weak_ptr to the stream is dereferenced unchecked); C36_value_partial is what holds."
  },
  {
   "property": "C37",
   "status": "partial",
   "theorems": [
    "C37_refuted",
    "C37_refuted_loop",
    "C37_StMemory_partial"
   ],
   "note": "REFUTED for StCTREncrypted by C37_refuted and C37_refuted_loop; C37_StMemory_partial proves it of StMemory."
  },
  {
   "property": "C38",
   "status": "proved",
   "theorems": [
    "C38_magma",
    "C38_kuznyechik"
   ],
   "note": ""
  },
  {
   "property": "C39",
   "status": "partial",
   "theorems": [
    "C39_refuted_too_long",
    "C39_refuted_garbage",
    "C39_rejected_partial"
   ],
   "note": "REFUTED by C39_refuted_too_long and C39_refuted_garbage; C39_rejected_partial says which halves are rejected."
  },
  {
   "property": "C40",
   "status": "partial",
   "theorems": [
    "C40_halves",
    "C40_refuted_short",
    "C40_refuted_long",
    "C40_rejected_partial"
   ],
   "note": "First half proved (C40_halves); second half REFUTED by C40_refuted_short and C40_refuted_long; C40_rejected_partial: fewer than 32 characters are rejected."
  },
  {
   "property": "C41",
   "status": "proved",
   "theorems": [
    "C41_history",
    "C41_after_first_answer",
    "C41_failure_leaves_empty"
   ],
   "note": "For every history of calls against every wrapped Block."
  },
  {
   "property": "C42",
   "status": "proved",
   "theorems": [
    "C42_invisible",
    "C42_as_if_fresh",
    "C42_once",
    "C42_stable"
   ],
   "note": "C42_invisible with an explicit stack bound; C42_as_if_fresh for every object structure; C42_once and C42_stable include user-defined Block classes that fail."
  },
  {
   "property": "C43",
   "status": "proved",
   "theorems": [
    "C43_shift",
    "C43_undefined_outside"
   ],
   "note": "C43_undefined_outside: the range is exact."
  },
  {
   "property": "C44",
   "status": "partial",
   "theorems": [
    "C44_refuted",
    "C44_x86_value",
    "C44_x86_zero_wrong"
   ],
   "note": "REFUTED by C44_refuted: undefined behaviour for every count (the right shift is by 64-n instead of 32-n). C44_x86_value: the value x86 processors compute is nevertheless the right one for 1..31; C44_x86_zero_wrong: not for 0."
  },
  {
   "property": "C45",
   "status": "proved",
   "theorems": [
    "C45_xored_magma",
    "C45_xored_kuznyechik",
    "C45_grouping"
   ],
   "note": "Magma and Kuznyechik."
  },
  {
   "property": "C46",
   "status": "partial",
   "theorems": [
    "C46_refuted_race_key",
    "C46_refuted_race_blk",
    "C46_refuted_values_key",
    "C46_refuted_values_blk",
    "C46_key_partial",
    "C46_blk_partial",
    "C46_key_throws_partial",
    "C46_blk_throws_partial",
    "C46_key_loaded_partial",
    "C46_blk_loaded_partial",
    "C46_go_on_partial",
    "C46_key_accesses_partial",
    "C46_blk_accesses_partial"
   ],
   "note": "REFUTED: every finished execution in which two threads use a new object has a data race (C46_refuted_race_key/_blk), and with stores visible out of order zeros are returned (C46_refuted_values_key/_blk). What holds is in the _partial theorems: right values under SC and TSO for all schedules, race freedom after the first use, no waiting."
  },
  {
   "property": "C47",
   "status": "partial",
   "theorems": [
    "C47_round_trip_partial",
    "C47_same_key_partial",
    "C47_any_table_partial",
    "C47_refuted_mask",
    "C47_overflow",
    "C47_short"
   ],
   "note": "First half proved in full (C47_round_trip_partial, C47_same_key_partial, C47_any_table_partial); the sentence about the mask is REFUTED by C47_refuted_mask. C47_overflow/C47_short: what sizes other than 32/64 do."
  },
  {
   "property": "C48",
   "status": "proved",
   "theorems": [
    "C48_sinks",
    "C48_sources_blocks",
    "C48_sources_any_size",
    "C48_CFBSource_is_source",
    "C48_ECBSource_is_source"
   ],
   "note": "Towers of any height and any mixture of the three layers."
  },
  {
   "property": "C49",
   "status": "proved",
   "theorems": [
    "C49_ecb",
    "C49_magma",
    "C49_gost"
   ],
   "note": ""
  },
  {
   "property": "C50",
   "status": "partial",
   "theorems": [
    "C50_refuted_imit",
    "C50_refuted_imit_memory",
    "C50_refuted_ctr",
    "C50_refuted_magma",
    "C50_imit_partial",
    "C50_ctr_partial",
    "C50_magma_partial"
   ],
   "note": "REFUTED by C50_refuted_imit, C50_refuted_imit_memory, C50_refuted_ctr, C50_refuted_magma: the needed depth grows linearly. The C50_..._partial theorems give matching linear upper bounds."
  },
  {
   "property": "C51",
   "status": "partial",
   "theorems": [
    "C51_magma_sink_partial",
    "C51_gost_sink_partial",
    "C51_magma_sink_refuted",
    "C51_gost_sink_refuted",
    "C51_magma_leak_refuted",
    "C51_gost_leak_refuted",
    "C51_magma_source",
    "C51_gost_source"
   ],
   "note": "REFUTED for sinks with 8 or more pending bytes (C51_..._sink_refuted, C51_..._leak_refuted: nothing is encrypted any more and finalize sends plaintext); holds for fewer than 8 (C51_..._sink_partial) and for sources (C51_..._source)."
  },
  {
   "property": "C52",
   "status": "proved",
   "theorems": [
    "C52_corruption"
   ],
   "note": ""
  },
  {
   "property": "C53",
   "status": "proved",
   "theorems": [
    "C53_gost",
    "C53_magma"
   ],
   "note": ""
  },
  {
   "property": "C54",
   "status": "proved",
   "theorems": [
    "C54_gost",
    "C54_magma"
   ],
   "note": ""
  },
  {
   "property": "C55",
   "status": "proved",
   "theorems": [
    "C55_reuse"
   ],
   "note": ""
  },
  {
   "property": "C56",
   "status": "proved",
   "theorems": [
    "C56_detects"
   ],
   "note": ""
  },
  {
   "property": "C57",
   "status": "partial",
   "theorems": [
    "C57_refuted"
   ],
   "note": "REFUTED by C57_refuted: the zero padding the standard prescribes makes the lengths indistinguishable."
  },
  {
   "property": "C58",
   "status": "partial",
   "theorems": [
    "C58_nibble_refuted",
    "C58_byte_refuted",
    "C58_nibble_defined_iff",
    "C58_byte_defined_iff",
    "C58_nibble_extra",
    "C58_byte_extra"
   ],
   "note": "REFUTED by C58_nibble_refuted, C58_byte_refuted: no table ever makes transform throw. C58_..._defined_iff and C58_..._extra say exactly what happens."
  },
  {
   "property": "C59",
   "status": "partial",
   "theorems": [
    "C59_short_refuted",
    "C59_long_refuted"
   ],
   "note": "REFUTED by C59_short_refuted (undefined), C59_long_refuted (extra words ignored)."
  },
  {
   "property": "C60",
   "status": "partial",
   "theorems": [
    "C60_cached_partial",
    "C60_index_refuted",
    "C60_eager_refuted"
   ],
   "note": "REFUTED by C60_index_refuted, C60_eager_refuted; holds for indices 0..7 when all words load (C60_cached_partial)."
  },
  {
   "property": "C61",
   "status": "proved",
   "theorems": [
    "C61_blocks",
    "C61_ecb_write",
    "C61_magma_write",
    "C61_magma_finalize",
    "C61_gost_write",
    "C61_gost_finalize",
    "C61_magma_read",
    "C61_gost_read",
    "C61_ecb_read"
   ],
   "note": "ECBSource reads one block first, then throws (C61_ecb_read); a write of 1..7 bytes to ECBSink reports the length instead."
  },
  {
   "property": "C62",
   "status": "proved",
   "theorems": [
    "C62_magma",
    "C62_gost",
    "C62_ecb",
    "C62_imit"
   ],
   "note": ""
  },
  {
   "property": "C63",
   "status": "proved",
   "theorems": [
    "C63_magma",
    "C63_gost",
    "C63_ecb"
   ],
   "note": ""
  },
  {
   "property": "C64",
   "status": "partial",
   "theorems": [
    "C64_magma_long_refuted",
    "C64_gost_long_refuted",
    "C64_magma_short_refuted",
    "C64_gost_short_refuted",
    "C64_ecb_long_refuted"
   ],
   "note": "REFUTED by the C64_..._refuted theorems: more than 8 bytes overrun the register, 1..7 bytes are read out of bounds, ECBSource hands out undecrypted bytes."
  },
  {
   "property": "C65",
   "status": "proved",
   "theorems": [
    "C65_same_bits",
    "C65_position"
   ],
   "note": ""
  },
  {
   "property": "C66",
   "status": "proved",
   "theorems": [
    "C66_imit",
    "C66_ctr"
   ],
   "note": ""
  },
  {
   "property": "C67",
   "status": "partial",
   "theorems": [
    "C67_refuted_race",
    "C67_refuted_values",
    "C67_values_partial",
    "C67_standard_partial",
    "C67_any_objects_partial",
    "C67_warm_partial"
   ],
   "note": "REFUTED: every finished execution in which two threads use a new key has a data race (C67_refuted_race), and with stores visible out of order a block may be encrypted with ten zero round keys, whatever the key (C67_refuted_values). What holds is in the _partial theorems: right values under SC and TSO for all schedules, race freedom and right values under every order once each key has been used by one thread."
  },
  {
   "property": "C68",
   "status": "partial",
   "theorems": [
    "C68_refuted_race",
    "C68_refuted_values",
    "C68_values_partial",
    "C68_standard_partial",
    "C68_warm_partial"
   ],
   "note": "REFUTED: every finished execution in which two threads use a new key has a data race (C68_refuted_race), and with stores visible out of order a block may be encrypted with the zero key, whatever the key (C68_refuted_values). What holds is in the _partial theorems: right values under SC and TSO for all schedules, race freedom and right values under every order once the key has been used by one thread."
  },
  {
   "property": "C69",
   "status": "proved",
   "theorems": [
    "C69_nibble",
    "C69_packed",
    "C69_string"
   ],
   "note": ""
  },
  {
   "property": "C70",
   "status": "proved",
   "theorems": [
    "C70_kuznyechik_value",
    "C70_magma_value",
    "C70_kuznyechik_rejected",
    "C70_magma_rejected",
    "C70_padding",
    "C70_key_word",
    "C70_unique"
   ],
   "note": ""
  },
  {
   "property": "C71",
   "status": "partial",
   "theorems": [
    "C71_refuted_ctr",
    "C71_refuted",
    "C71_ctr_partial",
    "C71_imit_partial",
    "C71_magma_partial",
    "C71_magma_exact"
   ],
   "note": "REFUTED for CTR: the counter of block i is a chain of i BlkIncremented objects evaluated again for every block, so n blocks take more than n*n/2 calls (C71_refuted_ctr, C71_refuted). The _partial theorems: CTR is quadratic at most, both Imit classes are linear. C71_magma_exact counts the calls of magma::Imit exactly."
  },
  {
   "property": "C72",
   "status": "proved",
   "theorems": [
    "C72_safe",
    "C72_exact",
    "C72_no_leak",
    "C72_finishes"
   ],
   "note": ""
  },
  {
   "property": "C73",
   "status": "partial",
   "theorems": [
    "C73_refuted_ctr",
    "C73_refuted_imit",
    "C73_refuted_magma",
    "C73_partial"
   ],
   "note": "REFUTED: one nested destructor per block passed in CTR mode, two per block in kuznyechik::Imit, seven per block in magma::Imit (C73_refuted_ctr, C73_refuted_imit, C73_refuted_magma). C73_partial: the number of objects ever created is enough."
  },
  {
   "property": "C74",
   "status": "partial",
   "theorems": [
    "C74_same_magma",
    "C74_same_tables",
    "C74_same_kuznyechik",
    "C74_magma_refuted",
    "C74_nibbles_refuted",
    "C74_bytes_refuted",
    "C74_kuznyechik_refuted"
   ],
   "note": "REFUTED in the strongest form: the accesses made for one known block determine the whole key, for Magma with SboxR3412 and string keys (C74_magma_refuted, encryption and decryption), with any SboxNibble or SboxByte tables and native keys (C74_nibbles_refuted, C74_bytes_refuted), and for Kuznyechik (C74_kuznyechik_refuted). C74_same_*: the functions recording accesses compute the values of the model."
  },
  {
   "property": "C75",
   "status": "partial",
   "theorems": [
    "C75_kuznyechik_refuted",
    "C75_imit_branch",
    "C75_imit_refuted",
    "C75_magma_partial"
   ],
   "note": "REFUTED for Kuznyechik: the branches of BlkR::gmul alone determine the key (C75_kuznyechik_refuted); and for magma::Imit: the final key branches on the highest bit of the encrypted zero block (C75_imit_branch, C75_imit_refuted). C75_magma_partial: Magma encryption and decryption make no branches on data and use the tables in the same order whatever key and block are."
  },
  {
   "property": "C76",
   "status": "partial",
   "theorems": [
    "C76_exact",
    "C76_refuted",
    "C76_refuted_short",
    "C76_partial",
    "C76_source_exact",
    "C76_source_refuted",
    "C76_cfb_test"
   ],
   "note": "REFUTED by C76_refuted: anything may follow the expected text, since std::equal gets only the beginning of the output; C76_source_refuted: an expected text of less than 16 digits lets every output pass; C76_refuted_short: shorter outputs are read beyond their end. C76_exact, C76_source_exact, C76_cfb_test say exactly what passes; C76_partial is the claim for outputs of the right length."
  },
  {
   "property": "C77",
   "status": "proved",
   "theorems": [
    "C77_hex64",
    "C77_hex64_source",
    "C77_hex64_ascii",
    "C77_source_text",
    "C77_distinct",
    "C77_magma_sink",
    "C77_gost_sink",
    "C77_ecb_sink",
    "C77_magma_source",
    "C77_gost_source",
    "C77_ecb_source",
    "C77_magma_block",
    "C77_kuznyechik_block",
    "C77_magma_block_equal",
    "C77_kuznyechik_block_equal",
    "C77_native_key",
    "C77_string_key"
   ],
   "note": "Texts outside ASCII are undefined behaviour (C77_hex64_ascii)."
  },
  {
   "property": "C78",
   "status": "partial",
   "theorems": [
    "C78_digits_partial",
    "C78_key_partial",
    "C78_size_partial",
    "C78_refuted_space",
    "C78_refuted_garbage"
   ],
   "note": "REFUTED by C78_refuted_space (white space among the digits: uninitialised characters are read) and C78_refuted_garbage (signs, 0x and trailing characters are accepted). C78_digits_partial, C78_key_partial, C78_size_partial: 64 digits are right and other lengths are rejected."
  },
  {
   "property": "C79",
   "status": "partial",
   "theorems": [
    "C79_refuted",
    "C79_kuznyechik_partial",
    "C79_magma_partial",
    "C79_masks"
   ],
   "note": "REFUTED by C79_refuted: kuznyechik::Imit gives the same MAC for all sizes other than 16 (for magma::Imit see C22_refuted). C79_kuznyechik_partial, C79_magma_partial: complete and incomplete last blocks are told apart unless the key maps the zero block to itself (C79_masks)."
  },
  {
   "property": "C80",
   "status": "partial",
   "theorems": [
    "C80_magma_refuted",
    "C80_gost_refuted",
    "C80_ecb_refuted",
    "C80_magma_resume_partial",
    "C80_gost_resume_partial"
   ],
   "note": "REFUTED by C80_magma_refuted, C80_gost_refuted, C80_ecb_refuted: the blocks sent before the failure are sent again. C80_magma_resume_partial, C80_gost_resume_partial: a new sink whose register is taken from the ciphertext continues correctly."
  },
  {
   "property": "C81",
   "status": "proved",
   "theorems": [
    "C81_magma",
    "C81_gost"
   ],
   "note": ""
  },
  {
   "property": "C82",
   "status": "proved",
   "theorems": [
    "C82_extension"
   ],
   "note": ""
  },
  {
   "property": "C83",
   "status": "proved",
   "theorems": [
    "C83_involution",
    "C83_same_directions",
    "C83_hex_keys"
   ],
   "note": ""
  },
  {
   "property": "C84",
   "status": "proved",
   "theorems": [
    "C84_top_bits",
    "C84_hex_keys",
    "C84_mac"
   ],
   "note": ""
  },
  {
   "property": "C85",
   "status": "proved",
   "theorems": [
    "C85_mac_of_decrypted"
   ],
   "note": "In the ISO reading both are undefined (C21)."
  },
  {
   "property": "C86",
   "status": "partial",
   "theorems": [
    "C86_same_sinks",
    "C86_same_sources",
    "C86_same_macs",
    "C86_same_kuznyechik",
    "C86_ecb_big",
    "C86_magma_big",
    "C86_gost_big",
    "C86_magma_first",
    "C86_gost_first",
    "C86_Imit_big",
    "C86_DataImit_big",
    "C86_kuznyechik_big",
    "C86_ecb_refuted",
    "C86_cfb_refuted",
    "C86_macs_refuted",
    "C86_kuznyechik_refuted"
   ],
   "note": "REFUTED by C86_ecb_refuted, C86_cfb_refuted, C86_macs_refuted, C86_kuznyechik_refuted. The C86_same theorems: true among little-endian machines. The C86_..._big theorems: exactly what comes out with the most significant byte first. C86_magma_first, C86_gost_first: the first blocks of CFB are the same on all."
  },
  {
   "property": "C87",
   "status": "proved",
   "theorems": [
    "C87_magma",
    "C87_gost"
   ],
   "note": ""
  },
  {
   "property": "C88",
   "status": "partial",
   "theorems": [
    "C88_little",
    "C88_big",
    "C88_refuted"
   ],
   "note": "REFUTED by C88_refuted (C88_big: exactly what is read back with the most significant byte first); C88_little: true with the least significant byte first."
  },
  {
   "property": "C89",
   "status": "partial",
   "theorems": [
    "C89_streams",
    "C89_BlkR_refuted",
    "C89_refuted",
    "C89_needs_alignment"
   ],
   "note": "REFUTED by C89_BlkR_refuted, C89_refuted: BlkR reads two uint64_t from the second byte of a local array. C89_streams and C86_same: true of the classes of magma and gost89, given that storage from operator new begins at a multiple of eight."
  },
  {
   "property": "C90",
   "status": "proved",
   "theorems": [
    "C90_makeKey",
    "C90_BlkS"
   ],
   "note": ""
  },
  {
   "property": "C91",
   "status": "proved",
   "theorems": [
    "C91_stored",
    "C91_readable_blocks",
    "C91_readable"
   ],
   "note": "Every stack of layers, every underlying sink, whatever it does; keys that encipher and decipher (C14_hex_keys gives such)."
  },
  {
   "property": "C92",
   "status": "proved",
   "theorems": [
    "C92_same_keys",
    "C92_same_sinks",
    "C92_same_sources",
    "C92_order_encrypt",
    "C92_order_ecb",
    "C92_order_decrypt",
    "C92_order_ecb_sink",
    "C92_order_magma_sink",
    "C92_order_gost_sink",
    "C92_order_finalize",
    "C92_order_magma_source",
    "C92_order_gost_source",
    "C92_order_ecb_source"
   ],
   "note": "All stream classes of magma and gost89; the same_* theorems tie the model with acting keys to the one of the other properties."
  },
  {
   "property": "C93",
   "status": "proved",
   "theorems": [
    "C93_ecb_sink",
    "C93_magma_sink",
    "C93_gost_sink",
    "C93_finalize",
    "C93_ecb_source",
    "C93_magma_source",
    "C93_gost_source"
   ],
   "note": "The key acts on a world of its own, beside that of the sink or source."
  },
  {
   "property": "C94",
   "status": "partial",
   "theorems": [
    "C94_same_streams",
    "C94_same_kuznyechik",
    "C94_cfb_partial",
    "C94_BlkS_partial",
    "C94_ecb_partial",
    "C94_ecb_sink_refuted",
    "C94_ecb_source_refuted",
    "C94_DataImit_refuted",
    "C94_kuznyechik_refuted",
    "C94_container_refuted"
   ],
   "note": "Refuted for ECBSink, ECBSource, DataImit and Kuznyechik's BlkR, hence for every encryption by Kuznyechik, and for ECBSource's constructor from a container; holds for the CFB classes, magma::Imit and BlkS. Without the rules the model is that of the other files (same_*)."
  },
  {
   "property": "C95",
   "status": "partial",
   "theorems": [
    "C95_magma_x86_partial",
    "C95_kuznyechik",
    "C95_gost",
    "C95_ecb_block_x86_partial",
    "C95_block_kuznyechik"
   ],
   "note": "Proved for Kuznyechik and GOST 28147-89; for magma::Imit on x86 only, since in ISO C++ it has no value (C21)."
  },
  {
   "property": "C96",
   "status": "proved",
   "theorems": [
    "C96_half_rounds"
   ],
   "note": "The blocks are listed by an injection from the numbers below 2^32 which reaches all of them."
  },
  {
   "property": "C97",
   "status": "proved",
   "theorems": [
    "C97_fixed",
    "C97_hex_keys"
   ],
   "note": "The blocks are listed by an injection from the numbers below 2^32 which reaches all of them."
  },
  {
   "property": "C98",
   "status": "proved",
   "theorems": [
    "C98_same_sinks",
    "C98_same_sources",
    "C98_ecb_sink",
    "C98_magma_sink",
    "C98_gost_sink",
    "C98_finalize",
    "C98_ecb_source",
    "C98_magma_source",
    "C98_gost_source"
   ],
   "note": "The points where memory is taken are listed in MemModel.v; the exception thrown is arbitrary. The MACs and the construction of keys and streams are not covered: they give nothing to the outside before they end."
  },
  {
   "property": "C99",
   "status": "partial",
   "theorems": [
    "C99_x86",
    "C99_refuted",
    "C99_partial",
    "C99_others",
    "C99_status",
    "C99_package"
   ],
   "note": "Proved for x86. In ISO C++ refuted (C99_refuted): the test of magma::Imit shifts by too much; all the others pass (C99_partial). The 2out library is not modelled beyond what its matches compare."
  },
  {
   "property": "C100",
   "status": "partial",
   "theorems": [
    "C100_refuted"
   ],
   "note": "The claim is refuted; the functions that may vary are those named in SuiteModel.versions, the others are the library's."
  },
  {
   "property": "C101",
   "status": "partial",
   "theorems": [
    "C101_refuted",
    "C101_refuted_mixed",
    "C101_refuted_stack",
    "C101_refuted_stack_block",
    "C101_refuted_block",
    "C101_same",
    "C101_settled_partial",
    "C101_settled_block_partial",
    "C101_fixed_partial",
    "C101_fixed_block_partial"
   ],
   "note": "The claim is refuted (C101_refuted, C101_refuted_mixed, C101_refuted_stack, and for blocks). C101_settled_partial and C101_fixed_partial are what holds; C101_same: without calls back this is the model of C08 and C41."
  },
  {
   "property": "C102",
   "status": "proved",
   "theorems": [
    "C102_same",
    "C102_encrypt",
    "C102_recovers",
    "C102_imit",
    "C102_ctr",
    "C102_any"
   ],
   "note": "Objects made in one go are one allocation point; see KuzMemModel.v."
  },
  {
   "property": "C103",
   "status": "proved",
   "theorems": [
    "C103_any_pair",
    "C103_different"
   ],
   "note": ""
  },
  {
   "property": "C104",
   "status": "proved",
   "theorems": [
    "C104_commute",
    "C104_removed",
    "C104_shape",
    "C104_mac"
   ],
   "note": ""
  },
  {
   "property": "C105",
   "status": "proved",
   "theorems": [
    "C105_moved",
    "C105_wrong_iv"
   ],
   "note": "With another initial value: positions below 2^64, after which counters of different initial values meet."
  },
  {
   "property": "C106",
   "status": "partial",
   "theorems": [
    "C106_classic",
    "C106_keys",
    "C106_any_text",
    "C106_refuted",
    "C106_separators",
    "C106_misplaced",
    "C106_never_rejected",
    "C106_blocks"
   ],
   "note": "Refuted for texts with separators (C106_refuted; what is read then: C106_separators); proved for texts of digits and for texts without the locale's punctuation. libstdc++'s num_get is transcribed in LocaleModel.v; C106_classic shows it equal to the reading in Text.v."
  },
  {
   "property": "C107",
   "status": "proved",
   "theorems": [
    "C107_same",
    "C107_imit",
    "C107_never_wrong",
    "C107_dataimit"
   ],
   "note": "Memory is an action that may throw before every statement that makes objects; the key one that answers or throws."
  },
  {
   "property": "C108",
   "status": "proved",
   "theorems": [
    "C108_sink",
    "C108_source"
   ],
   "note": "Whole blocks; for other lengths finalize is undefined (C15)."
  },
  {
   "property": "C109",
   "status": "proved",
   "theorems": [
    "C109_equal",
    "C109_rearranged"
   ],
   "note": ""
  },
  {
   "property": "C110",
   "status": "partial",
   "theorems": [
    "C110_same_sinks",
    "C110_same_dataimit",
    "C110_sinks_partial",
    "C110_dataimit_partial",
    "C110_ecb_refuted",
    "C110_dataimit_refuted",
    "C110_cfb_refuted",
    "C110_cfb_last_partial",
    "C110_magma_refuted",
    "C110_magma_last_partial"
   ],
   "note": "True of the branches and of the order in which tables are read (sinks_partial, dataimit_partial). REFUTED for the indices of the accesses: with a given key they determine the whole message of ECBSink and of DataImit, and for gost89::CFBSink the initial value and all of the message but its last block (cfb_refuted); that block, and bytes behind it, leave no trace (cfb_last_partial). magma::CFBSink gives away both initial values and hides the last two blocks (magma_refuted, magma_last_partial). Sources: C111. magma::Imit is not part of it (C75 has the MAC's branch)."
  },
  {
   "property": "C111",
   "status": "proved",
   "theorems": [
    "C111_same",
    "C111_ecb",
    "C111_gost_cfb",
    "C111_magma_cfb",
    "C111_reads"
   ],
   "note": "C111_same: the functions that record events give the results of the model. The theorems also say that the new objects are alike again; C111_reads is for any number of CFB reads. The indices into the tables are not covered: they do depend on key and data (C110, C111_example)."
  }
 ]
}
