{
 "claims": [
  {
   "property": "C01",
   "status": "proved",
   "theorems": [
    "C01_issuance_complete",
    "C01_bridge"
   ],
   "note": "Key generation, request, check, issuance and verification composed."
  },
  {
   "property": "C02",
   "status": "proved",
   "theorems": [
    "C02_signature_complete",
    "C02_bridge"
   ],
   "note": "All signature types, disclosure vectors and compatible verification types; a hidden attribute at or after the revocation-handle index must exist (otherwise the code panics on an index)."
  },
  {
   "property": "C03",
   "status": "proved",
   "theorems": [
    "C03_special_soundness",
    "C03_challenge",
    "C03_csp"
   ],
   "note": "Explicit extractor; A = 1 only with an explicit relation between the issuer bases."
  },
  {
   "property": "C04",
   "status": "proved",
   "theorems": [
    "C04_nym_same_secret",
    "C03_csp"
   ],
   "note": ""
  },
  {
   "property": "C05",
   "status": "partial",
   "theorems": [
    "C05_attr_nym_bound_partial",
    "C05_refuted",
    "C05_csp_partial",
    "C05_csp_refuted"
   ],
   "note": "False of the code when the enrollment id / revocation handle is itself disclosed (witness in C05_refuted, and through the CSP's Verify and audit in C05_csp_refuted); proved when it is hidden, for the core verifier and for the CSP."
  },
  {
   "property": "C06",
   "status": "proved",
   "theorems": [
    "C06_unlinkable"
   ],
   "note": "Perfect: mutually inverse maps on the random draws."
  },
  {
   "property": "C07",
   "status": "proved",
   "theorems": [
    "C07_nym_hiding",
    "C07_nym_signature_hiding",
    "C07_aries"
   ],
   "note": "MakeNym and pseudonym signatures of both schemes."
  },
  {
   "property": "C08",
   "status": "proved",
   "theorems": [
    "C08_nym_binding",
    "C08_audit_binding"
   ],
   "note": ""
  },
  {
   "property": "C09",
   "status": "proved",
   "theorems": [
    "C09_message_bound",
    "C09_bridge",
    "C09_csp"
   ],
   "note": ""
  },
  {
   "property": "C10",
   "status": "proved",
   "theorems": [
    "C10_disclosure_bound",
    "C10_values_bound",
    "C10_bridge_verify"
   ],
   "note": ""
  },
  {
   "property": "C11",
   "status": "proved",
   "theorems": [
    "C11_type_matrix",
    "C11_best_effort",
    "C11_types_separated",
    "C11_expected",
    "C11_bridge",
    "C11_csp"
   ],
   "note": ""
  },
  {
   "property": "C12",
   "status": "proved",
   "theorems": [
    "C12_audit_complete",
    "C12_bridge",
    "C12_audit_kinds",
    "C12_audit_kinds_aries"
   ],
   "note": ""
  },
  {
   "property": "C13",
   "status": "proved",
   "theorems": [
    "C13_metadata_honoured",
    "C13_verifier_metadata",
    "C13_aries_honoured",
    "C13_aries_verifier",
    "C13_bridge",
    "C13_csp",
    "C13_aries_csp"
   ],
   "note": "dlog and aries, for the scheme's and for the CSP's Verify."
  },
  {
   "property": "C14",
   "status": "proved",
   "theorems": [
    "C14_nym_signature_complete",
    "C14_bridge",
    "C14_aries_nym"
   ],
   "note": "dlog, dlog through the bridge, and aries."
  },
  {
   "property": "C15",
   "status": "proved",
   "theorems": [
    "C15_nym_signature_sound",
    "C15_nym_signature_message",
    "C15_bridge",
    "C15_exact",
    "C15_csp",
    "C15_csp_sound"
   ],
   "note": "C15_exact characterises what the CSP accepts; the extraction itself does not use that the two signatures are accepted."
  },
  {
   "property": "C16",
   "status": "proved",
   "theorems": [
    "C16_generated_key_checks",
    "C16_issuer_key_sound",
    "C16_import"
   ],
   "note": ""
  },
  {
   "property": "C17",
   "status": "proved",
   "theorems": [
    "C17_names_distinct",
    "C17_import_checked",
    "C17_csp",
    "C17_kinds"
   ],
   "note": "Generation succeeds iff the names are distinct; an imported key passes Check and its names are the requested ones (when any are requested, as in the code)."
  },
  {
   "property": "C18",
   "status": "proved",
   "theorems": [
    "C18_request_sound",
    "C18_request_nonce_bound",
    "C18_request_verify_iff",
    "C18_csp",
    "C18_csp_nonce"
   ],
   "note": "Bridge verifier accepts iff the decoded request checks and carries exactly the expected nonce of scalar size; nonce swap gives an explicit hash collision; special soundness extracts the secret key. C18_csp says the same of the Verify of a CSP, C18_csp_nonce that no bytes are accepted for two nonces."
  },
  {
   "property": "C19",
   "status": "proved",
   "theorems": [
    "C19_credential_verify_iff",
    "C19_bridge_verify_iff",
    "C19_csp"
   ],
   "note": ""
  },
  {
   "property": "C20",
   "status": "partial",
   "theorems": [
    "C20_refuted",
    "C20_bridge_refuted",
    "C20_csp_refuted"
   ],
   "note": "False of the code: Ver ignores its epoch and revocation-key arguments."
  },
  {
   "property": "C21",
   "status": "partial",
   "theorems": [
    "C21_aries_complete",
    "C21_aries_bound",
    "C21_dlog_complete",
    "C21_dlog_bound",
    "C21_refuted",
    "C21_aries_csp",
    "C21_csp_refuted"
   ],
   "note": "Complete and bound (up to an explicit forgery or digest collision) for the aries authority and for VerifyEpochPK; refuted for the dlog bridge Verify, which ignores its epoch and algorithm arguments. ECDSA and SHA-256 are abstract."
  },
  {
   "property": "C22",
   "status": "proved",
   "theorems": [
    "C22_wbb"
   ],
   "note": "For sk + m <> 0 (the scheme is undefined otherwise)."
  },
  {
   "property": "C23",
   "status": "partial",
   "theorems": [
    "C23_no_panic_partial",
    "C23_refuted"
   ],
   "note": "All entry points except Issuer.Bases return a value or an error for every input; Issuer.Bases always panics (C23_refuted), so the full statement is false."
  },
  {
   "property": "C24",
   "status": "partial",
   "theorems": [
    "C24_fp256bn",
    "C24_miracl",
    "C24_gurvy_partial",
    "C24_gurvy_refuted"
   ],
   "note": "Canonicity is false for the gurvy translator (extra bytes in Y are ignored)."
  },
  {
   "property": "C25",
   "status": "proved",
   "theorems": [
    "C25_sign_verify",
    "C25_verify_iff",
    "C25_empty"
   ],
   "note": "For 32-byte scalars and fewer than 2^32 messages, unless the random exponent hits -sk."
  },
  {
   "property": "C26",
   "status": "proved",
   "theorems": [
    "C26_selective_disclosure",
    "C26_derive_checks"
   ],
   "note": "For at most 65535 messages and non-zero r1 (r1 = 0 makes the prover divide by zero)."
  },
  {
   "property": "C27",
   "status": "partial",
   "theorems": [
    "C27_challenge",
    "C27_soundness_partial",
    "C27_refuted",
    "C27_refuted_observed",
    "C27_surplus_messages_refuted"
   ],
   "note": "Extraction is proved for proofs with exactly one response per base. The code does not check the number of responses, and a surplus response replaces the challenge: C27_refuted is a universal forgery."
  },
  {
   "property": "C28",
   "status": "proved",
   "theorems": [
    "C28_payload",
    "C28_written",
    "C28_parse_any"
   ],
   "note": ""
  },
  {
   "property": "C29",
   "status": "proved",
   "theorems": [
    "C29_signature",
    "C29_proofG1",
    "C29_signatureProof"
   ],
   "note": ""
  },
  {
   "property": "C30",
   "status": "proved",
   "theorems": [
    "C30_domain_separation"
   ],
   "note": ""
  },
  {
   "property": "C31",
   "status": "partial",
   "theorems": [
    "C31_cache_transparent",
    "C31_progress",
    "C31_mixed_curves_refuted"
   ],
   "note": "Transparent for every interleaving when all lookups use one curve object; refuted when two curves share a library, because the cache key is the data only."
  },
  {
   "property": "C32",
   "status": "partial",
   "theorems": [
    "C32_issuer_key",
    "C32_issuance_partial",
    "C32_sk_position_refuted"
   ],
   "note": "Issuance is complete when the user's secret has position 0; for other positions the credential does not verify for the attribute list given by the user (C32_sk_position_refuted)."
  },
  {
   "property": "C33",
   "status": "partial",
   "theorems": [
    "C33_request_knowledge_partial",
    "C33_refuted",
    "C33_csp_partial"
   ],
   "note": "The commitment of the proof is not part of the hash: C33_refuted gives an accepted request for any point."
  },
  {
   "property": "C34",
   "status": "proved",
   "theorems": [
    "C34_sign_verifies",
    "C34_audit"
   ],
   "note": "For up to 65534 attributes, hidden enrollment id/revocation handle, pairwise different bases and r1 <> 0."
  },
  {
   "property": "C35",
   "status": "partial",
   "theorems": [
    "C35_challenge",
    "C35_soundness_partial",
    "C35_refuted",
    "C35_csp_partial",
    "C35_csp_refuted"
   ],
   "note": "A credential is extracted from signatures with exactly one response per base. The code accepts surplus responses: C35_refuted is a universal forgery."
  },
  {
   "property": "C36",
   "status": "partial",
   "theorems": [
    "C36_nym_knowledge_partial",
    "C36_refuted",
    "C36_csp_partial",
    "C36_csp_refuted"
   ],
   "note": "As C35 for pseudonym signatures."
  },
  {
   "property": "C37",
   "status": "partial",
   "theorems": [
    "C37_attributes_bound_partial",
    "C37_positions_refuted",
    "C37_refuted",
    "C37_csp_partial",
    "C37_csp_refuted"
   ],
   "note": "Only the number of disclosed attributes is compared, not their positions."
  },
  {
   "property": "C38",
   "status": "partial",
   "theorems": [
    "C38_nym_binding_partial",
    "C38_refuted",
    "C38_csp_partial",
    "C38_csp_refuted"
   ],
   "note": "The position of the enrollment id among the hidden messages is taken from the signature and not checked."
  },
  {
   "property": "C39",
   "status": "partial",
   "theorems": [
    "C39_nym_verify_no_panic",
    "C39_verify_no_panic_partial",
    "C39_verify_exact_partial",
    "C39_refuted",
    "C39_smartcard_partial",
    "C39_smartcard_exact_partial",
    "C39_smartcard_refuted"
   ],
   "note": "NymSigner.Verify never panics. The signatures on which Signer.Verify and the smartcard verification panic are characterised exactly (C39_verify_exact_partial, C39_smartcard_exact_partial); the full claim is false of the code (C39_refuted, C39_smartcard_refuted)."
  },
  {
   "property": "C40",
   "status": "proved",
   "theorems": [
    "C40_unlinkability"
   ],
   "note": "For draws with r1 <> 0 and no accidental equality of the randomized base d with a base of a nym."
  },
  {
   "property": "C41",
   "status": "partial",
   "theorems": [
    "C41_card_signature",
    "C41_card_soundness",
    "C41_counter_partial",
    "C41_counter_refuted"
   ],
   "note": "The counter is an int16 and wraps after 65536 calls."
  },
  {
   "property": "C42",
   "status": "partial",
   "theorems": [
    "C42_bases_partial",
    "C42_refuted",
    "C42_index0_refuted",
    "C42_import"
   ],
   "note": "Holds for secret index 0 and attribute indices from 1. C42_import says what KeyImport hands back for a request for bases."
  },
  {
   "property": "C43",
   "status": "proved",
   "theorems": [
    "C43_credential_verification",
    "C43_csp"
   ],
   "note": "Surplus certified attributes beyond those of the issuer key are ignored; the statement says so."
  },
  {
   "property": "C44",
   "status": "partial",
   "theorems": [
    "C44_constructor",
    "C44_verdict_partial",
    "C44_panics",
    "C44_dlog_partial",
    "C44_dlog_blind_refuted",
    "C44_aries_request_refuted",
    "C44_any_handlers"
   ],
   "note": "The verdict discipline holds whenever Verify returns. It panics for blinded requests on the dlog CSP and for plain requests on the aries CSP, and when an operation of the scheme panics."
  },
  {
   "property": "C45",
   "status": "proved",
   "theorems": [
    "C45_call",
    "C45_ordered",
    "C45_contents",
    "C45_ephemeral",
    "C45_kvs",
    "C45_files",
    "C45_math",
    "C45_needs_store",
    "C45_dummy"
   ],
   "note": "For key stores whose failing StoreKey changes nothing; the shipped ones are such maps (the file-based one as long as no write fails, see C48)."
  },
  {
   "property": "C46",
   "status": "partial",
   "theorems": [
    "C46_partial",
    "C46_supported",
    "C46_refuted",
    "C46_only"
   ],
   "note": "Holds for user keys; a pseudonym key is stored under the SKI of its public key, not under its own."
  },
  {
   "property": "C47",
   "status": "proved",
   "theorems": [
    "C47_secret",
    "C47_returned",
    "C47_public",
    "C47_issuer_public",
    "C47_issuer_public_aries",
    "C47_public_part"
   ],
   "note": "Issuer and revocation public keys export if protobuf and x509 can serialise them."
  },
  {
   "property": "C48",
   "status": "partial",
   "theorems": [
    "C48_partial",
    "C48_refuted",
    "C48_write_error_refuted",
    "C48_reported"
   ],
   "note": "Put truncates the file in place: a crash or write error loses the stored key. Other keys are unaffected, and StoreKey reports every failed write."
  },
  {
   "property": "C49",
   "status": "proved",
   "theorems": [
    "C49_dispatch",
    "C49_registering"
   ],
   "note": "For every history of registrations."
  },
  {
   "property": "C50",
   "status": "partial",
   "theorems": [
    "C50_partial",
    "C50_sound",
    "C50_no_panic",
    "C50_refuted"
   ],
   "note": "Equivalence for identities of type *Idemixidentity and soundness for all; for the signing identity ADMIN and organizational-unit principals panic on a type assertion."
  },
  {
   "property": "C51",
   "status": "partial",
   "theorems": [
    "C51_partial",
    "C51_refuted",
    "C51_dlog_refuted"
   ],
   "note": "Refuted: Validate does not compare the pseudonym with the one in the proof, so whoever sees a valid identity can attach its proof to a pseudonym of their own and sign with it."
  },
  {
   "property": "C52",
   "status": "partial",
   "theorems": [
    "C52_deserialize",
    "C52_judged_partial",
    "C52_name",
    "C52_refuted"
   ],
   "note": "Holds for identities deserialized by the MSP. An identity object of another MSP object with the same name is judged by the keys of that object."
  },
  {
   "property": "C53",
   "status": "proved",
   "theorems": [
    "C53_dlog",
    "C53_aries",
    "C53_wellformed"
   ],
   "note": "For identities whose strings are valid UTF-8 and whose pseudonym encoding has at least two bytes (always so)."
  },
  {
   "property": "C54",
   "status": "proved",
   "theorems": [
    "C54_disclosed",
    "C54_mask",
    "C54_single"
   ],
   "note": ""
  },
  {
   "property": "C55",
   "status": "partial",
   "theorems": [
    "C55_partial",
    "C55_name_refuted",
    "C55_keys_refuted"
   ],
   "note": "A failing Setup keeps the signer, the version and other MSPs, but may have replaced the name, the CSP and the issuer key."
  },
  {
   "property": "C56",
   "status": "partial",
   "theorems": [
    "C56_dlog_partial",
    "C56_aries_partial",
    "C56_no_curve",
    "C56_curve_refuted",
    "C56_dlog_wire_partial",
    "C56_aries_wire_partial"
   ],
   "note": "Both schemes, with Setup's default curve: the whole run from ca-keygen to a verified signature; the wire versions are about the protobuf encoding instead of arbitrary codecs. False for other curves: the configuration read from the directory names no curve."
  },
  {
   "property": "C57",
   "status": "partial",
   "theorems": [
    "C57_keygen_partial",
    "C57_signerconfig_partial",
    "C57_overwrites",
    "C57_refuted",
    "C57_stat_refuted",
    "C57_race_refuted"
   ],
   "note": "Holds, at every crash point, for one process whose Stat calls tell the truth and, for signerconfig, when no msp/ files of another CA are in the output directory."
  },
  {
   "property": "C58",
   "status": "proved",
   "theorems": [
    "C58_wrong_opening_rejected"
   ],
   "note": ""
  },
  {
   "property": "C60",
   "status": "partial",
   "theorems": [
    "C60_refuted",
    "C60_dlog_refuted",
    "C60_aries_refuted"
   ],
   "note": "False of the code, as the theorems show: through the CSP, both schemes take an undeclared verification type for Basic, and dlog the smartcard types too, and accept signatures."
  },
  {
   "property": "C61",
   "status": "proved",
   "theorems": [
    "C61_message_scalar"
   ],
   "note": "BLAKE2b-384 is an arbitrary function with 48-byte results."
  },
  {
   "property": "C62",
   "status": "partial",
   "theorems": [
    "C62_keygen_seed",
    "C62_refuted"
   ],
   "note": "False for an empty non-nil seed: the key pair is then a constant."
  },
  {
   "property": "C65",
   "status": "partial",
   "theorems": [
    "C65_user",
    "C65_user_aries",
    "C65_translators",
    "C65_nym_public",
    "C65_nym_public_aries",
    "C65_issuer_secret",
    "C65_issuer_public",
    "C65_issuer_secret_aries",
    "C65_issuer_public_aries",
    "C65_revocation_secret",
    "C65_revocation_secret_aries",
    "C65_nym_pair_partial",
    "C65_nym_secret_refuted",
    "C65_nym_secret_aries_refuted",
    "C65_revocation_public_refuted",
    "C65_nym_public_forms"
   ],
   "note": "Pseudonym secret keys export only the scalar and revocation public keys export DER while PEM is imported."
  },
  {
   "property": "C63",
   "status": "partial",
   "theorems": [
    "C63_partial",
    "C63_refuted"
   ],
   "note": "Holds for an MSP object without a signer; a second Setup keeps the old signer."
  },
  {
   "property": "C64",
   "status": "partial",
   "theorems": [
    "C64_dlog_partial",
    "C64_fp_partial",
    "C64_refuted",
    "C64_aries_refuted",
    "C64_gurvy_refuted",
    "C64_aries_partial"
   ],
   "note": "With the fp256bn translators Setup panics only on an empty issuer key; with gurvy also on keys with missing points. With aries the configurations that panic are characterised exactly: an empty or malformed issuer key, or a signer's credential with too few or too many attributes or a bad position of the secret key."
  },
  {
   "property": "C66",
   "status": "partial",
   "theorems": [
    "C66_dlog_exact_partial",
    "C66_dlog_wire_partial",
    "C66_dlog_refuted",
    "C66_dlog_partial",
    "C66_aries_setup_partial",
    "C66_aries_refuted",
    "C66_aries_partial"
   ],
   "note": "The full claim is false and refuted in both schemes: Setup does not look at the signer's revocation information (dlog: with none, the default identity is refused by Validate) nor at where the credential says the user secret is (aries: signed as the second message, the default identity is refused). For dlog the condition under which the default identity is accepted after a successful Setup is exact, for a credential with four attributes; for aries the secret must be the first message and the first random scalar not zero. Signatures of the default identity always verify."
  },
  {
   "property": "C67",
   "status": "proved",
   "theorems": [
    "C67_dlog",
    "C67_aries",
    "C67_dlog_wire",
    "C67_aries_wire"
   ],
   "note": "Both schemes, for every key store. Excluded: a draw that makes an inverted scalar zero (the code inverts without testing it), and for aries accidental collisions among hashed generators; the aries user unblinds with the credential-request object since the CSP does not export Unblind. C67_dlog_wire and C67_aries_wire: the same with the protobuf encoding, no hypothesis about codecs."
  },
  {
   "property": "C68",
   "status": "partial",
   "theorems": [
    "C68_honest_message",
    "C68_honest_values",
    "C68_message_partial",
    "C68_refuted",
    "C68_csp_partial"
   ],
   "note": "Proved for every signature the signer makes (draws with A^(r1 e) = h0^r2 excluded). For arbitrary accepted byte strings it needs two responses in the first proof and Abar <> d; without that it is false (C68_refuted)."
  },
  {
   "property": "C69",
   "status": "proved",
   "theorems": [
    "C69_fields",
    "C69_honest_matrix",
    "C69_checked",
    "C69_csp",
    "C69_csp_checked"
   ],
   "note": "For smartcard types the theorem assumes that no encoded point starts with the letter W, R or N, which holds for BLS12-381. An undeclared verification type is taken for Basic (C60)."
  },
  {
   "property": "C70",
   "status": "partial",
   "theorems": [
    "C70_dlog",
    "C70_dlog_issuers",
    "C70_aries_honest",
    "C70_aries_partial",
    "C70_aries_refuted",
    "C70_bridge",
    "C70_csp"
   ],
   "note": "Proved in full for dlog. For aries proved for every signature the signer makes and for accepted byte strings whose point A' is not neutral; one byte string is accepted under every issuer key (C70_aries_refuted)."
  },
  {
   "property": "C71",
   "status": "partial",
   "theorems": [
    "C71_nonce",
    "C71_key",
    "C71_messages",
    "C71_any_partial",
    "C71_refuted"
   ],
   "note": "Proved for every proof DeriveProof makes (draws with A^(r1 e) = h0^r2 excluded). For arbitrary accepted byte strings it needs two responses in the first proof, Abar <> d and A' not neutral; without that it is false (C71_refuted)."
  },
  {
   "property": "C72",
   "status": "partial",
   "theorems": [
    "C72_credential",
    "C72_aries",
    "C72_smartcard_refuted",
    "C72_values_refuted",
    "C72_dlog_refuted"
   ],
   "note": "Proved for aries signature types without smartcard when the attribute list states the credential's values. Sign does not compare disclosed values with the credential, smartcard types and dlog do not check the credential: C72_values_refuted, C72_smartcard_refuted, C72_dlog_refuted."
  },
  {
   "property": "C73",
   "status": "partial",
   "theorems": [
    "C73_identifier_dlog",
    "C73_identifier_aries",
    "C73_units",
    "C73_anonymous",
    "C73_history_partial",
    "C73_refuted",
    "C73_msp",
    "C73_name",
    "C73_validate",
    "C73_public_version"
   ],
   "note": "The history part needs that an MSP is only set up under one name; otherwise earlier identities keep the old name in their identifier but report the new one as their MSP (C73_refuted)."
  },
  {
   "property": "C74",
   "status": "partial",
   "theorems": [
    "C74_dlog",
    "C74_aries_partial",
    "C74_aries_refuted"
   ],
   "note": "dlog: from two valid identities with the same claims whose proofs answer different challenges to the same first message a credential on the OU and role is computed (the forking argument itself is outside the model). aries: the same if the proofs have one response per hidden message and show the right positions; without these conditions refuted: one fixed byte string is an association proof for every MSP, OU and role, and an identity with it validates, satisfies the principals and its signatures verify."
  },
  {
   "property": "C75",
   "status": "partial",
   "theorems": [
    "C75_read_partial",
    "C75_crash_partial",
    "C75_stored_partial",
    "C75_window",
    "C75_read_refuted",
    "C75_stored_refuted",
    "C75_stored_json_refuted"
   ],
   "note": "For all interleavings, write errors and crash points in which keys stored under one identifier are equal (flag included): GetKey returns a stored key of that identifier or an error, and once all StoreKey calls for it have succeeded the key is found, and every GetKey that begins after that and returns before the next StoreKey of the same identifier finds it (C75_window). Refuted: a key already stored may not be found while it is stored again; storing a key concurrently as exportable and not exportable destroys it although both calls succeed. The laws of JSON it assumes (json_ok: round trip, no strict prefix and no text with zero bytes is decoded) are proved in C80."
  },
  {
   "property": "C76",
   "status": "proved",
   "theorems": [
    "C76_issue",
    "C76_sign_dlog",
    "C76_sign_aries",
    "C76_verify_dlog",
    "C76_verify_aries"
   ],
   "note": "For every key, record and signature: an issued record, a record signed with and an accepted signature all name algorithm 0; the signature carries the record's epoch, epoch key and authority signature."
  },
  {
   "property": "C77",
   "status": "partial",
   "theorems": [
    "C77_dlog_refuted",
    "C77_aries_refuted"
   ],
   "note": "False of the code in both schemes: the revocation information is neither hashed into the challenge nor checked, so every accepted signature stays accepted with any other epoch and authority signature (dlog: and any epoch key that parses)."
  },
  {
   "property": "C78",
   "status": "proved",
   "theorems": [
    "C78_read_back",
    "C78_nested"
   ],
   "note": "for the wire format of Proto.v; a message in which a slice is empty but not nil is read back with nil, which is the same message for all code in the repository (canon_* say which form is meant)"
  },
  {
   "property": "C79",
   "status": "partial",
   "theorems": [
    "C79_refuted"
   ],
   "note": "False of the code: fields with unknown numbers can be appended to every signature of every kind. What Verify binds is the message inside the bytes (C03, C35)."
  },
  {
   "property": "C80",
   "status": "proved",
   "theorems": [
    "C80_read_back",
    "C80_incomplete",
    "C80_overlong",
    "C80_laws"
   ],
   "note": "for the model of encoding/json and base64 in Json.v; C80_laws are the hypotheses of C75"
  },
  {
   "property": "C81",
   "status": "proved",
   "theorems": [
    "C81_formats"
   ],
   "note": "tables of the .proto files in Schema.v, encodings in Proto.v"
  },
  {
   "property": "C82",
   "status": "partial",
   "theorems": [
    "C82_aries",
    "C82_dlog_refuted"
   ],
   "note": "Proved for aries (perfect hiding of the blind request). The full claim is false of the dlog scheme: the request carries HSk^sk, which is the same in all requests of one user to one issuer and differs between users (C82_dlog_refuted)."
  },
  {
   "property": "C83",
   "status": "proved",
   "theorems": [
    "C83_hiding"
   ],
   "note": "DeriveProof; the two holders may differ in every hidden message and in the whole signature."
  },
  {
   "property": "C84",
   "status": "partial",
   "theorems": [
    "C84_no_panic",
    "C84_derive",
    "C84_verify_proof_partial",
    "C84_verify_proof_exact",
    "C84_truncated_refuted",
    "C84_responses_refuted"
   ],
   "note": "Sign, Verify and all parsers but ParseSignatureProof never panic. DeriveProof panics exactly for a valid signature with an index outside the messages. VerifyProof is proved free of panics for complete frames with enough responses, and the inputs on which it panics are characterised exactly (C84_verify_proof_exact); the full claim is false: every accepted proof cut inside its first part, and a proof without responses, make it panic for all messages, nonces and keys."
  },
  {
   "property": "C85",
   "status": "partial",
   "theorems": [
    "C85_binding_partial",
    "C85_neutral_refuted",
    "C85_stranger_refuted",
    "C85_bytes_refuted",
    "C85_csp_refuted",
    "C85_hiding",
    "C85_hiding_cards",
    "C85_hiding_blocks"
   ],
   "note": "Bound to message and pseudonym (up to the first byte of its encoding and an explicit collision) when B is not neutral, and hiding. The rest is false of the code: one byte string is accepted for every pseudonym, message and issuer key; anybody can sign for any pseudonym because only knowledge of an opening of the point B inside the signature is checked; the leading 16 bytes and trailing bytes are not bound; the CSP ignores the pseudonym key in smartcard mode."
  },
  {
   "property": "C86",
   "status": "proved",
   "theorems": [
    "C86_reading"
   ],
   "note": "File system as in C57; a file that cannot be read is treated like a missing one, as the code does for the signer configuration."
  },
  {
   "property": "C87",
   "status": "partial",
   "theorems": [
    "C87_dlog_partial",
    "C87_dlog_refuted",
    "C87_aries_partial",
    "C87_aries_refuted"
   ],
   "note": "dlog: proved when the issuer secret key belongs to the public key and isk + e is not zero; otherwise a configuration with an invalid credential is written. aries: the credential of every configuration verifies under the key computed from the secret key; the public key file is not looked at."
  },
  {
   "property": "C59",
   "status": "partial",
   "theorems": [
    "C59_dlog",
    "C59_aries_partial",
    "C59_neutral_refuted",
    "C59_padded_refuted"
   ],
   "note": "dlog in full, through the MSP API. aries: for signatures with two responses and a pseudonym other than the neutral point; the full claim is false of the code, which C59_neutral_refuted and C59_padded_refuted show (the latter: one byte string verifies for every identity and every message)."
  },
  {
   "property": "C88",
   "status": "partial",
   "theorems": [
    "C88_dlog",
    "C88_aries_partial",
    "C88_aries_refuted"
   ],
   "note": "Proved for dlog. For aries the full claim is false: a peer can send a serialized identity whose association proof makes Validate panic (C88_aries_refuted); everything else is proved (C88_aries_partial)."
  },
  {
   "property": "C89",
   "status": "partial",
   "theorems": [
    "C89_dlog_partial",
    "C89_aries_partial",
    "C89_dlog_refuted",
    "C89_aries_refuted",
    "C89_issuer_refuted"
   ],
   "note": "Proved for members whose configurations hold the same revocation information, with usable credentials (A not neutral, four attributes) and a blinding base that is not neutral. The full claim is false: C89_dlog_refuted/C89_aries_refuted read the signature of the revocation information off every identity, C89_issuer_refuted gives an accepted issuer key under which pseudonyms do not hide the member."
  },
  {
   "property": "C90",
   "status": "proved",
   "theorems": [
    "C90_joint",
    "C90_joint_wire"
   ],
   "note": "For the enrollment id at attribute index 2, the only one SmartcardIdemixBackend.Verify supports; conditions on the credential and the draws as in C34. The host passes any user key; the code would also take nil. C90_joint_wire: the same with the protobuf encoding."
  },
  {
   "property": "C91",
   "status": "partial",
   "theorems": [
    "C91_pair_partial",
    "C91_pair_refuted",
    "C91_kinds_partial",
    "C91_issuer_dlog",
    "C91_issuer_aries_partial",
    "C91_issuer_aries_refuted",
    "C91_nym_refuted"
   ],
   "note": "Proved for issuer, revocation and user keys and public pseudonyms. The full claim is false of the code: the SKI of a pseudonym key is the hash of its randomness (C91_pair_refuted, C91_nym_refuted), and the SKI of an aries issuer key does not cover the number of attributes (C91_issuer_aries_refuted)."
  },
  {
   "property": "C92",
   "status": "partial",
   "theorems": [
    "C92_keygen_partial",
    "C92_keygen_refuted",
    "C92_derive_partial",
    "C92_derive_refuted",
    "C92_bytes",
    "C92_ski",
    "C92_issuer_ski_refuted",
    "C92_names_refuted"
   ],
   "note": "Results and frame conditions are proved exactly: which cells change and to what. The full claim is false of the code in three places: a seed with spare capacity gets a zero written behind it, the indexes given to DeriveProof are sorted in place, and SKI of a dlog issuer key aliases the key. Only functions that write into memory they did not allocate, or that return a field, are modelled on the heap; all other functions are modelled on values. A generated dlog issuer key keeps the caller's slice of names (C92_names_refuted)."
  },
  {
   "property": "C93",
   "status": "partial",
   "theorems": [
    "C93_dlog_partial",
    "C93_dlog_refuted",
    "C93_aries"
   ],
   "note": "Proved for aries. False of the dlog code, which decodes the key and checks nothing: C93_dlog_partial says exactly what is imported, C93_dlog_refuted that every public part is."
  },
  {
   "property": "C94",
   "status": "partial",
   "theorems": [
    "C94_parse",
    "C94_verify_partial",
    "C94_verify_refuted",
    "C94_card_partial",
    "C94_card_refuted"
   ],
   "note": "Proved for the parsers that compare lengths and for acceptance in VerifyProof. False of the code: error versus panic in VerifyProof (C94_verify_refuted), smartcard signatures (C94_card_refuted)."
  },
  {
   "property": "C95",
   "status": "partial",
   "theorems": [
    "C95_total",
    "C95_request_partial",
    "C95_request_refuted",
    "C95_credential_partial",
    "C95_credential_refuted"
   ],
   "note": "Proved for keys, pseudonyms, requests to be made or signed, and blinded signatures. For requests and credentials to be verified the inputs that panic are characterised exactly; the full claim is false of the code (C95_request_refuted, C95_credential_refuted)."
  },
  {
   "property": "C96",
   "status": "partial",
   "theorems": [
    "C96_issued_shape",
    "C96_partial",
    "C96_refuted",
    "C96_smartcard_partial"
   ],
   "note": "Sign returns for every credential of the shape an issuer gives it. For credentials that verify, the panics of Sign are characterised exactly, for the types without smartcard (C96_partial) and with (C96_smartcard_partial); the full claim is false of the code (C96_refuted). Undeclared signature types are the subject of C98."
  },
  {
   "property": "C97",
   "status": "partial",
   "theorems": [
    "C97_dlog",
    "C97_aries_partial",
    "C97_smartcard_refuted",
    "C97_sign_refuted"
   ],
   "note": "Proved for every operation of the dlog scheme. For aries: no operation succeeds without a key; a nil or foreign key gives an error except in the two cases that are refuted (smartcard backend Verify, Sign with hidden indices out of range). The model lets a nil pointer of the right type panic at the type assertion, the code at its first use, so for nil pointers only 'never succeeds' is claimed."
  },
  {
   "property": "C98",
   "status": "proved",
   "theorems": [
    "C98_dlog",
    "C98_aries"
   ],
   "note": "Through the CSP, for both schemes."
  },
  {
   "property": "C99",
   "status": "proved",
   "theorems": [
    "C70_dlog",
    "C70_dlog_issuers",
    "C70_bridge",
    "C70_csp"
   ],
   "note": "Restates a part of C70, with its hypotheses, as a property of its own; it lists theorems of C70 and adds no new one. What fails of C70 is recorded there."
  },
  {
   "property": "C100",
   "status": "proved",
   "theorems": [
    "C59_dlog"
   ],
   "note": "Restates a part of C59, with its hypotheses, as a property of its own; it lists theorems of C59 and adds no new one. What fails of C59 is recorded there."
  },
  {
   "property": "C101",
   "status": "proved",
   "theorems": [
    "C88_dlog"
   ],
   "note": "Restates a part of C88, with its hypotheses, as a property of its own; it lists theorems of C88 and adds no new one. What fails of C88 is recorded there."
  },
  {
   "property": "C102",
   "status": "proved",
   "theorems": [
    "C74_dlog"
   ],
   "note": "Restates a part of C74, with its hypotheses, as a property of its own; it lists theorems of C74 and adds no new one. What fails of C74 is recorded there."
  },
  {
   "property": "C103",
   "status": "proved",
   "theorems": [
    "C82_aries"
   ],
   "note": "Restates a part of C82, with its hypotheses, as a property of its own; it lists theorems of C82 and adds no new one. What fails of C82 is recorded there."
  },
  {
   "property": "C104",
   "status": "proved",
   "theorems": [
    "C93_aries"
   ],
   "note": "Restates a part of C93, with its hypotheses, as a property of its own; it lists theorems of C93 and adds no new one. What fails of C93 is recorded there."
  },
  {
   "property": "C105",
   "status": "proved",
   "theorems": [
    "C97_dlog"
   ],
   "note": "Restates a part of C97, with its hypotheses, as a property of its own; it lists theorems of C97 and adds no new one. What fails of C97 is recorded there."
  },
  {
   "property": "C106",
   "status": "proved",
   "theorems": [
    "C68_honest_message",
    "C68_honest_values",
    "C70_aries_honest"
   ],
   "note": "Restates parts of C68 and C70, with their hypotheses, as a property of its own; it adds no new theorem. What fails is recorded at C68 and C70."
  },
  {
   "property": "C107",
   "status": "proved",
   "theorems": [
    "C71_nonce",
    "C71_key",
    "C71_messages"
   ],
   "note": "Restates a part of C71, with its hypotheses, as a property of its own; it lists theorems of C71 and adds no new one. What fails of C71 is recorded there."
  },
  {
   "property": "C108",
   "status": "proved",
   "theorems": [
    "C50_sound",
    "C50_no_panic"
   ],
   "note": "Restates a part of C50, with its hypotheses, as a property of its own; it lists theorems of C50 and adds no new one. What fails of C50 is recorded there."
  },
  {
   "property": "C109",
   "status": "proved",
   "theorems": [
    "C96_issued_shape"
   ],
   "note": "Restates a part of C96, with its hypotheses, as a property of its own; it lists theorems of C96 and adds no new one. What fails of C96 is recorded there."
  },
  {
   "property": "C110",
   "status": "proved",
   "theorems": [
    "C21_aries_complete",
    "C21_aries_bound",
    "C21_aries_csp"
   ],
   "note": "Restates a part of C21, with its hypotheses, as a property of its own; it lists theorems of C21 and adds no new one. What fails of C21 is recorded there."
  },
  {
   "property": "C111",
   "status": "proved",
   "theorems": [
    "C111_dlog",
    "C111_aries"
   ],
   "note": "Stated for the Sign of a CSP with either scheme. Added because no theorem failed for the right reason when the check was removed (d24)."
  },
  {
   "property": "C112",
   "status": "partial",
   "theorems": [
    "C112_partial",
    "C112_verify_partial",
    "C112_keys",
    "C112_alone",
    "C112_setup",
    "C112_name_refuted",
    "C112_member_refuted",
    "C112_read_alone",
    "C112_read_partial",
    "C112_read_name",
    "C112_read_refuted"
   ],
   "note": "False in full. A call that overlaps a Setup that keeps name, curve and revocation public key returns what it returns before or after (C112_partial); Verify needs only the same curve (C112_verify_partial). Whatever the Setup, an accepted identity's proof verifies with keys each from before or after (C112_keys). When the name changes, Validate can refuse an identity that is valid before and after (C112_name_refuted, C112_name_example), and an identity of the old MSP can be a member of the new one although it is not before or after (C112_member_refuted, C112_member_example). C112_alone and C112_setup say that without overlap the interleaving model is the model of Msp.v. DeserializeIdentity reads the same as before and after when name and curve stay (C112_read_partial), and only ever the old or the new name (C112_read_name); when the name changes it can read bytes that name the old MSP as an identity of the new one (C112_read_refuted)."
  },
  {
   "property": "C113",
   "status": "proved",
   "theorems": [
    "C113_type",
    "C113_one_scheme"
   ],
   "note": ""
  },
  {
   "property": "C114",
   "status": "proved",
   "theorems": [
    "C114_dlog",
    "C114_aries"
   ],
   "note": ""
  }
 ]
}