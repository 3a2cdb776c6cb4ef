{"id": "C01", "title": "Issuance completeness (dlog)", "statement": "For an issuer key pair generated by the library, every honest credential request made with a nonce of scalar size is accepted, the issuer then issues a credential on exactly the supplied attribute values, and that credential verifies for the requesting user's secret key and the issuer public key.", "quantifier": "all curves, issuer secrets, attribute-name lists without duplicates, user secrets, scalar-size nonces, attribute vectors of the right length, random draws (issuer exponent + E non zero)", "why_tests_cant": "Tests sample a handful of attribute counts; parity bugs in the two-at-a-time multiplication loops and sign errors are only excluded by an argument for every length and every scalar.", "anchors": ["bccsp/schemes/dlog/crypto/credrequest.go: newCredRequest, CredRequest.Check", "bccsp/schemes/dlog/crypto/credential.go: newCredential, Credential.Ver", "bccsp/schemes/dlog/crypto/issuerkey.go: newIssuerKey"]}
{"id": "C02", "title": "Signature completeness (dlog)", "statement": "A signature created by NewSignature (standard, EidNym, EidNymRhNym) from a valid credential verifies for the same message, disclosure, attribute values and issuer key under every verification type that covers its signature type.", "quantifier": "all credentials, disclosure vectors, messages, pseudonyms, random draws, signature types and the compatible verification types", "why_tests_cant": "There are 2^n disclosure masks and the Fiat-Shamir transcripts of signer and verifier are built by separate code paths.", "anchors": ["bccsp/schemes/dlog/crypto/signature.go: NewSignature, prepare, finalise, Signature.Ver"]}
{"id": "C03", "title": "Signature special soundness (dlog)", "statement": "From two accepted signatures that share their first message but have different challenges, one computes either a credential (A,e,s) valid under the issuer key for the extracted secret key and attribute vector whose disclosed positions equal the verifier's values, or an explicit discrete-log relation between the issuer's bases.", "quantifier": "all issuer keys, disclosures, attribute values, messages, hash oracles and pairs of accepted signatures", "why_tests_cant": "Unforgeability concerns every adversarial signature, not the ones tests construct.", "anchors": ["bccsp/schemes/dlog/crypto/signature.go: Signature.Ver"]}
{"id": "C04", "title": "Pseudonym and credential share the user secret (dlog)", "statement": "The secret key extracted from the pseudonym proof of two accepted signatures with a common first message is the same scalar as the one extracted from the credential proof, and it opens the signature's Nym.", "quantifier": "all pairs of accepted signatures with common first message and distinct challenges", "why_tests_cant": "Quantifies over adversarial signatures.", "anchors": ["bccsp/schemes/dlog/crypto/signature.go: Signature.Ver (t2, t3)"]}
{"id": "C05", "title": "EidNym/RhNym are bound to the certified attribute (dlog)", "statement": "If a signature is accepted with EidNym (RhNym) verification, the EidNym (RhNym) it carries is a commitment to the very enrollment-id (revocation-handle) attribute contained in the signer's credential.", "quantifier": "all accepted signatures, all disclosure vectors and attribute indices", "why_tests_cant": "The verifier picks the response it compares by binary search in the hidden-index list, so the answer depends on every mask/index combination, including those no honest signer produces.", "anchors": ["bccsp/schemes/dlog/crypto/signature.go: Signature.Ver (t4_eid, t4_rh, sort.SearchInts)"]}
{"id": "C06", "title": "Perfect unlinkability of presentations (dlog)", "statement": "Given two users holding credentials valid under one issuer key that agree on the disclosed attributes, every signature (with its pseudonym) that the first can output for a message is also output by the second for some choice of its random draws: signatures carry no information about which credential made them.", "quantifier": "all pairs of valid credentials, disclosure vectors, messages, random draws and all three signature types", "why_tests_cant": "A statement about the whole distribution of outputs; a reused or missing random draw passes every functional test.", "anchors": ["bccsp/schemes/dlog/crypto/signature.go: prepare, finalise"]}
{"id": "C07", "title": "Pseudonyms hide the user secret", "statement": "For every pseudonym produced by MakeNym for one user secret and every other user secret there is a randomness with which MakeNym produces the very same pseudonym.", "quantifier": "all issuer keys, pairs of user secrets and random draws", "why_tests_cant": "Statistical statement over all randomness.", "anchors": ["bccsp/schemes/dlog/crypto/util.go: makeNym", "bccsp/schemes/aries/user.go: MakeNym"]}
{"id": "C08", "title": "Pseudonyms and audit commitments are binding", "statement": "Two different openings of the same pseudonym, EidNym or RhNym let anyone compute the discrete logarithm between the two public bases; in particular an auditor can accept two different enrollment ids for one EidNym only then.", "quantifier": "all issuer keys, commitments and pairs of openings", "why_tests_cant": "Quantifies over adversarially chosen openings.", "anchors": ["bccsp/schemes/dlog/crypto/signature.go: AuditNymEid, AuditNymRh", "bccsp/schemes/dlog/crypto/nymeid.go", "bccsp/schemes/dlog/crypto/nymrh.go", "bccsp/schemes/aries/signer.go: AuditNymEid, AuditNymRh"]}
{"id": "C09", "title": "Accepted signatures are bound to the message (dlog)", "statement": "If one signature is accepted for two different messages (same issuer key, disclosure and verification type) then the hash oracle collides on two explicitly known distinct inputs.", "quantifier": "all signatures, message pairs of any lengths", "why_tests_cant": "Needs injectivity of the transcript framing for all lengths.", "anchors": ["bccsp/schemes/dlog/crypto/signature.go: Signature.Ver (proofData)"]}
{"id": "C10", "title": "Accepted signatures are bound to the disclosure vector (dlog)", "statement": "If one signature is accepted under two different disclosure vectors of the same length then the hash oracle collides on two explicitly known distinct inputs; likewise for two issuer keys with different hashes.", "quantifier": "all signatures, disclosure vectors, issuer keys", "why_tests_cant": "Transcript injectivity for all inputs.", "anchors": ["bccsp/schemes/dlog/crypto/signature.go: Signature.Ver (proofData)"]}
{"id": "C11", "title": "Verification-type acceptance matrix (dlog)", "statement": "ExpectStandard rejects every signature that carries an EidNym or an RhNym; ExpectEidNym rejects every signature without a complete EidNym; ExpectEidNymRhNym rejects every signature missing either; BestEffort verifies a nym whenever it is present; one signature is never accepted both with and without verification of a nym, except through a hash collision.", "quantifier": "all signatures and verification types, all keys and messages", "why_tests_cant": "Adversarial signatures; every combination of presence and type.", "anchors": ["bccsp/schemes/dlog/crypto/signature.go: Signature.Ver"]}
{"id": "C12", "title": "Audit completeness (dlog)", "statement": "For every EidNym / EidNymRhNym signature the returned metadata passes AuditNymEid (AuditNymRh) on the signature and on the raw nym, with exactly the certified attribute, and any other attribute with the same randomness fails.", "quantifier": "all credentials, signatures, metadata", "why_tests_cant": "All attribute values and indices.", "anchors": ["bccsp/schemes/dlog/crypto/signature.go: finalise, AuditNymEid, AuditNymRh", "bccsp/schemes/dlog/crypto/nymeid.go", "bccsp/schemes/dlog/crypto/nymrh.go"]}
{"id": "C13", "title": "Caller-supplied audit metadata is honoured or rejected", "statement": "If the caller supplies audit data to sign with, signing fails unless the supplied attribute equals the certified one and the supplied nym equals the commitment to it, and on success the signature carries exactly that nym.", "quantifier": "all metadata, credentials and indices", "why_tests_cant": "All combinations.", "anchors": ["bccsp/schemes/dlog/crypto/signature.go: finalise", "bccsp/schemes/aries/signer.go: getAttributeCommitment"]}
{"id": "C14", "title": "Pseudonym signatures: completeness (dlog and aries)", "statement": "A pseudonym signature created with the secret and randomness of a pseudonym verifies for that pseudonym, message and issuer key.", "quantifier": "all keys, pseudonyms, messages and draws", "why_tests_cant": "All scalars and message lengths.", "anchors": ["bccsp/schemes/dlog/crypto/nymsignature.go", "bccsp/schemes/aries/nymsigner.go"]}
{"id": "C15", "title": "Pseudonym signatures: special soundness (dlog)", "statement": "Two accepted pseudonym signatures for one pseudonym with the same first message and distinct challenges yield an opening (sk, r) of the pseudonym; a signature accepted for two messages yields a hash collision.", "quantifier": "all accepted signatures", "why_tests_cant": "Adversarial signatures.", "anchors": ["bccsp/schemes/dlog/crypto/nymsignature.go: NymSignature.Ver"]}
{"id": "C16", "title": "Issuer key well-formedness check", "statement": "A key generated by NewIssuerKey passes Check and survives SetHash; from two accepted issuer-key proofs with the same first message and distinct challenges one computes an issuer secret x with W = g2^x and BarG2 = BarG1^x.", "quantifier": "all attribute-name lists, draws, accepted keys", "why_tests_cant": "Adversarial issuer keys.", "anchors": ["bccsp/schemes/dlog/crypto/issuerkey.go: newIssuerKey, IssuerPublicKey.Check, SetHash"]}
{"id": "C17", "title": "Attribute names of an issuer key are distinct and match the import request", "statement": "NewIssuerKey fails exactly when a name is repeated; NewPublicKeyFromBytes returns a key only if the key is well formed and, when attribute names are requested, its names equal the requested ones in number and order.", "quantifier": "all name lists and serialized keys", "why_tests_cant": "All lists.", "anchors": ["bccsp/schemes/dlog/crypto/issuerkey.go: newIssuerKey", "bccsp/schemes/dlog/bridge/issuer.go: NewPublicKeyFromBytes"]}
{"id": "C18", "title": "Credential requests are bound to the issuer's nonce (dlog)", "statement": "The request verifier accepts only requests carrying exactly the expected nonce of scalar size; a request accepted with two different nonces gives a hash collision; two accepted requests with the same first message and distinct challenges give the user's secret key.", "quantifier": "all requests and nonces of any length", "why_tests_cant": "Variable-length nonces are copied into a fixed-size buffer; all lengths matter.", "anchors": ["bccsp/schemes/dlog/crypto/credrequest.go", "bccsp/schemes/dlog/bridge/credrequest.go"]}
{"id": "C19", "title": "Credential verification is sound and complete (dlog)", "statement": "Credential.Ver accepts exactly when B is the commitment to the secret key and all attribute values carried by the credential, under the issuer's bases, and the pairing equation holds.", "quantifier": "all credentials, issuer keys and secret keys", "why_tests_cant": "All attribute counts, including counts different from the issuer key's.", "anchors": ["bccsp/schemes/dlog/crypto/credential.go: Credential.Ver"]}
{"id": "C20", "title": "Verification honours epoch and revocation key (dlog)", "statement": "A signature is accepted only if its revocation information is valid for the epoch and the revocation public key the verifier asks for.", "quantifier": "all signatures, epochs and revocation keys", "why_tests_cant": "Quantifies over all epochs/keys.", "anchors": ["bccsp/schemes/dlog/crypto/signature.go: Signature.Ver", "bccsp/schemes/dlog/bridge/revocation.go"]}
{"id": "C21", "title": "Credential revocation information is authenticated", "statement": "CRI created for (epoch, algorithm) verifies under the authority's key for that epoch and algorithm, and verification for another epoch or algorithm than the signed one fails unless the signature scheme is forged.", "quantifier": "all keys, epochs, algorithms, CRIs", "why_tests_cant": "All pairs of epochs.", "anchors": ["bccsp/schemes/dlog/crypto/revocation_authority.go", "bccsp/schemes/dlog/bridge/revocation.go", "bccsp/schemes/aries/revocation.go"]}
{"id": "C22", "title": "Weak Boneh-Boyen signatures", "statement": "WbbSign of a message under a generated key verifies, and verifies for no other message.", "quantifier": "all keys and messages (secret + message non zero)", "why_tests_cant": "All scalars.", "anchors": ["bccsp/schemes/weak-bb/weak-bb.go"]}
{"id": "C23", "title": "Malformed input never panics through the dlog bridge", "statement": "Every dlog signature-scheme, credential, request, nym-signature, issuer and user entry point returns a value or an error for every input, never a panic.", "quantifier": "all byte strings, nil fields, indices and options", "why_tests_cant": "All malformed inputs.", "anchors": ["bccsp/schemes/dlog/bridge/*.go"]}
{"id": "C24", "title": "Curve-point translators round-trip and are canonical", "statement": "G1FromProto(G1ToProto(P)) = P for each translator; G1FromRawBytes inverts the raw form; two different protobuf encodings of one point are never both accepted.", "quantifier": "all points and byte strings", "why_tests_cant": "All encodings.", "anchors": ["bccsp/schemes/dlog/crypto/translator/amcl/fp256bn.go", "bccsp/schemes/dlog/crypto/translator/amcl/gurvy.go"]}
{"id": "C25", "title": "BBS+ sign/verify completeness", "statement": "Every signature produced by Sign over one or more messages verifies under the corresponding public key and the same messages.", "quantifier": "all keys, message lists of any length, draws", "why_tests_cant": "Any list length (parity of the two-at-a-time product).", "anchors": ["bbs/bbs12381g2pub.go: Sign, Verify, sumOfG1Products", "bbs/signature.go"]}
{"id": "C26", "title": "BBS+ selective-disclosure completeness", "statement": "DeriveProof over a valid signature revealing any non-empty set of distinct indices verifies with VerifyProof given the revealed messages in index order and the same nonce.", "quantifier": "all message lists, index sets, nonces, draws", "why_tests_cant": "All subsets.", "anchors": ["bbs/bbs12381g2pub.go: DeriveProof, VerifyProof", "bbs/proof_of_knowledge.go", "bbs/signature_proof.go"]}
{"id": "C27", "title": "BBS+ proofs are sound", "statement": "An accepted proof of possession shows knowledge of a signature whose revealed messages are those given to the verifier: from two accepted proofs with the same first message and distinct challenges a valid signature (or a discrete-log relation) is computed.", "quantifier": "all accepted proofs", "why_tests_cant": "Adversarial proofs with arbitrary response counts and payloads.", "anchors": ["bbs/signature_proof.go: ProofG1.Verify, getChallengeContribution, PoKOfSignatureProof.Verify"]}
{"id": "C28", "title": "Disclosure payload codec", "statement": "The payload written for a message count up to 65535 and any set of revealed indices below the count parses back to the same count and the same indices in increasing order, and reports its own length.", "quantifier": "all counts and index sets", "why_tests_cant": "Bit-vector boundary cases for every count.", "anchors": ["bbs/utils.go: ToBytes, ParsePoKPayload, bitvectorToIndexes"]}
{"id": "C29", "title": "Proof byte codecs", "statement": "Serialized signatures, G1 proofs and signature proofs parse back to the same object.", "quantifier": "all objects with any number of responses", "why_tests_cant": "Any length.", "anchors": ["bbs/signature.go", "bbs/signature_proof.go: ToBytes, ParseSignatureProof, ParseProofG1"]}
{"id": "C30", "title": "Message generators are domain separated", "statement": "The byte strings hashed to obtain the blinding generator and the message generators are pairwise distinct for different public keys, message counts and indices.", "quantifier": "all public keys, counts and indices below 2^32", "why_tests_cant": "All indices.", "anchors": ["bbs/keys.go: toPublicKeyWithGenerators, calcData"]}
{"id": "C31", "title": "Generator cache is transparent under concurrency", "statement": "Whatever the interleaving of concurrent lookups, every lookup returns the generator that a cache-less computation returns.", "quantifier": "all schedules of any number of lookups", "why_tests_cant": "All interleavings.", "anchors": ["bbs/keys.go: publicKeyGeneratorCache.get"]}
{"id": "C32", "title": "Blind issuance completeness (aries)", "statement": "Blind, BlindVerify, Sign, Unblind and Verify succeed in sequence for an honest user and issuer and yield a credential on exactly the given attributes and the user's secret.", "quantifier": "all keys, attributes, nonces, draws", "why_tests_cant": "All scalars and attribute counts.", "anchors": ["bccsp/schemes/aries/credrequest.go", "bccsp/schemes/aries/blind_sign.go", "bccsp/schemes/aries/cred.go"]}
{"id": "C33", "title": "Blind credential requests prove knowledge (aries)", "statement": "BlindVerify accepts a request only if its maker knows an opening of the blinded commitment with respect to the blinding base and the secret-key base.", "quantifier": "all requests", "why_tests_cant": "Adversarial requests.", "anchors": ["bccsp/schemes/aries/blind_sign.go: VerifyBlinding, ParseBlindedMessages"]}
{"id": "C34", "title": "Signature completeness (aries)", "statement": "Signer.Sign output verifies under the matching verification type for all five signature types.", "quantifier": "all credentials, disclosures, messages, draws, signature types", "why_tests_cant": "2^n disclosures; separate transcript code paths.", "anchors": ["bccsp/schemes/aries/signer.go: Sign, Verify"]}
{"id": "C35", "title": "Signatures are unforgeable: challenge-response is enforced (aries)", "statement": "Verify accepts only responses that answer the Fiat-Shamir challenge, so nobody without a credential can produce an accepted signature.", "quantifier": "all signatures, keys, messages", "why_tests_cant": "Adversarial signatures.", "anchors": ["bccsp/schemes/aries/signer.go: Verify", "bbs/signature_proof.go: getChallengeContribution"]}
{"id": "C36", "title": "Pseudonym signatures cannot be forged (aries)", "statement": "NymSigner.Verify accepts only signatures whose maker knows an opening of the pseudonym.", "quantifier": "all pseudonyms and signatures", "why_tests_cant": "Adversarial signatures.", "anchors": ["bccsp/schemes/aries/nymsigner.go: Verify", "bbs/signature_proof.go"]}
{"id": "C37", "title": "Disclosed attributes are bound to the credential (aries)", "statement": "If Verify accepts with a given list of disclosed attributes, the proof is about a credential carrying exactly these values at exactly these positions.", "quantifier": "all signatures, attribute lists", "why_tests_cant": "Adversarial payloads.", "anchors": ["bccsp/schemes/aries/signer.go: Verify", "bbs/utils.go: ParsePoKPayload"]}
{"id": "C38", "title": "EidNym/RhNym are bound to the certified attribute (aries)", "statement": "If Verify accepts with EidNym/RhNym verification, the nym commits to the credential's enrollment id / revocation handle.", "quantifier": "all signatures", "why_tests_cant": "Adversarial index fields.", "anchors": ["bccsp/schemes/aries/signer.go: Verify (NymEidIdx, NymRhIdx)"]}
{"id": "C39", "title": "Malformed input never panics (aries)", "statement": "Signer.Verify, NymSigner.Verify and smartcard verification return an error for malformed signatures instead of panicking.", "quantifier": "all byte strings", "why_tests_cant": "All malformed inputs.", "anchors": ["bccsp/schemes/aries/signer.go: Verify", "bccsp/schemes/aries/smartcard.go: NymVerify", "bbs/signature_proof.go: ParseSignatureProof"]}
{"id": "C40", "title": "Perfect unlinkability of presentations (aries)", "statement": "Two valid credentials agreeing on the disclosed attributes produce exactly the same set of signatures.", "quantifier": "all pairs of credentials, disclosures, messages, draws", "why_tests_cant": "Distributional statement.", "anchors": ["bccsp/schemes/aries/signer.go: Sign"]}
{"id": "C41", "title": "Smartcard pseudonym signatures", "statement": "NymSign output verifies with NymVerify for the card's current NymEid and message; two accepting transcripts give an opening of B; the card's per-signature randomness never repeats.", "quantifier": "all cards, counters, messages", "why_tests_cant": "Counter wrap-around after 2^16 steps.", "anchors": ["bccsp/schemes/aries/smartcard.go"]}
{"id": "C42", "title": "Commitment bases match the bases used by signer and verifier (aries)", "statement": "Issuer.Bases returns, for pairwise distinct indices in range, the bases used for Nym, NymEid and NymRh by signing, verification and auditing.", "quantifier": "all index triples", "why_tests_cant": "All index combinations.", "anchors": ["bccsp/schemes/aries/issuer.go: Bases", "bccsp/schemes/aries/signer.go"]}
{"id": "C43", "title": "Credential verification binds attribute values (aries)", "statement": "Cred.Verify accepts only if each non-hidden requested attribute equals the certified value and the BBS+ signature is valid on the user's secret and all certified values.", "quantifier": "all credentials and attribute lists", "why_tests_cant": "All positions.", "anchors": ["bccsp/schemes/aries/cred.go: Verify"]}
{"id": "C44", "title": "CSP verify verdict discipline", "statement": "CSP.Verify returns (true, nil) or (false, error), never true with an error or false without, and only for the key/option combination of a wired verifier; an empty signature is never valid.", "quantifier": "all keys, options, signatures", "why_tests_cant": "All combinations.", "anchors": ["bccsp/impl.go", "bccsp/bccsp.go", "bccsp/handlers/*.go"]}
{"id": "C45", "title": "Ephemeral keys are never persisted, non-ephemeral ones are", "statement": "After any sequence of KeyGen/KeyDeriv/KeyImport calls the key store holds exactly the keys of the successful non-ephemeral calls.", "quantifier": "all operation histories", "why_tests_cant": "All histories.", "anchors": ["bccsp/impl.go: KeyGen, KeyDeriv, KeyImport"]}
{"id": "C46", "title": "Stored keys are retrievable by their SKI", "statement": "GetKey(k.SKI()) returns a key equivalent to k after k was stored, until another key is stored under the same SKI.", "quantifier": "all histories of stores", "why_tests_cant": "All histories and key kinds.", "anchors": ["bccsp/keystore/kvsbased.go", "bccsp/handlers/nym.go"]}
{"id": "C47", "title": "Secret key export obeys the exportable flag", "statement": "Bytes() of a secret key object succeeds only if the key was created exportable; public keys always export.", "quantifier": "all keys", "why_tests_cant": "All key kinds.", "anchors": ["bccsp/handlers/*.go"]}
{"id": "C48", "title": "File-based key store is crash safe", "statement": "A crash at any point of Put leaves every stored key readable with its old or new value.", "quantifier": "all crash points", "why_tests_cant": "Crash points.", "anchors": ["bccsp/keystore/kvs/filebased.go"]}
{"id": "C49", "title": "Algorithm dispatch is by key or option type", "statement": "Sign/Verify/KeyGen/KeyDeriv/KeyImport invoke exactly the handler registered for the type, unregistered types give an error and no state change; registering a wrapper never changes the handlers of other types.", "quantifier": "all registration histories", "why_tests_cant": "All histories.", "anchors": ["bccsp/impl.go: AddWrapper"]}
{"id": "C50", "title": "Principal evaluation (MSP)", "statement": "SatisfiesPrincipal succeeds exactly when the identity is valid and the (possibly nested) principal holds of it under the MSP's name and version.", "quantifier": "all principals of any nesting depth, identities, versions", "why_tests_cant": "Unbounded nesting.", "anchors": ["msp/idemixmsp.go: SatisfiesPrincipal, satisfiesPrincipalValidated"]}
{"id": "C51", "title": "An MSP identity's pseudonym is bound to its association proof", "statement": "Validate accepts an identity only if its association proof was made for the identity's own pseudonym.", "quantifier": "all identities and proofs", "why_tests_cant": "Adversarial identities.", "anchors": ["msp/idemixmsp.go: Validate, verifyProof"]}
{"id": "C52", "title": "Identities of other MSPs are rejected", "statement": "DeserializeIdentity rejects an identity with a different MSP id and Validate judges every identity by this MSP's issuer key.", "quantifier": "all identities and MSPs", "why_tests_cant": "All pairs of MSPs.", "anchors": ["msp/idemixmsp.go: DeserializeIdentity, Validate"]}
{"id": "C53", "title": "Identity serialization round-trips", "statement": "Deserialize(Serialize(id)) yields an identity with the same pseudonym, OU, role and proof.", "quantifier": "all identities", "why_tests_cant": "All byte lengths.", "anchors": ["msp/idemixmsp.go: Serialize, DeserializeIdentityInternal"]}
{"id": "C54", "title": "Role mapping", "statement": "The role disclosed to verifiers distinguishes ADMIN from every other MSP role; a role mask contains exactly the roles combined into it.", "quantifier": "all role values and masks", "why_tests_cant": "All integers.", "anchors": ["msp/roles.go"]}
{"id": "C55", "title": "MSP setup is atomic", "statement": "A failing Setup leaves the MSP as it was.", "quantifier": "all configurations and histories of Setup calls", "why_tests_cant": "All failure points.", "anchors": ["msp/idemixmsp.go: Setup"]}
{"id": "C56", "title": "Generated configuration is accepted", "statement": "The files written by idemixgen ca-keygen and signerconfig are accepted by MSP Setup, for both role choices, all non-empty OUs and enrollment ids.", "quantifier": "all OUs, enrollment ids, revocation handles, draws", "why_tests_cant": "All strings.", "anchors": ["tools/idemixgen/idemixca/idemixca.go", "msp/idemixmsp.go: Setup, GetIdemixMspConfig"]}
{"id": "C57", "title": "idemixgen never overwrites existing key material", "statement": "ca-keygen and signerconfig leave pre-existing files under ca/, msp/ and user/ unchanged, whatever the flags and at every crash point.", "quantifier": "all directory states, flags, crash points", "why_tests_cant": "All states.", "anchors": ["tools/idemixgen/main.go"]}
{"id": "C58", "title": "Signing key material matters: distinct secrets, distinct verdicts", "statement": "A nym signature made with a secret or randomness not opening the pseudonym is rejected unless the challenge is zero.", "quantifier": "all wrong openings", "why_tests_cant": "All scalars.", "anchors": ["bccsp/schemes/dlog/crypto/nymsignature.go"]}
{"id": "C60", "title": "Unsupported verification types are rejected", "statement": "Verify never accepts a signature when it is asked for a verification type that the scheme does not implement: in the dlog scheme the smartcard types, in both schemes every integer that is not one of the declared constants. (False of both schemes: these types are taken for Basic.)", "quantifier": "all signatures, keys, messages, options and verification types", "why_tests_cant": "Quantifies over all signatures; tests only use supported types.", "anchors": ["bccsp/schemes/dlog/crypto/signature.go: Signature.Ver", "bccsp/schemes/aries/signer.go: Signer.Verify", "bccsp/types/idemixopts.go: VerificationType"]}
{"id": "C61", "title": "Messages are hashed to scalars by full reduction", "statement": "The scalar of a message is its 384-bit digest, read as a big-endian integer, reduced modulo the group order, for every message.", "quantifier": "all messages and digests", "why_tests_cant": "All digests, including those whose halves overflow.", "anchors": ["bbs/fr.go: FrFromOKM"]}
{"id": "C62", "title": "Key generation without a seed is random", "statement": "The BBS+ key pair depends only on a 32-byte seed when one is given and otherwise on fresh randomness; other seed lengths are refused.", "quantifier": "all seeds (nil, empty, any length) and all random draws", "why_tests_cant": "All seeds; randomness of the output is not observable from one run.", "anchors": ["bbs/keys.go: GenerateKeyPair", "bccsp/schemes/aries/issuer.go: NewKey"]}
{"id": "C65", "title": "Exported keys can be imported again", "statement": "For every key object whose Bytes() succeeds, KeyImport of these bytes with the import options of that kind of key returns an equivalent key.", "quantifier": "all keys of all seven kinds, both schemes, all translators and exportable CSPs", "why_tests_cant": "Round trips must hold for every key value and every curve encoding; the tests try a few keys of some kinds.", "anchors": ["bccsp/handlers/nym.go: nymSecretKey.Bytes, NymKeyImporter, NymPublicKeyImporter", "bccsp/handlers/user.go", "bccsp/handlers/issuer.go", "bccsp/handlers/revocation.go: RevocationPublicKeyImporter"]}
{"id": "C63", "title": "Setup without a signer gives an MSP that only verifies", "statement": "After a successful Setup whose configuration has no signer, GetDefaultSigningIdentity returns an error and the MSP trusts exactly the configured keys.", "quantifier": "all MSP objects, including ones set up before, and all configurations", "why_tests_cant": "Tests set up each MSP object once; the claim ranges over all histories of Setup calls.", "anchors": ["msp/idemixmsp.go: Setup, GetDefaultSigningIdentity"]}
{"id": "C64", "title": "MSP setup reports malformed configurations as errors", "statement": "Setup returns an error and does not panic, whatever bytes the configuration contains.", "quantifier": "all configurations (nil, undecodable, empty or malformed keys and credentials) for both schemes and all curves", "why_tests_cant": "All byte strings.", "anchors": ["msp/idemixmsp.go: Setup"]}
{"id": "C66", "title": "The default identity of an MSP is accepted by it", "statement": "After a successful Setup with a signer, the default identity carries the configured OU and role, the MSP validates it, and every signature it makes verifies under it.", "quantifier": "all configurations with a credential of the issuer, all messages and all random draws", "why_tests_cant": "All keys, messages and randomness.", "anchors": ["msp/idemixmsp.go: Setup, Validate, Idemixidentity.Verify, IdemixSigningIdentity.Sign"]}
{"id": "C67", "title": "An honest run through the CSP API succeeds", "statement": "When issuer, user, revocation authority and verifier use only KeyGen, KeyImport, KeyDeriv, Sign and Verify of a CSP as documented, every call succeeds and every Verify accepts: the exported issuer key imports to the same key, the credential request, credential and revocation information verify, and for every message, selection of attributes and compatible signature and verification types signatures and pseudonym signatures verify. The metadata Sign returns lets an auditor confirm exactly the certified enrollment id and revocation handle.", "quantifier": "all attribute names and values, messages, disclosures, epochs, signature and verification types, key stores and random draws that leave no inverted scalar zero", "why_tests_cant": "The composition of all calls ranges over every key, attribute vector, message and draw.", "anchors": ["bccsp/bccsp.go: New, NewAries", "bccsp/impl.go: KeyGen, KeyDeriv, KeyImport, Sign, Verify", "bccsp/handlers", "bccsp/schemes/dlog/bridge", "bccsp/schemes/aries"]}
{"id": "C68", "title": "A signature stands for one message and one choice of disclosed values (aries)", "statement": "A signature the signer made for one message is accepted for another message, by whatever verification type and with whatever further arguments, only if the hash function collides; and it is accepted with other disclosed values only if these give the same product of powers of the issuer's bases (a relation nobody is assumed to know) or the challenge is zero.", "quantifier": "all signers with a valid credential, signature types, draws outside the listed exceptional values, messages, attribute lists, verification types and metadata", "why_tests_cant": "Every other message and attribute list would have to be tried.", "anchors": ["bccsp/schemes/aries/signer.go: Sign, Verify", "bbs/signature_proof.go: Verify, GetBytesForChallenge"]}
{"id": "C69", "title": "Verification-type acceptance matrix (aries)", "statement": "ExpectStandard and ExpectSmartcardNoNyms accept no signature that carries data about an enrollment-id or revocation-handle pseudonym; ExpectEidNym, ExpectSmartcard and ExpectEidNymRhNym accept none without the complete data they name; BestEffort checks whatever is present; and a signature made with one signature type is accepted by the verification types that go with it and by no other declared one, except through a hash collision.", "quantifier": "all byte strings, keys and messages; all honest signers, signature types and verification types", "why_tests_cant": "Adversarial signatures; every combination of types, keys and messages.", "anchors": ["bccsp/schemes/aries/signer.go: Sign, Verify"]}
{"id": "C70", "title": "A signature is accepted under one issuer key only", "statement": "A signature that Verify accepts under two issuer public keys, for whatever messages, disclosed values, indices and types, shows that the two keys hold the same signing key; so a holder of a credential of one issuer cannot pass for a credential holder of another.", "quantifier": "all signatures, pairs of issuer public keys, messages, disclosures, indices, verification types and metadata", "why_tests_cant": "Every pair of keys and every byte string an adversary may submit would have to be tried.", "anchors": ["bccsp/schemes/dlog/crypto/signature.go: Ver", "bccsp/schemes/aries/signer.go: Verify", "bbs/signature_proof.go: Verify"]}
{"id": "C71", "title": "A selective-disclosure proof stands for one nonce, one key and the disclosed messages (BBS+)", "statement": "A proof DeriveProof made for one nonce is accepted by VerifyProof for another nonce only if the hash function collides; it is accepted under no other public key; and it is accepted for other messages only if these give the same product of powers of the bases (a relation nobody is assumed to know) or the challenge is zero.", "quantifier": "all keys, message lists, disclosed positions, nonces and draws outside the listed exceptional values", "why_tests_cant": "Every other nonce, key and message list would have to be tried.", "anchors": ["bbs/bbs12381g2pub.go: DeriveProof, VerifyProof", "bbs/signature_proof.go: Verify, GetBytesForChallenge"]}
{"id": "C72", "title": "Sign hands out no signature that does not verify (aries)", "statement": "Whenever Sign succeeds for a signature type without smartcard, whatever secret key, credential bytes, revocation record, audit data and message it was given, the credential is a valid signature of this issuer on this secret and on the attributes it carries, and the resulting signature is accepted under every verification type meant for it; so a wrong key or credential is noticed when signing, not by the peer.", "quantifier": "all secrets, credential bytes, attribute lists, audit data, messages and draws that are not degenerate", "why_tests_cant": "Every malformed credential or foreign key would have to be tried.", "anchors": ["bccsp/schemes/aries/signer.go: Sign", "bbs/signature_proof.go: NewPoKOfSignature", "bccsp/schemes/dlog/crypto/signature.go: NewSignature"]}
{"id": "C73", "title": "An identity's accessors agree with what its MSP checks", "statement": "Two identities read by an MSP have equal identifiers exactly if they have the same pseudonym, and then they accept the same signatures. GetOrganizationalUnits of a valid identity names the one unit of this MSP for which the identity satisfies an organizational-unit principal, with the issuer key as certifier. Anonymous agrees with the anonymity principals that a valid identity satisfies. In every history of Setup, GetDefaultSigningIdentity and DeserializeIdentity calls the identifier and GetMSPIdentifier of an identity name the same MSP.", "quantifier": "all serialized identities, principals and histories of calls on any number of MSPs", "why_tests_cant": "All pseudonyms, principals and call histories.", "anchors": ["msp/idemixmsp.go: GetIdentifier, GetMSPIdentifier, GetOrganizationalUnits, Serialize, Setup, newIdemixIdentity"]}
{"id": "C74", "title": "A valid identity is backed by a credential", "statement": "Whoever makes an identity that an MSP validates holds a credential of the issuer the MSP trusts, and the credential certifies the organizational unit and the role the identity shows.", "quantifier": "all MSPs, issuer keys, organizational units, roles and serialized identities, made by anyone", "why_tests_cant": "it speaks about every identity an adversary may construct, not about those honest signers make", "anchors": ["msp/idemixmsp.go: Validate, Verify, verifyProof, SatisfiesPrincipal", "bccsp/schemes/dlog/crypto/signature.go: Ver", "bccsp/schemes/aries/signer.go: Verify"]}
{"id": "C75", "title": "The file-based key store can be shared", "statement": "When any number of goroutines or processes store and read keys in one directory, every GetKey returns the key stored under the identifier it asks for, a key stored successfully is found from then on, and whatever happens GetKey returns no other key than one that was stored under that identifier.", "quantifier": "all interleavings of all numbers of StoreKey and GetKey calls, with write errors, and all crash points", "why_tests_cant": "the outcome depends on the interleaving of system calls, of which a test sees a few", "anchors": ["bccsp/keystore/kvs/filebased.go: Put, Get", "bccsp/keystore/kvsbased.go: StoreKey, GetKey"]}
{"id": "C76", "title": "Only the no-revocation algorithm is used, and signatures carry what they were made with", "statement": "Revocation information is issued for the algorithm ALG_NO_REVOCATION only; Sign succeeds only with information of that algorithm, and the signature carries exactly its epoch, epoch key and authority signature; Verify accepts only signatures that name that algorithm.", "quantifier": "all keys, epochs, algorithm numbers, credentials, revocation records, signature bytes, signature and verification types, both schemes", "why_tests_cant": "ranges over every algorithm number and every byte string offered as revocation record or signature", "anchors": ["bccsp/schemes/dlog/crypto/revocation_authority.go: CreateCRI", "bccsp/schemes/dlog/crypto/signature.go: NewSignature, Ver", "bccsp/schemes/dlog/crypto/nonrevocation-prover.go", "bccsp/schemes/dlog/crypto/nonrevocation-verifier.go", "bccsp/schemes/aries/revocation.go: Sign", "bccsp/schemes/aries/signer.go: Sign, Verify"]}
{"id": "C77", "title": "The revocation information inside a signature cannot be exchanged", "statement": "Nobody can change the epoch, the epoch key or the authority's signature carried by an accepted signature and obtain another accepted signature.", "quantifier": "all signatures, replacement epochs, epoch keys and authority signatures, all verifier arguments, both schemes", "why_tests_cant": "ranges over all manipulations of all signatures", "anchors": ["bccsp/schemes/dlog/crypto/signature.go: Ver", "bccsp/schemes/aries/signer.go: Verify"]}
{"id": "C78", "title": "Messages survive encoding", "statement": "Every protobuf message the library writes (issuer keys, credential requests, credentials, revocation records, signatures and pseudonym signatures of both schemes, and the MSP's identities, configurations and principals) is read back as it was written, provided its strings are UTF-8, and the empty byte string is read as the message without fields.", "quantifier": "all messages of all kinds with integers in the range of their types and UTF-8 strings, of any size and number of entries", "why_tests_cant": "ranges over all messages; round trips of samples miss lengths and integers at the edges of the varint encoding", "anchors": ["bccsp/schemes/dlog/crypto/idemix.proto", "bccsp/schemes/aries/cred.proto", "bccsp/schemes/dlog/crypto/translator/amcl/amcl.proto", "msp/config/msp_config.proto", "msp/config/identities.proto"]}
{"id": "C79", "title": "Signature bytes cannot be changed", "statement": "From an accepted signature nobody can make a different byte string that Verify accepts for the same message, issuer key and attributes.", "quantifier": "all accepted signatures and pseudonym signatures of both schemes, all verifier arguments, all changes of the bytes", "why_tests_cant": "ranges over all manipulations of all signatures", "anchors": ["bccsp/schemes/dlog/bridge/signaturescheme.go: Verify", "bccsp/schemes/dlog/bridge/nymsignaturescheme.go: Verify", "bccsp/schemes/aries/signer.go: Verify", "bccsp/schemes/aries/nymsigner.go: Verify"]}
{"id": "C80", "title": "The files of the key store", "statement": "The file written for a key is read back as the same entry; a file that was cut off, in which bytes have not been written yet (and read as zero), or that has anything but blanks behind the entry is not read as a key at all.", "quantifier": "all entries, all byte strings that are an incomplete or overlong version of a written file", "why_tests_cant": "ranges over all keys and all points at which writing may stop", "anchors": ["bccsp/keystore/kvs/filebased.go: Put, Get", "bccsp/keystore/kvsbased.go: entry, NymSecretKey, UserSecretKey"]}
{"id": "C81", "title": "Messages follow the .proto files", "statement": "Every message is written with the fields and field numbers of the .proto files (zero values left out, nothing else added), and every byte string that has these fields, in whatever order and by whatever program it was written, is read as that message.", "quantifier": "all messages of all kinds, all byte strings laid out according to the .proto files", "why_tests_cant": "round trips within one program cannot notice numbers exchanged in both directions, and samples do not range over all messages and field orders", "anchors": ["bccsp/schemes/dlog/crypto/idemix.proto", "bccsp/schemes/aries/cred.proto", "bccsp/schemes/dlog/crypto/translator/amcl/amcl.proto", "msp/config/msp_config.proto", "msp/config/identities.proto"]}
{"id": "C82", "title": "Credential requests hide the user secret", "statement": "What the user sends to the issuer does not tell which secret it was made for: for every two user secrets there is a one-to-one change of the random draws after which the other secret gives exactly the same request bytes.", "quantifier": "all issuer keys, pairs of user secrets, nonces, positions of the secret and random draws, both schemes", "why_tests_cant": "Statement about the distribution over all randomness.", "anchors": ["bccsp/schemes/aries/credrequest.go: Blind", "bccsp/schemes/aries/blind_sign.go: BlindMessagesZr", "bccsp/schemes/dlog/crypto/credrequest.go: NewCredRequest"]}
{"id": "C83", "title": "Selective-disclosure proofs hide everything that is not disclosed (BBS+)", "statement": "For two signatures of one issuer on message lists of equal length that agree at the disclosed positions there is a one-to-one change of the random draws after which DeriveProof gives exactly the same bytes: the proof tells neither the hidden messages nor which signature it was derived from.", "quantifier": "all issuer keys, message lists, signatures, disclosed positions, nonces and random draws", "why_tests_cant": "Statement about the distribution over all randomness.", "anchors": ["bbs/bbs12381g2pub.go: DeriveProof", "bbs/proof_of_knowledge.go: NewPoKOfSignature"]}
{"id": "C84", "title": "Malformed input does not crash users of the BBS+ library", "statement": "Whatever bytes are passed to Sign, Verify, DeriveProof, VerifyProof and the parsers of keys, signatures and proofs, they return a result or an error and never panic.", "quantifier": "all byte strings given as keys, signatures, proofs and nonces, all message lists and index lists", "why_tests_cant": "ranges over all byte strings, including every truncation of every valid proof", "anchors": ["bbs/bbs12381g2pub.go: Sign, Verify, DeriveProof, VerifyProof", "bbs/signature_proof.go: ParseSignatureProof, ParseProofG1", "bbs/signature.go: ParseSignature", "bbs/utils.go: parsePoKPayload", "bbs/keys.go: UnmarshalPublicKey, UnmarshalPrivateKey"]}
{"id": "C85", "title": "What a smartcard pseudonym signature stands for (aries)", "statement": "A smartcard pseudonym signature accepted by Verify for a pseudonym and a message is accepted for no other pseudonym or message, was made by a card that can open the pseudonym, cannot be changed into other accepted bytes, and does not reveal the card's user secret.", "quantifier": "all issuer keys, cards, pseudonyms, messages, signature byte strings, seeds and random draws, any SHA-256", "why_tests_cant": "A forgery or a second meaning of a signature is a statement about every byte string; hiding is a statement about the distribution over all draws.", "anchors": ["bccsp/schemes/aries/smartcard.go: Smartcard.NymSign, Smartcard.NymVerify, SmartcardIdemixBackend.Verify", "bccsp/handlers/nymsigner.go: NymVerifier.Verify"]}
{"id": "C86", "title": "Reading an MSP configuration from a directory", "statement": "GetIdemixMspConfigWithType succeeds exactly if the type is not negative, both public key files can be read and the signer configuration is absent or well-formed; the configuration returned then holds the given name and exactly the bytes read, and nothing else; it never panics.", "quantifier": "all file systems, directories, MSP names, configuration types and encodings", "why_tests_cant": "File contents and combinations of missing and malformed files are unbounded.", "anchors": ["msp/idemixmsp.go: GetIdemixMspConfigWithType, GetIdemixMspConfig"]}
{"id": "C87", "title": "A generated signer configuration contains what was asked for", "statement": "idemixgen writes a signer configuration only for a non-empty organizational unit and enrollment id; it decodes to the unit, role, enrollment id and revocation handle asked for, and its credential on exactly these values verifies for the user secret in it under the issuer public key it was made for.", "quantifier": "all attribute values, roles, issuer key files, revocation keys and random draws, both schemes", "why_tests_cant": "Key files of different authorities, degenerate draws and unusual attribute values are not enumerable.", "anchors": ["tools/idemixgen/idemixca/idemixca.go: GenerateSignerConfig", "tools/idemixgen/idemixca/iedmixca_aries.go: GenerateSignerConfigAries"]}
{"id": "C59", "title": "A signature of an MSP identity stands for one message", "statement": "Signature bytes that Verify of an identity of an MSP accepts for a message are accepted for no other message, and by no other identity of the MSP with another pseudonym, unless two explicitly known different inputs of the hash function collide.", "quantifier": "all MSPs that were set up, all identities, all byte strings as signatures, all pairs of messages", "why_tests_cant": "Ranges over adversarial signature bytes and all pairs of messages of any lengths.", "anchors": ["msp/idemixmsp.go: Idemixidentity.Verify", "bccsp/schemes/dlog/crypto/nymsignature.go: NymSignature.Ver", "bccsp/schemes/aries/nymsigner.go: NymSigner.Verify"]}
{"id": "C88", "title": "Bytes from a peer cannot crash an MSP", "statement": "An MSP that has been set up returns from DeserializeIdentity for every byte string, with an identity or an error; and Validate, SatisfiesPrincipal with every principal, Verify with every message and signature, and Serialize return for the identity it has read. For the dlog scheme this holds. For the aries scheme everything but Validate and SatisfiesPrincipal returns, these panic exactly when the verification of the association proof inside the identity does, and one byte string is such a proof for every MSP, pseudonym, organizational unit and role.", "quantifier": "every MSP set up with either scheme, every byte string, principal, message and signature", "why_tests_cant": "the claim is about all byte strings; fuzzing samples them, and the crashing proof has to be well formed up to its last section to get past the earlier checks", "anchors": ["msp/idemixmsp.go: DeserializeIdentity, Validate, SatisfiesPrincipal, verifyProof, Verify, Serialize", "bccsp/schemes/dlog/bridge/signaturescheme.go: Verify", "bccsp/schemes/aries/signer.go: Verify", "bccsp/schemes/aries/nymsigner.go: Verify"]}
{"id": "C89", "title": "Members of an MSP are anonymous", "statement": "An observer who receives the serialized default identity of a member and then signatures of messages of their choice learns nothing about which member it is beyond the organizational unit and the role: for two members of one MSP with the same unit and role there is a bijection of the random draws of Setup and of the signatures under which whole sessions are equal byte for byte, for every adaptive observer. This holds for both schemes when the two signer configurations hold the same revocation information and the issuer's blinding base is not the neutral element. Without the first condition it fails: the signature of the revocation information can be read off every identity, and idemixgen makes that information anew for each signer. Without the second it fails for dlog: every accepted issuer key has an accepted twin under which all pseudonyms of a member are one point.", "quantifier": "every MSP, every two configurations of members that Setup accepts, every observer choosing messages from what was seen, every number of signatures, all random draws", "why_tests_cant": "anonymity compares distributions over all draws and all observers; a test sees one session", "anchors": ["msp/idemixmsp.go: Setup, GetDefaultSigningIdentity, Serialize, Sign", "bccsp/schemes/dlog/crypto/signature.go: NewSignature", "bccsp/schemes/dlog/crypto/nymsignature.go: NewNymSignature", "bccsp/schemes/dlog/crypto/issuerkey.go: Check", "bccsp/schemes/aries/signer.go: Sign", "bccsp/schemes/aries/nymsigner.go: Sign", "tools/idemixgen/idemixca/idemixca.go: GenerateSignerConfig"]}
{"id": "C90", "title": "Joint signatures with a smartcard work through the CSP", "statement": "With a smartcard that holds the user's secret key and is set to the issuer's bases, Sign of the aries CSP with the smartcard flag returns a signature that Verify accepts for the card's enrollment-id pseudonym, and leaves in the options the pseudonym the card used and its opening. From these, the credential and the card's audit data, a host that does not know the secret key (whatever user key it passes) makes a presentation with Sign. Verify accepts the presentation as a smartcard signature without metadata, and with metadata that names an enrollment-id pseudonym exactly when it is the card's.", "quantifier": "every issuer key, credential, set of shown attributes, card state and secret keys of the card's generators, message, digest, random draws of card and host, user key of the host, metadata of the verifier", "why_tests_cant": "a test runs one card with one credential; that the result does not depend on the host's key and that every other pseudonym is refused ranges over all of them", "anchors": ["bccsp/smartcard_test.go: TestSmartcardCSP", "bccsp/handlers/nymsigner.go: NymSigner.Sign, NymVerifier.Verify", "bccsp/schemes/aries/smartcard.go: SmartcardIdemixBackend, Smartcard.NymSign, Smartcard.NymVerify", "bccsp/schemes/aries/signer.go: Sign, Verify"]}
{"id": "C91", "title": "Subject key identifiers identify keys", "statement": "SKI of a key pair and of its public key agree, and two keys of one kind with the same SKI are the same key (unless a hash function collides on their encodings). This holds for issuer, revocation and user keys of the dlog CSP and for public pseudonyms. It does not hold for pseudonym keys, whose SKI is the hash of their randomness: it differs from the SKI of their public key, and different pseudonyms with the same randomness share it. It holds for issuer keys of the aries CSP only if they are imported for the same number of attributes: the same bytes imported for another number give another key with the same SKI.", "quantifier": "every key, both schemes, every pair of byte strings and attribute names imported as issuer keys, every key store and state", "why_tests_cant": "a test compares the identifiers of a few keys; that no two different keys share one ranges over all pairs of keys", "anchors": ["bccsp/handlers/issuer.go: issuerSecretKey.SKI, issuerPublicKey.SKI", "bccsp/handlers/nym.go: NymSecretKey.SKI, nymPublicKey.SKI, computeSKI", "bccsp/handlers/user.go: UserSecretKey.SKI", "bccsp/handlers/revocation.go: revocationSecretKey.SKI, revocationPublicKey.SKI", "bccsp/schemes/dlog/bridge/issuer.go: IssuerPublicKey.Hash", "bccsp/schemes/aries/issuer.go: IssuerPublicKey.Hash"]}
{"id": "C92", "title": "Calls leave the caller's memory alone, and the caller cannot reach into keys", "statement": "GenerateKeyPair and DeriveProof of the BBS+ library return what belongs to the bytes and indexes in the slices they are given and change no cell of the caller's memory; Bytes and SKI hand out slices of their own, so that storing into them changes no key. What holds: the results are right, Bytes of a public pseudonym and SKI of a pseudonym key are the caller's own. What does not: GenerateKeyPair writes a zero behind a seed whose capacity exceeds its length, so that of two seeds in one buffer the second is changed; DeriveProof sorts the caller's indexes in place, also when it fails; SKI of a dlog issuer key is the key's own memory, and whoever stores into it changes the key.", "quantifier": "every heap, every slice of every array with every length and capacity, every seed, index list, message and random draw", "why_tests_cant": "tests pass freshly allocated slices whose capacity is their length; the effect depends on the surrounding memory of the slice", "anchors": ["bbs/keys.go: GenerateKeyPair, generateOKM", "bbs/bbs12381g2pub.go: DeriveProof, DeriveProofZr", "bccsp/handlers/nym.go: nymPublicKey.Bytes, NymSecretKey.SKI", "bccsp/handlers/issuer.go: issuerPublicKey.SKI", "bccsp/schemes/dlog/bridge/issuer.go: IssuerPublicKey.Hash", "bccsp/schemes/dlog/crypto/translator/amcl: G1ToProto"]}
{"id": "C93", "title": "Imported issuer secret keys are consistent", "statement": "KeyImport accepts a byte string as an issuer secret key only if the public part of the key belongs to the secret, is well formed, and has the attribute names of the request. For aries this holds: the public part is computed from the scalar for the number of names. For dlog KeyImport accepts exactly the encoded keys, whatever their public part and whatever the names in the request.", "quantifier": "every byte string, list of attribute names, key store and state, both schemes", "why_tests_cant": "tests import keys they have generated; the claim is about all byte strings", "anchors": ["bccsp/handlers/issuer.go: IssuerKeyImporter.KeyImport", "bccsp/schemes/dlog/bridge/issuer.go: Issuer.NewKeyFromBytes", "bccsp/schemes/dlog/crypto/issuerkey.go: NewIssuerKeyFromBytes", "bccsp/schemes/aries/issuer.go: Issuer.NewKeyFromBytes"]}
{"id": "C94", "title": "What a call makes of a byte slice depends only on its bytes", "statement": "The result of parsing or verifying a byte slice is a function of the bytes of the slice, not of what lies behind them in memory. This holds for credentials, proofs of knowledge, proof headers, blinded messages and pseudonym keys. For BBS+ VerifyProof it holds of acceptance, but whether a truncated proof gives an error or a panic depends on the memory behind it. It is false of smartcard pseudonym signatures: a prefix of a valid signature, one byte long for example, is accepted if the rest follows in memory.", "quantifier": "every memory, every slice in it (array, offset, length, capacity), every curve, issuer key, message and nonce", "why_tests_cant": "tests pass slices whose capacity holds nothing of interest; the claim is about all memory contents behind a slice", "anchors": ["bbs/signature_proof.go: BBSLib.ParseSignatureProof, ParseProofG1", "bbs/bbs12381g2pub.go: BBSG2Pub.VerifyProof", "bbs/signature.go: BBSLib.ParseSignature", "bbs/utils.go: ParsePoKPayload", "bccsp/schemes/aries/smartcard.go: Smartcard.NymVerify, SmartcardIdemixBackend.Verify", "bccsp/schemes/aries/blind_sign.go: ParseBlindedMessages", "bccsp/schemes/aries/user.go: User.NewNymFromBytes", "bccsp/schemes/dlog/crypto/util.go: makeNymFromBytes"]}
{"id": "C95", "title": "Malformed issuance messages do not crash issuer or holder (aries)", "statement": "Importing keys and pseudonyms, making, signing and unblinding credential requests return a value or an error for every byte string. Verifying a credential request and verifying a credential should do so too. They do not: a request that announces fewer than two responses makes the issuer panic, and a credential with too few attributes, or with a position for the user secret key that does not exist, makes the holder panic, directly and through Verify of the CSP; nothing else does.", "quantifier": "all byte strings, issuer keys, attribute lists with values of their type, positions of the user secret key, nonces and random draws", "why_tests_cant": "ranges over all byte strings a peer can send; the crash is a statement about each of them", "anchors": ["bccsp/schemes/aries/credrequest.go: CredRequest.Blind, BlindVerify, Unblind", "bccsp/schemes/aries/cred.go: Cred.Sign, Cred.Verify", "bccsp/schemes/aries/blind_sign.go: POKOfBlindedMessages.VerifyProof, ParseBlindedMessages", "bccsp/schemes/aries/user.go", "bccsp/schemes/aries/issuer.go", "bbs/signature_proof.go: ProofG1.Verify"]}
{"id": "C96", "title": "A credential that verifies does not crash its holder (aries)", "statement": "Once Verify has accepted a credential for the user secret key and the issuer, Sign with this credential returns a signature or an error. It does so for every credential with one value for each attribute and the user secret key in front. It does not for every credential that Verify accepts: with an attribute too many, which anybody can add to a credential without any key, or with a position of the user secret key too far behind for the number of disclosed attributes, Sign panics; nothing else does. An MSP whose configuration holds such a credential panics in Setup.", "quantifier": "all issuer keys, credential bytes, user secret keys, attribute lists, messages, revocation information, audit data, random draws and declared signature types", "why_tests_cant": "ranges over all byte strings that Verify accepts as credentials; the ones that crash are not made by the library itself", "anchors": ["bccsp/schemes/aries/signer.go: Signer.Sign, getPoKOfSignature, getCommitNym", "bccsp/schemes/aries/util.go: toSignatureMessage, revealedAttributesIndex", "bccsp/schemes/aries/cred.go: Cred.Verify", "bbs/signature.go, bbs/proof_of_knowledge.go: computeB, NewPoKOfSignature", "msp/idemixmsp.go: Idemixmsp.Setup"]}
{"id": "C97", "title": "Without an issuer key nothing succeeds, and the lack of one is reported", "statement": "A call of either scheme that is given a nil issuer key, or an issuer key made by another implementation, never succeeds, whatever its other arguments are, and should return an error. In the dlog scheme it returns an error always, for a nil pointer too (except Bases, which panics on every input). In the aries scheme a nil interface or a foreign key gives an error, except that the smartcard backend's Verify panics, and Sign panics first if it is asked to hide an enrollment id or revocation handle that is not among the attributes.", "quantifier": "every operation of both schemes, every nil or foreign key, all other arguments", "why_tests_cant": "Failing closed on a missing key must hold for all messages, signatures, credentials and attribute lists, a test tries one.", "anchors": ["bccsp/schemes/dlog/bridge/signaturescheme.go: Sign, Verify, AuditNymEid, AuditNymRh", "bccsp/schemes/dlog/bridge/credential.go: Sign, Verify", "bccsp/schemes/aries/signer.go: Sign, Verify, AuditNymEid, AuditNymRh", "bccsp/schemes/aries/smartcard.go: SmartcardIdemixBackend.Sign, SmartcardIdemixBackend.Verify", "bccsp/schemes/aries/cred.go: Sign, Verify"]}
{"id": "C98", "title": "Sign makes no signature of a type it does not know", "statement": "Sign with a signature type that the scheme does not implement returns no signature, whatever the key, the credential and the other options. In the dlog scheme, which implements neither of the smartcard types nor any value that is not declared, it returns an error. In the aries scheme, which implements all the declared types, Sign with an undeclared value panics for every request that it would serve with the type EidNym.", "quantifier": "all keys, digests, options, random draws and signature types (all integers)", "why_tests_cant": "ranges over all requests and all integers that are not declared constants; no test uses one", "anchors": ["bccsp/types/idemixopts.go: SignatureType", "bccsp/schemes/dlog/crypto/signature.go: NewSignature", "bccsp/schemes/dlog/bridge/signaturescheme.go: SignatureScheme.Sign", "bccsp/schemes/aries/signer.go: Signer.Sign, getChallengeHash", "bccsp/handlers/signer.go: Signer.Sign"]}
{"id": "C99", "title": "A dlog signature is accepted under one issuer key only", "statement": "If Verify of the dlog scheme accepts a signature under two issuer public keys, whatever the messages, attribute lists, indices, verification types and metadata of the two calls, then both keys have the same point W = g2^isk; two issuers that generated their keys with the library then have the same secret key.", "quantifier": "all signatures and pairs of issuer keys, messages and options", "why_tests_cant": "Every pair of keys and every byte string an adversary may submit would have to be tried.", "anchors": ["bccsp/schemes/dlog/crypto/signature.go: Ver", "bccsp/schemes/aries/signer.go: Verify", "bbs/signature_proof.go: Verify"]}
{"id": "C100", "title": "A signature of a dlog MSP identity stands for one pseudonym and one message", "statement": "If an MSP with the dlog scheme accepts the same signature bytes for two of its identities and two messages, then the pseudonyms and the messages are equal, or the two hashed transcripts are an explicit hash collision.", "quantifier": "all set-up MSPs, identities, messages and byte strings", "why_tests_cant": "Ranges over adversarial signature bytes and all pairs of messages of any lengths.", "anchors": ["msp/idemixmsp.go: Idemixidentity.Verify", "bccsp/schemes/dlog/crypto/nymsignature.go: NymSignature.Ver", "bccsp/schemes/aries/nymsigner.go: NymSigner.Verify"]}
{"id": "C101", "title": "Bytes from a peer cannot crash a dlog MSP", "statement": "Once an MSP with the dlog scheme is set up, DeserializeIdentity returns an identity or an error for every byte string, and Validate, SatisfiesPrincipal with every principal that is not nil, Verify with every message and signature, and Serialize return for the identity it has read.", "quantifier": "all set-up MSPs, byte strings, messages, signatures and principals", "why_tests_cant": "the claim is about all byte strings; fuzzing samples them, and the crashing proof has to be well formed up to its last section to get past the earlier checks", "anchors": ["msp/idemixmsp.go: DeserializeIdentity, Validate, SatisfiesPrincipal, verifyProof, Verify, Serialize", "bccsp/schemes/dlog/bridge/signaturescheme.go: Verify", "bccsp/schemes/aries/signer.go: Verify", "bccsp/schemes/aries/nymsigner.go: Verify"]}
{"id": "C102", "title": "A valid identity of a dlog MSP is backed by a credential", "statement": "Two identities of a dlog MSP that it validates, that show the same organizational unit and role, and whose association proofs answer different challenges to one first message, give a credential of the MSP's issuer on that organizational unit and that role: an explicit function of the two proofs computes it. (That whoever makes valid identities can make such a pair is the forking argument, which is not claimed.)", "quantifier": "all dlog MSPs that were set up with an issuer key whose points are readable, all such pairs of identities", "why_tests_cant": "it speaks about every identity an adversary may construct, not about those honest signers make", "anchors": ["msp/idemixmsp.go: Validate, Verify, verifyProof, SatisfiesPrincipal", "bccsp/schemes/dlog/crypto/signature.go: Ver", "bccsp/schemes/aries/signer.go: Verify"]}
{"id": "C103", "title": "A blind credential request hides the user secret (aries)", "statement": "For any two user secrets there is a one-to-one change of the three random draws of the blind request after which the other secret gives exactly the same request bytes.", "quantifier": "all issuer keys whose blinding base is not the neutral element, numbers of attributes below 2^32 - 1, positions of the secret among them, pairs of secrets, nonces and draws, on a curve with the sizes of BLS12-381", "why_tests_cant": "Statement about the distribution over all randomness.", "anchors": ["bccsp/schemes/aries/credrequest.go: Blind", "bccsp/schemes/aries/blind_sign.go: BlindMessagesZr", "bccsp/schemes/dlog/crypto/credrequest.go: NewCredRequest"]}
{"id": "C104", "title": "Imported issuer secret keys are consistent (aries)", "statement": "When KeyImport, asked for a temporary key, accepts bytes as an issuer secret key of the aries scheme, the bytes are 32 long, the secret is the scalar they encode, the public key is the one of that secret and is for as many attributes as names were given, and the key store is unchanged.", "quantifier": "all byte strings, lists of names, key stores and states; temporary keys", "why_tests_cant": "tests import keys they have generated; the claim is about all byte strings", "anchors": ["bccsp/handlers/issuer.go: IssuerKeyImporter.KeyImport", "bccsp/schemes/dlog/bridge/issuer.go: Issuer.NewKeyFromBytes", "bccsp/schemes/dlog/crypto/issuerkey.go: NewIssuerKeyFromBytes", "bccsp/schemes/aries/issuer.go: Issuer.NewKeyFromBytes"]}
{"id": "C105", "title": "Operations of the dlog scheme report the lack of an issuer key", "statement": "MakeNym, the making and the verification of a credential request, the signing and the verification of a credential, Sign, Verify, the two audits, and the making and the verification of a pseudonym signature return an error in the dlog scheme if the issuer key is nil, a nil pointer or made by another implementation, whatever the other arguments are.", "quantifier": "these eleven operations with all their other arguments (Bases is not among them: it panics on every input)", "why_tests_cant": "Failing closed on a missing key must hold for all messages, signatures, credentials and attribute lists, a test tries one.", "anchors": ["bccsp/schemes/dlog/bridge/signaturescheme.go: Sign, Verify, AuditNymEid, AuditNymRh", "bccsp/schemes/dlog/bridge/credential.go: Sign, Verify", "bccsp/schemes/aries/signer.go: Sign, Verify, AuditNymEid, AuditNymRh", "bccsp/schemes/aries/smartcard.go: SmartcardIdemixBackend.Sign, SmartcardIdemixBackend.Verify", "bccsp/schemes/aries/cred.go: Sign, Verify"]}
{"id": "C106", "title": "What the aries signer signs is bound to message, disclosed values and issuer", "statement": "Take a signature the aries signer made with a valid credential. Verify under the issuer's key accepts it for another message only if two explicit inputs of the hash function collide. Verify with the position of the user secret it was made with, and a verification type of the same smartcard kind, accepts it with other disclosed values only if these give the same product of powers of the bases or an explicit hash value is zero. Verify under the key of another issuer never accepts it.", "quantifier": "all presentations (valid credential with a point A that is not neutral, agreeing attribute list, declared signature type, user secret in front, up to 65534 attributes) and draws, for message and values without those with A^(r1 e) = h0^r2; all other arguments of Verify; issuer keys of the form the library generates; curves with the sizes of BLS12-381", "why_tests_cant": "Every other message and attribute list would have to be tried.", "anchors": ["bccsp/schemes/aries/signer.go: Sign, Verify", "bbs/signature_proof.go: Verify, GetBytesForChallenge"]}
{"id": "C107", "title": "A derived BBS+ proof is bound to nonce, key and disclosed messages", "statement": "Take a proof DeriveProof made from a valid signature. VerifyProof under the same key accepts it for another nonce only if two explicit inputs of the hash function collide. VerifyProof under another public key never accepts it. VerifyProof with the same key and nonce accepts it for other messages only if their hashes give the same product of powers of the bases as those of the disclosed messages or an explicit hash value is zero.", "quantifier": "all valid signatures with a point A that is not neutral on up to 65535 messages, non-empty increasing lists of disclosed positions, nonces and draws with r1 not 0, for the nonce without those with A^(r1 e) = h0^r2; curves with the sizes of BLS12-381", "why_tests_cant": "Every other nonce, key and message list would have to be tried.", "anchors": ["bbs/bbs12381g2pub.go: DeriveProof, VerifyProof", "bbs/signature_proof.go: Verify, GetBytesForChallenge"]}
{"id": "C108", "title": "An identity satisfies only principals it meets", "statement": "If SatisfiesPrincipal returns no error, the identity is valid and the principal holds of it under the MSP's name and version. For a valid identity that is not a signing identity SatisfiesPrincipal returns for every principal that is not nil.", "quantifier": "all identities and principals, nested to any depth", "why_tests_cant": "Unbounded nesting.", "anchors": ["msp/idemixmsp.go: SatisfiesPrincipal, satisfiesPrincipalValidated"]}
{"id": "C109", "title": "Credentials of the issued shape do not crash their holder (aries)", "statement": "Sign of the aries scheme with a credential that decodes to one value for each attribute and the user secret in front returns a signature or an error, whatever the signature and the values in the credential are.", "quantifier": "all issuer keys of the form the library generates with fewer than 2^32 - 3 attributes, credentials of that shape, attribute lists of that length, indices of the enrollment id and revocation handle within it, messages, revocation information, draws, and audit data that is absent or complete; declared signature types other than the smartcard ones; curves with the sizes of BLS12-381", "why_tests_cant": "ranges over all byte strings that Verify accepts as credentials; the ones that crash are not made by the library itself", "anchors": ["bccsp/schemes/aries/signer.go: Signer.Sign, getPoKOfSignature, getCommitNym", "bccsp/schemes/aries/util.go: toSignatureMessage, revealedAttributesIndex", "bccsp/schemes/aries/cred.go: Cred.Verify", "bbs/signature.go, bbs/proof_of_knowledge.go: computeB, NewPoKOfSignature", "msp/idemixmsp.go: Idemixmsp.Setup"]}
{"id": "C110", "title": "Revocation information is authenticated (aries)", "statement": "Verify accepts the revocation information the authority signs for an epoch with the algorithm that has no revocation. Whatever it accepts for an epoch and an algorithm has the epoch, the algorithm and the epoch key of some information that was issued, or is an explicit forgery of the signature scheme, or two different byte strings have the same digest.", "quantifier": "all key pairs whose signatures verify, epochs that are 64-bit integers, handles and draws; all byte strings, algorithms and lists of issued information; injective encodings", "why_tests_cant": "All pairs of epochs.", "anchors": ["bccsp/schemes/dlog/crypto/revocation_authority.go", "bccsp/schemes/dlog/bridge/revocation.go", "bccsp/schemes/aries/revocation.go"]}
{"id": "C111", "title": "Sign commits to hidden attributes only", "statement": "If Sign returns a signature of a type that carries a commitment to the enrollment id, the attribute at the enrollment id's index of the request exists and is hidden; if the type also carries a commitment to the revocation handle (or is Smartcard), so is the attribute at the revocation handle's index.", "quantifier": "all keys, digests, options, draws, indices and attribute lists, both schemes", "why_tests_cant": "ranges over all requests; a test shows the refusal for one list", "anchors": ["bccsp/schemes/dlog/crypto/signature.go: NewSignature", "bccsp/schemes/aries/signer.go: Signer.Sign", "bccsp/handlers/signer.go: Signer.Sign"]}
{"id": "C112", "title": "Calls that overlap a Setup see the old or the new MSP", "statement": "DeserializeIdentity of an MSP, and Validate, SatisfiesPrincipal and Verify of an identity, called while another goroutine runs Setup on the same MSP, return what they return before the Setup or what they return after it.", "quantifier": "all MSPs, configurations, serialized identities, identities, principals, messages and signatures, and all interleavings of the loads of the call with the assignments of Setup", "why_tests_cant": "a test sees one schedule per run, and the windows are a few instructions wide", "anchors": ["msp/idemixmsp.go: Setup, DeserializeIdentity, newIdemixIdentity, Validate, verifyProof, SatisfiesPrincipal, satisfiesPrincipalValidated, Idemixidentity.Verify, Idemixidentity.Serialize, GetMSPIdentifier"]}
{"id": "C113", "title": "A configuration is accepted by MSPs of one scheme only", "statement": "If Setup of an MSP of one scheme accepts a configuration, Setup of every MSP of the other scheme returns an error for it, in every state, and keeps its keys and its default identity. The type in the configuration is 1 for the dlog and 2 for the aries scheme.", "quantifier": "all configurations, MSPs of both schemes in all states, curves and versions", "why_tests_cant": "The configuration is arbitrary bytes and the other MSP may be in any state; tests try the configurations idemixgen writes on fresh MSPs.", "anchors": ["msp/idemixmsp.go: Setup", "msp/provider.go: ProviderType"]}
{"id": "C114", "title": "An MSP trusts only issuer keys for its four attributes", "statement": "After a successful Setup the issuer public key of an MSP is for the organizational unit, the role, the enrollment id and the revocation handle, in this order: with the dlog scheme it has passed the check of issuer keys and carries exactly these names, with the aries scheme, whose keys carry no names, it is for four attributes.", "quantifier": "all MSPs, states, configurations and curves of both schemes", "why_tests_cant": "The issuer key in a configuration is arbitrary bytes; tests try keys made for the right names.", "anchors": ["msp/idemixmsp.go: Setup", "msp/idemixmsp.go: AttributeNameOU, AttributeNameRole, AttributeNameEnrollmentId, AttributeNameRevocationHandle", "bccsp/handlers/issuer.go: IssuerPublicKeyImporter"]}
