# Formal model of IBM/idemix — design

Repository under study: /repo (Go, pinned commit). The Coq development is in `rocq/theories`
(logical name `Verif`). `properties.jsonl` lists the properties, `MANIFEST.json` maps each
property to the theorems that settle it, `seeded/LOG.jsonl` records mutation experiments.

## 1. Approach

* The Go code is transcribed function by function into total, computable Gallina functions.
  A Go function `func f(..) (T, error)` becomes a function into `res T` with constructors
  `Ok v`, `Err` (a non-nil `error`) and `Panic` (a run-time panic: nil dereference, index out
  of range, explicit `panic`). `recover` in the dlog bridge is modelled as the map
  `Panic => Err`.
* Slices are lists; `nil` is an explicit `option` wherever the code distinguishes it. `copy`
  and slice expressions into fixed-size buffers are modelled with their truncation and
  bounds-panic behaviour.
* `io.Reader` randomness is an explicit argument (a record of draws named after the Go
  variables, or a stream consumed in program order). Theorems quantify over all draws.
* Hash functions (`HashToZr`, `HashToG1`, blake2b) are arbitrary functions passed as
  arguments. Binding statements are of the form "or here are two distinct inputs with the
  same hash value"; soundness statements are special-soundness statements with explicit
  extractor functions (two transcripts, two hash oracles).
* The pairing curve of IBM/mathlib is an arbitrary record `Curve` of operations. Its algebraic
  laws (scalar field, three one-dimensional vector spaces, bilinear non-degenerate pairing,
  encodings) are the fields of the proposition `CurveOk`, which appears as an explicit
  hypothesis of the theorems. A concrete instance (`Toy`) satisfying all laws is constructed,
  so the hypotheses are satisfiable, and all `Example`s run on it.
* When a property is false of the faithful model, a theorem `..._refuted` exhibits the
  counterexample and, where a sensible side condition makes it true, a positive theorem
  `..._partial` states that condition.

## 2. Per-property plan

| id | modelled | how proved |
|----|----------|------------|
| C01 | newIssuerKey, newCredRequest, Check, newCredential, Credential.Ver | equational, reflective module tactic + transcript equality |
| C02 | prepare/finalise/Ver with buffers | characterise buffers, show verifier recomputes t-values |
| C03 C04 C05 | Ver | explicit extractor, algebra; C05 false when eid is disclosed: refuted + conditional theorem; C05 through the CSP in PropsNymApi.v |
| C06 C40 | signer | construct the second user's random draws |
| C07 C08 | makeNym (both schemes), pseudonym signatures, audits | cyclicity / explicit dlog |
| C09 C10 | Ver | injectivity of transcript encodings, explicit collision |
| C60 | Verify of both schemes, through the CSP | refuted: a type that is not implemented is decided as Basic is (PropsType.v) |
| C11 | Ver | case analysis |
| C12 C13 | finalise, audits | equational |
| C14 C15 C58 | nym signatures | equational, extractor; C15 through the CSP, with an exact characterisation of what it accepts, in PropsNymApi.v |
| C16 C17 | issuer key | equational, extractor, list reasoning |
| C18 | credrequest.go + bridge | framing lemma, extractor; exactly what the Verify of a CSP accepts in PropsIssueApi.v |
| C19 | Credential.Ver | iff characterisation, for the Verify of a CSP in PropsIssueApi.v (C43 for aries, C33 in part) |
| C20 | Ver, bridge revocation | refuted (arguments are ignored), also through a CSP (PropsIssueApi.v) |
| C21 | createCRI, verifyEpochPK, bridges | ECDSA as abstract scheme with stated laws; through a CSP in PropsIssueApi.v (bound for aries, refuted for dlog) |
| C22 | weak-bb | pairing algebra |
| C23 | bridge recover | case analysis on every entry point |
| C24 | translators | byte-level; canonicity refuted for gurvy |
| C25–C31 C61 C62 | bbs package | equational, codec induction, interleaving invariant; C27 C31 C62 false in full (refuted) |
| C32–C43 | aries package | equational, extractors; several refuted; C39 with an exact description of the panicking signatures in PropsAriesVerifyPanic.v |
| C44–C49 | CSP, handlers, key stores | state machine over operation lists; crash points |
| C68 C69 | aries Sign, Verify | one challenge answered for two sets of arguments: the transcripts are equal or the hash collides; with C13 and C35 to C38 stated for the CSP's Verify in PropsAriesApi.v |
| C70 | dlog Ver, aries Verify | the pairing equation determines the signing key once A' is not neutral; false in full for aries (refuted) |
| C71 | bbs DeriveProof, VerifyProof | as C68, for arbitrary accepted bytes only in part (refuted) |
| C72 | aries Sign, dlog NewSignature | Sign's own check of the credential gives the hypotheses of C34; fails for smartcard types, wrong disclosed values and dlog (refuted) |
| C67 | whole CSP, both schemes | composition of the completeness theorems through the handlers |
| C50–C55 C63 C64 C66 | MSP | inductive specification of principals, refinement |
| C66 | the default identity after Setup | what a successful Setup implies for the stored proof, read back through the verifier: exact for dlog (A ≠ 0, first random scalar ≠ 0, the epoch key of the revocation information parses), sufficient for aries; both full claims refuted on the toy curve |
| C65 | key export and import, every kind of key, both schemes | encode/decode inverses per kind of key; refuted for pseudonym secret keys and revocation public keys |
| C73 | MSP accessors | injectivity of pseudonym bytes; invariant over call histories; false if an MSP is set up again under another name (refuted) |
| C74 | Soundness of MSP identities | C51 with C03 (dlog: two valid identities that answer different challenges give a credential on OU and role), with C35 and C37 (aries, under their conditions); false for aries without these (refuted: one byte string is a valid proof for every MSP, OU and role) |
| C75 | Concurrent key store | StoreConc.v: interleaving semantics of os.WriteFile and os.ReadFile on byte level with one offset per descriptor; invariant: every file is its content with some bytes still zero or missing, and some writer's bytes are all there; false for reads during a re-store and for concurrent stores with different exportable flags (refuted) |
| C76 | Revocation algorithm | the guards on the algorithm number in issuing, Sign and Verify of both schemes, and the fields Sign copies from the revocation record; by inversion of the byte-level functions |
| C77 | Revocation information inside a signature | false in both schemes (refuted for every signature): Verify of dlog only parses the epoch key, Verify of aries reads none of it |
| C78 | Protobuf encoding | Proto.v: the wire format and the readers and writers of every message; parsing inverts printing by induction on the list of fields, per message by computing what each reader sees of each writer's fields |
| C79 | Malleability of signature bytes | false for all four kinds of signatures (refuted for every signature): fields with unknown numbers are skipped |
| C80 | JSON files of the key store | Json.v: encoding/json and base64 for the entry type, with a parser for all JSON; it consumes no zero byte, does not look behind a value, and parses what is printed, by mutual induction on its fuel, which is shown to be enough |
| C81 | Message formats | Schema.v: tables of the .proto files with a relation "laid out" between messages and byte strings; the writers of Proto.v are shown to satisfy it, the readers to invert it for any field order |
| C82 | Requests hide the secret | AriesReqHide.v: explicit one-to-one change of the draws (cyclicity of G1); dlog: the request value is injective in the secret, so the claim is refuted there |
| C83 | Selective disclosure hides | BbsHide.v: DeriveProof evaluated in closed form, then the change of draws of C40 for the plain BBS+ proof |
| C84 | No panics in the BBS+ library | BbsPanic.v: every slice, index and sum of the model is shown in range for Sign, Verify and the parsers; DeriveProof by cases on the first check that fails; VerifyProof under a condition on the frame, with two families of panicking inputs for the rest, and an exact description of the panicking inputs in PropsPanicIff.v |
| C85 | What a smartcard signature stands for | AriesCard.v: acceptance as one equation in the hashed bytes; binding by injectivity of the layout and faithfulness of exponentiation; forgeries by computation, also through the CSP; hiding by shifting the draws by constants |
| C86 | Reading a configuration directory | PropsConf.v: exact characterisation of GetIdemixMspConfigWithType over the file system of Idemixgen.v |
| C87 | Contents of a signer configuration | PropsConf.v: inversion of a successful run, then C01's issuance lemma (dlog) or the code's own verification (aries); two refutations for key files that do not belong together |
| C88 | Bytes from a peer cannot crash an MSP | PropsRobust.v: no-panic lemmas of the CSP and the schemes lifted to the MSP; refutation for aries by serializing an identity with the proof of C39_refuted (C53 gives the bytes) |
| C89 | Members of an MSP are anonymous | AnonSpec.v says what an observer sees of a session (Setup, Serialize, signatures of messages chosen adaptively); AnonFacts.v combines bijections of the draws; PropsAnon.v lifts C06, C40 and the pseudonym signatures of C14/C36 to whole sessions; refutations for different revocation information (an explicit linking function) and for an issuer key whose blinding base is neutral |
| C90 | Joint signatures with a smartcard work through the CSP | CardRun.v: with a card Sign does not depend on the user key, and what Verify checks of raw metadata; PropsCardRun.v composes C41, C34 and the handlers into one run of Sign/Verify/Sign/Verify, for every card and host |
| C91 | Subject key identifiers identify keys | PropsSki.v, over the CSP model: equal identifiers of two keys of one kind give equal keys or a collision of the hash function, exhibited; for dlog issuer keys through the protobuf codec of Proto.v (the hash covers the whole key). Refuted for pseudonym keys and for aries issuer keys imported for different numbers of attributes |
| C92 | Calls leave the caller's memory alone, and the caller cannot reach into keys | Mem.v: a heap of arrays, slices with offset, length and capacity, append and sort.Ints in place, and on it the functions that write into memory of the caller or hand out their own (GenerateKeyPair, DeriveProof, nymPublicKey.Bytes, NymSecretKey.SKI, IssuerPublicKey.Hash); MemFacts.v: which cells change; PropsMem.v: results agree with the value model, frame conditions cell by cell, and the three places where the claim is false |
| C93 | Imported issuer secret keys are consistent | PropsIssuerImport.v over the CSP model: exactly which byte strings are imported, for dlog (no check, refuted for every public part) and aries (the public part is computed) |
| C94 | What a call makes of a byte slice depends only on its bytes | the parsers again, on slices of a heap with Go's slice expressions bounded by the capacity (MemParse.v); equal to the byte-string parsers for every memory, except for error versus panic in VerifyProof and for smartcard signatures, both refuted |
| C95 | Malformed issuance messages do not crash issuer or holder (aries) | Aries.v; panics of BlindVerify and Cred.Verify characterised by iff (AriesPanic.v), the other calls shown panic-free; refuted for short requests and credentials |
| C96 | A credential that verifies does not crash its holder (aries) | Aries.v; panics of Sign after a successful Cred.Verify characterised by iff (AriesSignPanic.v, and AriesSignCard.v for the smartcard types), panic-free for credentials of the issued shape; refuted for credentials with an attribute too many; lifted to Setup of the MSP (C64_aries_partial) |
| C97 | Without an issuer key nothing succeeds, and the lack of one is reported | Bridge.v, Aries.v; case analysis over every operation taking a key as an interface value (PropsWrongKey.v); refuted for the smartcard backend's Verify and for aries Sign with hidden indices out of range |
| C98 | Sign makes no signature of a type it does not know | Csp.v, Bridge.v, Aries.v with [OtherSig] for every undeclared integer; case analysis through the CSP (PropsType.v) |
| C99–C110 | parts of mixed properties that hold under the hypotheses written in them: C99 (of C70), C100 (of C59), C101 (of C88), C102 (of C74), C103 (of C82), C104 (of C93), C105 (of C97), C106 (of C68), C107 (of C71), C108 (of C50), C109 (of C96), C110 (of C21) | no new theorems: each lists theorems that its parent property lists as well, so these twelve must not be counted as additional results |
| C111 | Sign of the CSP with both schemes | inversion of a successful Sign down to the checks of the attribute list |
| C112 | MSP calls while Setup runs | MspConc.v: Setup as a list of assignments, calls as programs of loads, all interleavings; proved equal to Msp.v without overlap; false in full (refuted: a name change makes valid identities invalid, and members of the old MSP members of the new one, and identities of the old MSP are read as identities of the new one); proved when name, curve and revocation key stay, and that only keys from before or after are used |
| C113 | Setup of MSPs of both schemes | case analysis of Setup up to the check of the type |
| C114 | Setup, import of issuer public keys | inversion of a successful Setup and of the import |
| C59 | Signatures of an MSP identity | PropsNym.v: C15 lifted through the CSP and the MSP for dlog; for aries the verification equation with two responses, and two refutations |
| C56 C57 | idemixgen, GetIdemixMspConfig | file-system state machine |

## 3. Trusted base

* Coq 8.16.1 kernel (and `vm_compute`).
* `Print Assumptions` output of each property theorem: recorded under every theorem in the
  Properties files; see section 5 for the summary.
* The hand translation from Go to Gallina. Each definition cites file and lines.
* `CurveOk` as a description of IBM/mathlib; see `Curve.v`.

## 4. Modelled / not modelled

Every non-test, non-generated Go file of the repository and where its functions are:

| Go code | Coq file |
|---------|----------|
| bbs/*.go (fr, keys, signature, signature_proof, proof_of_knowledge, utils, bbs12381g2pub) | Bbs.v |
| bbs/keys.go 30-75, the generator cache and its locks, as interleavings of atomic steps | BbsCache.v |
| bccsp/schemes/dlog/crypto/*.go (issuer key, requests, credentials, signatures, pseudonyms, audits) | Dlog.v |
| bccsp/schemes/dlog/crypto/revocation_authority.go, bccsp/schemes/weak-bb, bccsp/schemes/dlog/bridge/*.go, bccsp/schemes/aries/revocation.go | Bridge.v |
| bccsp/schemes/dlog/crypto/translator/amcl/*.go | Translator.v |
| bccsp/schemes/aries/*.go | Aries.v |
| bccsp/bccsp.go, impl.go, handlers/*.go, keystore/*.go, keystore/kvs/filebased.go | Csp.v (over an abstract scheme), CspInst.v (the two schemes) |
| the functions that write into memory of their caller or hand out their own (bbs/keys.go generateOKM, DeriveProofZr, nymPublicKey.Bytes, SKI), on a heap of arrays | Mem.v |
| the parsers of byte slices (bbs, aries, dlog pseudonym keys) on that heap, with slice expressions bounded by capacity | MemParse.v |
| bccsp/keystore/kvs/filebased.go under concurrent calls, as interleavings of byte-wise reads and writes | StoreConc.v |
| msp/idemixmsp.go, roles.go, constants of provider.go | Msp.v; the accessors of MSPs and identities in MspId.v |
| msp/idemixmsp.go: Setup overlapping Validate, SatisfiesPrincipal or Verify, as interleavings of atomic loads and assignments of fields | MspConc.v |
| encoding/json for the entries of kvsbased.go | Json.v |
| the *.proto files with the encoding google.golang.org/protobuf gives them | Proto.v |
| tools/idemixgen/main.go, idemixca/*.go, GetIdemixMspConfig | Idemixgen.v |

Base.v has results, byte strings, slices and buffers; Curve.v the interface of IBM/mathlib;
Spec.v and the *Spec.v files the vocabulary of the theorem statements; the Toy*.v files the concrete
instances the examples run on; Props*.v the theorems.  Everything else is proofs.

Abstracted, each an argument of the theorems with only the laws stated in the theorem:

* curve arithmetic and encodings (IBM/mathlib): `Curve`, laws in `CurveOk`; the translators'
  theorems (C24) work on bytes, the others use `TrOk`;
* hash functions: HashToZr, hash to G1, SHA-256, BLAKE2b, HKDF are arbitrary functions.  Where a
  hash matters the conclusion offers an explicit collision, or the statement is about two runs
  with different challenges (the forking lemma itself is not formalised);
* protobuf, JSON, PEM and PKIX encodings: a pair of partial functions; theorems that need it assume
  that decoding inverts encoding (`codec_ok`, restricted to messages whose integers fit their
  types), and, where the empty string matters, what it decodes to (`nothing_is`).  For protobuf these
  assumptions are proved of the wire format in Proto.v (C78), for the JSON of the key store in Json.v (C80);
* ECDSA: signing and verifying functions; completeness is a hypothesis where it is used;
* AES in the smartcard: a function on blocks;
* randomness: arguments.  Zero draws that the code would have to reject but does not are excluded by
  explicit hypotheses ("no unlucky draw");
* files: a map from paths to contents with write faults at arbitrary byte positions (key store) or
  crashes between any two system calls (idemixgen); for concurrent calls on the key store descriptors have
  their own offsets, opening truncates, and writing past the end fills with zeros (StoreConc.v).
  Permissions, symbolic links and, for idemixgen, other processes are not modelled.

Not modelled: logging, error texts (the kinds of error that callers distinguish are), counterfeiter
mocks, generated protobuf code (its effect on bytes is in Proto.v), command-line parsing and the version command of idemixgen, HashFunc
methods, the TLS getters of the MSP (constants), the fields of MSP provider.go that no code
reads, the non-revocation provers (only ALG_NO_REVOCATION exists; they return constants).

Simplifications, each also stated at its definition:

* scalars: a `math.Zr` is its residue class modulo the group order, and `NewZrFromBytes` is total.  Where
  the library keeps unreduced integers, `Equals` can tell two representatives of one class apart, so the code can
  reject an encoding that the model accepts: theorems of the form "accepted implies" carry over, and honest runs
  produce reduced scalars only.  A library that panics on short encodings does so inside the recovered
  bridge of the dlog scheme, where a panic is an error;
* enumerations: signature, verification, audit and attribute types are integers in Go that are only compared with
  constants; each has one more constructor (`OtherSig`, `OtherVer`, `AuditOther`, `OtherAttr`) for all other values;
* integers: `int` is unbounded; lengths are naturals.  Where the code stores a length in 2 or 4 bytes
  the model has the same bounds checks or the theorem has the bound as hypothesis.  Smartcard counters
  wrap at 16 bits as in the code;
* slices: values, except in Mem.v and MemParse.v.  For values the capacity is the length; C94 says what changes when it is not.  The places where the code appends to or sorts a slice of its caller, or
  appends to a slice that shares its array with another, are in Mem.v (C92);
* concurrency is modelled for the generator cache (BbsCache.v), the files of the key store (StoreConc.v) and one
  Setup of an MSP with one other call (MspConc.v: loads and assignments of fields are atomic and seen in the order of
  the source text, which is more than the Go memory model promises); all other state is used by one goroutine;
* Go maps used as sets of positions are duplicate-free lists;
* memory exhaustion and stack depth are not modelled.

## 5. Assumptions of the theorems

Every theorem in MANIFEST.json is followed in its file by `Print Assumptions`; the answer is "Closed under
the global context" for all of them: no axioms, neither of the standard library nor of
this development.  The checker's list of library axioms (`Coq.ssr.ssrunder.Under_rel.*`) comes from a
module type in Coq's own ssreflect library that is loaded and not used.

What a reader has to trust beyond Coq's kernel and virtual machine is that the definitions in the
model files say what the Go code does (each cites its lines), that the *Spec.v vocabulary and the
theorem statements say what the properties say, and that the hypotheses named in section 4 are true of
the libraries.  The examples next to the theorems show that the hypotheses can be met together; the
experiments in seeded/LOG.jsonl show which edits of the model make which proofs stop; seeded/README.md
says how much that shows.
