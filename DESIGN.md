# Formal model of librelois/pkstl in Rocq

## 1. Layout

| Directory (rocq/theories) | Content |
|---|---|
| `Model/` | the code of /repo/src, function by function, as computable Gallina; every definition cites file and lines |
| `Spec/` | small independent specifications used in theorem statements (wire layout from README.md, API call histories, negotiation flags, replay set, network of two peers) |
| `Proofs/` | lemmas and invariants |
| `Instances/` | concrete instances of the library records (used for examples, refutations and non-vacuity) |
| `Properties/` | the property theorems, each `exact lemma` + `Print Assumptions`, with examples beside them |

## 2. How the code is modelled

* A method `&mut self -> Result<T>` is a function `state -> state * outcome T` with
  `outcome = Ok | Err error | Panic panic`. On `Err` and `Panic` the returned state is the
  state exactly as the Rust code leaves it at that point.
* `u64`/`usize` are `N` with explicit wrap or overflow panic, following a `target` record
  (overflow checks on/off, 32/64 bit `usize`). Bytes are Coq's 256-element `byte`.
* Slicing has its bounds check; a failed check is `Panic PSliceRange`.
* `BufWriter<W>` is modelled with its capacity, its pending bytes and an arbitrary sink whose
  behaviour is a script (bytes accepted per call, errors, interruptions).
* Randomness (`EphemeralKeyPair::generate`, `Seed32::random`) is an argument.
* External libraries (ring, chacha20-poly1305-aead, flate2, bincode, serde_cbor, serde_json)
  are records of functions passed explicitly (`Crypto`, `Zip`, `Codec M`). Facts about them are
  explicit hypotheses (`CryptoLaws`, `ZipLaws`, `CodecLaws`), never axioms. AEAD is
  xor with a key stream plus a MAC over the ciphertext, so "open after seal" is proved, not assumed.
* Secrecy is not modelled. Unforgeability is not assumed of the library records: up to C58 the theorems
  about authentication say which check the accepted bytes passed; C59 and later ones that need it take it
  as an explicit hypothesis on the datagrams the layer was given (`Spec/Adversary`).

## 3. Trusted base

* Coq 8.16.1 kernel (and `coqchk`), the Coq standard library. No other library is used.
* `Print Assumptions` follows every property theorem in `Properties/`. Each of them prints
  "Closed under the global context": no axiom, of the standard library or otherwise.
* `coqchk -o` lists, for some modules, the standard library's `Coq.ssr.ssrunder.Under_rel.*`
  (seven constants). They are declared by the standard library's ssreflect plugin files, which are
  loaded with `Lia`/`ZifyBool`. No theorem here uses them (see `Print Assumptions`).
* The reading of /repo/src into `Model/`. The code is not run; each definition cites its source.
* For C77, that ring's `Debug` shows the public half of a key pair only (`RingDebug`), and can be read back (`RingDebugLaws`).
* For C78, that the tag of chacha20-poly1305-aead is that of RFC 8439 (`Spec/Poly1305`, checked there against the
  test vector of the RFC): Poly1305 of aad and ciphertext with two numbers that depend on key and nonce only.
* The documented behaviour of std (`BufWriter`, slices, `Vec::drain`, `BTreeSet`) and of the
  external crates as stated in the law records.

### Modelled

agreement.rs, complete.rs, complete/message.rs, complete/writer.rs, complete/serde.rs,
complete/serde/{serializer,deserializer}.rs, config.rs, constants.rs, digest.rs, encryption.rs,
encryption/chacha20_poly1305_aead.rs, errors.rs, format.rs, lib.rs (enums), message.rs,
minimal.rs, reader.rs, seeds.rs (lengths), signature.rs, status.rs.

### Not modelled

* Zeroization of secrets on drop (seeds.rs, SecretKey), error `Display`/`From`. `Debug` output is modelled for
  layers, seeds and what they contain, in its one-line form `{:?}` (`Model/Debug`).
* Memory exhaustion, and `Vec` length limits (isize::MAX), except for the one buffer larger than its
  input (complete.rs:188), which is in `Model/Hint`.
* The internals of ring, flate2, serde back ends; timing.
* Builds without the `zip-sign` feature (the crate does not compile without it: config.rs).
* Threads: `SecureLayer` has only `&mut self` methods; there is no shared mutable state.
* README vs code differences, found while modelling: SIG_ALGO is 0 in the code and 1 in the README;
  the README says "MSG_TYPE == 2 is encrypted" but the code (and the rest of the README) encrypts type 0.

## 4. Files

| File | Content |
|---|---|
| `Model/Base` | outcomes, errors, bytes, numbers, slices, target |
| `Model/Crypto` | ring and chacha20-poly1305-aead as a record, and its laws |
| `Model/Io` | `BufWriter` over a scripted sink |
| `Model/{Agreement,Encryption,Config,Message,Reader,Status,Minimal,Complete,Serde}` | the source files of the same name |
| `Spec/Wire`, `Spec/Datagram` | the wire format from README.md; what a datagram is, for every byte string |
| `Spec/Trace`, `Spec/CompleteTrace` | histories of calls of one layer, minimal and complete mode |
| `Spec/{ReadSpec,Accept,Session,Writers}` | causes of panics and failures, acceptance conditions, secrets and nonces |
| `Spec/{Attacks,Peer,Typed}` | attacker vocabulary, peer keys, typed messages |
| `Spec/Network` | two honest peers and a reordering network |
| `Properties/Wire` | C01-C08 |
| `Properties/Reading` | C09, C10, C15, C22, C24 |
| `Properties/Vocabulary` | the words of `Spec/` (failed, established, received...) agree with the observable behaviour |
| `Properties/Negotiation` | C11-C14, C16-C19, C35 |
| `Properties/Peer` | C20, C21, C23, C25, C26 |
| `Properties/Nonces` | C27-C34, C36 |
| `Properties/Secret` | C37, C38, C40-C42 |
| `Properties/{Complete,Typed,Io}` | C43-C56 |
| `Properties/Honest` | C39 |
| `Spec/Adversary` | layers of several owners in a network the attacker controls |
| `Properties/Fragile` | C57, C58 |
| `Properties/Adversary` | C59-C61 |
| `Spec/Receiver`, `Properties/Receiver` | C62: a receiver that remembers the numbers it delivered |
| `Spec/Projection`, `Spec/CompleteAdversary`, `Properties/Projection` | C63, C64: complete mode in terms of minimal mode; authentication in complete mode |
| `Spec/Split`, `Properties/Split` | C65: receiving and sending calls, a run split between a layer and its clone |
| `Spec/TypedTrace`, `Properties/TypedTrace` | C66: histories mixing typed and binary calls, the binary history each stands for |
| `Properties/Framing` | C67: delivered datagrams announce their length; glued datagrams |
| `Spec/Lengths`, `Properties/Lengths` | C68: calls that differ in message contents only, replies that differ in the bytes only |
| `Spec/TypedNetwork`, `Properties/TypedNetwork` | C69: two honest peers that exchange values over the network of C39 |
| `Spec/CompleteReceiver`, `Properties/CompleteReceiver` | C70: the receiver of C62 seen through `read_bin` and `read` |
| `Spec/Machine`, `Properties/Machine` | C71: a machine of twelve observable facts with the same behaviour as a minimal layer |
| `Spec/CompleteMachine`, `Properties/CompleteMachine` | C72: the same for a `SecureLayer`, binary and typed calls |
| `Spec/MinimalNetwork`, `Properties/MinimalHonest` | C73: two honest applications in minimal mode over the network of C39 |
| `Model/Hint`, `Spec/Hint`, `Properties/Hint` | C75: `read_bin` and `read` with the buffer they ask for before inflating |
| `Spec/Memory`, `Properties/Memory` | C76: the bytes a layer holds, and the datagrams a history put aside |
| `Model/Debug`, `Spec/Debug`, `Properties/Debug` | C77: the text of `{:?}` |
| `Spec/Poly1305`, `Properties/Poly1305` | C78: the tag of RFC 8439 under one key and nonce |
| `Spec/Errors`, `Properties/Errors` | C79: the table of the errors of each method |
| `Spec/Traffic`, `Properties/Traffic` | C80: the traffic of a layer as a function of keys and requests |
| `Spec/Stolen`, `Properties/Stolen` | C81: signature keys stolen after, and before, the negotiation |
| `Spec/Family`, `Properties/Family` | C82: the handles of one connection, their lives and pasts |
| `Spec/FamilyAdversary`, `Properties/FamilyAdversary` | C83: handles at both ends and an attacker between them |
| `Spec/FamilyDelivery`, `Properties/FamilyDelivery` | C84: what a writing handle posts and a reading handle delivers |
| `Spec/Default`, `Properties/Default` | C85: the lives of a layer that keeps the default configuration, and its payloads |
| `Spec/Builds`, `Properties/Builds` | C74: modest datagrams, answers that agree between builds |

Examples beside the theorems use the toy library instances of `Instances/Toy`, whose laws are proved there. `Instances/RepoTests`
runs the tests of the repository (src and tests/) on the model, step by step and assertion by assertion, to check the
model against the code by other means than reading it; one of them needs the real SHA-256, `Instances/Sha256`.

## 5. Plan per property

The theorem names are in MANIFEST.json. "Trace" means a list of API calls with arbitrary
arguments run from a freshly created layer (`Spec/Trace.v`).

| Property | Model part | Proof |
|---|---|---|
| C01, C02 | Message, Minimal | unfold; C02 needs the invariant "ACK creatable implies peer key recorded by the accepted CONNECT" over traces |
| C03 | Encryption, Io | blocks concatenate to the stream cipher output; BufWriter over accepting sink appends |
| C04 | Message | injectivity of the layout by fixed-length prefix inversion and big-endian injectivity |
| C05, C06, C24 | Reader, Minimal | inversion of `read` down to the slices; reassembly of the datagram from its slices |
| C07, C08 | Reader, Minimal, Encryption | forward computation on canonical frames; xor involution |
| C09, C10 | Reader, Minimal | case analysis giving an iff between panic and a boolean syntactic predicate |
| C11-C14 | Status, Minimal | simulation of each API call by four history flags; induction on the trace |
| C15-C17 | Minimal | exhaustive inversion of each call |
| C18, C19 | Minimal | state invariant over traces; counterexample trace for the missing secret |
| C20-C23 | Minimal | inversion + invariant on the pinned key over traces |
| C22, C26, C36, C40, C41 | Minimal | counterexample traces, generic in the library where possible |
| C25 | Minimal, Complete | trace invariant |
| C27-C29, C33 | Minimal | ghost set of delivered nonces; (next, orphans) represents it; induction on the trace |
| C30, C31 | Minimal | trace induction |
| C32 | Minimal | direct, for every successful layer |
| C34, C35 | Minimal | induction on the queue |
| C37, C38 | Agreement, Encryption | symmetry of the salt choice; length laws |
| C39 | all of Minimal/Complete | invariant of a two-peer network transition system |
| C42 | Encryption | pointwise xor algebra; also for what two layers actually write, and the recovery of one message from the other |
| C43-C47 | Complete | composition of the minimal-mode lemmas with the zip laws; trace invariants |
| C48 | Minimal, Complete | non-interference lemma: `read` commutes with `set_conf` |
| C49-C52 | Serde, Config | composition with codec laws |
| C53-C55 | Io, Complete | induction on blocks/scripts; counterexample sink |
| C56 | Agreement, Minimal | direct |
| C57 | Minimal | the delivered nonces are those below `next` and the orphans (C27); induction on the messages after the lost one; the same for a first message that waits in the early queue |
| C58 | Reader, Minimal | C15 and the trace invariants of C12, C21 |
| C59 | Minimal | C20, C21, C23 and unforgeability of the signatures of one key, stated on the datagrams the layer was given; the frame layout is injective |
| C60 | Minimal | forward computation, generic in the library; the "matching session" reading refuted |
| C61 | Minimal | C27, C30 and unforgeability of tags, stated the same way |
| C62 | Minimal | refinement: the layer's window represents the receiver's set; induction on the reads |
| C63 | Complete | case analysis of each complete-mode call, then induction on the history |
| C64 | Complete | C59 and C61 carried over by C63; deflate and inflate cancel (`ZipLaws`) |
| C65 | Minimal, Complete | receiving commutes with changing the sending counter and the clone mark; sending depends on status, secret and counter only; induction on the run.  The false readings (clone receives alike, halves fail together) are refuted by example |
| C66 | Serde, Complete | each typed call is a binary call around the serialiser (or none); induction on the history gives a binary history from the same layer, to which C64 applies; contents are carried over by the round trip of the serialiser.  "Comes back through the same interface" is refuted by example |
| C67 | Minimal, Complete | the canonical forms of delivered datagrams (C44) fix the length from the length field, which is among the first 16 bytes and is recovered from the key stream; glued bytes then fail the signature length or the tag |
| C68 | Io, Encryption, Minimal, Complete | relational invariant on writers (same capacity, script and sizes) through flush, write, write_all and encrypt; induction on the run.  Compression: counting, an injective map from the 256^n messages of length n cannot have all its values of one length below n |
| C69 | Serde, Complete | simulation: every typed move is a binary move of C39 around the serialiser, so the invariant of C39 carries over; the moves that finish a session are lifted back |
| C70 | Complete, Serde | the projection of C63 gives a minimal-mode history in which nothing was lost (at most one ACK is delivered, so a drain that failed excludes the ACK returned); C62 applies, and its answers are lifted through inflating and decoding |
| C71 | Minimal, Status, Reader, Message | forward simulation: a relation between the layer and the machine (status against four marks, counter and set against the list of numbers) is kept by every call with the same reply; the machine is deterministic by case analysis, the datagram classes being exclusive; reading user messages only adds their numbers, so the order in which they came is not observable |
| C72 | Complete, Serde | every call on the layer inside is a step of the machine of C71; inflating, signing, packing and decoding are added as relations; determinacy from that of C71 and of these relations; order of delivered messages as in C71, for both interfaces |
| C73 | all of Minimal | invariant of a two-peer network transition system whose applications ask for early messages at any time; a schedule that finishes from any state |
| C74 | the parts of Reader, Encryption and Minimal that depend on the target | each target-dependent operation is the same on both targets under an invariant (kept texts announce small lengths, counters at most the number of calls); induction over the history; a counterexample without the condition |
| C75 | Hint: uncompress, read_bin and read with the capacity hint | invariant: what a layer keeps is short; then each hint is harmless, so whole histories are equal to those without it; the exact rule for large payloads from the acceptance lemma; a message of 429 megabytes as counterexample, never computed |
| C76 | the fields of MinimalSecureLayer whose size varies | each step changes the keys within fixed sizes and what is stored by at most the datagram it put aside; an invariant says that a created layer that negotiated knows its peer, so nothing is put aside any more; the replay memory from C29; growth without bound from the queue of C36; complete mode by its inner calls |
| C77 | the derived `Debug` text of a layer and of a seed | a reader per printer (numbers, lists, options, structs), with a proof that it gives back what was printed whatever follows; hence equal texts exactly for layers that look alike, and functions of the text that give the session key, the content of datagrams, accepted forgeries and the waiting messages |
| C78 | the tag of the AEAD, with one key and nonce per session | the tags of two ciphertexts of the same size give a polynomial equation for the Poly1305 number r, whose coefficients are known; 2^130-5 is prime (Pocklington), so it has at most as many solutions as blocks, for each of nine carries; each solution gives two tags for a ciphertext of the attacker's choice |
| C79 | the errors of every method, minimal, complete and typed | one direction: every path of every method, with an invariant on the ACK kept aside (it is in clear and answers the layer's own key) and on the queue of early messages; other direction: a reachable layer and a call for each entry of the table, including 10000 messages overtaking one |
| C80 | all a layer sends, in minimal and complete mode | by refinement to the machines of C71 and C72: each step sends what the request says, with a counter that only sending moves; the peer's key comes from one CONNECT that was read. An active observer's probe is computed for any keys |
| C81 | an established layer and a thief of signature keys | the same calls run in two worlds, the second with any further set of good signatures: step by step the two agree until a forged signature is read, which fails the layer. With C59 on the history before the theft and C61 on the whole: the messages stay authentic. The negotiation with a thief who already has the seed is computed |
| C82 | the handles of one connection, cloned and used in any interleaving | a family is the list of handles with the trace of the calls on them; the life of a handle is a list of positions in the trace, inherited by clones. Invariant by induction on the trace: same key, counter of a handle = number of writes in its life, accounts of C15 over its life. Lives are closed under going back, which gives the equivalence for reuse by counting; two computed families show reuse and its absence. Each handle refines the receivers of C62 and C70 started with the numbers delivered in its life (in complete mode through the inner calls of C66, with none for the signed messages a clone refuses). That a message is delivered once over all handles is refuted |
| C83 | families of handles at both ends of a connection, any network without forged tags | the accounts of C82 tie every delivery to a datagram that was read; by hypothesis it was written on a family with the same key, where C82 gives its number; datagrams of different numbers or contents differ. With one reading handle its life holds all deliveries (induction on the trace), and different numbers are different positions in the list of writes. Two readers are computed to deliver one message twice |
| C84 | one writing handle of a family at one end, one reading handle of a family at the other | the messages posted are the successful writes of the trace with the bytes they added; with one writer the number of a message is its place (C82). The reading handle answers as the receiver of C62/C70 (C82), which delivers everything in the window once. Several writers: two handles use number 0 and the second message is refused, computed |
| C85 | complete and typed mode, `config_default` | no call but change_config changes the configuration (shown for C66) and a clone copies it, so the configuration is the default one by induction on the life; then inversion of the three writing calls, and C51 for the typed ones. Any configuration: a layer set to level 9, computed |

Nothing in the list is inexpressible.  Up to C58, what rests on library behaviour (unforgeability
of Ed25519, collision resistance of SHA-256, Poly1305 security) is stated as "the accepted bytes
passed the check", which is what the code can guarantee.  C59-C61, C64 and C83 add unforgeability as explicit
hypotheses of the theorems (`unforged`, `unforged_tags`), on the datagrams the layer was given.  C78 says how far
`unforged_tags` can be relied on: not against an attacker who has seen two messages of the same size and knows one.
The attack of C78 is a function of what the attacker saw; its cost is not modelled (it searches all numbers below
2^130 where the known algorithms find the roots of a polynomial quickly).

## 6. Wrong programs

`seeded/LOG.jsonl` has one line per seeded bug: the definition edited, the edit (exact old and new text), the
claim it breaks, the theorems that failed and those tightened because of it. Two methods were used, both in a
scratch copy:

* the whole development is rebuilt with the edit; a theorem whose proof, or a lemma it needs, no longer
  compiles counts as failed (`broken_lemmas`, `theorems_failed`);
* the negation of the theorem's statement is proved about the edited program (`theorems_refuted`, with the
  proof script). This says more than a broken proof: the statement itself is false of the wrong program.

From S01 on, every bug has at least one refuted theorem. Four bugs survived at first; the theorems named in
`theorems_tightened` were strengthened until they were refuted too.

The repository's own tests, as transcribed in `Instances/RepoTests`, were run on each wrong program
(`repo_tests_failed`): of the first 163, 109 pass all of them.
