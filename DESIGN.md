# Formal model of keride in Rocq (Coq 8.16.1)

`properties.jsonl` lists the properties, `MANIFEST.json` says for each which theorems prove it and what is missing,
`seeded/LOG.jsonl` records the wrong programs the theorems were tested against. The model and the proofs are in `rocq/theories`.

## 1. Modelling conventions

* **Results.** Every Rust function returning `Result<T>` is a total Gallina function into
  `R T := Ok t | Err e | Panic`. `Panic` stands for any Rust panic: slice out of range, slice off a
  character boundary, `unwrap` on `None`, map index with a missing key, integer overflow, ...
  `e` is the error variant of `src/error.rs` (messages are dropped).
* **Integer overflow.** The model is the *checked* profile (`cargo build`, `cargo test`): an overflowing
  `+ - *` on a fixed-width integer is `Panic`. In a release build these wrap. Where a theorem says a call is
  `Ok`/`Err`, no overflow happens on that execution, so it holds in both profiles. For the functions whose arithmetic can overflow (codec,
  thresholds, derived keys) `Release.v` is a second model with wrapping arithmetic: the codec over a record of operations, of which the checked instance
  is proved equal to the main model; thresholds over the comparison of a sum with one, likewise; C113-C117 are about it.
* **Bytes and strings.** Bytes are `Coq.Init.Byte.byte` (256 constructors), strings are `list byte`
  holding UTF-8. `&s[a..b]` on `str` is `slice_str`, which is `Panic` out of range or off a
  character boundary; on `[u8]` it is `slice_bytes`. Integers are `N`/`Z`. `usize` is unbounded.
* **Base64.** The crate `base64` 0.21, engine `URL_SAFE` (padded, canonical padding required, no trailing bits)
  is modelled concretely (`B64.v`).
* **f32 in `u32_to_b64`.** The code computes a floating-point base-64 logarithm only to decide how many low digits
  to drop when the number does not fit. The model uses the integer statement "drop k digits, k least such that
  n <= 64^(len+k)". `FloatLog.v` states the loop over an arbitrary float type and proves the two equal for in-range numbers from
  monotonicity and from exactness of the logarithm at powers of 64 (premises of `C20_float_logarithm`).
* **JSON.** `serde_json` printing (compact and pretty) is modelled concretely: string escaping, integers, insertion order
  (`preserve_order`). Parsing is a concrete recursive-descent parser with serde_json's recursion limit of 128, its number grammar and
  its treatment of repeated labels. Floats are opaque tokens: a parameter `canon` says what text (if any) a number token prints as.
  Most theorems about data speak of float-free data (`data` in `SpecJson.v`); those that do not say so.
* **Maps.** `IndexMap` is an association list in insertion order; `remove` is `swap_remove`. A `HashMap` argument is a permutation.
* **Regular expressions.** The version regex is a list of byte classes; find and replace-all are the leftmost, non-overlapping matches.
* **Rationals.** `num_rational::Rational32` is exact reduced fractions whose numerators and denominators overflow to `Panic` where
  the crate's 32-bit arithmetic does.
* **Cryptography.** Digests (`hash`), signature schemes (record `crypto`) and Argon2 (`kdf`) are parameters, generalised into the theorems.
  Only the laws in the theorem statement are assumed: `sized_hash` (digests have their published sizes), `correct` (keys and
  signatures have their published sizes, what a key signs verifies under its public key, 32 bytes always are an Ed25519 key, random seeds have
  32 bytes), `sized_kdf`. Where tamper evidence is claimed the alternative is an explicit collision of `hash`. The toys `pretend`, `toy` and
  `toy_kdf` meet these laws and are used only in examples.
* **Protocol layer.** `sample/keri` is example code outside the crate, written against the crate `cesride`, the earlier name of this one: its types are
  taken to be those of `src`. The stream parser (crate parside), the schema validator (boon), the clock (chrono) and the store (trait `KeriStore`) are
  parameters; `Ingest.v` has one plain store, which appends what is inserted. Recursion is bounded by a fuel argument; running out of it is `Panic`, the
  stack overflow that never ending recursion leads to. Locks and asynchrony are left out: one caller at a time.
* **Randomness and time.** Signing randomness and random seeds are arguments. The current time is an argument text of `dater_new`.

## 2. File layout (`rocq/theories`)

| Source | Model | Vocabulary of statements | Proofs | Theorems |
|---|---|---|---|---|
| Rust slices, UTF-8, integers; base64 crate | `Base` `B64` | `Spec` | `BaseFacts` `B64Facts` | |
| `core/util.rs` | `Util` `FloatLog` | `Spec` | `UtilFacts` `UtilThms` | `PropsUtil` |
| `core/matter/` | `Tables` `Matter` | `Spec` | `MatterFacts` `MatterBin` `MatterText` `MatterMore` `MatterThms` | `PropsMatter` |
| `core/indexer/` | `Indexer` | `SpecIndexer` | `IndexerFacts` `IndexerMore` `IndexerThms` | `PropsIndexer` |
| `core/counter/` | `Counter` | `SpecCounter` | `CounterFacts` `CounterThms` | `PropsCounter` |
| `number seqner dater bexter verfer cigar siger salter` (`.rs`) | `Prims` | `SpecPrims` | `PrimsFacts` `PrimsThms` | `PropsPrims` |
| `data.rs`, serde_json | `Json` `Edit` | `SpecJson` `SpecEdit` | `JsonFacts` `JsonThms` `EditThms` | `PropsJson` `PropsEdit` |
| `tholder.rs`, num-rational | `Tholder` | `SpecTholder` | `TholderFacts` `TholderThms` | `PropsTholder` |
| `common.rs` | `Common` | `SpecCommon` | `CommonFacts` `CommonThms` | `PropsCommon` |
| `saider.rs`, `crypto/hash.rs` | `Saider` | `SpecSaider` | `SaiderFacts` `SaiderThms` | `PropsSaider` |
| `diger.rs` | `Diger` | `SpecSaider` | `DigerThms` | `PropsDiger` |
| `sadder.rs serder.rs creder.rs` | `Sadder` `Pretty` `Renew` | `SpecSadder` `SpecPretty` | `SadderFacts` `SadderThms` `FieldThms` `PrettyThms` `RenewThms` | `PropsSadder` `PropsField` `PropsPretty` `PropsRenew` |
| `prefexing/prefixer.rs` | `Prefixer` | `SpecPrefixer` | `PrefixerThms` | `PropsPrefixer` |
| `signing/signer.rs`, `crypto/sign.rs salt.rs`, `signify/creating.rs` | `Signer` | `SpecSigner` | `SignerThms` `CreatorThms` | `PropsSigner` `PropsCreator` |
| `pathing/pather.rs` | `Pather` | `SpecPather` | `PatherThms` | `PropsPather` |
| `messaging.rs receipting.rs seal.rs` | `Messaging` | `SpecMessaging` | `MessagingThms` | `PropsMessaging` |
| kinds of primitives, precedence of arguments | | `SpecKinds` | `KindThms` | `PropsKind` |
| setters, defaults | `State` | `SpecState` | `StateThms` | `PropsState` |
| short constructors (`new_with_...`) | `Short` | `SpecShort` | `ShortThms` | `PropsShort` |
| signers and events in any state | `Stale` | | `StaleThms` | `PropsStale` |
| exactly which texts panic | | `SpecPanic` | `PanicThms` | `PropsPanic` |
| sequences of setters, default values | `Setters` | `SpecSetter` | `SetterThms` | `PropsSetter` |
| weighted thresholds exactly | | `SpecWeigh` | `WeighThms` | `PropsWeigh` |
| threshold and number panics exactly | | `SpecWeigh` | `LimenThms` | `PropsLimen` |
| indexed primitives exactly, all codes and states | | `SpecLabel` | `LabelThms` | `PropsLabel` |
| stripping paths exactly | | `SpecStrip` | `StripThms` | `PropsStrip` |
| messages exactly | | `SpecMessage` | `MessageThms` | `PropsMessage` |
| reported transferability exactly | | `SpecSigner` | `ReportThms` | `PropsReport` |
| sizing, reading and building exactly | | `SpecAccept` | `AcceptThms` | `PropsAccept` |
| which events are read back, exactly | | | `RoundThms` | `PropsRound` |
| JSON grammar | | `SpecGrammar` | `GrammarFacts`, `GrammarThms` | `PropsGrammar` |
| shortest JSON | | `SpecCompact` | `CompactThms` | `PropsCompact` |
| release profile (wrapping arithmetic), num-rational and num-integer on wrapped values | `Release` | `SpecWeigh` `SpecPanic` | `ReleaseFacts` `ReleaseWeights` `ReleaseThms` `ReleaseKeysThms` | `PropsRelease` `PropsReleaseKeys` |
| `sample/keri` `verification.rs kmi/ acdc/ parsing.rs labels.rs keys` | `Verify` `Ingest` `Events` `Issue` `Partial` `Schemer` | `SpecLog` `SpecIngest` `SpecCred` `SpecBuild` `SpecLife` `SpecWitness` `SpecIssue` `SpecPartial` `SpecSchemer` `SpecExtra`, `SpecDown` `World` `Forgery` `Chain` `Issued` | `VerifyFacts` `VerifyThms` `LogThms` `IngestThms` `CredThms` `ChainThms` `FollowFacts` `FollowThms` `LifeThms` `WitnessThms` `IssueFacts` `IssueThms` `IssueCases` `PartialFacts` `PartialThms` `PartialCases` `SchemerThms` `SchemerCases` `ExtraFacts` `ExtraThms`, `DownThms` | `PropsVerify` `PropsLog` `PropsIngest` `PropsCred` `PropsChain` `PropsFollow` `PropsLife` `PropsWitness` `PropsIssue` `PropsPartial` `PropsSchemer` `PropsExtra`, `PropsDown` |
| `wasm/src` (JavaScript bindings) | `Wasm` | `SpecWasm` | `WasmThms` | `PropsWasm` |
| credentials and what is attached to them | `Verify` | `SpecEndorse` | `EndorseThms` | `PropsEndorse` |
| which events are accepted, which bring the verifier down | `Verify` | `SpecExact` | `ExactThms` | `PropsExact` |
| what a ledger holds verifies again | `Verify`, `Ingest` | `SpecAgain` | `AgainThms` | `PropsAgain` |
| stored credentials stand or fall with their chains | `Verify`, `Ingest` | `SpecAgain` | `DepthThms` | `PropsDepth` |
| registry events that bring their verifier down | `Verify`, `Ingest` | `SpecSeal` | `SealThms` | `PropsSeal` |
| taking in a stream again | `Verify`, `Ingest` | `SpecIngest`, `SpecAgain` | `RepeatThms`, `FreshThms` | `PropsRepeat`, `PropsFresh` |
| all messages of a stream | `Verify`, `Ingest` | `SpecIngest`, `SpecStream` | `StreamThms` | `PropsStream` |
| endorsements read back | `Events` | `SpecMessaging` | `ReadbackThms` | `PropsReadback` |
| logs that part | `Verify`, `Ingest` | `SpecLog`, `SpecIngest`, `SpecFork` | `ForkThms` | `PropsFork` |
| endorsements of credentials | `Events` | `SpecMessaging` | `RatifyThms` | `PropsRatify` |
| own schemas | `Schemer` | `SpecSchemer` | `OwnSchemaThms` | `PropsOwnSchema` |
| anchors of registry events | `Verify`, `Ingest` | `SpecCred`, `SpecAnchor` | `AnchorThms` | `PropsAnchor` |
| lives give control | `Ingest`, `Events`, `Issue` | `SpecLife`, `SpecIssue` | `ControlThms` | `PropsControl` |
| attachments of credentials, exactly | `Verify` | `SpecFall` | `FallThms` | `PropsFall` |
| newcomers and revocations | `Ingest`, `Events`, `Issue` | `SpecLife`, `SpecIssue` | `NewcomerThms` | `PropsNewcomer` |
| forged credentials | `Ingest`, `Events`, `Issue` | `SpecForge`, `SpecIssue` | `ForgeThms` | `PropsForge` |
| one signature repeated | `Verify` | `SpecLog` | `OneKeyThms` | `PropsOneKey` |
| keys that signed a credential | `Verify` | `SpecCred`, `SpecEndorse` | `CoSignThms` | `PropsCoSign` |
| whole exchanges | | `SpecFlow` | `FlowThms` | `PropsFlow` |

Model files hold definitions only, each citing the source lines it models. `Props*.v` hold nothing but statements, each closed by `exact`, with
`Print Assumptions` beneath and an example meeting the hypotheses next to it.

A statement that is false of the model is kept as `..._refuted`, with a witness, beside the strongest statement found to hold, `..._partial`.

## 3. Plan per property

| Property | Modelled | Proof method |
|---|---|---|
| C01-C08 | `new_with_code_and_raw`, `infil`, `binfil`, `exfil`, `bexfil`, `full_size`, tables | case split over table codes, base64 group lemmas by induction over 3/4-element groups; streams by list induction |
| C09, C10, C13 | same | inversion of the parser, `encode (decode s) = s` |
| C11, C14, C15 | same | refutation witnesses by computation; positive statement for base64-alphabet text and non-degenerate codes |
| C12 | same | shortage checks, length arithmetic |
| C16-C18 | constructors, `transferable` | case analysis; C18 refuted for `1AAI` |
| C19 | three tables | exhaustive over the finite tables and bytes (`forallb`, reflected) |
| C20-C22 | `util.rs` | induction over digits; `lia` with div/mod; C21 refuted with a witness |
| C23-C29, C79 | `indexer/` | as Matter; refutations for `A`-type codes with differing ondex, lead-byte codes and 6-digit codes |
| C30-C33 | `counter/` | as Matter; C32 refuted with partial |
| C34-C39, C80 | `number.rs seqner.rs dater.rs bexter.rs` | big-endian lemma, base64 lemmas |
| C40, C78 | `validate_code` and argument order of each kind | inversion; refuted for Number, Salter, Prefixer, Signer |
| C41-C47, C82 | `tholder.rs`, Rational32 | exact rationals (QArith) as spec; induction over clauses |
| C48-C50, C81, C103 | `data.rs`, serde_json | printer injectivity by prefix-unambiguity induction; parser round trip by induction with fuel; layouts as an inductive relation |
| C51-C57, C84, C87, C88, C102, C104, C107 | `common.rs sadder.rs serder.rs creder.rs` | string lemmas; refutations by witness |
| C58-C61, C83, C85, C86, C101 | `saider.rs` | digest as parameter |
| C62-C64, C89 | `prefixer.rs` | digest as parameter |
| C65-C69, C90 | `signer.rs verfer.rs siger.rs cigar.rs diger.rs crypto/sign.rs` | signature scheme as parameter |
| C70, C71, C91-C93 | `salter.rs creating.rs` | stretch as parameter; hex injectivity; refutations |
| C72-C75, C94, C95 | `pather.rs` | split/join lemmas; list induction; refutations |
| C76, C77, C96, C97 | `messaging.rs receipting.rs seal.rs` | Counter/Indexer stream lemmas |
| C98 | setters and `Default` of all primitives | printers and readers on arbitrary states |
| C99, C100 | `Index`, `IndexMut`, `From`, `TryFrom` of `data.rs` | induction over paths |
| C108 | `new_with_...` of every type | reduction to the theorems about `new` |
| C109, C110 | setters and `Default` of `signer.rs serder.rs creder.rs` | case analysis; C109 refuted for the attached key |
| C113-C117 | the functions above with wrapping arithmetic | agreement with the checked model by a relation on results; wrapped sums never exceed the exact ones |
| C118, C119 | `Json` parser and printer | inductive grammar with both inclusions by induction on fuel and on derivations; length of every derivation against the printer |
| C120-C125 | `sample/keri/kmi/verification.rs` | inversion of an accepted run into a record of facts; induction on the depth of recursion; identifiers through C48, C59 |
| C126-C128 | `sample/keri/parsing.rs` | identifiers under verification are in the store; invariant over the messages of a stream and over streams |
| C129-C131 | `sample/keri/acdc/verification.rs` | inversion of the verifier of registry events; invariant of the types in the log of an identifier over streams |
| C132-C133 | `sample/keri/acdc/verification.rs` | inversion of the verifier of credentials into a record of its checks; witness of forgery by two parties; serialisation is injective |
| C134-C135 | `sample/keri/acdc/verification.rs` | the checks on each edge; position of credentials in a store; the identifiers under verification are closed under edges |
| C136-C137 | `sample/keri/kmi/event.rs` | the quorum bound by linear arithmetic over quotient and remainder by three; what removal by positions does, by counting the cut witnesses behind each |
| C138-C140 | `sample/keri/kmi/event.rs` `verification.rs` | shape of every built event; each check of verification is met, using round trips of keys, numbers, thresholds and digests |
| C141 | `sample/keri/kmi/event.rs` `parsing.rs` | induction over what the controller did, with the ledger's last event and last establishment event as invariant; the registry made from such a life is taken in after it |
| C142-C144 | `sample/keri/acdc/mod.rs` `tel/` `parsing.rs` | shape of what is built; each check of the verifiers is met; counters and texts of attachments as written |
| C145-C148 | `sample/keri/kmi/mod.rs` | equal weights read back and are reached by all keys and no fewer; signatures counted from an offset; induction over histories |
| C149-C153 | `sample/keri/acdc/schemer.rs` | invariant over all fillings of the two caches: what stands under an identifier verifies against it; look-ups by identifier only grow |
| C154-C155 | `sample/keri/kmi/verification.rs` | an accepted event's verification is rewritten as a function of the attached groups alone; then case analysis on signatures, monotone thresholds (C43), totality of the digest comparison |
| C156-C160 | `wasm/src` | words of 64 bits by division and bounds of disjunctions; the bindings are the functions of the crate on the value read; codexes by evaluation over the finite tables |
| C161-C164 | attachments and edges of credentials in `sample/keri/acdc/verification.rs` | one iff for each loop of verify_acdc with the store trusted, put together into C163; the crash vectors by following the loop to the place that panics; these are the only ones for attachments, by an iff for panics at each loop, at depth by C170 |
| C165-C167 | key and registry events in `sample/keri/kmi/verification.rs` and `sample/keri/acdc/tel/verification.rs` | both directions of each check put together; for panics each step is shown to answer on harmless events and sound logs |
| C168-C169 | verification in `sample/keri/kmi/verification.rs` and `sample/keri/acdc/tel/verification.rs` against ledgers built by `ingest_messages` | what C165 and C166 say an accepted event needs survives extension of the ledger; then induction on the number of the event for depth |
| C170 | `verify_acdc` in `sample/keri/acdc/verification.rs` against ledgers built by `ingest_messages` | runs at different depths are compared step by step, given that what they recurse into verifies; then induction on the place of a credential, whose edges lead to earlier ones |
| C171 | `verify_transaction_event` and `verify_anchor` in `sample/keri` | each vector by following the code to the index that panics; otherwise each step answers; depth by C169 |
| C172 | `ingest_messages` in `sample/keri` | what the first time stored makes the second time find every message there; acceptance carries over to later stores |
| C173 | `ingest_messages` in `sample/keri` | induction over the messages: each is in the store afterwards, and was checked unless its identifier had been met |
| C174 | `endorse_serder`, `messagize_serder` in `sample/keri` | reading of the groups as for C76; exact acceptance by cases on the lists; a reader cannot tell the keys |
| C175 | `verify_key_event`, `ingest_messages` in `sample/keri` | C128 gives equal data up to the last common event, hence equal keys; C121, C122 and C126 on each side |
| C176 | `ratify_creder`, `messagize_creder` in `sample/keri` | reading of primitives and groups as for C76 and C35; exact acceptance by cases |
| C177 | `verify_transaction_event`, `ingest_messages` in `sample/keri` | seals are read from the one stored anchor, so two events with it are one; pigeonhole over the key log; verifying again (C169) for ledgers |
| C178 | `verify_acdc` in `sample/keri` | which attachments are accepted, exactly (C162); signatures that differ in their second index are different |
| C105, C106 | all of the above together | composition of the theorems |

## 4. Trusted base

* Coq's kernel (and `vm_compute`), Coq 8.16.1.
* Axioms: none of our own and none of the standard library's. `Print Assumptions` says "Closed under the global context" for every theorem of
  every `Props*.v` file. (Checking the whole compiled library with `coqchk` also lists seven opaque declarations of
  `Coq.ssr.ssrunder`, an ssreflect module loaded by the standard library's tactics; no theorem depends on them.)
* The faithfulness of the hand-written model to the Rust source (each definition cites its lines), and the listed
  behaviour of third-party crates: base64, serde_json, regex, num-rational, indexmap and the Rust standard library.

## 5. Not modelled

* The cryptographic algorithms, the random number generator, the clock (`now_as_iso8601`), except through the laws above.
* Error message texts; memory allocation limits; `zeroize`; `Display`/`Debug` output; the `dat!` macro's syntax (its result is: C100).
* Printing and reading of floats beyond the parameter `canon`; the conversions to and from `f64` are modelled on tokens.
* Wrapping arithmetic of release builds, except in the functions of `Release.v`.
* Of `sample/keri`: the store behind `KeriStore` (an append-only ledger stands for it), the parser of the crate parside and its printing of groups,
  the schema validator of the crate boon, and the clock. They are parameters of the model.
* Stream parsing beyond single primitives and groups: `src/parsing` is empty at this commit. `SpecMessaging.v` has a reader of attachment
  groups written for the statements.
* Of `wasm`: what wasm-bindgen generates, and the wrappers that only call the function of the same name (see the head of `Wasm.v`); `usize` is 32 bits
  wide there and unbounded in the model.
* `From`/`TryFrom` instances that only rewrap another (`&str`/`String`, `u8`..`i64`).

## 6. Behaviour found that contradicts a property

The `..._refuted` theorems; each has a witness. Clauses of `..._partial` theorems give more.

* `C11_parsed_can_be_printed_refuted`: A text using the base64 padding sign parses to a primitive whose raw bytes are too short, and printing it returns an error or even panics.
* `C14_text_never_panics_refuted`: These well-formed UTF-8 texts make the text parser panic (slice out of range, slice inside a character).
* `C15_binary_never_panics_refuted`: The binary form of an empty variable-size head with lead bytes makes the parser panic.
* `C17_variable_code_selection_refuted`: False as stated for raw material of 4 GiB and more: the length is cut to 32 bits, so 2^32 bytes are silently turned into an empty primitive.
* `C18_transferability_refuted`: 1AAI, the non-transferable secp256r1 key code, is reported transferable.
* `C21_out_of_range_refuted`: False: 65 does not fit one character, and encoding it on one character silently gives another number.
* `C23_indexed_text_round_trip_refuted`: False for every accepted combination: a both-lists code without room for the other index accepts one different from the index and then loses it; a variable code built without other index reads back with one; and two label codes cannot be printed at all (panic).
* `C24_indexed_binary_round_trip_refuted`: False for the big Ed448 codes: printing the binary form of any signature with code "3A" or "3B" panics (64^6 overflows u32).
* `C25_indexed_text_binary_agree_refuted`: False for the codes "3A" and "3B": every signature with one of them has a text form of whole quadlets, but asking for its binary form panics.
* `C26_binary_index_refuted`: In binary it is false: after set_index(5000) a "2A" signature still prints, with another index.
* `C29_indexed_text_not_malleable_refuted`: False for the label code "1z": a text using the base64 padding sign parses to a value that prints differently.
* `C31_count_b64_refuted`: Counts given in base64 are not checked: six characters overflow silently, so a count above 2^32 is accepted as another one.
* `C32_counter_parse_refuted`: False: one-character text, and text whose second byte is inside a character, panic.
* `C37_date_time_round_trip_refuted`: A string longer than 32 characters is accepted and silently cut, and the letters c, d and p come back as other characters.
* `C38_base64_text_round_trip_refuted`: A text whose length is a multiple of four and which begins with A loses that A, so that two texts give the same primitive.
* `C40_unchecked_refuted`: False as stated for numbers, salts and prefixes: the text of a verification key is accepted as a number and as a salt, and the text of a signature as a prefix.
* `C41_numeric_threshold_refuted`: The threshold "2" is satisfied by one key signing twice, and the threshold "0" is satisfied by nobody at all.
* `C42_weighted_threshold_refuted`: Three weights are accepted for which a subset of the keys cannot be evaluated: adding 1/65537 and 1/65539 overflows 32-bit arithmetic and panics.
* `C43_monotone_refuted`: A threshold satisfied by its first key cannot be evaluated (panic) when two more keys have signed.
* `C44_nobody_refuted`: The empty list of clauses, given as thold, is an accepted threshold satisfied by no signature at all.
* `C47_no_panic_refuted`: Constructing a threshold panics on the weight 0/0, on weights whose sum overflows 32-bit arithmetic, on a limen with a padding character, and on JSON text with an integer outside the signed 64-bit range. Evaluating an accepted weighted threshold panics on an index outside its size.
* `C50_loading_json_never_panics_refuted`: Loading JSON can panic: the integer 9223372036854775808 (2^63) does, however floats are treated.
* `C52_sizing_refuted`: Sizing can return raw bytes that are not the JSON of the returned data. When an earlier field holds a text that looks like a version string, that text is overwritten in the raw bytes, while the data keep it and get the new version string in the field v.
* `C52_huge_event_refuted`: Sizing an event of exactly 2^32 bytes succeeds and writes the size 0 into its version string: the length is cut to 32 bits before it is checked.
* `C54_round_trip_refuted`: When a field before v is named like a version string, serialising rewrites that name instead of v, and the event read back differs.
* `C55_reading_events_panics_refuted`: Bytes announcing more bytes than there are, and an event without a field d, make the constructor panic.
* `C56_truncation_refuted`: Cutting an event makes the constructor panic rather than return an error.
* `C57_said_is_checked_refuted`: For every collision-free digest some event is accepted although the text in its field d is not the digest of its content.
* `C61_verify_panics_refuted`: Verifying against data that are not a map panics, and so does verifying with the prefix check on against a map without the label.
* `C62_basic_prefix_refuted`: False as stated for prefixes that are keys: if the text of the key in the event is followed by further characters, a prefix is derived, but it does not verify against the event it was derived from.
* `C63_digest_tamper_refuted`: Whatever the digest function, some prefix verifies against two events with different labels. The label looks like a version string, and sizing the event overwrites it before the digest is taken.
* `C64_verification_refuted`: False as stated for verification: a prefix for a key that cannot be rotated verifies against an event naming a witness and an anchor, even one it cannot be derived from.
* `C67_reported_refuted`: As reported by the library, false: the key of a signer on secp256r1 built non-transferable says it is transferable.
* `C70_rotations_refuted`: False as stated between rotations: whatever the creator, the keys of rotation 1 from key index 17 are those of rotation 17 from key index 1.
* `C70_long_batch_refuted`: False as stated for very long batches: a creator asked for more than 2^16 keys gives position 2^16 the key of position 0.
* `C71_creator_tier_refuted`: False as stated for creators: whatever tier a creator is built with, its keys are stretched at tier low (lowest if temporary). With a key stretching that depends on the cost, the keys of a creator built at tier high are not stretched at tier high.
* `C72_path_round_trip_refuted`: An element with a dash is accepted and comes back as two, and a path with an empty first element comes back empty.
* `C73_root_start_refuted`: Without that condition a rooted path need not start with its root: the path --x has no elements.
* `C73_strip_refuted`: Rooting b-a at a and stripping a gives a-b.
* `C74_starts_with_refuted`: The path ab starts with the path a.
* `C75_empty_element_refuted`: A path with an empty element resolves although its last step is missing.
* `C75_numeric_label_refuted`: False as stated for labels that are numbers: they count as positions, so that the path 1 selects the second entry although there is one labelled 1, and the path 7 selects nothing although there is an entry labelled 7.
* `C76_other_index_refuted`: Of a signature whose code has no room for the other index, that index is lost without an error.
* `C76_count_refuted`: The count is taken modulo 2^32, so that a list of 2^32 signatures is announced as empty.
* `C77_attached_refuted`: Signatures that are not indexed are dropped without an error; given alone, the message is the bare event.
* `C78_signer_refuted`: False as stated for seeds: raw material and a text without a code are an error, although the raw material alone is a seed of the default code.
* `C79_non_ascii_text_refuted`: For text that is not ASCII the claim is false: the parser slices inside a character.
* `C80_parsed_integer_readable_refuted`: Text carrying a base64 padding sign parses as a number (or sequence number) whose integer cannot be read without a panic.
* `C82_weight_texts_refuted`: The text 1/x/y is accepted as a weight and counts as one.
* `C83_ignored_fields_refuted`: A field that follows an ignored one may be moved. Ignoring the first of four fields, the digest is taken over the last field, then the second and the third.
* `C89_prefix_panics_refuted`: Deriving a prefix from, or verifying one against, data without a field t panics.
* `C90_short_seed_refuted`: Parsing a seed text that ends in a base64 padding sign as an Ed25519 seed panics.
* `C91_account_with_stem_refuted`: A creator with a stem of its own gives all accounts the same keys, and one without gives account 1 in rotation 17 the keys of account 17 in rotation 1.
* `C92_creator_panics_refuted`: Building a creator from a malformed salt panics although the constructor returns a result, and so does creating a key of an unknown code.
* `C94_strip_panics_refuted`: False as stated for strip: stripping a-a of itself panics, and so does stripping b of a.
* `C95_tail_is_identifier_refuted`: The text need not be a self-addressing identifier: whatever text follows one is given as well.
* `C96_seal_refuted`: Without signatures of the controller, the seal is dropped.
* `C98_text_faithful_refuted`: False as stated (that the printed text represents the value): a key given 35 bytes of raw prints a text which reads back as another key, and a text of size 1 given six bytes reads back as its first three.
* `C104_pretty_refuted`: The readable form panics for some event and limit: a limit that falls inside a character.
* `C107_refused_change_refuted`: A change that is refused with an error can leave the event with the new data under the SAID of the old ones; and an event refused for the code of its SAID is stored in full.
* `C107_kind_of_event_refuted`: The protocol is checked only by the constructors. A key event filled in place from the bytes of a credential becomes an event the constructor of key events refuses.
* `C108_short_events_refuted`: False in general that the short constructor from bytes reads back what the short constructor from data made: it always expects a Blake3 digest.
* `C109_stale_key_refuted`: False in general that what a signer signs verifies under the key attached to the signature: after set_raw a signer keeps the key of its old seed.
* `C112_default_date_time_refuted`: The default date-time prints as the bare code 1AAG although it holds no date: the text does not read back. Its binary form is refused.
* `C116_complete_refuted`: False as stated in a release build: with wrapped sums, an accepted threshold is not satisfied by indices whose weights are exactly enough; more signatures can undo a satisfied threshold; and a threshold value whose weights exceed one is rejected.
* `C117_key_indices_refuted`: In a release build the key index wraps around at 2^16, so the second key from key index 65535 is the first key from key index 0, whatever the creator. (A debug build panics.)
* `C121_threshold_of_signers_refuted`: An inception that asks for the signatures of both of its keys is accepted with one signature given twice.
* `C122_all_announced_keys_refuted`: After an inception that announces two next keys and asks for both, a rotation is accepted that one of these keys signed alone, its signature given twice.
* `C126_any_store_refuted`: False for a store that finds only other data by their identifiers: in a stream with an inception and, after it, the same inception with its threshold lowered, the second is inserted without verification. No store and no signatures would make verification accept it.
* `C129_only_owner_revokes_refuted`: False that only the owner of the registry in which a credential was issued can revoke it: a revocation is judged by the registry it names itself. Here another party's revocation, in that party's own registry, is taken into the log of a credential issued by the first party, whose key events hold no seal for it.
* `C132_issued_by_issuer_refuted`: False that an accepted credential was issued or signed by its issuer: nothing compares the issuer it names with the identifier in the signature group, or the registry it names, or this registry's owner, with those of the issuance event. Here a credential that names one party as its issuer is taken into a store that has never had any event of that party or of its registry: it is issued and signed by another.
* `C136_default_threshold_refuted`: The default for four witnesses is four, though one of four may be faulty.
* `C137_cutting_witnesses_refuted`: Cutting the last two of three witnesses panics; and a rotation that cuts a witness the identifier does not have is built.
* `C138_inception_accepted_refuted`: An inception built with the defaults for a single key, whose identifier is then the key itself, is refused by an empty store although the key signed it, because field d differs from field i; and verifying an inception for two keys with one weight panics when both have signed.
* `C150_own_schema_reads_back_refuted`: False that the text of a schema made from a value reads back: the identifier is over the schema with its version string brought up to date, but the version string kept is the one given. Here a schema with a version string of size zero is made; making it again from its own text is an error, with the caches it left.
* `C153_unknown_schema_error_refuted`: False that a credential with an unknown schema is answered with an error: the look-up panics. Here is one that passes when its schema is in the cache, and panics with an empty cache.
* `C154_verification_answers_refuted`: No key is needed to bring verification down. Take any accepted event, in any store, and attach one more signature whose index is the number of the keys the event is signed with: verification panics. The rest of the signature does not matter.
* `C154_ingestion_answers_refuted`: So does a stream: if ingesting one that starts with a key event succeeds, the same event with one more such signature brings ingestion down, whatever follows it.
* `C155_more_signatures_refuted`: A signature too many can bring verification down although all of them are good. The library builds an inception with two keys and the weights ["1"], both keys sign it and both signatures verify. With the first signature the event is accepted; with both, verification panics.
* `C156_numbers_come_back_refuted`: A number that a script hands back is not always the number it was given: the conversion joins the two words without shifting the high one. The sequence number of an event, read by Serder.sn and handed to Seqner.new_with_sn, becomes another one, and so does the number of Number.num handed to Number.new_with_num: 2^64 becomes 1.
* `C157_body_given_refuted`: Serder.ked never answers: whatever event a script has built, asking for its body traps. The body is an object, and the bindings turn it into text with a function that is for strings and unwrap its error.
* `C157_saidify_refuted`: Saider.saidify never answers: on a text whose value has a SAID computed, the bindings trap when they turn the completed value into text; where the function of the crate is an error or panics, so does it.
* `C158_bad_text_is_error_refuted`: A text that is not JSON traps at every binding that takes a value, where a Rust caller would be handed an error: the reader's error is unwrapped.
* `C160_codex_complete_refuted`: The codexes do not offer every code of the crate. The codes of ECDSA over secp256r1, and no others, have no name: seed, signature and the two keys in the codex of primitives, and the four indexed signatures.
* `C161_credential_verification_answers_refuted`: No key is needed to bring the verification of a credential down. Take any accepted credential, in any store, at any depth. There are groups of signatures on the whole of it, each of which names a key event. Attach one more group that names the same event with one signature, whose index is the number of the event's keys: verification panics. The rest of the signature does not matter.
* `C162_further_endorsements_refuted`: A further endorsement can make an accepted credential refused. Take any accepted credential, in any store, at any depth, and attach the signatures on the whole of it of someone whose key event the store does not have: verification reports the error with which the store answers, although all that was attached before still stands.
* `C164_edges_answer_refuted`: An issuer can bring down whoever verifies a credential. Take any credential, in any store, for which all is due but whose edges are not in order: one of them leads nowhere, or has an operator that is no text, or asks for delegation, or asks for a holder where there is none. If the others are in order, verification panics.
* `C167_key_events_answer_refuted`: Nobody's key is needed to bring the verifier of key events down. An event without prefix makes it panic, whatever is attached, in every store and at every depth; so does an event with a clean prefix but without number, or without type. And so does an inception, made with due care, whose signing threshold is one that makes the thresholds panic (see C47_panics_exactly): the threshold is read before the first signature is looked at.
* `C171_registry_events_answer_refuted`: The verifier of registry events can be brought down in more ways, in every store and at every depth. No key is needed for these: an event without prefix, number or type; an issuance or revocation without registry; with one couple attached, whatever it names, the inception of a registry that is well made but has no owner, which is no required field; and an issuance or revocation, with a right identifier, that names as its registry a log whose first event has no owner, such as the log of any credential. Who has a log of their own can also name an event of it that holds a single seal without prefix, number or identifier, such as the seal of a digest.
* `C172_taken_in_again_succeeds_refuted`: A stream that was taken in to its end need not be taken in again, not even straight away: if a credential is issued and revoked in it, it passes the first time and fails the second, at the credential, which has by then been revoked. What follows the credential in the stream is not looked at.
* `C173_whole_stream_verified_refuted`: That a stream was taken in to its end does not mean that all of it was verified. After any event, whatever is in the stream under the same identifier is passed over: any key event at all that gives this identifier as its own, with any group attached, can be added at the end of any stream that is taken in, and the longer stream is taken in as well, with the same result. So a copy of an event with other keys, which nobody would accept by itself, does not make the stream fail. The copy is not stored.
* `C174_whose_signatures_refuted`: The full statement is false of unindexed signatures: the group that announces pairs of a key and a signature holds the signatures only, so the endorsement is the same whoever signed. Endorsements for any two lists with the same signatures, and with keys that are not transferable, are one and the same text; and there are such lists for which it is made.
* `C178_threshold_of_signers_refuted`: A credential whose signer asks for two keys is accepted with the signature of one. It is given twice, in the form with two indices, and the second index, which nothing here depends on, differs. Both read from texts.
