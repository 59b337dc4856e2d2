# Formal model of cloudflare/migp-go in Rocq (Coq 8.16.1)

The plan was written before the proofs; trusted base, coverage and findings
are kept current as the development grows.

## 1. Layers

| Layer | Files (`rocq/theories/`) | Content |
|---|---|---|
| Go basics | `Base.v` | bytes, results (`Ok`/`Err`/`Panic`), fixed-width ints, slicing with its panics, big-endian integers |
| stdlib, x/crypto, murmur3 (executable) | `Sha256.v`, `Hkdf.v`, `Scrypt.v`, `Murmur3.v`, `Hex.v`, `Base64.v`, `Json.v`, `Utf8.v`, `Scanner.v`, `Flags.v` | executable Gallina versions; `LibTests.v` cross-checks them with published vectors (tests, not properties) |
| OPRF library (circl) | `Oprf.v`, `OprfGroup.v` | an interface record, its laws as an explicit hypothesis `OPRF_laws LIB` of the theorems; an implementation over any prime-order group, proved to satisfy the laws (`group_OPRF_laws`); a concrete computable instance `toy_OPRF` |
| the repository | `Common.v`, `Hasher.v`, `Encryptor.v`, `Client.v`, `Server.v`, `ConfigJson.v`, `Mutator.v`, `DasRules.v`, `KV.v`, `KVConc.v`, `Demo.v`, `Main.v` | function-by-function model; each definition cites file and lines |
| specifications | `Spec*.v` | small, independent statements of what is meant; no proofs |
| proofs | `*Proofs.v`, `Conc*.v` | lemmas |
| properties | `Prop*.v` | only the property theorems, with `Print Assumptions` and non-vacuity `Example`s |

`DasRules.v` is the JSON text of `pkg/mutator/dasrules.go`, copied by
`tools/gen_dasrules.py`; the model parses it with the same JSON parser it uses
for configurations.

## 2. How each property is modelled and proved

| | Modelled | Proof |
|---|---|---|
| C01 | `serializeUsernamePassword` on bytes, 16-bit wrap written in | injectivity and prefix-freeness by lengths; refutation at 65536 by an explicit pair |
| C02 | shifts and masks on `N`, uint32 wrap, Go's shift panics | spec is division by `2^(32-bits)`; bit lemmas |
| C03 | hex digits by table | finite case analysis lifted over lists |
| C04 | both constructors, `BucketID`, `Request` | equational |
| C05-C07, C39 | XOR and pads over executable HKDF-SHA256 | algebra of XOR; only the output length of SHA-256 is used |
| C08-C10 | the `Finalize` loop with explicit offset, int width (32 or 64) and fuel | simulation by a declarative decomposition of the bucket; measure = remaining bytes; divergence on 32 bits by induction on the fuel |
| C11, C12, C38 | client and server against the OPRF interface and the store | induction over the stored credentials |
| C13 | `Valid`, `ToBreachStatus`, `EncryptBucketEntry` | case analysis over all bytes |
| C14-C16 | `insert` of cmd/server | induction over variants and over histories of inserts |
| C17, C18, C41, C43 | goroutines as small steps inside each call, RWMutex, a heap of byte arrays with slices (pointer, length, capacity) and in-place `append` | inductive invariants over all reachable states, ghost linearization history, progress by constructing a schedule and by a potential that every step uses up |
| C19-C22 | JSON request, binary response | round trips on lists of bytes |
| C23-C26 | `NewClient`, `NewServer`, JSON marshalling and unmarshalling with Go's field matching, partial decoding and error latching | parser run on printed text, by induction on the printed form |
| C27, C28 | the handler as a function from path and body to the writes to the ResponseWriter; `Query` against an arbitrary transport | simulation of the in-process protocol |
| C29-C33 | the mutator's rules, executed on the parsed rule file | induction on rules and on strings |
| C34-C36, C42 | bufio.Scanner, splitting at ':', counters, output | folds over lines |
| C37 | requests over a prime-order group | bijection between blinds |
| C40 | pre-image of the bucket hash, scrypt parameters | lengths |
| C44-C49 | both `main` functions from argument list and files to exit status, output and the serving state; flag parsing | composition of the above; UTF-8 by code point ranges; parser of command lines by induction over the arguments |
| C50-C52 | client and server with different configurations; all bodies a run of the client posts | the scan of a bucket with a cut-off tail; bijections between blinds, one per query, chosen by search (ConstructiveEpsilon, axiom-free) |
| C53-C55 | the JSON reader, base 64, field matching and the decoding of the repository's records | the grammar of RFC 8259 as inductive relations; soundness by induction on the fuel, completeness by induction on derivations; one field at a time as a fold over the members |
| C56 | histories of inserts, the ingestion of breach files, both programs | each insert stores the longest storable prefix of its credentials, whatever the store; the first stored credential of a pair decides, which filtering by username and repetition preserve |
| C57 | the JSON that the client posts, the config endpoint and the dumped server configuration | the documents by the grammar of C53; base 64 bit by bit, finite sweeps over bytes for one group, induction over groups |
| C58 | path.Clean and cleanPath byte by byte, the redirects of ServeMux, what the Go client does with them, URLs of literal characters | a specification that resolves segments; the buffer of Clean is the written form of the walk, by strong induction; one redirect suffices as canonical paths are fixed points |
| C59 | the byte-slice code statement by statement on a memory of arrays and slices (offset, length, capacity): make, copy, slice expressions with their capacity checks, index assignments | each call in lock step with the value-level model: equations for filling a new buffer from left to right, views of old slices are stable under allocation |
| C60 | append with an arbitrary growth policy, the store as a map of slices, insert and ingestion with lines that lie in a re-used buffer | an ownership invariant (one array per bucket) and a step relation that preserves every slice outside spare capacity; induction over lines with arbitrary changes of foreign memory in between |
| C61 | bufio.Scanner at the level of its buffer (shift, growth, empty reads, ScanLines) over a reader that delivers pieces of any sizes and ends with any error; both programs' loops over it | an invariant of the buffer: lines given ++ buffered ++ unread = input, a measure for termination; the loops by induction on the rounds |
| C62 | the decoders as functions of the receiver's previous value; json.Marshal of a ServerConfig value | the member specifications of C55 with a starting value; uniqueness of the parsed value for the refutations |
| C63 | two servers with different configurations and one store, regrouped into fewer buckets | entries as functions of key, slow hasher and suite only; IDs as bit prefixes; the first match of a concatenation of buckets lies in the one bucket of the username |
| C64 | every atomic operation of sync.RWMutex as a step under the store of `KVConc.v`, int32 counters, n < 2^30 goroutines | invariant relating readerCount, readerWait and the semaphores to the numbers of readers inside, waiting and leaving in each phase of the writer; refinement of the abstract lock of C17; progress by cases on the phase; potentials for the amount of work and for who is ahead of a waiting writer |
| C65 | both mains as coinductive processes of effects (`Effects.v`): take a line, read, write to standard output with a partial-write outcome, log, GET/POST, exit; a trace relation `exec` with any outcome of the writes | simulation of the value-level programs of `Main.v` by traces whose writes work; determinism up to write outcomes; existence of a run for every outcome |
| C66 | traces of `Effects.v` cut at any event | induction over the loop with an invariant on lines taken, requests sent and reports written |
| C67 | the log as events of the server's process | induction over the loop; the log as a function of the list of per-line results |
| C68 | the handlers as sequences of calls of ResponseWriter (`HttpEffects.v`): header fields, WriteHeader, writes with an outcome, log, with http.Error as net/http has it | inversion of the call sequences of each handler; comparison with the handlers of `Demo.v`; two runs of one handler compared call by call |
| C69 | Mutate with murmur3 as code, the shipped rules | murmur3's steps are injective, so strings of one length that differ in one block do not collide; the 99 rules that put two bytes in front give 99 hashes, at most one of them that of the password; counting by inclusion of hash sets |
| C70 | both programs (Main.v), the two files of testdata | every insert of a short line succeeds (lengths of variants, derivation succeeds), so the counters and the store are known; bucket sizes from C69 discharge the memory hypothesis of C44; the four output lines by computation |
| C71 | the code of `MemCode.v` as programs of single accesses (`MemProg.v`), goroutines over one shared memory (`Shared.v`) | running a program alone gives `MemCode.v`'s result (`ProgProofs.v`); confinement of all accesses by structural proofs; invariant over all steps: what is left to do gives the result of the whole call; termination by structure of programs |
| C72 | the code that uses HKDF, over arbitrary streams (`Ideal.v`); with HKDF's streams it is proved equal to the model | a re-choice of the streams (permutation of keys built from transpositions, xor with the difference of the plaintexts) turns one list of entries into the other; the bijection stands for equality of distributions, probabilities themselves are not formalized |
| C73 | the marshalled request and response over `Client.v`, `Demo.v`, `Main.v` | lengths of the JSON encoder's parts (hex and base64 need no escapes) and C69's size of a bucket; TLS and HTTP headers are not modelled, body sizes only |
| C74 | the error texts, including the printed flag (UTF-8 of its number) and status number | equivalence with the relations of `SpecErrors.v`; texts of the OPRF, JSON, network and file errors are not modelled |
| C75 | Work of the calls: the programs of MemProg.v (single-byte accesses) with a bound on accesses and allocations that must hold whatever a read returns (`within`, SpecWork.v) | induction over the programs with the lengths of the slices (WorkProofs.v); Finalize by induction over the loop with 25 bytes per header; goroutines: each step of a call uses up one unit. Work inside of the cryptographic libraries is not counted. |
| C76 | Accesses of the programs of MemProg.v as a list (`accesses`, SpecTrace.v); `subtle.ConstantTimeCompare` modelled as the loop it is (encryptor.go:91) | a lockstep judgement between two runs of a program (`alike`, TraceProofs.v); Finalize by induction over the entries of two buckets (`reads_alike`). What library functions do inside (SHA-256, HMAC, scrypt, OPRF, murmur3) is one step on values and so not covered. |
| C77 | `store_bytes`, `buckets` of a store (SpecStore.v) | each Append adds its value's length (StoreProofs.v); the size of an entry from C10, the number of variants from C69, induction over the inserts; names counted by inclusion of duplicate-free lists. Bytes of the values only: Go's map and slice overhead (capacity) is not modelled. |
| C78 | Finalize and the store over arbitrary pad streams (`Ideal.v`, as C72); `check_bytes`, `differ_only_at` (SpecChance.v) | the scan over the entries of a bucket with arbitrary streams (ChanceProofs.v, using the decomposition of C10); locality of the store in the streams; counting by enumeration of the strings of 20 bytes. The step from counts to probabilities is prose. |
| C79 | no new model; `bucket`, `bucket_name`, `oprf_input` (SpecInterop.v) | equality of the model's steps with the specified ones (InteropProofs.v), then C01's end-to-end theorem for the client. Trust: the specification is read off this code; there is no other text of the protocol in the repository. |
| C80 | `client_proc` (Effects.v) | inversion of the steps and induction over the lines (PropStderr.v). The texts of errors and time stamps are not modelled; usage messages are one message without text. |
| C81 | no new model; the OPRF over prime-order groups of C37 (`OprfGroup.v`) | injectivity of multiplication with units and of the encoding that is hashed (PropBound.v); then C09 over the bucket of C11. |
| C82 | no new model; `store_all` (SpecProtocol.v), `joined_bucket`, `first_report` (PropParts.v) | storing appends to each bucket what storing alone puts there (induction from the end); then the query on an arbitrary getter of C11. |
| C83 | no new model; `finalize_loop 32` (Client.v) with `holdable32`, `far_overrun` (PropNarrow.v) | the scan lemmas of C08-C10 redone with 32-bit wrap-around; every bucket decomposes into whole entries and a tail (C10); honest buckets have no tail. |
| C84 | Query and both mains with events for opening, reading and closing response bodies and files (`Handles.v`); deferred Close as an event after the rest of the function, skipped by os.Exit and log.Fatal | the events of one call are computed from the status of the response; sequences by induction with the sets of opened and closed handles; counting gives what stays open. The results are proved to be those of `Demo.v` and `Main.v`. net/http's own closing of bodies is not modelled. |
| C85 | insert as the calls of the store it makes (`InsertCalls.v`), run by any number of goroutines on the small-step store of `KVConc.v` | the calls are proved to give the store and outcome of `Demo.v`'s insert; from the linearization of C17 the entries of all goroutines in one order, a merge; conversely a schedule that runs the calls in the order of a given merge. Answers from C11/C56; merges of the same parts are permutations, which gives the lengths. |
| C86 | the goroutines of C85 and, at any instant, queries whose Get is a call on the small-step store | the linearization of C17 restricted to the calls before the Get takes effect: per goroutine a prefix of its inserts' credentials, at least the returned and at most the begun calls; the query's answer from C11. Two Gets: the log at the first is a prefix of the log at the second, Append only extends; Finalize's first match stays the first match (no hypothesis on collisions). |
| C87 | main's load as calls of goroutine 0 on the small-step store, then any Gets of handler goroutines | the calls that take effect before a Get after the load are, apart from Gets, exactly the load's (between + loaded); replaying them is run_inserts, the store of server_program; the page depends on the store only at the bucket that the body names. Not stated: that ListenAndServe comes after the loop (main.go:78-96, read off), and one Get per request (HandleRequest, Server.v). |
| C88 | first parts of the documents of C24, C27, C21 and of the programs' inputs | the JSON grammar is prefix-free apart from numbers: a second parse of a part would be the first parse of the whole (parse_complete), and what the programs write ends in a brace; buckets by C10's decomposition, input by C35. |
| C89 | the loop of io.ReadAll over a stream of pieces that may never end (`ReadBody.v`), Query, handleEvaluate and the client's loop on top of it | invariant: what has arrived is in the buffer or left of the current piece; every round takes a byte or finishes a piece. The number of rounds is a parameter, so 'for ever' is 'for every number of rounds'. |
| C90 | the JSON encoder of `Json.v` and the marshalled documents | the encoder is the function described by the relation `written` (SpecWritten.v), by induction along the characters of the text, the 128 ASCII bytes by computation; documents by unfolding with the texts of the names kept apart (PropWritten.v). |
| C91 | json.NewDecoder(resp.Body).Decode: the byte-by-byte state machine of encoding/json's scanner with its stack and nesting limit, and Decoder.readValue over a stream of pieces (`ReadConfig.v`) | the scanner is proved to accept exactly the beginnings of grammatical texts: the grammar drives it without error (mutual induction over the grammar), and each state has a language of completions that every step respects and that is never empty (`comp`, FetchProofs.v). Then induction on the number of reads. |
| C92 | the whole client program over the two readers of C89 and C91 (`ClientRead.v`) | in both directions against Main.v: given what bodies come to, enough rounds exist (maximum over the lines by induction); from an ended run a network of whole bodies is built with which Main.v does the same, related to the streams at everything posted. C49 then gives the meaning of status 0. |
| C93 | the client's standard output (Main.v, ClientRead.v) | each line from the exact text of C90: escapes are printable ASCII (finite check), every other character is tame by the condition of `as_written`; induction over the lines. The refutation uses that text of unescaped characters is written as itself. |
| C94 | handlers as goroutines: reading in rounds (ReadBody.v), one Get on the small-step store (KVConc.v), replying; all steps interleave (ServeConc.v) | an invariant over executions: map, heap and writer are those of the load, and each goroutine is at a place of its code that fits its open request. Progress: only readers are left, so every step is enabled; the steps worked on a request are bounded by the rounds of its body plus four. Fair endless runs: induction on what is left of that bound, at each step of the goroutine. |
| C95 | the client programs of `Effects.v` with the server of C94; a client and the server are tied together by `served_in`: its answers are replies in the server's run (`SpecCrowd.v`), redirects included | every answer is the one of the server alone (C94_every_reply), then C65 and C44. Possibility: the run of the client alone is followed event by event; one goroutine accepts, and replies by C94_alone. URLs of forms that `url_path` does not read count as errors. |

Not expressible in this model: computational hardness (collision resistance,
one-wayness of scrypt or of the OPRF), real time, the OS, and the TCP/HTTP
stack below the handler.  Statements that need collision resistance are
phrased with an explicit hypothesis (`no_collision`: no other stored
credential has the same 20-byte key check), never as an axiom.

## 3. Trusted base

* Coq 8.16.1's kernel, including `vm_compute`'s reduction machine (used for
  the concrete examples, for finite sweeps over byte values and for parsing
  the shipped rule file). No plugins, no `native_compute`, no flags that
  switch off checks.
* `Print Assumptions` of every property theorem says "Closed under the global
  context": no axioms, neither of the standard library nor ours. The build
  prints this after each theorem. Only the Coq standard library is imported.
  (`coqchk -o` lists, for the libraries that are loaded but not used by the
  theorems, the parameters of the `Under_rel` module of `Coq.ssr.ssrunder`.)
* The reading of the Go code and of the Go libraries: the model is not
  extracted from the code. Each definition names the lines it models.
* The OPRF library: whatever `OPRF_laws` says about it (an explicit
  hypothesis of the theorems that need it; satisfied by the group
  construction). circl itself is not modelled: its P-256 arithmetic, its
  hash-to-curve and its serialization are abstract.
* The specifications in `Spec*.v` and the statements in `Prop*.v`.

## 4. What is modelled, function by function

| /repo | Model | Notes |
|---|---|---|
| pkg/migp/common.go: constants, `Config`, `DefaultConfig`, `serializeUsernamePassword`, `bucketHashToID`, `BucketIDToHex`, flags, statuses | `Common.v` | whole |
| pkg/migp/hasher.go | `Hasher.v` over `Sha256.v` | whole; writing to a hash never fails |
| pkg/migp/slowhasher.go | `Hasher.v` over `Scrypt.v` | whole; the int width in scrypt's parameter check is immaterial for the built-in parameters |
| pkg/migp/encryptor.go | `Encryptor.v` over `Hkdf.v` | whole |
| pkg/migp/client.go | `Client.v`, `ConfigJson.v`, `Demo.v` (`Query`) | whole; the random blind is a parameter; http.Post is a function from URL and body to an outcome |
| pkg/migp/server.go | `Server.v`, `ConfigJson.v`, `Main.v` (`DefaultServerConfig`) | whole; the generated key is a parameter |
| pkg/mutator/*.go | `Mutator.v`, `DasRules.v`, `Murmur3.v`, `Utf8.v` | whole; memory exhaustion below Go's allocation limit is not modelled |
| cmd/server/kv.go | `KV.v` (sequential), `KVConc.v` (concurrent, abstract lock), `RWLock.v` (concurrent, with the operations of sync.RWMutex) | whole; of sync.RWMutex the methods Lock, Unlock, RLock, RUnlock operation by operation, its inner sync.Mutex and the runtime semaphores as primitives (no order among those that wait for one); callers do not write to slices they have passed to Put (C18 says what happens when one slice is passed twice) |
| cmd/server/server.go | `Demo.v`, `HttpEffects.v`, `InsertCalls.v` | whole; body read errors, JSON errors and failing writes included; what net/http adds to a response (Date, Content-Length, a guessed Content-Type) not |
| cmd/server/main.go | `Main.v`, `Flags.v`, `Scanner.v`, `ScanCode.v`, `Effects.v`, `Handles.v` | up to ListenAndServe, which is the final state `SServing`; of a logged error only the fixed text, not the error value; time stamps of the log not modelled |
| cmd/client/main.go | `Main.v`, `Flags.v`, `Scanner.v`, `ScanCode.v`, `Demo.v`, `Handles.v` | whole; step by step with failing writes in `Effects.v`; of a logged error only the fixed text; int has 64 bits here |
| encoding/json (the parts reached) | `Json.v`, `ConfigJson.v` | scanner, strings with escapes and surrogates, numbers, field matching (exact, then case-folded), error latching, string escaping with HTML escaping and U+FFFD. The fuel of the parser is sufficient for every input (`json_parse_fuel`). The memory behind a byte slice that repeated members re-use is included |
| net/http ServeMux, path.Clean, redirects of http.Client, url.Parse | `Url.v`, `Demo.v` (`mux`, `follow_get`, `http_post`), `Main.v` (`behind`) | cleanPath byte by byte; 301 for paths that are not clean (Go up to 1.25), a redirected POST becomes a GET without body; URLs `http://` host[:port] followed by a path, query and fragment of unescaped characters. Percent escapes, user information, IPv6 literals and other schemes are not modelled (`url_path` is `None`, excluded by `plain_host` and `plain_tail`) |
| io.ReadAll over the body of a request or response | `ReadBody.v` | the loop with its buffer; any growth of the slice; a Read gives bytes, an end or both |
| the goroutines that net/http starts for requests | `ServeConc.v` | one step per round of ReadAll, per step inside Get and for the code between; any interleaving; the Go scheduler and the connections are not modelled |
| bufio.Scanner over os.Stdin | `ScanCode.v` | Scan, ScanLines, buffer shift and growth, empty reads; the reader is a list of read sizes with a final error. `Scanner.v` is its value-level summary, proved equal in C61 |
| decoders with a receiver in use, json.Marshal of a value | `Receiver.v` | common.go:44-51, server.go:47-70, 189-206; an embedded struct and a struct without exported fields as encoding/json prints them |
| flag, strconv | `Flags.v` | flag.Parse with ExitOnError; ParseBool; ParseInt with base 0 |
| byte slices in memory (pkg/mutator, pkg/migp, cmd/server) | `Mem.v`, `MemCode.v`, `MemStore.v`; the library calls as interleaved goroutines: `MemProg.v`, `Shared.v` (sequentially consistent single-byte accesses; library calls of other packages are one step on values, with the reads of their arguments before) | arrays, offsets, capacities, append with any growth policy; strings and the results of library calls are values or new arrays; arrays are never freed |
| test files | `RepoTests.v`, `PropVariants.v` | every test case of *_test.go is run on the model (a check of the model, not a proof); benchmarks are not modelled |

## 5. Findings about the code

Each is a theorem (suffix `_refuted` when it contradicts a reasonable expectation).

1. C01: a field of exactly 65536 bytes is accepted and serialized with length 0, so different credentials collide; above 65536 it panics.
2. C06/C15: metadata above 8160 bytes cannot be encrypted: the insert fails half-way with HKDF's entropy limit.
3. C08-C10: on 32-bit platforms `Finalize` can loop for ever or panic on a crafted length field.
4. C13/C39: entries are malleable: flipping body or flag bits is not detected; the entries of one credential share one pad.
5. C14: the first matching entry wins: a breached password stored before as a variant of another one is reported as "similar", with the other's metadata; with passwords of at most three bytes the username query is reported as "similar".
6. C18: `Put` stores the caller's slice: one slice put under two keys makes later appends overwrite each other.
7. C19: only the low 16 bits of the version survive in the response.
8. C20: an upper-case bucket ID is accepted as hex but misses the store.
9. C22: `UnmarshalBinary` hard-codes the element size of suite 3.
10. C23/C48: the bit size is not validated: outside 0..32 every request panics; a hostile `/config` crashes the client.
11. C28: after a JSON error `handleEvaluate` does not return: the 400 page is followed by a complete binary response.
12. C30: a variant whose murmur3 hash collides with an earlier one is dropped.
13. C33: `switchCase` changes Latin-1 letters in an irregular way.
14. C35: a line of 65536 bytes or more silently ends ingestion (scanner.Err is not checked).
15. C42: a line ':' + 65534 digits with at least 11 variants crashes ingestion.
16. C45: usernames that are not UTF-8 become indistinguishable in the client's output.
17. C47: `-username-variant false` leaves the option on and ignores all later arguments.
18. C50: a client whose configuration differs from the server's in anything but the version is not told so: it gets "not in breach" for stored credentials.
19. C51: a hostile server learns whether a guessed password is the client's, by a bucket with the guess and a cut-off entry: `Finalize` fails exactly for wrong guesses, and the client program stops at the first failure.
20. C55: missing members of a configuration are not errors: one that does not mention `slowHasher` is accepted and means no slow hashing at all (the OPRF input is the username and password themselves).
21. C54: in a request or server configuration with repeated byte members, null elements of a later array bring back bytes of an earlier one (encoding/json re-uses the memory).
22. C58: a target that ends in a slash makes the client fetch the configuration and then fail on the first query: the server redirects the POST and the redirected request is a GET without a body.
23. C59: the null slow hasher returns its argument, UnmarshalBinary's bucket is the tail of its input, and HandleRequest returns the store's own slice: a caller that re-uses or writes to one changes the other.
24. C61: neither program checks scanner.Err(): an I/O error is taken for the end of the input, and the part of a line read before it is ingested or queried as a whole line.
25. C62: a document with a member of a wrong type is reported as an error but has changed the configuration; a ServerConfig passed to json.Marshal by value silently loses its private key (pointer receiver).
26. C63: nothing ties a store to the key and slow hasher it was made with; after a change every stored credential is reported 'not in breach' without an error.
27. C65: the client ignores errors of fmt.Println: on a full disk or closed pipe it goes through all lines, sends all queries and exits with status 0.
28. C67: the failure count in the server's log is only printed together with a success: refusals after the last stored line are never logged.
29. C68: after a failing write the handlers write the text of a 500 error although status 200 is already sent; if a later write works again, that text ends up in the body.
30. C72: with `-username-variant` (the default) every line of a user ends with the same username entry, byte for byte: everybody who fetches the bucket sees which lines belong to the same user (and how many passwords are stored for that user), without any key. The same holds for variants shared by two passwords of one user.
31. C76: although the key check is compared in constant time (`subtle.ConstantTimeCompare`, encryptor.go:91), Finalize branches on its result (client.go:141) and stops at the first match, so its memory accesses show which entry of the bucket belongs to the client, if any; `changeCap` (rdasmutator.go:116-128) writes only if the character is a letter.
32. A response does not say which request it answers. Read with the context of another request, even one for the same credential, it gives 'not in breach' without an error (C81_mix_up_is_silent_refuted). POST answers are not cached by default, but an application that runs queries concurrently and mixes up contexts gets silent false negatives.
33. On 32-bit platforms a server stops every client with the same 25 bytes (20+1 zero bytes, length field 80 00 00 00): Finalize's bound check is done on a sum that wraps to a negative number, and the slice expression panics, whether or not the header matches (C83_crash_for_everyone_refuted). 64-bit clients report a parsing error.
34. migp.Query defers response.Body.Close() only after the status check (client.go:185-188), so each answer with a status other than 200 leaks its body and the connection under it; a program that retries against an overloaded server runs out of file descriptors (C84_refused_leak_refuted). cmd/client/main.go:49-57 never closes the body of GET /config, and cmd/server keeps the breach file open while it serves.
35. C88: a response that is cut off within or right before the header of the client's own entry gives 'not in breach' without an error (C88_where_the_cut_falls, n < 25): the format has no total length. Over HTTP the length of the body protects against this; a transport of one's own must. A breach file or query file that is cut in the middle of a line stores or queries a credential with a cut password.
36. C89: neither side bounds what it reads from its peer: http.DefaultClient has no timeout (client.go:181), http.ListenAndServe sets none (main.go:96) and both use ioutil.ReadAll without a limit, so a peer that keeps sending holds the client or a handler for ever and fills its memory (C89_no_timeout_refuted, C89_no_size_limit_refuted).
37. C91: the client's http.Get of /config has no timeout and its decoder no limit (cmd/client/main.go:47-55), so a server that sends white space, or a string without end, keeps the client waiting before the first line of input is looked at (C91_no_timeout_refuted, C91_endless_string_refuted).
38. C92: the server decides when the client ends: after any number of answered lines it can keep the program for ever with an answer that does not end (C92_server_keeps_client_refuted); there is no timeout on http.DefaultClient (pkg/migp/client.go:179).
39. C93: DEL and U+0080 to U+009F are not escaped by encoding/json, so metadata with U+009B (CSI) reach the terminal as control sequences when the client's output is shown on one (C93_terminal_controls_refuted; cmd/client/main.go:99-114).

## 6. Testing the theorems

`seeded/LOG.jsonl` records wrong versions of the model (one edit each) and the
theorems that stopped proving. The edits were made in a scratch copy; a
theorem counts as failed if its own proof or a lemma it rests on no longer
compiles while everything independent of the edit still does.
