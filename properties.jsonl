{"id": "C01", "title": "Credential serialization is unambiguous", "statement": "Two different (username, password) pairs whose fields are at most 65535 bytes long are never given the same serialized form, and no serialized form is a proper prefix of another, so two different credentials never feed the same input to the slow hash. At the next length, 65536, the code still accepts the field but the 16-bit length wraps to 0 and two different pairs do serialize identically; above it the call panics.", "quantifier": "all pairs of credentials, all byte contents, all lengths", "why_tests_cant": "the existing test checks two literals; a clash needs a particular pair among infinitely many, and the clash that exists sits at length 65536 exactly", "anchors": ["pkg/migp/common.go:serializeUsernamePassword"]}
{"id": "C02", "title": "Bucket ID is exactly the high-order bits of the bucket hash", "statement": "For every bit size 0..32 the bucket ID is the integer formed by that many leading bits of the bucket hash (hence below 2^bits); a bit size above 32 or below 0 panics.", "quantifier": "all hashes, all bit sizes including negative ones and the 0 and 32 boundaries", "why_tests_cant": "four literals are tested; shift-by-32 and mask-by-32 boundaries must hold for each bit size and each hash", "anchors": ["pkg/migp/common.go:bucketHashToID", "pkg/migp/client.go:Client.BucketID", "pkg/migp/server.go:Server.BucketID"]}
{"id": "C03", "title": "Bucket ID hex form is canonical and invertible", "statement": "BucketIDToHex gives exactly 8 lower-case hex digits, different IDs give different strings, decoding the string yields the big-endian ID, and the server's hex validity check accepts it.", "quantifier": "all uint32 values", "why_tests_cant": "three literals are tested out of 2^32 values", "anchors": ["pkg/migp/common.go:BucketIDToHex", "pkg/migp/server.go:Server.HandleRequest"]}
{"id": "C04", "title": "Client and server agree on the bucket of a username", "statement": "A client and a server built from the same configuration compute the same bucket ID for every username, whatever the keys, and the bucket ID a client sends does not depend on the password or on the blinding randomness.", "quantifier": "all configurations accepted by the constructors, all usernames, passwords and random blinds", "why_tests_cant": "agreement must hold for every username and configuration", "anchors": ["pkg/migp/client.go:Client.BucketID", "pkg/migp/client.go:Client.Request", "pkg/migp/server.go:Server.BucketID"]}
{"id": "C05", "title": "Bucket entry encryption round-trips", "statement": "For every secret, every flag byte and every body of at most 8160 bytes, encrypting and then decrypting the header and body under the same secret reports a matching key check, the same flag, the body length and the same body, even when other data follows the entry.", "quantifier": "all secrets, flags, bodies and trailing bytes", "why_tests_cant": "tests cover four short literals; pad lengths and HKDF block boundaries vary with the body length", "anchors": ["pkg/migp/encryptor.go:Encrypt", "pkg/migp/encryptor.go:DecryptHeader", "pkg/migp/encryptor.go:DecryptBody"]}
{"id": "C06", "title": "Bucket entry size and size limit", "statement": "An encrypted entry is exactly 25 bytes longer than its body, its length field holds the body length, and encryption fails with an error (never a panic) exactly when the body exceeds 8160 bytes, the HKDF-SHA256 output limit.", "quantifier": "all secrets, flags and body lengths", "why_tests_cant": "the limit is never exercised by tests and is implicit in a dependency", "anchors": ["pkg/migp/encryptor.go:Encrypt", "pkg/migp/encryptor.go:derivePad"]}
{"id": "C07", "title": "Key check accepts exactly the matching key", "statement": "Decrypting the header of an entry made under another secret reports a match if and only if the two secrets derive the same 20-byte key-check pad; so a wrong credential is reported as matching only on a 160-bit HKDF collision.", "quantifier": "all pairs of secrets, all flags and bodies", "why_tests_cant": "a false match cannot be sampled", "anchors": ["pkg/migp/encryptor.go:DecryptHeader", "pkg/migp/encryptor.go:Encrypt"]}
{"id": "C08", "title": "Finalize is total on hostile responses", "statement": "On a 64-bit platform Finalize always returns (a status or an error) for every response, however malformed: it never panics and never loops. On a 32-bit platform this fails: a 25-byte bucket with body length 0xFFFFFFE7 makes it loop forever, and a matching header with a length of 2^31 or more makes it panic.", "quantifier": "all byte strings as bucket contents and evaluated elements, both int widths", "why_tests_cant": "inputs are attacker-chosen byte strings; non-termination cannot be observed by a test", "anchors": ["pkg/migp/client.go:ClientRequestContext.Finalize", "pkg/migp/encryptor.go:DecryptHeader"]}
{"id": "C09", "title": "Finalize reports the first matching entry of the bucket", "statement": "When the bucket contents are a sequence of entries, Finalize returns the status and decrypted body of the first entry whose key check matches, whatever entries precede or bytes follow it; if none matches it returns not-in-breach with nil metadata.", "quantifier": "all sequences of entries of all sizes and all secrets", "why_tests_cant": "number, order and sizes of entries are unbounded", "anchors": ["pkg/migp/client.go:ClientRequestContext.Finalize"]}
{"id": "C10", "title": "Finalize on truncated or corrupt buckets", "statement": "Every byte string is exactly one of: whole entries followed by fewer than 25 bytes, or whole entries followed by a header whose length field overruns the data. In the first case the leftover bytes are ignored without error, in the second Finalize reports a parse error unless an earlier entry matched.", "quantifier": "all byte strings", "why_tests_cant": "arbitrary truncation points and corruptions", "anchors": ["pkg/migp/client.go:ClientRequestContext.Finalize"]}
{"id": "C11", "title": "A stored credential is found by any client", "statement": "After the server has encrypted any list of entries and stored each by appending it to the bucket of its username, a client with the same configuration that requests, gets HandleRequest's response and finalizes, obtains for a stored (username, password) the status and metadata of the first entry stored for that pair, for any blinding randomness, unless two different credentials collide on the 160-bit key check.", "quantifier": "all databases (lists of entries), all credentials, keys, blinds and configurations", "why_tests_cant": "the contents of a bucket and the history that filled it are unbounded", "anchors": ["pkg/migp/server.go:EncryptBucketEntry", "pkg/migp/server.go:HandleRequest", "pkg/migp/client.go:Request", "pkg/migp/client.go:Finalize"]}
{"id": "C12", "title": "A credential that was never stored is reported not in breach", "statement": "Querying a (username, password) pair that is not in the stored list yields not-in-breach with nil metadata and no error, unless it collides on the 160-bit key check with a stored pair.", "quantifier": "all databases, all absent credentials, all blinds", "why_tests_cant": "absence must hold for every credential outside the database", "anchors": ["pkg/migp/client.go:Finalize", "pkg/migp/server.go:HandleRequest"]}
{"id": "C13", "title": "Only recognised flags can be stored", "statement": "EncryptBucketEntry returns an error and no entry for each flag outside the four defined ones, and accepts each of the four; the status a client derives from a flag is breached/similar/username for the three breach flags and not-in-breach for dummy and unknown flags.", "quantifier": "all 256 flag values, all credentials and metadata", "why_tests_cant": "256 values times all inputs; only three flags are tested", "anchors": ["pkg/migp/common.go:MetadataType.Valid", "pkg/migp/common.go:MetadataType.ToBreachStatus", "pkg/migp/server.go:EncryptBucketEntry"]}
{"id": "C14", "title": "Insert makes the password, its variants and the username queryable", "statement": "After insert(username, password, metadata, n, u) into any store, a query for the password hits with the given metadata or an earlier entry for the same pair; each of the up to n variants hits; with u a query with the empty password hits; nothing else changes. The status is that of the earliest entry: a password that is also an earlier-stored variant is reported as similar rather than breached.", "quantifier": "all usernames, passwords, metadata, variant counts and prior stores", "why_tests_cant": "depends on every prior insert and on all variants", "anchors": ["cmd/server/server.go:insert", "pkg/mutator/rdasmutator.go:Mutate"]}
{"id": "C15", "title": "Insert only appends to the bucket of its username", "statement": "insert leaves every other bucket unchanged and extends the username's bucket by whole entries at the end, also when it returns an error; an insert whose first entry cannot be encrypted (for example metadata above 8160 bytes) leaves the store unchanged.", "quantifier": "all stores, all arguments, success and error paths", "why_tests_cant": "frame conditions range over every key of the store", "anchors": ["cmd/server/server.go:insert", "cmd/server/kv.go:Append"]}
{"id": "C16", "title": "Query results are stable under later inserts", "statement": "Once a query for a credential hits, any sequence of further inserts (by any user, successful or failing) leaves the result of that query unchanged.", "quantifier": "all stores, all credentials, all later insert sequences", "why_tests_cant": "an invariant over unbounded histories", "anchors": ["cmd/server/server.go:insert", "pkg/migp/client.go:Finalize"]}
{"id": "C17", "title": "KV store behaves like a map under every schedule", "statement": "For any number of goroutines doing Put, Append and Get in any interleaving, the store behaves as if each call took effect atomically at one instant between its call and return: no append is lost, and each Get returns the value produced by the operations ordered before it.", "quantifier": "all numbers of threads, programs and interleavings", "why_tests_cant": "schedules cannot be enumerated by tests", "anchors": ["cmd/server/kv.go"]}
{"id": "C18", "title": "A bucket returned by Get never changes afterwards", "statement": "The bytes a Get returned, read at any later time without the lock while other goroutines append, are the bytes that were stored at the instant of the Get, although Append may extend the same backing array in place. With Put this does not extend to slices the caller shares: two keys Put with one slice that has spare capacity corrupt each other on Append.", "quantifier": "all histories of appends and gets, all slice growth policies", "why_tests_cant": "depends on aliasing of backing arrays and on the schedule", "anchors": ["cmd/server/kv.go", "pkg/migp/server.go:MarshalBinary"]}
{"id": "C19", "title": "Version check compares the low 16 bits only", "statement": "HandleRequest accepts a request exactly when the low 16 bits of its version equal the server's version (so 65537 is accepted by a version-1 server), otherwise it errors before evaluating or touching the store, and an accepted request's full version is echoed. Finalize applies the same rule to the response.", "quantifier": "all uint32 versions, all servers", "why_tests_cant": "2^32 versions; wrap-around values are never tested", "anchors": ["pkg/migp/server.go:HandleRequest", "pkg/migp/client.go:Finalize"]}
{"id": "C20", "title": "HandleRequest returns exactly the stored bucket", "statement": "For a request with a valid version and element and a well-formed hex bucket ID, the response carries the evaluated element and exactly the bytes stored under that ID (nil if none); an ID that is not an even number of hex digits is refused; no request changes the store.", "quantifier": "all requests, all stores", "why_tests_cant": "all IDs, including upper-case, odd-length and empty ones", "anchors": ["pkg/migp/server.go:HandleRequest", "cmd/server/kv.go:Get"]}
{"id": "C21", "title": "Binary response format round-trips", "statement": "Unmarshalling the marshalled response gives back the same version, 33-byte evaluated element and bucket contents, for every response; unmarshalling fails exactly on inputs shorter than 37 bytes, and re-marshalling an unmarshalled input gives back the input.", "quantifier": "all versions, elements, buckets and all byte strings as input", "why_tests_cant": "one random literal is tested; truncation at each offset is not", "anchors": ["pkg/migp/server.go:MarshalBinary", "pkg/migp/server.go:UnmarshalBinary"]}
{"id": "C22", "title": "Binary response format is tied to the default suite", "statement": "For a configuration whose OPRF suite has serialized elements of another length (P-384: 49, P-521: 67), the response never unmarshals to what was marshalled: element and bucket are split at byte 33.", "quantifier": "all responses whose element is not 33 bytes long", "why_tests_cant": "tests only use the default suite", "anchors": ["pkg/migp/server.go:UnmarshalBinary"]}
{"id": "C23", "title": "Constructors accept exactly the known algorithm identifiers", "statement": "NewClient and NewServer fail exactly when the bucket hasher is not 1, the slow hasher not 0 or 1, the encryptor not 1, or the OPRF library rejects the suite or key; a constructed server reports back the configuration it was given. The bucket ID bit size is not checked, so a size outside 0..32 is accepted and panics only when a bucket ID is computed.", "quantifier": "all configurations", "why_tests_cant": "65536 values for each identifier", "anchors": ["pkg/migp/client.go:NewClient", "pkg/migp/server.go:NewServer", "pkg/migp/server.go:Server.Config", "pkg/migp/hasher.go:NewBucketHasher", "pkg/migp/slowhasher.go:NewSlowHasher", "pkg/migp/encryptor.go:NewBucketEncryptor"]}
{"id": "C24", "title": "Configuration survives its JSON form", "statement": "Unmarshalling the JSON form of a configuration (client configuration, or server configuration with its private key) gives back an equal configuration.", "quantifier": "all configurations and keys", "why_tests_cant": "all field values including negative and boundary integers", "anchors": ["pkg/migp/common.go:Config", "pkg/migp/server.go:ServerConfig.MarshalJSON", "pkg/migp/server.go:ServerConfig.UnmarshalJSON"]}
{"id": "C25", "title": "A server restored from its dumped configuration is interchangeable", "statement": "A server built from the JSON dump of another server's configuration encrypts every entry to the same bytes, answers every request identically, and finds the entries the other one stored.", "quantifier": "all servers, all entries and requests", "why_tests_cant": "one literal entry is tested", "anchors": ["pkg/migp/server.go:Server.Config", "pkg/migp/server.go:NewServer", "pkg/migp/server.go:EncryptBucketEntry"]}
{"id": "C26", "title": "The public configuration endpoint does not depend on the private key", "statement": "The bytes served at /config are the same for two servers that differ only in their private key, and a client that decodes them obtains the server's configuration.", "quantifier": "all pairs of servers with equal configuration and different keys", "why_tests_cant": "non-interference relates two runs", "anchors": ["cmd/server/server.go:handleConfig"]}
{"id": "C27", "title": "Query over HTTP returns what the protocol computes", "statement": "migp.Query against the demo server's /evaluate gives the same result as Request, HandleRequest and Finalize called directly: JSON request, HTTP status and binary response transport change nothing.", "quantifier": "all credentials, stores, configurations with the default suite and blinds", "why_tests_cant": "transport encoding must be faithful for every byte string", "anchors": ["pkg/migp/client.go:Query", "cmd/server/server.go:handleEvaluate"]}
{"id": "C28", "title": "Malformed requests get an error status and never change the store", "statement": "Every request to /evaluate whose body is unreadable, not valid JSON, of the wrong types, of the wrong version, with a bad element or a bad bucket ID gets status 400 or 500; only well-formed accepted requests get 200. Because the handler does not stop after a JSON error, a request of the wrong JSON types can still be evaluated and its answer appended to the 400 page.", "quantifier": "all request bodies, all stores", "why_tests_cant": "bodies are arbitrary byte strings", "anchors": ["cmd/server/server.go:handleEvaluate"]}
{"id": "C29", "title": "Mutate returns distinct variants, none equal to the password, at most n", "statement": "For every password and every n >= 0 the result has at most n elements, no element twice, none equal to the password, and each is what one of the rules gives on the password, in rule order. A negative n panics.", "quantifier": "all passwords and requested counts", "why_tests_cant": "three passwords are tested", "anchors": ["pkg/mutator/rdasmutator.go:Mutate"]}
{"id": "C30", "title": "Mutate misses a variant only on a 32-bit hash collision or when full", "statement": "If fewer than n variants are returned, every rule's image of the password is returned, or is the password, or has the same 32-bit murmur3 hash as an earlier image or the password. Such collisions exist: there is a password for which a distinct variant is dropped.", "quantifier": "all passwords and requested counts", "why_tests_cant": "a dropped variant is silent; the collision must be searched for", "anchors": ["pkg/mutator/rdasmutator.go:Mutate"]}
{"id": "C31", "title": "Mutate is monotone in the requested number", "statement": "The variants for n are a prefix of the variants for any larger m; asking for more never changes the ones returned for less.", "quantifier": "all passwords, all n <= m", "why_tests_cant": "relates two runs for all pairs of counts", "anchors": ["pkg/mutator/rdasmutator.go:Mutate"]}
{"id": "C32", "title": "The shipped rule list is well-formed", "statement": "Parsing the embedded JSON yields 323 rules, all of the four known types, so NewRDasMutator and Mutate never panic for n >= 0; the substitution rules have non-empty patterns.", "quantifier": "all passwords and n >= 0", "why_tests_cant": "a panic depends on each rule meeting each password", "anchors": ["pkg/mutator/dasrules.go", "pkg/mutator/rdasmutator.go:NewRDasMutator", "pkg/mutator/rdasmutator.go:Mutate"]}
{"id": "C33", "title": "Each mutation rule does what its description says", "statement": "Capitalisation changes at most the one addressed byte and swaps the case of an ASCII letter (a byte from 0x80 on is read as the Latin-1 letter of that code, so bytes of UTF-8 passwords may change too); deletion removes exactly |position| bytes from the front or the back or nothing when too short; insertion adds the string at the position and keeps the rest; substitution replaces the leftmost non-overlapping occurrences. Negative positions count from the end.", "quantifier": "all passwords, positions and strings", "why_tests_cant": "boundaries at position = length, empty password, overlapping matches", "anchors": ["pkg/mutator/rdasmutator.go:changeCap", "pkg/mutator/rdasmutator.go:deletePortion", "pkg/mutator/rdasmutator.go:insert", "pkg/mutator/rdasmutator.go:substitute", "pkg/mutator/rdasmutator.go:switchCase"]}
{"id": "C34", "title": "Input lines are split at the first colon only", "statement": "The server and client read each line as username up to the first colon and password the rest, so passwords may contain colons and usernames never do; a line without colon is counted as a failure (server) or skipped (client). CR before LF is dropped.", "quantifier": "all input files", "why_tests_cant": "all byte strings as input", "anchors": ["cmd/server/main.go:main", "cmd/client/main.go:main"]}
{"id": "C35", "title": "Every input line is accounted for until an over-long one", "statement": "When every line is shorter than 65536 bytes, the number of successes plus failures equals the number of lines, and exactly the lines counted as successes were inserted, in order. A line of 65536 bytes or more silently ends the input: it and all following lines are neither inserted nor counted.", "quantifier": "all input files", "why_tests_cant": "depends on file length and line lengths", "anchors": ["cmd/server/main.go:main"]}
{"id": "C36", "title": "The client does not print the password unless asked", "statement": "Without -show-password the output for a query depends only on the username, the status and the metadata; changing the password in the input without changing the answer leaves the output unchanged.", "quantifier": "all pairs of inputs differing only in passwords", "why_tests_cant": "non-interference relates two runs", "anchors": ["cmd/client/main.go:main"]}
{"id": "C37", "title": "Blinding hides the credential from the server", "statement": "For two credentials whose usernames fall in the same bucket, every request the first can produce is also produced by the second under exactly one blind, so the request tells the server nothing about which credential was queried beyond the bucket ID.", "quantifier": "all pairs of credentials, all blinds", "why_tests_cant": "a statement about sets of executions", "anchors": ["pkg/migp/client.go:Request"]}
{"id": "C38", "title": "OPRF correctness: the result does not depend on the blind", "statement": "For every input, key and blind, unblinding the evaluated element gives exactly the value the server computes directly, so the client derives the key the entry was encrypted under.", "quantifier": "all inputs, keys and blinds in any prime-order group", "why_tests_cant": "all random choices", "anchors": ["pkg/migp/client.go:Finalize", "pkg/migp/server.go:deriveBucketEntryKey"]}
{"id": "C39", "title": "Entries are not authenticated beyond the key check", "statement": "Although described as an AEAD, changing bits of the body or of the flag byte of a matching entry is not detected: the client returns the correspondingly changed metadata or status without error. Two entries of one credential are encrypted with the same pad, so their XOR is the XOR of the plaintexts.", "quantifier": "all entries, all bit changes", "why_tests_cant": "negative security statement over all modifications", "anchors": ["pkg/migp/encryptor.go:Encrypt", "pkg/migp/encryptor.go:DecryptBody"]}
{"id": "C40", "title": "Bucket hashing is injective before SHA-256 and total up to 65536 bytes", "statement": "The salted, length-prefixed bytes fed to SHA-256 differ for different usernames; the bucket hash is defined for usernames up to 65536 bytes and panics above; scrypt never fails with the built-in parameters.", "quantifier": "all usernames", "why_tests_cant": "all lengths and contents", "anchors": ["pkg/migp/hasher.go:Hash", "pkg/migp/slowhasher.go:Hash"]}
{"id": "C41", "title": "A query during inserts sees a consistent bucket", "statement": "A query whose bucket read happens while other goroutines are inserting sees a whole-entry prefix of the bucket's final contents: it never errors or misparses because of a concurrent insert, and it finds a credential if and only if that credential's entry had been appended when the bucket was read.", "quantifier": "all schedules of inserts and queries", "why_tests_cant": "schedules cannot be enumerated by tests", "anchors": ["cmd/server/kv.go", "cmd/server/server.go:insert", "pkg/migp/client.go:Finalize"]}
{"id": "C42", "title": "Feeding short lines never crashes the server; very long ones can", "statement": "With the shipped rules and a bit size in 0..32, ingesting any input whose lines are at most 49153 bytes never panics (one rule turns each 'wsx' into '2wsx' and so makes passwords longer by up to a third). A line with an empty username and a 65534-byte password, 11 variants requested, makes ingestion panic on a length overflow.", "quantifier": "all input files, all variant counts >= 0", "why_tests_cant": "the panic needs a line within a few bytes of the 64K scanner limit", "anchors": ["cmd/server/main.go:main", "pkg/migp/common.go:serializeUsernamePassword", "pkg/mutator/rdasmutator.go:insert"]}
{"id": "C43", "title": "No call of the store blocks for ever", "statement": "Whatever the goroutines have done so far and wherever they are inside their calls, there is a schedule on which any chosen goroutine finishes its call; a goroutine inside Put or Append excludes all others. While a call is open some goroutine can go on, and all calls together take a bounded number of steps on every schedule (5 for Get and Put, 8 plus the length for Append), so once the clients stop making calls every schedule ends, with all calls returned.", "quantifier": "all reachable states of all numbers of goroutines", "why_tests_cant": "deadlocks depend on the schedule", "anchors": ["cmd/server/kv.go"]}
{"id": "C44", "title": "End to end: the client program reports what the breach file contains", "statement": "If the server program has loaded a breach file and serves it, and the client program is run against it on a file of credentials, the client exits with status 0 and prints one line per credential of its input, in order, which reports exactly the answer expected from the breach file (in breach, similar, username, or not in breach, with the metadata), for OPRF suite 3, a bit size in 0..32 and in the absence of key-check collisions.", "quantifier": "all breach files, query files, command lines, blinds and configurations of the server", "why_tests_cant": "quantifies over the contents of both files and all random choices", "anchors": ["cmd/server/main.go:main", "cmd/client/main.go:main", "cmd/server/server.go", "pkg/migp"]}
{"id": "C45", "title": "Each output line is a faithful report", "statement": "Every line the client prints is one JSON document in UTF-8 on a line of its own without control bytes, whose members are exactly username, status, metadata if not empty and password if asked for and not empty. For UTF-8 usernames, passwords and metadata the values are the bytes queried, so different reports give different lines; bytes outside UTF-8 are replaced by U+FFFD, so two such usernames can give the same line.", "quantifier": "all usernames, passwords, statuses and metadata (any bytes)", "why_tests_cant": "all byte strings, including quotes, control bytes and invalid UTF-8", "anchors": ["cmd/client/main.go:main"]}
{"id": "C46", "title": "-dump-config and -config are inverse", "statement": "The output of the server program with -dump-config, stored in a file, makes a server program started with -config on that file use the same configuration and key, and a client program the same public configuration; likewise for the client's dump; a client without -config obtains the configuration of the server it talks to.", "quantifier": "all configurations, files and command lines", "why_tests_cant": "all field values", "anchors": ["cmd/server/main.go:main", "cmd/client/main.go:main"]}
{"id": "C47", "title": "Command line: last setting counts, mistakes are refused", "statement": "Options may be given in any order as -name=value, --name=value, -name value (not for booleans) and -name (booleans); the last setting counts and other options have their defaults; integers are read in Go's literal syntax (sign, base prefixes, single underscores between digits, 64 bits); an unknown option, a text that is no boolean or no integer, or a missing value makes the program exit with status 2 before doing anything, and -h or -help with status 0; there are no other cases. '-username-variant false' does not switch the option off: it stays on and all later arguments are ignored.", "quantifier": "all argument lists", "why_tests_cant": "unbounded lists of arguments and all texts", "anchors": ["cmd/server/main.go:main", "cmd/client/main.go:main"]}
{"id": "C48", "title": "A hostile server cannot crash the client, except by the bit size", "statement": "Whatever status, configuration and bodies the network answers, the client program does not panic as long as the bit size in the configuration is in 0..32; with any other bit size, which is accepted, every query panics.", "quantifier": "all networks (arbitrary functions from requests to answers), all inputs", "why_tests_cant": "all possible answers of an adversary", "anchors": ["cmd/client/main.go:main", "pkg/migp/client.go:Query", "pkg/migp/client.go:Finalize"]}
{"id": "C49", "title": "Exit status 0 means every credential was reported", "statement": "The client program prints the reports of the credentials of its input in order up to the first query that fails; it exits with status 0 if and only if no query failed.", "quantifier": "all inputs and all behaviours of the network", "why_tests_cant": "all positions of the first failure", "anchors": ["cmd/client/main.go:main"]}
{"id": "C50", "title": "Configurations that differ: only the version is checked", "statement": "A client whose configured protocol version differs from the server's (both below 2^16) never gets an answer. Any other difference goes unnoticed: a client with another bit size, or in general with a configuration under which its key and bucket meet no stored entry, is told 'not in breach' without an error although the credential is stored.", "quantifier": "all configurations, keys, stored credentials and queries", "why_tests_cant": "all pairs of configurations", "anchors": ["pkg/migp/client.go:Request", "pkg/migp/server.go:HandleRequest", "pkg/migp/common.go:BucketHashToID"]}
{"id": "C51", "title": "A hostile server can test one password guess per query by watching whether the client goes on", "statement": "A server that answers the bucket of a user with an entry for a guessed password followed by a cut-off entry makes the query succeed if and only if the guess is the client's password; the client program sends its next request if and only if the query succeeded, so the server learns whether the guess was right (in the absence of key-check collisions).", "quantifier": "all usernames, passwords, guesses, remaining inputs and blinds", "why_tests_cant": "an information leak is a statement about all passwords and guesses", "anchors": ["pkg/migp/client.go:Finalize", "cmd/client/main.go:main"]}
{"id": "C52", "title": "Apart from stopping, the client's traffic shows only bucket IDs", "statement": "For two input files whose credentials fall into the same buckets in the same order, there are one-to-one maps of the blinds, one per query, under which the two runs of the client post the same bodies until one of them stops, whatever the network answers; runs that end with status 0 post exactly one body per credential, and nothing else is posted.", "quantifier": "all pairs of input files, all blinds, all networks, all families of prime-order groups", "why_tests_cant": "equality of distributions over all random choices", "anchors": ["pkg/migp/client.go:Query", "pkg/migp/client.go:Request", "cmd/client/main.go:main"]}
{"id": "C53", "title": "Exactly the JSON documents are read, each with one value", "statement": "The readers of requests, configurations and rule tables accept the syntax of a text if and only if it is a JSON document by the grammar of RFC 8259 (with at most 10000 nested arrays and objects), where bytes that are not UTF-8 and unpaired surrogate escapes stand for U+FFFD; no text has two values. Byte strings are read from base 64 as in RFC 4648, ignoring line ends and unused bits.", "quantifier": "all byte strings", "why_tests_cant": "an equivalence between a hand-written reader and a grammar, over all texts of any length and depth", "anchors": ["cmd/server/server.go:handleEvaluate", "pkg/migp/server.go:UnmarshalJSON", "pkg/mutator/rdasmutator.go:NewRDasMutator"]}
{"id": "C54", "title": "Exactly the documents that describe a request are evaluated without complaint", "statement": "The evaluate endpoint answers 200 with a bucket if and only if the body is a JSON document that describes a request (member names match up to letter case, the last member of a name counts, null leaves a field alone, unknown members are ignored, numbers are unsigned 32-bit integers; bytes are base 64 or an array of numbers, where null keeps the byte that earlier members of the name left in memory) which the server accepts; 500 if and only if it describes a request the server refuses; and 400 if and only if it describes no request.", "quantifier": "all request bodies, all stores and keys", "why_tests_cant": "an equivalence over all bodies", "anchors": ["cmd/server/server.go:handleEvaluate", "pkg/migp/client.go:ClientRequest"]}
{"id": "C55", "title": "Exactly the documents that describe a configuration or a rule table are read as one", "statement": "A client configuration, a server configuration and a rule table are read from a text if and only if it is a JSON document that describes them, with the value the description gives; from the network only the first JSON value counts, whatever follows. Missing members are not errors: '{}' is the configuration with all fields zero, and a configuration that does not mention the slow hasher makes clients blind the username and password themselves.", "quantifier": "all texts, all int widths", "why_tests_cant": "an equivalence over all texts", "anchors": ["pkg/migp/common.go:Config", "pkg/migp/server.go:ServerConfig", "pkg/migp/server.go:UnmarshalJSON", "pkg/mutator/rdasmutator.go:NewRDasMutator", "cmd/client/main.go:main"]}
{"id": "C56", "title": "Answers depend only on a user's own lines, in their order", "statement": "Whether an insert succeeds does not depend on what is stored. After any history of inserts (failing ones included) the answer for a username depends only on the inserts for that username, in their order; repeating inserts changes no answer. So two breach files that list the same passwords of every user in the same order, or of which one repeats lines, make the client program print the same output. The order of one user's lines does matter: a password listed after a similar one is reported as similar.", "quantifier": "all histories of inserts, all breach files and query files, all keys and blinds, without key-check collisions", "why_tests_cant": "all interleavings and repetitions of histories of any length", "anchors": ["cmd/server/server.go:insert", "cmd/server/main.go:main", "pkg/migp/client.go:Finalize"]}
{"id": "C57", "title": "What is sent is one ASCII JSON document with the documented members", "statement": "The i-th body the client program posts is the request for the i-th credential of its input: an ASCII JSON document whose members are exactly version (plain decimal), bucketID and blindElement (the one RFC 4648 base 64 encoding of the blinded element), in this order. The config endpoint answers with an ASCII JSON document of exactly the six members of the configuration, and a dumped server configuration has these and the base 64 private key.", "quantifier": "all inputs, configurations, keys, blinds and networks", "why_tests_cant": "exact wire format for all values", "anchors": ["pkg/migp/client.go:Query", "pkg/migp/client.go:ClientRequest", "cmd/server/server.go:handleConfig", "pkg/migp/server.go:MarshalJSON"]}
{"id": "C58", "title": "Which URLs reach which page", "statement": "The demo server resolves '.', '..' and empty segments of a path. A GET answers with the page of the resolved path: /config, /evaluate (which refuses the empty body with 400), or the welcome page for every other path. A POST is evaluated if and only if its path is /evaluate to the letter; at any other path what was posted is dropped and the answer is that of a GET. So Query works exactly at URLs whose path is /evaluate (at /config the text of the configuration is taken for a response of version 30309, which no client of another version accepts), and the client program prints nothing and fails with every target that has something after the host, if only a final slash.", "quantifier": "all paths, hosts, posted bodies, configurations, inputs and targets (of unescaped characters)", "why_tests_cant": "all strings as paths and targets", "anchors": ["cmd/server/server.go:handler", "cmd/client/main.go:main", "pkg/migp/client.go:Query"]}
{"id": "C59", "title": "Calls only read the slices they are given", "statement": "Mutate, EncryptBucketEntry, the bucket encryptor's Encrypt, DecryptHeader and DecryptBody, the hashers, Request, Finalize, MarshalBinary, UnmarshalBinary and HandleRequest change no byte of memory that existed before the call, whether they succeed, fail or panic and however their arguments overlap or share spare capacity; their slice expressions never go out of bounds in ways the value-level behaviour does not show. What they return is new memory (the variants of one password share none with each other), with three exceptions: the null slow hasher returns its argument, UnmarshalBinary's bucket is the tail of its input, HandleRequest's bucket is the slice the store returned.", "quantifier": "all memories, all argument slices (overlapping, with spare capacity), all outcomes", "why_tests_cant": "aliasing and spare capacity multiply the cases; a test sees the values returned, not the memory written", "anchors": ["pkg/mutator/rdasmutator.go:Mutate", "pkg/migp/encryptor.go:Encrypt", "pkg/migp/common.go:serializeUsernamePassword", "pkg/migp/server.go:EncryptBucketEntry", "pkg/migp/server.go:UnmarshalBinary", "pkg/migp/server.go:HandleRequest", "pkg/migp/client.go:Finalize", "pkg/migp/slowhasher.go:Hash"]}
{"id": "C60", "title": "The store owns its memory", "statement": "Whatever capacity append allocates: the demo server's insert makes the store hold exactly the entries that its value-level behaviour says, every bucket stays in an array of its own, memory that is not the store's is untouched, and a bucket that Get has returned shows the same bytes forever. So ingestion stores the entries of the lines as they were read, although the scanner overwrites its buffer for the next line and user name and password are slices of it.", "quantifier": "all memories, stores, lines, growth policies, and everything that can happen to foreign memory between two lines", "why_tests_cant": "growth policies, buffer re-use and histories of any length", "anchors": ["cmd/server/kv.go:Append", "cmd/server/kv.go:Get", "cmd/server/server.go:insert", "cmd/server/main.go:main"]}
{"id": "C61", "title": "Lines do not depend on how the input arrives, and no line waits for the next", "statement": "Whatever pieces the reads deliver (as long as the reader does not return 101 empty reads in a row), both programs process exactly the lines of the whole input: the server ends with the same store and counters, the client with the same output. A complete line has been handed over before the next read is asked for, so a client fed through a pipe answers each line as it comes. A read error is not reported: it acts like the end of the input, and the line it cut off is processed as if it were whole.", "quantifier": "all inputs, all sizes of the reads, all read errors, all stores and networks", "why_tests_cant": "all ways to cut an input of any length into reads", "anchors": ["cmd/server/main.go:main", "cmd/client/main.go:main"]}
{"id": "C62", "title": "Decoding into a value that is in use, and encoding by value", "statement": "A configuration decoded over another one takes the members the document mentions and keeps the others; a response or server configuration decoded over another one does not depend on it. A document that is not JSON changes no configuration, but one of wrong types is an error that has changed it; a failed response keeps its old bucket but may have the new version and a zero-padded element; a failed server configuration is either unchanged or has the new public part and no usable key. A server configuration encoded by value instead of by pointer gives a text without the key, without an error, which is a client configuration but never a server configuration.", "quantifier": "all documents and byte strings, all previous values, all int widths", "why_tests_cant": "all pairs of a document and a previous value", "anchors": ["pkg/migp/common.go:Config", "pkg/migp/server.go:UnmarshalBinary", "pkg/migp/server.go:UnmarshalJSON", "pkg/migp/server.go:MarshalJSON"]}
{"id": "C63", "title": "Changing the configuration of a server that has data", "statement": "The protocol version and the bit size do not show in stored entries, and with fewer bits the bucket ID of a username is a prefix of what it was. So a store can be served under another version and fewer bits without the credentials and without the key: joining the buckets with a common prefix (in any order) gives every client of the new configuration the same answers. After a change of the private key, the slow hasher or the suite, however, every stored credential is silently reported 'not in breach' (in the absence of key-check collisions).", "quantifier": "all configurations, keys, stored credentials, orders of joining and queries", "why_tests_cant": "all stores and all ways to regroup them", "anchors": ["pkg/migp/server.go:EncryptBucketEntry", "pkg/migp/server.go:BucketID", "pkg/migp/common.go:BucketHashToID", "pkg/migp/client.go:Finalize"]}
{"id": "C64", "title": "The reader-writer mutex serves the store as promised", "statement": "With the store's lock taken apart into the atomic operations of Go's sync.RWMutex (counters, semaphores, 32-bit arithmetic), for any number of goroutines below 2^30: each call still takes effect at one instant, no call is lost, writers exclude everyone, there is no data race, and the mutex never reports a fatal error. While a call is open some goroutine can go on (no lost wake-up); calls cost a bounded number of steps, so once clients stop calling, all calls return. A stream of Gets cannot starve a writer: from when a Put or Append has announced itself until it is let in, fewer calls return than were open when it announced itself, and nobody else writes.", "quantifier": "every number of goroutines below 2^30, every schedule of the atomic operations, every client behaviour", "why_tests_cant": "a lost wake-up or a starved writer needs particular interleavings of operations inside the mutex", "anchors": ["cmd/server/kv.go:Put", "cmd/server/kv.go:Append", "cmd/server/kv.go:Get", "cmd/server/kv.go:kvStore"]}
{"id": "C65", "title": "Lost output does not change what the programs do, and is not reported", "statement": "If every write to standard output works, the step-by-step programs do what C44-C47 say. When writes to standard output fail or are cut short, a client that is not dumping its configuration takes the same lines, sends the same requests, tries to write the same lines and exits with the same status, in every combination of failing writes; in particular status 0 does not mean that any output has arrived. A dump of a configuration is different: both programs exit with status 0 only if all of it was written, and with status 1 otherwise.", "quantifier": "every command line, files, network, OPRF implementation, random choices and every pattern of failing or partial writes", "why_tests_cant": "which write fails is up to the environment; tests write to a buffer that never fails", "anchors": ["cmd/client/main.go:main", "cmd/server/main.go:main"]}
{"id": "C66", "title": "The client answers line by line", "statement": "Before the client takes the next line of its input (or meets the end), it has written one report for every line with a colon taken so far, in order, each the report of that line's query; so it never runs more than one request ahead of its output, and whenever it is stopped, what was written is the reports of the first lines.", "quantifier": "every command line, input, network and every point at which the client can be stopped", "why_tests_cant": "the property is about all prefixes of a run, and what a stopped program has done", "anchors": ["cmd/client/main.go:main"]}
{"id": "C67", "title": "What the server logs while it loads the breach", "statement": "A server that has come to serve has logged a first line with two zeros, after each stored line the number of lines stored and the number of lines refused before it, and that it starts; nothing else: two servers that store lines at the same positions log the same, whatever the usernames, passwords, metadata and keys are. At every point of a run the log is a beginning of this, nothing has been written to standard output, the lines are taken in order, and the server listens only after it has taken all lines. The last refusals do not show up in the log.", "quantifier": "every command line, configuration, input, key and every point at which the server can be stopped", "why_tests_cant": "that secrets do not reach the log is a statement about all inputs (non-interference)", "anchors": ["cmd/server/main.go:main"]}
{"id": "C68", "title": "What the handlers send and log when writes fail", "statement": "If all writes work, the sequence of calls of http.ResponseWriter makes the response of C26-C28. Failing writes change neither whether a handler returns nor the status nor any header field; if the connection is broken for good, what got out is a beginning of the full response; otherwise the text of the error can follow it under status 200. Answers to /evaluate are 200 with application/octet-stream, or 400 or 500 with plain text and nosniff; other pages set no header field. /evaluate logs exactly when the answer is an error or a write failed, /config exactly when a write failed, other pages never.", "quantifier": "every server, store, path, request body and every pattern of failing or partial writes", "why_tests_cant": "a connection can break at any byte; tests use a recorder whose writes never fail", "anchors": ["cmd/server/server.go:handleEvaluate", "cmd/server/server.go:handleConfig", "cmd/server/server.go:handleIndex", "cmd/server/server.go:handler"]}
{"id": "C69", "title": "Every password gets as many variants as asked for, up to 98", "statement": "For every password and every number n up to 98, the mutator returns exactly n variants, in spite of its 32-bit hash for telling variants apart; for larger n at least 98 and at most 323. So a successful insert makes the bucket larger by an amount that depends on the metadata and the options only, and the size of a bucket shows how many lines are in it and nothing about them.", "quantifier": "every password of any bytes and length, every n; every history of successful inserts", "why_tests_cant": "variants are dropped on hash collisions, which depend on the password; no test can try them all", "anchors": ["pkg/mutator/rdasmutator.go:Mutate", "pkg/mutator/dasrules.go:dasRulesJSONString", "cmd/server/server.go:insert"]}
{"id": "C70", "title": "A breach file of short lines is stored and served whole; the quick start works", "statement": "If no line is longer than 49153 bytes, the metadata fits and the key is usable, the server program stores every line that has a colon (and counts exactly the others as failures) and starts to listen; the client program then answers every query file, whatever the key and blinds. In particular the README's quick start, on the files of testdata, prints exactly the four lines password / similar password / username / not in breach and exits with status 0.", "quantifier": "every breach file of lines up to 49153 bytes, every query file, all options, keys and blinds", "why_tests_cant": "a run of the quick start shows one key and one blind; which inputs make an insert fail or crash is a question about all lines", "anchors": ["README.md:17-34", "cmd/server/main.go:main", "cmd/client/main.go:main", "cmd/server/server.go:insert", "testdata/test_breach.txt", "testdata/test_queries.txt"]}
{"id": "C71", "title": "Calls of the library may run at the same time on the same buffers", "statement": "Goroutines may call Mutate, EncryptBucketEntry, Request, Finalize, HandleRequest, MarshalBinary and UnmarshalBinary at the same time, with the same Server or Client values and with arguments that lie in the same memory and overlap. No call writes to memory it has not allocated itself, and it reads only that memory and the bytes its own arguments show, so there are no data races; every call returns after finitely many steps, and what it returns is, in every interleaving, what the call alone would have returned, as long as nobody else writes to bytes that the arguments show (and without that condition it is not so).", "quantifier": "all lists of calls, all contents and layouts of memory, all interleavings of single accesses of bytes, and everything else that the program does meanwhile to other bytes", "why_tests_cant": "a race shows only in some schedules; the race detector sees the schedules that ran", "anchors": ["pkg/mutator/rdasmutator.go:Mutate", "pkg/migp/server.go:EncryptBucketEntry, HandleRequest, MarshalBinary, UnmarshalBinary", "pkg/migp/client.go:Request, Finalize", "pkg/migp/encryptor.go", "pkg/migp/common.go"]}
{"id": "C72", "title": "Without their keys, entries show only how many and how long they are", "statement": "Take HKDF's output as random streams, one for each key and purpose. Then entries under different keys show nobody without the keys more than their number and lengths: any other credentials in the same buckets, with any flags and with metadata of the same lengths, on a server with any key, give the same stored bytes under an equally likely choice of streams, one that leaves alone the streams of every key not involved in the difference. So a client's query shows it its own entry and verdict, and of the rest of the bucket only number and lengths. This fails for entries under one key; with usernames stored, every two lines of one user leave two identical entries in the bucket.", "quantifier": "all lists of entries and credentials, all servers, all choices of streams, all clients and queries", "why_tests_cant": "it is a statement about all choices of pads at once; a test sees one ciphertext", "anchors": ["pkg/migp/encryptor.go:Encrypt, DecryptHeader, DecryptBody, derivePad", "pkg/migp/server.go:EncryptBucketEntry, HandleRequest", "pkg/migp/client.go:Finalize", "cmd/server/server.go:insert"]}
{"id": "C73", "title": "What the sizes of the traffic show", "statement": "All requests of a client have the same size, whatever the credentials and the blinding. A response is longer than its bucket by a constant. For an ingested breach (at most 98 variants, every line stored) the size of a response gives the number of lines in the bucket times a constant. So somebody who sees only sizes, as on an encrypted connection, learns the number of queries and the number of lines in each queried bucket, and nothing that depends on the queried password.", "quantifier": "all credentials, all input files of the client, all blinds, all stores, all breaches, all prime-order groups", "why_tests_cant": "a test sees some requests; equality of sizes must hold for all credentials", "anchors": ["pkg/migp/client.go:Request", "pkg/migp/migp.go:ClientRequest, ServerResponse, BucketIDToHex", "cmd/client/main.go:main", "cmd/server/server.go:handleEvaluate, insert"]}
{"id": "C74", "title": "Every error names its cause", "statement": "Each error of NewClient, NewServer, HandleRequest, Finalize, EncryptBucketEntry and of decoding a response has the text that belongs to its cause, in both directions: the text is returned exactly when the cause is present and no earlier check failed. Errors of the OPRF library and of the store are passed on as they are. A query answered with a status other than 200 is reported with the number of that status, and every other error of a query is the error of the step that failed.", "quantifier": "all configurations, requests, stores, responses, entries, response bytes, all answers of the network", "why_tests_cant": "both directions quantify over all inputs; a test sees one cause at a time and not that the text has no other cause", "anchors": ["pkg/migp/client.go:NewClient, Finalize, Query", "pkg/migp/server.go:NewServer, HandleRequest, EncryptBucketEntry, UnmarshalBinary", "pkg/migp/hasher.go:NewBucketHasher", "pkg/migp/slowhasher.go:NewSlowHasher", "pkg/migp/encryptor.go:NewBucketEncryptor, derivePad"]}
{"id": "C75", "title": "Each call does work linear in the size of its arguments", "statement": "Finalize, HandleRequest, MarshalBinary, UnmarshalBinary, Request, EncryptBucketEntry and Mutate each end after a number of single-byte memory accesses and allocations that is bounded by an explicit linear function of the lengths of their arguments (Mutate: rules times password length). The bounds hold whatever the memory returns: for malicious responses and for memory that other goroutines change during the call. In particular Finalize needs at most (L+89) units for every 25 bytes of the bucket and 6 for each byte, UnmarshalBinary a constant number (104), HandleRequest none that depends on the bucket, and goroutines together never take more steps than the sum of their bounds.", "quantifier": "all arguments, all contents of the memory (also changing ones), all schedules", "why_tests_cant": "A test measures some inputs; the bound is a statement on all inputs, and an attacker chooses the worst one.", "anchors": ["pkg/migp/client.go: Finalize, Request", "pkg/migp/server.go: HandleRequest, EncryptBucketEntry, MarshalBinary, UnmarshalBinary", "pkg/migp/encryptor.go: Encrypt, DecryptHeader, DecryptBody, derivePad, xorBytes", "pkg/mutator/rdasmutator.go: Mutate"]}
{"id": "C76", "title": "The order of memory accesses does not show secrets", "statement": "Which bytes of memory a call reads and writes and how much it allocates, in order, does not depend on secrets of the same length: for the comparison of a key with an entry's key check (any key, any entry); for EncryptBucketEntry on usernames, passwords, metadata, server keys and (valid) flags; for Request on usernames, passwords and blinds; for HandleRequest on the blinded element, the key and what the store answers; for MarshalBinary and UnmarshalBinary on the contents. Finalize's accesses show the length fields of the bucket and which entry is the first that belongs to the client, and nothing else of the key, the flag, the metadata or the other entries. What they do show is shown to be real: a matching and a non-matching first entry give different accesses, and Mutate's accesses show whether a character of the password is a letter.", "quantifier": "all contents of the memory, all keys, flags and blinds, all layouts of the arguments", "why_tests_cant": "A test can compare the accesses of two runs; that they agree for all pairs of secrets is a statement about pairs of runs.", "anchors": ["pkg/migp/encryptor.go: DecryptHeader, DecryptBody, Encrypt", "pkg/migp/client.go: Request, Finalize", "pkg/migp/server.go: EncryptBucketEntry, HandleRequest, MarshalBinary, UnmarshalBinary", "pkg/mutator/rdasmutator.go: changeCap"]}
{"id": "C77", "title": "How much the store holds", "statement": "The memory a server's store needs is bounded by what was inserted: each insert, succeeding or not, adds at most 1 + min(variants, 323) + 1 entries (the last only if the username variant is on) of 25 bytes and the metadata each, however long the password is; if all inserts succeed and at most 98 variants are asked for the store has exactly that size. No two buckets have the same name, there are at most as many as inserts and at most 2^bucketIDBitSize, and each is named by the id of an inserted username. The server program's store is bounded so by the number of lines with a colon in its breach file.", "quantifier": "all servers, all sequences of inserts including failing ones, all breach files", "why_tests_cant": "A test measures one store; the bound is over all sequences of inserts and all places where one can fail.", "anchors": ["cmd/server/server.go: insert, newServer", "cmd/server/kv.go: newKVStore, Append", "cmd/server/main.go: main", "pkg/migp/server.go: EncryptBucketEntry", "pkg/mutator/rdasmutator.go: Mutate"]}
{"id": "C78", "title": "A false alarm needs a 160-bit coincidence, once for each entry of the bucket", "statement": "With HKDF's streams replaced by arbitrary ones: the 20 check bytes of a secret have 2^160 possible values. For a credential whose secret is not the key of a stored entry, the store does not depend on the streams of that secret, and the query reports something else than 'not in breach' exactly for those values of the check bytes that are in a list with at most one value for each entry of the bucket; so with random streams a false alarm has at most probability (entries in the bucket)/2^160. Whatever bucket a server sends, at most one value for every 25 bytes of it makes the client report anything but 'not in breach' or 'parsing error in bucket'. With HKDF the check bytes are its first 20 bytes.", "quantifier": "all streams, all configurations, databases, credentials, blinds; all buckets of a hostile server", "why_tests_cant": "A test can only show that no false alarm was seen; the count of the values that raise one is over all streams.", "anchors": ["pkg/migp/encryptor.go: Encrypt, DecryptHeader, derivePad", "pkg/migp/client.go: Finalize", "pkg/migp/server.go: EncryptBucketEntry"]}
{"id": "C79", "title": "Other implementations of the protocol interoperate with this one", "statement": "SpecInterop.v writes the protocol down with its constants (lengths as two bytes, scrypt with N=16384, r=8, p=1, 32 bytes and the salt \"MIGP slow hash\", the OPRF info \"MIGP oprf info\", the bucket prefix \"MIGP bucket\", bucket names of 8 hexadecimal digits, entries of 20 check bytes, one flag byte, four length bytes and the masked metadata), using SHA-256, HKDF, scrypt and the OPRF only. The store this server makes is the specified one byte for byte; a request with a specified bucket name is answered with the version, the evaluated element and the specified bucket; this client sends the specified bucket name and blinded input, and from the evaluated element and the specified bucket it reads the right answer.", "quantifier": "all configurations with 0 to 32 bits, keys, databases, credentials, blinds and blinded elements, every OPRF implementation (for the client: that follows the OPRF equations)", "why_tests_cant": "Tests run this client against this server, so a changed constant on both sides is not seen; and they use one configuration and few credentials.", "anchors": ["pkg/migp/common.go: serializeUsernamePassword, bucketHashToID, BucketIDToHex", "pkg/migp/hasher.go", "pkg/migp/slowhasher.go", "pkg/migp/encryptor.go: Encrypt", "pkg/migp/client.go: Request, Finalize", "pkg/migp/server.go: EncryptBucketEntry, HandleRequest, MarshalBinary"]}
{"id": "C80", "title": "What the client says on standard error", "statement": "When a configuration of another version than 1 is used for queries, the client warns exactly once, with both versions in decimal, and before it opens its input, sends a query or prints anything. A dump, a missing configuration or one of version 1 gives no warning. Apart from the warning the only thing said is the error the client fails with, as the last event, exactly when it leaves with status 1. So a query run that ends with status 0 is silent exactly if the version is 1.", "quantifier": "every command line, files, network, random choices, pattern of failing output, and every point at which the client can be stopped", "why_tests_cant": "That nothing else is ever said, in particular no username or password, is a statement about all runs.", "anchors": ["cmd/client/main.go:main"]}
{"id": "C81", "title": "A response is good for its own request only, and a mix-up goes unnoticed", "statement": "Nothing in a response ties it to a request. If the response to another request of the same client (for another credential, or for the same one with a fresh blind) is read with a request's context, the secret the client gets is a hash of something else than the secret the credential is stored under, exactly if the two blinded elements differ; and unless that wrong secret has the 20 check bytes of a stored credential, Finalize returns 'not in breach' without an error, whether the credential is stored or not. So an application, proxy or cache that hands out the wrong response makes breached credentials look safe.", "quantifier": "all databases, credentials, blinds, configurations, getters; the first part for the OPRF construction over all prime-order groups, the second for every OPRF implementation", "why_tests_cant": "Tests finalize each response with its own context; which secret comes out of a mix-up needs the algebra of the group.", "anchors": ["pkg/migp/client.go: Request, Finalize, ClientRequestContext", "pkg/migp/server.go: HandleRequest"]}
{"id": "C82", "title": "A breach may be ingested in parts and the buckets joined", "statement": "Servers with one configuration and key may each store a part of a breach; appending their buckets name by name gives, byte for byte, the store that a single server makes from the whole breach, however it is cut into parts. A server whose backend returns the joined buckets answers each query with the first part's answer that reports anything, and with 'not in breach' if none does.", "quantifier": "all databases, all ways to cut them into parts, all backends that return the joined buckets, all credentials and blinds, without key-check collisions", "why_tests_cant": "A test joins a few fixed parts; the claim is about every cut, every name and every query.", "anchors": ["pkg/migp/server.go: EncryptBucketEntry, BucketID, HandleRequest", "cmd/server/kv.go: Append", "cmd/server/server.go: insert"]}
{"id": "C83", "title": "On 32-bit platforms honest servers are answered alike, and 25 fixed bytes crash every client", "statement": "Where int has 32 bits, Finalize gives the answer of a 64-bit client for every bucket that fits in memory and in which no header after the whole entries leads to 2^31 or beyond, and for every bucket with an entry of the client before such a header; so the buckets an honest server stores are answered alike. A header leading to between 2^31 and 2^32, before any entry of the client, stops the program whatever the secret; 25 constant bytes do this to every client.", "quantifier": "all contexts, all responses (hostile ones included), all buckets of up to 2^31 - 26 bytes, all databases, credentials and blinds", "why_tests_cant": "Tests run on a 64-bit machine and on well-formed buckets.", "anchors": ["pkg/migp/client.go: Finalize", "pkg/migp/encryptor.go: DecryptHeader"]}
{"id": "C84", "title": "What Query and the two programs leave open", "statement": "migp.Query closes the body of the response exactly when the status is 200; for every other status the body stays open, so k calls against a server that answers with errors leave k bodies (and their connections) open. No body or file is read or closed before it is opened or after it is closed, and none is closed twice. The client program has at most three things open at any moment, and after a run with status 0 only the body of the answer to GET /config is open, which it is whenever the configuration comes from the server. The server has at most one file open at a time; while it serves it still holds the breach file, unless it was standard input.", "quantifier": "all sequences of calls, all responses; all command lines, files, inputs and answers of the network; every moment of a run", "why_tests_cant": "A test sees the result of a call, not what it leaves open; leaks show only after many calls.", "anchors": ["pkg/migp/client.go: Query", "cmd/client/main.go: main", "cmd/server/main.go: main"]}
{"id": "C85", "title": "Goroutines that insert at the same time", "statement": "When goroutines call the demo server's insert on one store at the same time, every schedule leaves a store that answers every query as if all entries had been stored one after the other in an order that keeps each goroutine's own order, and every such order is the outcome of some schedule. All buckets have the lengths they have after a sequential load. The answer for a pair is that of some goroutine that stored the pair, as if it had been alone, and any such goroutine may be the one. When the inserts are dealt out to goroutines by username, all answers are those of the sequential load; when one user's inserts are in two goroutines, the answer may depend on the schedule.", "quantifier": "all servers, work of any number of goroutines, all interleavings of the store's steps, all usernames and passwords", "why_tests_cant": "A test sees a few schedules of a few inserts.", "anchors": ["cmd/server/server.go: insert", "cmd/server/kv.go: Append, Get"]}
{"id": "C86", "title": "Queries while goroutines insert", "statement": "A query that is answered while goroutines insert into the store sees the entries as they are at one instant of the load: of every goroutine's entries a first part, at least all whose Append had returned when the query's Get was called, and none that had not been begun when it returned. So everything stored by an insert that returned before is found; whatever is reported was stored by some insert for exactly that pair, with that flag and metadata; and between two queries one after the other a bucket only grows at its end, so an answer that reports an entry is repeated, status and metadata, by every later query for the pair.", "quantifier": "all servers, work of any number of goroutines, all interleavings of the store's steps, all instants of the queries, all usernames, passwords and blindings", "why_tests_cant": "A test sees a few schedules and cannot choose the instants.", "anchors": ["cmd/server/server.go: insert", "cmd/server/kv.go: Append, Get", "pkg/migp/server.go: HandleRequest", "pkg/migp/client.go: Finalize"]}
{"id": "C87", "title": "Requests served at the same time", "statement": "The server program stores the breach file before it listens, and its handlers only read the store. So in every interleaving of the requests being served, each request gets the reply it would get from the server that holds the whole breach file and serves nothing else; a request reads at most the bucket its body names, two requests for one bucket are given the same bucket whenever they come, and what a client posts names the bucket of its username.", "quantifier": "all breach files and options, any number of requests with any paths and bodies, all interleavings of the store's steps after the load", "why_tests_cant": "A test serves a few requests in the schedules that happen to occur.", "anchors": ["cmd/server/main.go: main", "cmd/server/server.go: handler, handleEvaluate", "cmd/server/kv.go: Get", "pkg/migp/server.go: HandleRequest"]}
{"id": "C88", "title": "What was cut off is not taken for the whole", "statement": "A proper first part of a dumped configuration, of the configuration page (unless only the line end is lost) or of a client's request is refused wherever it was cut: the programs exit with status 1 and no output, the server answers 400. A cut response below 37 bytes is refused; above, its bucket is a first part, and the client's answer is that of the whole, an error, or 'not in breach', never another finding: the cut is silent exactly when it falls within the header of the client's own entry or right before it, an error within its body, and harmless behind it. Input lines have no such protection: the piece of a cut line is taken for a line.", "quantifier": "all configurations, keys, requests, responses and inputs, all positions of the cut", "why_tests_cant": "There are as many cuts as bytes, for every document.", "anchors": ["cmd/client/main.go: main", "cmd/server/main.go: main", "cmd/server/server.go: handleEvaluate", "pkg/migp/server.go: UnmarshalBinary", "pkg/migp/client.go: Finalize"]}
{"id": "C89", "title": "Bodies that arrive piece by piece", "statement": "migp.Query and the handler of /evaluate read the body of their peer to its end before they look at it: the result is the function of the concatenated pieces, however they are cut and however the buffer grows, and it comes after the end and not before. A connection that breaks in the middle gives its error (a 400 page from the handler), never an answer from a part of the body; a status other than 200 is reported without reading the body. There is no limit of time or size: while the peer goes on sending, neither returns after any number of reads, all bytes that arrived are in memory, and the client program stays at that line, with the answers before it printed.", "quantifier": "all streams of pieces, finite or endless, with any end; all numbers of reads; all growth policies of slices; all clients, servers, inputs", "why_tests_cant": "Waiting for ever shows in no finite test, and the ways to cut a body are unbounded in number.", "anchors": ["pkg/migp/client.go: Query", "cmd/server/server.go: handleEvaluate", "cmd/client/main.go: main"]}
{"id": "C90", "title": "The exact bytes that are written", "statement": "The client's output lines, its requests, the configuration page and both dumped configurations are determined to the byte: the members in a fixed order, no white space, decimal numbers without leading zeros, base64 with padding, and text in which exactly the quote, the backslash, the control characters, less-than, greater-than, ampersand, U+2028 and U+2029 are escaped, each in one way, and every byte that is not UTF-8 is written \\ufffd. Texts in UTF-8 can be read back from what is written.", "quantifier": "all texts, lines, credentials, configurations and keys", "why_tests_cant": "One byte string has one encoding among many that a parser accepts; tests of decoded values do not see it, and tests of bytes try a few characters.", "anchors": ["cmd/client/main.go: main", "pkg/migp/client.go: Query", "cmd/server/server.go: handleConfig", "pkg/migp/server.go: MarshalJSON", "pkg/migp/common.go: Config"]}
{"id": "C91", "title": "The configuration page piece by piece", "statement": "The client reads the configuration page with a decoder that looks at each piece as it arrives. It waits exactly while the body goes on and what has arrived is an unfinished beginning of JSON. Once an object is complete the client has its configuration, whether the body then goes on, ends, breaks or falls silent, and reads no further; so a configuration that a server sends arrives unchanged however it is cut. A body that ends gives what the whole of it decodes to; a page that cannot become JSON is refused with the piece that shows it; a connection that breaks before the value is complete gives its error. There is no limit of time: white space without end keeps the client waiting for ever.", "quantifier": "all streams of pieces, finite or endless, with any end; all numbers of reads; all configurations, all client options", "why_tests_cant": "The ways to cut a page and the endless pages are unbounded in number, and waiting for ever shows in no finite test.", "anchors": ["cmd/client/main.go: main"]}
{"id": "C92", "title": "The client program whose server sends piece by piece", "statement": "Everything the other properties say of the client program holds when its server sends the configuration page and the answers piece by piece: once what the client reads has arrived, it has written what it would have written with whole bodies and ended with the same status; if it has ended, that is what it would have done with what arrived; what it has written stays, and an ended client changes no more. Status 0 means that every credential was answered from a body of status 200 that had arrived to its end. But a server can keep the client for ever at any query, with the lines before written, by an answer that does not end.", "quantifier": "all command lines, files, numbers of reads, networks of streams (finite, broken, endless), all OPRFs, blinds and growth policies of slices", "why_tests_cant": "Networks that deliver in all possible pieces cannot be enumerated, and that a program never ends is not seen by running it.", "anchors": ["cmd/client/main.go: main", "pkg/migp/client.go: Query"]}
{"id": "C93", "title": "What can get into the client's output", "statement": "Whatever is in the input and whatever the server sends, the client's standard output is, at every moment, UTF-8 text in which the only control character below 32 is the line feed behind each line, and in which there is no less-than, greater-than, ampersand, U+2028 or U+2029: no name, password or metadata can forge a line, move within one, or become markup in a page. But DEL and the control characters U+0080 to U+009F, which terminals obey, are printed as they are: whoever chooses the metadata can send control sequences to the user's terminal.", "quantifier": "all command lines, files, networks (whole bodies or pieces), blinds, usernames, passwords, statuses and metadata", "why_tests_cant": "The bytes a server or an input file may send are unbounded; a test shows single strings only.", "anchors": ["cmd/client/main.go: main"]}
{"id": "C94", "title": "Slow peers hold up nobody", "statement": "While the server serves any number of requests at the same time, whose bodies arrive in pieces when their peers like, or never end, every reply it gives is the one the loaded server alone gives to the whole body that arrived on that connection. A handler whose body ends is never blocked by another request and replies after a number of its own steps that depends on its body only, even if no other goroutine ever moves again. In every endless schedule that goes on giving its goroutine steps it does reply, and a new request is taken up at any time. A body that never ends is never replied to, and its handler is in no call of the store and holds no lock. Serving leaves the store as it was loaded, and a query served in this way gets the answer of the server alone.", "quantifier": "all stores after a load, all numbers of goroutines and requests, all bodies in all pieces, all interleavings of all handlers' steps (also inside the store), all histories", "why_tests_cant": "A test runs a few schedules with a few slow peers; blocking depends on the schedule, and that no schedule blocks cannot be seen from runs.", "anchors": ["cmd/server/server.go: handler, handleEvaluate", "cmd/server/kv.go: Get", "cmd/server/main.go: main (ListenAndServe)", "pkg/migp/server.go: HandleRequest"]}
{"id": "C95", "title": "Many clients at one server", "statement": "Any number of client programs use the server program at the same time, among any other peers (slow ones, ones that never finish, ones that are not this client). Every answer that a client gets, however far it has come, is the one the loaded server alone gives; a client that ends has exactly the exit status and output that it would have if it had the server to itself, so that its output is, line by line, what the breach file says about its credentials. And from every state the server can come to, any number of further clients can be served to their ends by any one free goroutine, even if no other ever moves again.", "quantifier": "all stores after a load, all numbers of clients, command lines, inputs and blinds, all other peers, all interleavings and all ways in which bodies are cut into pieces", "why_tests_cant": "What a client prints depends, in a test, on one schedule and on the peers of that moment; that no schedule and no peer can change it cannot be seen from runs.", "anchors": ["cmd/client/main.go: main", "cmd/server/server.go: handler, handleEvaluate, handleConfig, handleIndex", "cmd/server/main.go: main", "cmd/server/kv.go: Get", "pkg/migp/client.go: Query"]}
