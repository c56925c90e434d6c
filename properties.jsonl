{"id": "C01", "title": "Hash construction is idempotent and always 64 bytes", "statement": "hash.Adapter.FromBytes succeeds on every byte slice and yields a 64-byte hash; an input that is already 64 bytes long is taken verbatim (so FromBytes(h.Bytes()) is h again), and every other input is replaced by its SHA-512 digest. Consequence a user must know: the map is not collision free - for every input that is not 64 bytes long there is a different input (its own digest) with the same hash.", "quantifier": "every byte slice", "why_tests_cant": "the verbatim shortcut applies to one length out of infinitely many and concerns all inputs of the other lengths", "anchors": ["domain/hash/adapter.go: FromBytes, FromMultiBytes, FromString", "domain/hash/hash.go: Bytes, Compare"]}
{"id": "C02", "title": "Hash text form round-trips", "statement": "FromString(h.String()) returns h for every hash h; String is injective and always 128 lower-case hex digits; FromString fails exactly on text of odd length or containing a non-hex character, and on hexadecimal text it is FromBytes of the decoded bytes.", "quantifier": "every hash, every input string", "why_tests_cant": "2^512 hashes and infinitely many strings", "anchors": ["domain/hash/adapter.go: FromBytes, FromMultiBytes, FromString", "domain/hash/hash.go: String"]}
{"id": "C03", "title": "Multi-part hashing sees only the concatenation", "statement": "FromMultiBytes(parts) is a function of the concatenation of the parts: two part lists with equal concatenation have the same hash (part boundaries are not authenticated), and two lists whose concatenations differ and are not 64 bytes long have different hashes unless SHA-512 itself collides.", "quantifier": "every pair of part lists", "why_tests_cant": "needs all ways of splitting all byte strings", "anchors": ["domain/hash/adapter.go: FromBytes, FromMultiBytes, FromString"]}
{"id": "C04", "title": "Hash tree shape", "statement": "Building a hash tree from n >= 1 blocks always succeeds and the tree has exactly the smallest power of two of at least max(2,n) leaves; every leaf is at the same depth; a nil list is an error. A non-nil empty list makes the builder panic.", "quantifier": "every non-empty list of blocks of any length", "why_tests_cant": "the number of blocks is unbounded, padding arithmetic is wrong only at particular sizes", "anchors": ["domain/hashtree/builder.go: Now", "domain/hashtree/block.go: createBlockFromData, resize, HashTree", "domain/hashtree/leaves.go: HashTree", "domain/hashtree/parentleaf.go: HashTree"]}
{"id": "C05", "title": "Hash tree leaves are the block hashes in order", "statement": "Compact().Leaves() of the tree built from blocks b1..bn lists hash(b1)..hash(bn) in order followed only by copies of the hash of the empty slice; Head() equals the recursive pairwise hash of those leaves.", "quantifier": "every non-empty list of blocks", "why_tests_cant": "unbounded block lists; a swap deep inside one subtree shows only for particular sizes", "anchors": ["domain/hashtree/block.go", "domain/hashtree/leaves.go: HashTree, createChildrenLeaves", "domain/hashtree/parentleaf.go: BlockLeaves", "domain/hashtree/hashtree.go: Compact, Head"]}
{"id": "C06", "title": "Hash tree head commits to the leaves", "statement": "Two trees with the same number of leaves and the same head have the same leaf sequence, or an explicit pair of distinct 128-byte inputs with equal SHA-512 digests exists. The block contents are committed to only up to FromBytes: replacing a block by its own digest leaves the head unchanged.", "quantifier": "every pair of block lists", "why_tests_cant": "a commitment claim ranges over all pairs of inputs; tests can only sample it", "anchors": ["domain/hashtree/parentleaf.go: HashTree", "domain/hashtree/hashtree.go: Head", "domain/hash/adapter.go: FromMultiBytes"]}
{"id": "C07", "title": "Order restores the original block order", "statement": "For a tree built from blocks with pairwise distinct hashes, none equal to the hash of the empty slice, Order(any permutation of the blocks) returns the blocks in their original order. Blocks that violate this break it: with an empty block among the data Order can fail on the very list the tree was built from.", "quantifier": "every block list, every permutation", "why_tests_cant": "n! permutations of unboundedly long lists", "anchors": ["domain/hashtree/hashtree.go: Order", "domain/hashtree/leaves.go", "domain/hashtree/block.go"]}
{"id": "C08", "title": "Order never invents or drops data", "statement": "When Order(data) succeeds its result has as many elements as data, every element occurs in data, and the i-th result's hash occurs in the tree's leaf list at increasing positions; data containing a block whose hash is not a leaf never succeeds unless some supplied block hash occupies several leaves.", "quantifier": "every tree, every data list, including adversarial ones", "why_tests_cant": "adversarial data lists are unbounded", "anchors": ["domain/hashtree/hashtree.go: Order"]}
{"id": "C09", "title": "Public key recovery from a signature", "statement": "For every private key x and message m, Sign(m).PublicKey(m) equals x.PublicKey() (provided the message/commitment challenge is not the zero scalar); and for any pair (r,s) PublicKey(m) is the unique point P with s.G + e.P = r.", "quantifier": "every private key, every message, every signature value", "why_tests_cant": "algebraic identity over a 2^252 element field", "anchors": ["domain/cryptography/keys/signature/privatekey.go: Sign", "domain/cryptography/keys/signature/signature.go: PublicKey, Verify"]}
{"id": "C10", "title": "Signature.Verify authenticates nothing", "statement": "A user expects Verify to reject forged values. It does not: for every pair (r,s), whether or not produced by Sign, Verify returns true whenever the challenge drawn for its random message is invertible.", "quantifier": "every point/scalar pair, every random message", "why_tests_cant": "a test of a genuine signature passes; the defect is a statement about all non-genuine pairs", "anchors": ["domain/cryptography/keys/signature/signature.go: Verify"]}
{"id": "C11", "title": "Ring signature completeness", "statement": "For every private key, message and list of ring public keys containing the signer's public key - at any position, for any ring size, with duplicates - RingSign succeeds and the produced ring signature verifies for that message; if the signer's key is not in the ring RingSign returns an error and no signature.", "quantifier": "every ring size, every signer position, every key set and message", "why_tests_cant": "ring length and position are unbounded, the wrap-around index arithmetic has no small covering set", "anchors": ["domain/cryptography/keys/signature/privatekey.go: RingSign", "domain/cryptography/keys/signature/ringsignature.go: Verify"]}
{"id": "C12", "title": "Ring signature verification meaning", "statement": "RingSignature.Verify(msg) is true exactly when the chain e_{i+1} = H(msg || s_i.G + e_i.P_i) started at e returns to e after all ring members; it panics when fewer scalars than ring members are present, it ignores surplus scalars, and an empty ring verifies every message.", "quantifier": "every ring signature value including malformed ones obtained by parsing text", "why_tests_cant": "all rings, all scalars, all messages", "anchors": ["domain/cryptography/keys/signature/ringsignature.go: Verify"]}
{"id": "C13", "title": "Signature and ring signature text forms round-trip", "statement": "Parsing the text of a signature (r,s), of a ring signature with any number of members and scalars, of a private key or of a public key yields an equal value, for all values, provided the point and scalar encodings round-trip; parsing a plain signature additionally re-runs Verify (see C10).", "quantifier": "every signature, every ring of any size", "why_tests_cant": "delimiters and base64 padding interact with lengths; unbounded ring sizes", "anchors": ["domain/cryptography/keys/signature/ringsignature_adapter.go", "domain/cryptography/keys/signature/adapter.go", "domain/cryptography/keys/signature/ringsignature.go: String", "domain/cryptography/keys/signature/signature.go: String"]}
{"id": "C14", "title": "Vote/ring verification against hashed keys", "statement": "ToVerification accepts only if the ring signature verifies for the message and the ring consists of exactly the announced public-key hashes in the announced order; each of the three failing conditions is reported as a failure.", "quantifier": "every signature, message and hash list", "why_tests_cant": "all hash lists and orders", "anchors": ["domain/cryptography/keys/signature/ringsignature_adapter.go: ToVerification"]}
{"id": "C15", "title": "Password encryption round-trips", "statement": "Decrypt(Encrypt(m)) = m under the same password for every message (including the empty one), password and initialisation vector.", "quantifier": "every message length and content, every key, every IV", "why_tests_cant": "all lengths modulo the block size, all contents", "anchors": ["domain/cryptography/encryption.go: Encrypt, Decrypt"]}
{"id": "C16", "title": "Password decryption rejects only malformed input", "statement": "Decrypt fails exactly when the input is not base64 or decodes to fewer than 16 bytes; everything else, including any tampered ciphertext or wrong password, decrypts to some plaintext (no integrity), and flipping ciphertext bits flips the same plaintext bits of that block.", "quantifier": "every input text, every password", "why_tests_cant": "non-detection for all inputs is not testable", "anchors": ["domain/cryptography/encryption.go: Decrypt"]}
{"id": "C17", "title": "Ring builder bounds", "statement": "A ring is built exactly when the list of key hashes is set and its length lies between the configured minimum and maximum inclusive; the ring holds the given hashes in order and its hash is that of their concatenation (a one-member ring's hash is the member itself).", "quantifier": "every min, max and list length, every sequence of builder calls", "why_tests_cant": "unbounded sizes and call histories", "anchors": ["domain/rings/ring_builder.go: Now", "domain/rings/builder.go: Now"]}
{"id": "C18", "title": "Genesis units are well-formed", "statement": "Whatever sequence of With... calls is made, a genesis unit content is built exactly when amount is positive, nonce non-empty, both times set and activation is not before creation; the built value reports exactly the last values given.", "quantifier": "every sequence of builder calls with every argument", "why_tests_cant": "unbounded call histories", "anchors": ["domain/genesis/unitcontent_builder.go: Now", "domain/genesis/unitcontent.go"]}
{"id": "C19", "title": "Genesis is not older than its units", "statement": "A genesis is built exactly when units, fees and creation time are present and no unit's creation time is before the genesis creation time; its hash commits to fees, units and time as one concatenated text.", "quantifier": "every unit list, every time", "why_tests_cant": "unbounded lists; a boundary at equality", "anchors": ["domain/genesis/builder.go: Now"]}
{"id": "C20", "title": "Unit content hash is ambiguous", "statement": "A user expects different unit contents to have different hashes. The digits of amount, nonce and the two times are concatenated without separators, so distinct contents share a hash (amount 1 nonce 23... equals amount 12 nonce 3...); with equal amounts and equal-width times, equal hashes imply equal contents or a SHA-512 collision; and a content whose text has exactly 64 bytes has that text, in clear, as its hash.", "quantifier": "every pair of unit contents", "why_tests_cant": "needs all pairs", "anchors": ["domain/genesis/unitcontent_builder.go: Now"]}
{"id": "C21", "title": "Transaction content and transaction hash binding", "statement": "A transaction content needs owner, amount, origin, external and creation time; its hash determines owner, amount, origin and external digests and creation second (or exhibits a SHA-512 collision), but not the sub-second part of the time; a transaction hash determines the content digest and the authorisation text.", "quantifier": "every pair of transactions", "why_tests_cant": "pairs of all transactions", "anchors": ["domain/transactions/content_builder.go: Now", "domain/transactions/transaction_builder.go: Now"]}
{"id": "C22", "title": "Private transactions and receipts all share one hash", "statement": "A user expects distinct private transactions (receipts) to be distinguishable by Hash(). Every successfully built private transaction has the same hash, equal to the hash of the empty slice; so has every receipt.", "quantifier": "every private transaction, every receipt", "why_tests_cant": "the claim ranges over all values", "anchors": ["domain/transactions/privates/private_builder.go: Now", "domain/receipts/builder.go: Now"]}
{"id": "C23", "title": "Secret hash: origin and sides are interchangeable", "statement": "A secret is built exactly when amount is positive, nonce non-empty and the public part set; its hash includes origin and sides digests without tags, so a secret with only an origin and one with only sides of equal digest collide, and so do amount/nonce re-splittings.", "quantifier": "every pair of secrets", "why_tests_cant": "all pairs of secrets", "anchors": ["domain/transactions/secrets/secret_builder.go: Now"]}
{"id": "C24", "title": "Block builder", "statement": "A block is built exactly when height is non-zero and fees, transactions and creation time are given; the optional previous block is not required and nothing relates its height to the block's; the block hash determines height/fees/transactions/time/previous only through one concatenated text.", "quantifier": "every sequence of builder calls", "why_tests_cant": "unbounded call histories and all argument values", "anchors": ["domain/chains/block_builder.go: Now"]}
{"id": "C25", "title": "Chain builder", "statement": "A chain is built exactly when id, root and creation time are given; the head is optional and reported exactly as given.", "quantifier": "every sequence of builder calls", "why_tests_cant": "unbounded call histories", "anchors": ["domain/chains/builder.go: Now"]}
{"id": "C26", "title": "Peer text form round-trips", "statement": "Building a peer from the text of a peer yields the same host and port, for every non-empty host that does not contain the delimiter and every port below 2^63; text with a number of delimiter-separated parts other than two, an empty host or a non-numeric port is rejected. (Ports from 2^63 do not round-trip; a negative port text is accepted and wraps around.)", "quantifier": "every host, delimiter and port, every text", "why_tests_cant": "all hosts and all texts", "anchors": ["domain/peers/peer_builder.go: Now", "domain/peers/peer.go: String"]}
{"id": "C27", "title": "Last builder call wins and Create resets", "statement": "For the entity builders, the outcome of Now depends only on the last value passed to each With... method since the last Create: interleaving or repeating calls, Now included, never changes the outcome. The single peer builder is the exception: its Now stores the parsed host and port in the builder, so there it holds only between calls of Now.", "quantifier": "every interleaving of builder calls", "why_tests_cant": "all call sequences", "anchors": ["domain/genesis/unitcontent_builder.go", "domain/chains/block_builder.go", "domain/chains/builder.go", "domain/transactions/content_builder.go"]}
{"id": "C28", "title": "Cardinality meaning", "statement": "IsValid(n) holds exactly when n lies in the interval denoted by the cardinality: ? is 0..1, mandatory is 1, + is 1.., * is 0.., {n} is n, {a,b} is a..b, {a,} is a.., for every n; Delimiter reports the ends of that interval. The builders accept a range whose minimum exceeds its maximum, which no amount satisfies.", "quantifier": "every cardinality and amount", "why_tests_cant": "unbounded amounts, boundaries at every interval end", "anchors": ["domain/languages/lexers/cardinality/cardinality.go: IsValid, Delimiter", "domain/languages/lexers/cardinality/specific.go", "domain/languages/lexers/cardinality/range.go"]}
{"id": "C29", "title": "Cardinality text form round-trips", "statement": "ToCardinality(ToPatternString(c)) is c for every cardinality other than mandatory whose numbers are below 2^63 (and {n} with n positive); a mandatory cardinality makes ToPatternString panic.", "quantifier": "every cardinality", "why_tests_cant": "all numbers", "anchors": ["domain/languages/lexers/cardinality/adapter.go", "domain/languages/lexers/cardinality/specific_adapter.go"]}
{"id": "C30", "title": "Cardinality parser accepts only its grammar", "statement": "ToCardinality accepts, up to surrounding white space (of Unicode), exactly +, *, ?, and braces-optional n / a, / a,b with integer literals, and rejects zero amounts, missing minimum, non-numeric text and three or more comma-separated parts; negative literals are accepted and wrap to huge unsigned bounds.", "quantifier": "every string", "why_tests_cant": "infinitely many strings", "anchors": ["domain/languages/lexers/cardinality/specific_adapter.go: ToSpecific", "domain/languages/lexers/cardinality/specific_builder.go: Now"]}
{"id": "C31", "title": "Longest-prefix group match", "statement": "A group matches a text with the length of its longest alternative that is a prefix of the text, and zero when none is.", "quantifier": "every group and text", "why_tests_cant": "all alternative lists in every order", "anchors": ["domain/languages/lexers/containers/patterns/groupcontent.go: Contains"]}
{"id": "C32", "title": "Pattern search finds the earliest occurrence", "statement": "FromPatternToResult reports the smallest offset of the text at which the pattern yields discoveries, fails when no offset does, and FromPatternsToResult reports the pattern with the smallest such offset, the first one listed winning ties.", "quantifier": "every pattern list and text", "why_tests_cant": "all texts, all orderings", "anchors": ["domain/languages/lexers/containers/patterns/adapter.go: FromPatternToResult, FromPatternsToResult"]}
{"id": "C33", "title": "Discoveries of a sequential pattern are the text read", "statement": "For every pattern, the concatenated discoveries are a non-empty prefix of the reported input: the longest run of choices, from the first one, that read the text in sequence, one discovery per group in order (each being that group's longest match) and one per reversed choice. For a pattern whose only choice is a forward serie, discoveries followed by the remaining text is the input. With several or reversed choices the remaining text is wrong: what a failed choice consumed, or the whole rest at a failed reversed choice, is in neither; and discoveries of later choices carry index 0.", "quantifier": "every pattern and text", "why_tests_cant": "all patterns and texts; the failure needs a partially matching choice", "anchors": ["domain/languages/lexers/containers/patterns/adapter.go: matchPattern, matchSerie, matchReversedSerie"]}
{"id": "C34", "title": "Group search remaining text", "statement": "FromGroupToResult finds the earliest offset at which the group matches; discoveries are the longest alternative there. The reported remaining text is the suffix after the match only when the match is at offset zero; otherwise it is wrong (cut at the match length from the start of the text).", "quantifier": "every group and text", "why_tests_cant": "all offsets", "anchors": ["domain/languages/lexers/containers/patterns/adapter.go: FromGroupToResult"]}
{"id": "C35", "title": "Rule evaluation consumes a prefix within its cardinality", "statement": "For a pattern rule, the result's matches never exceed the rule's maximum, every match starts at offset zero of the text left by the previous ones, and the result content is a prefix of the script; it is the longest such run. A constant rule reports the first occurrence of its constant, possibly past the start (so its content need not be a prefix). Evaluation terminates on every script.", "quantifier": "every rule and script", "why_tests_cant": "unbounded scripts and repetition counts", "anchors": ["domain/languages/lexers/asts/results/adapter.go: ToResult"]}
{"id": "C36", "title": "Rule and token tables have unique names", "statement": "Rules and Tokens collections are built exactly when non-empty and free of duplicate names; Find(name) returns the unique element with that name, in a successfully built collection, and an error for every other name.", "quantifier": "every list, every name", "why_tests_cant": "unbounded lists", "anchors": ["domain/languages/lexers/containers/rules/builder.go: Now", "domain/languages/lexers/containers/rules/rules.go: Find", "domain/languages/lexers/containers/tokens/builder.go: Now", "domain/languages/lexers/containers/tokens/tokens.go: Find"]}
{"id": "C37", "title": "A valid lexed token spells a prefix of the script", "statement": "Whenever the lexer reports a valid line of a token, the text it claims to have discovered (channel text included) is a prefix of the script it was given.", "quantifier": "every grammar, channel set and script, every evaluation depth", "why_tests_cant": "all grammars including recursive ones", "anchors": ["domain/languages/lexers/asts/tokens/adapter.go: lineToMatches, bestLineToMatches, elementToTokenContent, ruleToRuleMatch, tokenPathToTokenResultMatches", "domain/languages/lexers/asts/tokens/matches.go: Discoveries"]}
{"id": "C38", "title": "Best line selection", "statement": "Among a token's lines the lexer returns the valid line with the longest discovered text, the earliest listed one on ties; when no valid line discovers any text it returns the last line that produced an invalid match (or none), although a user would expect the invalid line that got furthest.", "quantifier": "every line list and script", "why_tests_cant": "all grammars and scripts", "anchors": ["domain/languages/lexers/asts/tokens/adapter.go: bestLineToMatches"]}
{"id": "C39", "title": "Repetition never exceeds the maximum", "statement": "A token or rule reference with a maximum cardinality never collects more than that many occurrences in one match; a match reported valid has a number of occurrences the cardinality allows.", "quantifier": "every grammar, script and cardinality", "why_tests_cant": "all counts", "anchors": ["domain/languages/lexers/asts/tokens/adapter.go: tokenPathToTokenResultMatches, ruleToRuleMatch", "domain/languages/lexers/asts/tokens/tokenresult.go", "domain/languages/lexers/asts/tokens/rulematchresult.go"]}
{"id": "C40", "title": "Negative (not) blocks", "statement": "A token content with a 'not' line is valid exactly when the not line is invalid. A user would expect the positive line to be required too; it is not: an invalid positive line together with an invalid not line counts as valid.", "quantifier": "every token content", "why_tests_cant": "all content trees", "anchors": ["domain/languages/lexers/asts/tokens/tokencontent.go: IsValid"]}
{"id": "C41", "title": "Lexing is not independent of earlier calls", "statement": "A user expects ToToken(script) to depend on grammar and script only. The prefix permission of an adapter is permanently cleared by a call that meets a prefix, so the same adapter can answer differently to the same script afterwards; without a permitted prefix the adapter state that influences answers never changes, so as long as the channel map is visited in one order (for instance with at most one channel) answers do not depend on history.", "quantifier": "every history of calls on one adapter", "why_tests_cant": "depends on call history", "anchors": ["domain/languages/lexers/asts/tokens/adapter.go: ToToken, ruleToRuleMatch"]}
{"id": "C42", "title": "Path construction terminates on every grammar", "statement": "ToPath terminates for every finite token table, however mutually recursive: along any chain of nested token references no token is expanded twice; a reference to a token being expanded becomes a recursive reference carrying its name and cardinality; a line consisting only of a self reference met inside the token's own expansion is an error; an undeclared token is an error.", "quantifier": "every token table", "why_tests_cant": "all recursive grammars", "anchors": ["domain/languages/lexers/asts/paths/adapter.go: ToPath, toElement, toElementEncapsulated, elementToContainer, tokenReferenceToTokenPath"]}
{"id": "C43", "title": "Mistake position", "statement": "The index, line and column reported for a mistake are the byte length of the text read so far, its number of newline separators, and one less than the length of its last line (zero when that line is empty).", "quantifier": "every text", "why_tests_cant": "all texts", "anchors": ["domain/languages/lexers/asts/mistakes/adapter.go: getCurrentPosition"]}
{"id": "C44", "title": "No reported mistake versus validity", "statement": "For token trees without negative blocks, nested lines and prefixed results, ToMistake reports no mistake exactly when the tree is valid; with them the two notions diverge (witnesses given).", "quantifier": "every token tree", "why_tests_cant": "all trees", "anchors": ["domain/languages/lexers/asts/mistakes/adapter.go: ToMistake", "domain/languages/lexers/asts/tokens/blockmatch.go: IsValid"]}
{"id": "C45", "title": "Root containers and equal texts", "statement": "A user expects the root attached to a token's container to be that token's. Roots are cached by discovered text only, so two differently named sibling tokens with equal text get the same root; when no two sibling/descendant tokens share a text, every container's root has its token's name and text.", "quantifier": "every AST token tree", "why_tests_cant": "needs two equal texts under different names at any depth", "anchors": ["domain/languages/lexers/roots/adapter.go: toRoot, toRootWithCache"]}
{"id": "C46", "title": "Parser event dispatch", "statement": "Manager.Execute(root) runs the events registered under the root's name in order and returns the outcome of the first one that does not fail; it fails exactly when no event is registered under that name or all fail (or the outcome is empty).", "quantifier": "every event table and root", "why_tests_cant": "all event lists and failure patterns", "anchors": ["applications/languages/parsers/manager.go: Execute, executeEvents"]}
{"id": "C47", "title": "Scan finds only what is asked for", "statement": "Whatever order Go iterates the node map in, a Scan(name) that succeeds returns a root, node or container whose name is the requested name and which occurs in the tree; it fails only if no node and no reachable container has that name.", "quantifier": "every tree, every name, every map iteration order", "why_tests_cant": "map iteration order is random; trees are unbounded", "anchors": ["domain/languages/lexers/roots/nodes.go: Scan", "domain/languages/lexers/roots/node.go: Scan", "domain/languages/lexers/roots/containers.go: Scan", "domain/languages/lexers/roots/container.go: Scan"]}
{"id": "C48", "title": "Test suites cover every token with tests", "statement": "Suite execution yields one suite per token that has a test suite, in token order, with one line result per test line in order and correct index; a line is successful exactly when lexing it yields no mistake; any lexing error aborts the run.", "quantifier": "every token table", "why_tests_cant": "unbounded tables and test lists", "anchors": ["domain/languages/lexers/suites/application.go: Execute, toSuite, toLine"]}
{"id": "C49", "title": "Signing and ring-signing the same message reveals the private key", "statement": "A user expects signatures not to reveal the key. Sign(m) and RingSign(m, ring) by the same key use the same nonce, so the private key is (s_i - s)/(e - e_i), computed from the two published signatures alone (i the signer's position, e_i the ring challenge there, whenever e_i differs from e); and the ring challenge after the signer's position equals the plain signature's challenge, which gives the ring signer away.", "quantifier": "every private key, message, ring and signer position", "why_tests_cant": "a test cannot show that a formula recovers every key", "anchors": ["domain/cryptography/keys/signature/privatekey.go: Sign, RingSign", "domain/cryptography/keys/signature/helper.go: genK"]}
{"id": "C50", "title": "Ring signature filler values are nonces of other messages", "statement": "A user expects a ring signature to reveal nothing about other signatures. The filler scalar published for ring member i when ring-signing m is the secret nonce of Sign(m followed by the decimal digits of i), so whoever sees both computes the private key.", "quantifier": "every private key, message, ring, filler position", "why_tests_cant": "a test cannot show that a formula recovers every key", "anchors": ["domain/cryptography/keys/signature/privatekey.go: Sign, RingSign", "domain/cryptography/keys/signature/helper.go: genK"]}
{"id": "C51", "title": "RSA key text form round-trips", "statement": "FromEncoded(ToEncoded(k)) is k for every RSA private or public key whose PKCS#1 encoding can be parsed back; FromEncoded fails exactly on text that is not base64 or does not parse as PKCS#1.", "quantifier": "every key and text", "why_tests_cant": "all byte lengths and paddings", "anchors": ["domain/cryptography/keys/encryption/adapter.go: FromEncoded, ToEncoded", "domain/cryptography/keys/encryption/publickey_adapter.go: FromEncoded, ToEncoded"]}
{"id": "C52", "title": "Collections are non-empty and committed to in order", "statement": "A collection of units, transactions, secrets, private keys, private transactions, rings or peers is built exactly when its last list is non-empty and then holds that list; its hash determines the element digests in order (or exhibits a SHA-512 collision) for every number of elements other than one, while a one-element collection has its element's hash. An identity is built exactly when its name is non-empty and its transactions are set.", "quantifier": "every list, every sequence of builder calls", "why_tests_cant": "unbounded lists and call histories", "anchors": ["domain/genesis/units_builder.go: Now", "domain/transactions/builder.go: Now", "domain/transactions/secrets/builder.go: Now", "domain/rings/builder.go: Now", "domain/peers/builder.go: Now", "domain/identities/builder.go: Now"]}
{"id": "C53", "title": "A transaction hash commits to the whole ancestry", "statement": "If two transactions obtained from the builders have the same hash, then they agree on authorisation, owner, amount and external digests, creation second and origin, recursively down to the genesis unit's digest; otherwise a SHA-512 collision is exhibited. In particular a transaction origin is never confused with a genesis origin.", "quantifier": "every pair of transactions with origins of any depth, built by any history of calls", "why_tests_cant": "origins nest without bound", "anchors": ["domain/transactions/transaction_builder.go: Now", "domain/transactions/content_builder.go: Now", "domain/transactions/origin.go: Hash"]}
{"id": "C54", "title": "Discoveries accessors", "statement": "Discoveries.Find(name) returns the last discovery attributed to that group or serie name and fails exactly when there is none; Amount, IsAmount and IsAtLeast speak of the total number of bytes. A user expects IsInRange(min, max) to do the same; its upper bound is compared with the number of discoveries instead.", "quantifier": "every list of discoveries and every bound", "why_tests_cant": "unbounded lists and values", "anchors": ["domain/languages/lexers/containers/patterns/discoveries.go: Find, Amount, IsAmount, IsAtLeast, IsInRange"]}
{"id": "C55", "title": "A valid token is a reading of the grammar", "statement": "Whenever ToToken answers a valid token, the script is the token's text followed by a rest, and the grammar reads that text: some line, each of its containers in order, repeated within its cardinality, channel text skipped where the line allows it. The lexer takes two liberties only: it may ignore the rest of a line where an optional part is missing at the end of the text, where a recursion is cut off or at nested lines, and it may read nothing for an element with a not-block. Without a not-block the text is never empty.", "quantifier": "every grammar, channel set, script, adapter state", "why_tests_cant": "grammars are recursive and unbounded; tests cover single derivations", "anchors": ["domain/languages/lexers/asts/tokens/adapter.go: ToToken, lineToMatches, containerToBlockMatch"]}
{"id": "C56", "title": "Accepted lines are complete", "statement": "For grammars without not-blocks, recursion and nested lines whose optional parts stand at the end of their lines, a valid token is a complete reading of one line. A user expects this of every grammar: it fails for an optional part in the middle of a line (.X .A? .B accepts x) and for recursive tokens (the recursion guard remembers texts of abandoned lines).", "quantifier": "every grammar of the class, every script; witnesses outside of the class", "why_tests_cant": "a test cannot show that no incomplete line is ever accepted", "anchors": ["domain/languages/lexers/asts/tokens/adapter.go: lineToMatches, containerToMatch"]}
{"id": "C57", "title": "Lexing ends", "statement": "For grammars and channels without not-blocks, nested lines, left recursion and (channels) switches, ToToken always returns, within a depth linear in the script; the answer does not depend on any evaluation bound. A user expects it to return for every grammar: five small grammars make it recurse or loop for ever.", "quantifier": "every grammar of the class, every script; witnesses outside of the class", "why_tests_cant": "non-termination cannot be observed by a test, termination for all scripts neither", "anchors": ["domain/languages/lexers/asts/tokens/adapter.go: containerToMatch, findChannelBlockMatch, tokenPathToTokenResultMatches, fetchFirstRuleFromTokenName"]}
{"id": "C58", "title": "Answers depend on the iteration order of the channel map", "statement": "A user expects one answer per grammar and script. The channels are kept in a Go map and the first one that matches is used, so with two channels the same call can be valid or invalid depending on the order in which Go iterates, even on one adapter asked twice. With at most one channel there is one answer.", "quantifier": "every schedule of map iteration orders (a fresh order each time the map is ranged over)", "why_tests_cant": "map iteration order is random at run time", "anchors": ["domain/languages/lexers/asts/tokens/adapter.go: findMatchesInChannels"]}
{"id": "C59", "title": "Specifiers", "statement": "A token match is valid exactly when the number of its occurrences fits the cardinality, all occurrences are valid, and for every specifier the number of tokens or rules of the specified name that the occurrences matched directly fits the specifier's cardinality.", "quantifier": "every token match", "why_tests_cant": "unbounded repetitions and names", "anchors": ["domain/languages/lexers/asts/tokens/tokenmatch.go: IsValid", "domain/languages/lexers/asts/tokens/specifier.go: IsValid, Amount"]}
{"id": "C60", "title": "The prefix permission never validates a prefixed rule", "statement": "A user who allows prefixes expects a rule found after some other text to be accepted. Finding it clears the permission first, so every valid rule match in any answer starts at the very beginning of the text it was looked for in.", "quantifier": "every answer, every rule match inside of it", "why_tests_cant": "all grammars and scripts", "anchors": ["domain/languages/lexers/asts/tokens/adapter.go: ruleToRuleMatch", "domain/languages/lexers/asts/tokens/rulematch.go: IsExact"]}
{"id": "C61", "title": "Repeated constants", "statement": "For a token with the single line .C+ (C a constant), a script of n copies of C followed by text without C is read as exactly the n copies. A user expects the same when C occurs again further on; it does not: then the later occurrence is counted and the whole line is rejected.", "quantifier": "every constant, every number of copies, every rest", "why_tests_cant": "all constants, counts and rests", "anchors": ["domain/languages/lexers/asts/tokens/adapter.go: ruleToRuleMatch, lineToMatches"]}
{"id": "C62", "title": "A mistake names its reason", "statement": "For grammars without not-blocks and nested lines, an invalid answer yields exactly one mistake: its path has no parents, and it names the element of the root token at which the chosen line failed and why (missing text, wrong amount, a prefix, a specifier), positioned after the channel text in front of that element.", "quantifier": "every grammar of the class, every script, every channel order", "why_tests_cant": "all scripts and grammars", "anchors": ["domain/languages/lexers/asts/mistakes/adapter.go: ToMistake, blockMatch, match, tokenMatch, ruleMatch"]}
{"id": "C63", "title": "Syntax trees spell what was read", "statement": "For grammars without not-blocks and nested lines and no prefix permission, ToAST answers with a syntax tree exactly when the lexed token is valid, and with a mistake otherwise; the tree's name is the root's, its line the chosen one, and its text is a non-empty prefix of the script read by the grammar. With the prefix permission it can panic.", "quantifier": "every grammar of the class, every script", "why_tests_cant": "all scripts and grammars", "anchors": ["domain/languages/lexers/asts/adapter.go: ToAST, token, blockMatch, ruleMatch"]}
{"id": "C64", "title": "Parsing answers every script", "statement": "For grammars without not-blocks and nested lines in which every name resolves and every token has a first element, ToAST never fails or panics; if moreover there is no left recursion it always answers, within a depth linear in the script.", "quantifier": "every grammar of the class, every script", "why_tests_cant": "totality over all scripts", "anchors": ["domain/languages/lexers/asts/adapter.go: ToAST", "domain/languages/lexers/asts/tokens/adapter.go: ToToken", "domain/languages/lexers/asts/mistakes/adapter.go: ToMistake"]}
{"id": "C65", "title": "From token tables to answers", "statement": "For paths built by ToPath from tables of tokens without not-blocks, whatever the adapter was used for before: parsing any script never fails or panics, and a syntax tree spells a non-empty prefix of the script that the grammar reads.", "quantifier": "every table, every history of the path adapter, every script", "why_tests_cant": "composition of two adapters over all tables and scripts", "anchors": ["domain/languages/lexers/asts/adapter.go: ToAST", "domain/languages/lexers/asts/paths/adapter.go: ToPath"]}
{"id": "C66", "title": "Every syntax tree of the parser has a root", "statement": "For grammars without not-blocks and nested lines and no prefix permission, ToRoot succeeds on every syntax tree that ToAST answers with; the root bears the root token's name and its content is a prefix of the script. A user expects this of every tree: with a not-block that reads nothing, ToRoot answers with a nil root and no error.", "quantifier": "every grammar of the class, every script; a witness outside of the class", "why_tests_cant": "composition of two adapters over all scripts", "anchors": ["domain/languages/lexers/roots/adapter.go: ToRoot, toRoot", "domain/languages/lexers/asts/adapter.go: ToAST"]}
{"id": "C67", "title": "Trigger on the root of a syntax tree", "statement": "Trigger(name, root) scans the root for the name and runs the events of that name on the root of every container of one node of that name, in order: a success is the list of those values, a failure is explained by an absent name, a missing event or a failing event. A user expects the events of a name to receive roots of that name; because roots are cached by text they can receive a root of another name.", "quantifier": "every syntax tree, event table, name and map order", "why_tests_cant": "all trees, tables and map iteration orders", "anchors": ["applications/languages/parsers/manager.go: Trigger, triggerNode, triggerContainer"]}
{"id": "C68", "title": "Building a lexer from token tables", "statement": "Building a lexer for a token from a table of tokens and a table of channels either succeeds or returns an error, never panics; it fails exactly when the path of the token or of some channel fails, and a built lexer holds the path of the token and, under the name of each channel, that channel's path - the same as if each had been made by an adapter of its own. References of a channel resolve among the tokens, not the channels.", "quantifier": "every pair of tables, every token, every not-found and replacement function", "why_tests_cant": "all tables; one path adapter with state is shared by all the paths", "anchors": ["domain/languages/lexers/asts/adapter_builder.go: Now", "domain/languages/lexers/asts/tokens/adapter_builder.go: Now"]}
{"id": "C69", "title": "What an incomplete text is told to go on with", "statement": "Whenever a lexed token announces an expected next element, that element is what some container starts with - the first rule reached through first lines and first containers, its constant or its first pattern - and that container is one the grammar or one of its channels asks for and may not be left out. A token whose chosen line holds an announcement is not valid.", "quantifier": "every grammar, channel order, script and lexer state; every announcement anywhere in the answer", "why_tests_cant": "all answered trees", "anchors": ["domain/languages/lexers/asts/tokens/adapter.go: containerToBlockMatch, buildNextElement, fetchFirstRuleFromTokenName, buildNextElementFromRule"]}
{"id": "C70", "title": "Exact answers and amounts of tokens", "statement": "For answers without not-blocks, IsExact on a valid token is true exactly when no token match in it is empty: an optional token that is absent makes a complete, valid answer inexact (a user expects it not to), an optional rule does not. IsAmount, IsAtLeast and IsInRange of a token's matches compare their number; IsInRange leaves its upper bound out, unlike the range of a cardinality.", "quantifier": "every valid answer without not-blocks; every list of matches and bounds", "why_tests_cant": "all trees, all bounds", "anchors": ["domain/languages/lexers/asts/tokens/token.go: IsExact", "domain/languages/lexers/asts/tokens/tokenresultmatches.go: IsExact, IsAmount, IsInRange, IsAtLeast"]}
{"id": "C71", "title": "What a text of patterns means", "statement": "ToPatterns(text) succeeds exactly when the text has a meaning and then returns that meaning: the text is cut in sections that end with a semicolon, each section declares at most one group, one series and one pattern - the leftmost part of it that is such a declaration -, names are read left to right and as long as possible, and a name denotes the last declaration of it. Every other text is an error; no text makes it panic or run for ever.", "quantifier": "every text", "why_tests_cant": "all texts; the meaning of four regular expressions and their composition", "anchors": ["domain/languages/lexers/containers/patterns/adapter.go: ToPatterns, findPatterns, findSeries, findGroups"]}
{"id": "C72", "title": "Sources of patterns are read as written", "statement": "For every list of groups, series and patterns whose options are a quote or free of comma, semicolon, colon, dollar, quote and backslash, written in any layout of blanks, ToPatterns returns exactly the declared patterns with their names resolved to the last declaration. A user expects this for every option: an option with a colon or a dollar makes the whole text an error, an escaped quote inside of an option is read as three hashes.", "quantifier": "every well-formed source, every layout; witnesses outside of the class", "why_tests_cant": "all sources and layouts", "anchors": ["domain/languages/lexers/containers/patterns/adapter.go: ToPatterns"]}
{"id": "C73", "title": "What a text of rules means", "statement": "Rules(text, patterns) succeeds exactly when the text has a meaning and then returns that meaning: sections that end with a semicolon, the leftmost NAME: of each, a body that is a quoted constant, blanks (the empty constant) or bracketed pattern names with a cardinality, no name twice. Found by name is the rule of that name. It panics exactly when a readable prefix of the declarations is followed by one whose body has neither blanks only, nor a constant, nor brackets; it always ends. A constant never contains a semicolon or three hashes.", "quantifier": "every text, every table of patterns or none", "why_tests_cant": "all texts", "anchors": ["domain/languages/lexers/containers/rules/adapter.go: Rules, rulesList, element, pattern"]}
{"id": "C74", "title": "What a text of tokens means", "statement": "ToTokens(text) succeeds exactly when the text has a meaning and then returns that meaning: sections that end with a semicolon, the leftmost name: of each, a body of alternatives separated by |, of an optional --- part and an optional +++ part of tests separated by ###, each line a sequence of token and rule elements with cardinality and specifiers and of channel switches, rules resolved by name, no token name twice; the tokens are found by their name and each keeps its own tests. Every other text is an error; no text makes it panic or run for ever. A user expects every # to switch the channels, an empty body and foreign characters to be refused and the separators to be accepted directly after an element; none of these holds.", "quantifier": "every text, every table of rules; witnesses for the refuted expectations", "why_tests_cant": "all texts; the meaning of three regular expressions of up to 23 groups and their composition", "anchors": ["domain/languages/lexers/containers/tokens/adapter.go: ToTokens, tokens, testSuite, block, lines, line, instructions, tokenElement, ruleElement, tokenReference, tokenSpecifiers, buildElement"]}
{"id": "C75", "title": "What a text of references means", "statement": "ToReferences(text) returns exactly what the text means: the includes (include name \"rules;tokens;channels\", two or three paths, the first two not empty), the references and the replacements read left to right, names as long as possible, an include's name denoting its last declaration; no references and no replacements are told apart from empty ones. It panics exactly when a readable prefix of the includes is followed by one of a single path, and always ends.", "quantifier": "every text", "why_tests_cant": "all texts; three regular expressions with backtracking", "anchors": ["domain/languages/lexers/references/adapter.go: ToReferences, includes, references, replacements", "domain/languages/lexers/references/links/link_builder.go: Now", "domain/languages/lexers/paths/builder.go: Now"]}
{"id": "C76", "title": "Sources of references are read as written", "statement": "For every list of includes, references and replacements whose names and paths do not contain one of the three keywords, and whose paths contain no quote and no semicolon, written in any layout of blanks, ToReferences returns exactly these links, and never refuses a source whose links name declared includes. A user expects the dot to be required and any path to be allowed: any character, even a letter inside of a name, is accepted for the dot, and a keyword inside of a path or a name is read as a line.", "quantifier": "every well-formed source, every layout; witnesses outside of the class", "why_tests_cant": "all sources and layouts", "anchors": ["domain/languages/lexers/references/adapter.go: ToReferences, includes, references, replacements"]}
{"id": "C77", "title": "Resources are built exactly from the last calls", "statement": "For every sequence of calls on the builders of containers, multiples, singles, paths, contents and include paths, Now succeeds exactly when the mandatory values were given since the last Create and are not empty, and then returns the last value of each; a container needs all three texts (patterns too), channels are optional, and the prefix and suffix flags of a content hold exactly when they were raised since the last Create.", "quantifier": "every history of calls of six builders", "why_tests_cant": "all histories", "anchors": ["domain/languages/lexers/resources/containers/builder.go", "domain/languages/lexers/resources/multiples/builder.go", "domain/languages/lexers/resources/singles/builder.go", "domain/languages/lexers/resources/paths/builder.go", "domain/languages/lexers/contents/builder.go", "domain/languages/lexers/paths/builder.go"]}
{"id": "C78", "title": "The application's tokens are what its three texts mean", "statement": "Tokens(container) succeeds exactly when the patterns mean something, the rules mean something with these patterns and the tokens mean something with these rules, and returns exactly these tokens, in order, findable by name, with their tests. It always ends, and panics exactly when the text of rules does.", "quantifier": "every three texts", "why_tests_cant": "all texts", "anchors": ["applications/languages/lexers/application.go: Tokens, createTokens"]}
{"id": "C79", "title": "A grammar that refers to an include cannot be used", "statement": "Whatever the included files contain, whatever was called before and whatever the content is: Path, AST, Root and Tests never succeed for a grammar whose text of tokens declares a reference. A user expects the token of the included grammar; the container made for the include has no patterns and is always refused.", "quantifier": "every grammar, file content, history, content", "why_tests_cant": "all grammars and files: no input can show that none works", "anchors": ["applications/languages/lexers/application.go: linkToPathFromFile, fetchNotFoundPaths, createNotFoundAndReplacementFuncs", "domain/languages/lexers/resources/containers/builder.go: Now"]}
{"id": "C80", "title": "Replacements stay in the application", "statement": "A call whose grammar declares no replacement leaves the application as it was, so any history of such calls is irrelevant for the next answer. A call that declares some changes only the names it replaces, also when it fails; after an answer each replaced name stands for the path of the local token of its last replacement. A user expects each call to be independent, a replacement to concern only the include it names, and a failed call to change nothing: all three are false.", "quantifier": "every history of calls, grammar, content; witnesses for the refuted expectations", "why_tests_cant": "all histories of calls", "anchors": ["applications/languages/lexers/application.go: fetchReplacementPaths, createNotFoundAndReplacementFuncs, path", "applications/languages/lexers/builder.go: Now"]}
{"id": "C81", "title": "AST, Root and Tests agree", "statement": "For a grammar without references or replacements AST(single, content) is exactly what the lexer of the declared root token says of the content, an undeclared root token is an error; Root is the mistake or the root of the same AST; Tests reports, for every declared token with tests, in order, a line for each test that succeeds exactly when AST with this token as root and this text as content (no prefix, no suffix) is a success. Every AST answer comes from a meaningful grammar. Whether a suffix is legal makes no difference. Path always ends, and panics only on texts that do.", "quantifier": "every grammar, content, channel order, fuel", "why_tests_cant": "all grammars and contents: agreement of three entry points", "anchors": ["applications/languages/lexers/application.go: AST, Root, Tests, Path", "domain/languages/lexers/contents/content.go"]}
{"id": "C82", "title": "Objects of the base language with parts", "statement": "For every sequence of calls on the builders of the base language's objects with mandatory and optional parts (append, slice, assignment, fetch, operation, suffix, increment, declaration, program, for, if, delimiter, header variable), Now succeeds exactly when the mandatory parts were given since the last Create (texts not empty), and then returns an object with the last value of each part, optional ones only if given.", "quantifier": "every history of builder calls, for fourteen builders", "why_tests_cant": "all histories of calls", "anchors": ["domain/languages/scripts/base/parsers: append_builder.go, slice_builder.go, assignment_builder.go, listfetchelement_builder.go, operation_builder.go, operationsuffix_builder.go, intincrement_builder.go, variabledeclaration_builder.go, program_builder.go, fordeclaration_builder.go, ifdeclaration_builder.go, slicedelimiter_builder.go, forstatement_builder.go, headervariable_builder.go"]}
{"id": "C83", "title": "Objects of the base language with alternatives", "statement": "For every sequence of calls on a builder of an object that is one of several alternatives (assignable, assignee, name, direction, index, list, single assignable, operation element, instruction, calls), Now succeeds exactly when an alternative was given since the last Create, and returns the first given one in a fixed order, whatever the order of the calls, holding its last value.", "quantifier": "every history of builder calls, for fourteen builders", "why_tests_cant": "all histories of calls", "anchors": ["domain/languages/scripts/base/parsers: assignable_builder.go, assignee_builder.go, assigneename_builder.go, assigneenamefirst_builder.go, direction_builder.go, indexvalue_builder.go, listvalue_builder.go, totallistvalue_builder.go, totallistassignable_builder.go, singleassignable_builder.go, operationelement_builder.go, instruction_builder.go, voidfunccall_builder.go, operationfunccall_builder.go"]}
{"id": "C84", "title": "Lists of the base language", "statement": "The list builders of the base language return the last list given since Create; names, firsts, instructions and header variables must not be empty, assignables may be empty or missing. A user expects a list of declarations not to be empty: an empty one is accepted.", "quantifier": "every history of builder calls", "why_tests_cant": "all histories of calls", "anchors": ["domain/languages/scripts/base/parsers: assignables_builder.go, assigneenames_builder.go, assigneenamefirsts_builder.go, instructions_builder.go, headervariables_builder.go, variabledeclarations_builder.go"]}
{"id": "C85", "title": "Types and values of the base language", "statement": "A type is built exactly from its last flag and depth, and two types compare equal exactly when both agree. A value's element is the last one given since the last Create, with the type of the kind of value that comes first in a fixed order. A user expects a value given after Now to be used by the next Now: the first one stays.", "quantifier": "every history of builder calls", "why_tests_cant": "all histories of calls", "anchors": ["domain/languages/scripts/base/parsers: type_builder.go, typ.go: Compare, value_builder.go"]}
{"id": "C86", "title": "The events of the base language always end", "statement": "Execute of the base language ends on every root, in every order of the maps, with a value, an error or a panic: what an event gives depends on the roots inside of its root only, and no more events call each other than roots are nested.", "quantifier": "all roots (grammatical or not), all map iteration orders, all bit sizes", "why_tests_cant": "the events call each other recursively through the manager by name; no finite set of trees shows that no tree makes them call forever", "anchors": ["domain/languages/scripts/base/parsers/helper.go", "domain/languages/scripts/base/parsers/sdk.go: NewEvents", "applications/languages/parsers/manager.go: Trigger, Execute"]}
{"id": "C87", "title": "What a text of the base language means is what Execute can return", "statement": "For every syntax tree of the base language, whatever spaces and comments stand between its parts, the program it means by the grammar is among the outcomes of Execute; when no part of a token holds, in another part of it, a token of the same name, it is the only outcome in every order of the maps, so the meaning is unique there.", "quantifier": "all syntax trees of the grammar, any nesting, all map iteration orders, all bit sizes", "why_tests_cant": "unbounded nesting, and the result depends on the iteration order of maps", "anchors": ["domain/languages/scripts/base/parsers/helper.go", "domain/languages/scripts/resources/base/tokens.alex", "applications/languages/parsers/manager.go"]}
{"id": "C88", "title": "A grammatical text of the base language never fails", "statement": "For every syntax tree of the base language, Execute returns, in every order of the maps, an object of the kind of its root token: never an error and never a panic. For a program there is always an outcome and it is always a program. A tree outside of the grammar (a for with one name) can make Execute panic.", "quantifier": "all syntax trees of the grammar, all map iteration orders, all bit sizes", "why_tests_cant": "unbounded nesting times all iteration orders; absence of panic for all of them", "anchors": ["domain/languages/scripts/base/parsers/helper.go", "applications/languages/parsers/manager.go", "domain/languages/scripts/resources/base/tokens.alex"]}
{"id": "C89", "title": "The left side of an operation", "statement": "For every operation a op b between elements, the outcomes of Execute are exactly a op b and b op b: depending on the order of a map, the left operand is the one on the right. A user expects a op b only: refuted.", "quantifier": "all operands, all operators, all map iteration orders", "why_tests_cant": "the wrong outcome depends on the random order of a Go map; a test sees one order", "anchors": ["domain/languages/scripts/base/parsers/helper.go", "domain/languages/lexers/roots/nodes.go: Scan", "applications/languages/parsers/manager.go: Trigger"]}
{"id": "C90", "title": "The first element of a list", "statement": "For every list of values, new names, names or declarations with two or more elements x, y, l, the outcomes of Execute are exactly [x, y, l] and [y, y, l]; in a for, the index may be read as the value. A user expects the list as it is written.", "quantifier": "all lists of any length, all map iteration orders", "why_tests_cant": "the wrong outcome depends on the random order of a Go map", "anchors": ["domain/languages/scripts/base/parsers/helper.go", "domain/languages/lexers/roots/nodes.go: Scan", "applications/languages/parsers/manager.go: Trigger"]}
{"id": "C91", "title": "Channels that never start together may be visited in any order", "statement": "For every grammar whose channels are single rules of which no two can start at the same text, Path, AST, Root and Tests of the lexer application give the same answers whatever order Go visits the channel map in, the order changing at every visit; with a prefix permitted this needs the rules to be made of patterns (with constants it is refuted). The shipped channels (spaces, line comments, block comments) meet the condition with any tokens.", "quantifier": "all grammars, roots, texts, replacements, all orders of the channel map at every visit", "why_tests_cant": "the order is chosen by the Go runtime at every range over the map; the claim is about every pair of schedules and every text", "anchors": ["domain/languages/lexers/asts/tokens/adapter.go: findMatchesInChannels", "domain/languages/scripts/resources/base/channels.alex", "applications/languages/lexers/application.go"]}
{"id": "C92", "title": "The shipped grammar and the events of the base language fit together", "statement": "Every syntax tree of a token of the shipped grammar (each of its parts being one of the lines the grammar declares, with spaces and comments anywhere, nothing cut short) has a root; if its numbers fit the bit size and every part's root is of the token of that part, the root means something in the base language and Execute, in every order of the maps, returns an object of the right kind - never an error, never a panic. Refuted without the condition on roots: `append xx, xx` is accepted and every Execute of it fails. Refuted without `nothing cut short` as a fact about the parser: it accepts `for ix, vy := cd {`, which is no syntax tree of the grammar.", "quantifier": "all syntax trees of all 63 tokens of the shipped grammar, any nesting, all map orders, all bit sizes", "why_tests_cant": "63 tokens and 63 events written in different files must agree for every tree of unbounded depth; tests try a few texts per token and never execute most of them", "anchors": ["domain/languages/scripts/resources/base/tokens.alex", "domain/languages/scripts/base/parsers/helper.go", "domain/languages/lexers/roots/adapter.go", "applications/languages/parsers/manager.go"]}
{"id": "C93", "title": "Every tree the parser accepts is a tree of the declared tokens", "statement": "When AST answers with a syntax tree, that tree is one the grammar's text describes: its name is the requested token, it is one of that token's lines (the one whose index it carries), and inside, in the order of the line, stand one non-empty text per rule and, per reference, as many trees of the referenced token as its cardinality allows, with as many parts as its specifiers ask for; anything else is a text of a channel. The only liberty: a line may stop in front of a reference or of what may be absent. The text of the tree is a non-empty prefix of the input. In particular every program the parser accepts with the shipped grammar is a tree of the shipped grammar, and its channel texts are white spaces and comments.", "quantifier": "all tables of simple tokens whose rules are not named like tokens, all channels that are single rules, all schedules of the channels, all texts, all grammars given as texts without references; for the shipped grammar all texts and all 63 root tokens", "why_tests_cant": "the tests look at the success flag of a few texts, not at the trees; a tree with a part in the wrong place or of the wrong amount would pass", "anchors": ["domain/languages/lexers/asts/tokens/adapter.go: ToToken", "domain/languages/lexers/asts/adapter.go: ToAST", "applications/languages/lexers/application.go: AST", "domain/languages/scripts/resources/base/tokens.alex"]}
{"id": "C94", "title": "The parser of the shipped language answers every text", "statement": "AST of the shipped grammar, for every declared token as root and every text (no prefix permitted), answers with a tree or a mistake: it never loops, never crashes and never fails, although the grammar is left recursive (an operation starts with an operation). The number of nested calls grows at most linearly with the text: 22 per byte, plus 44. Tests of the shipped grammar always reports. The same holds for every grammar whose left recursions meet the recursion guard: on the way from a recursive reference back to it nothing can remove or replace the text noted for it.", "quantifier": "all texts of any length, all 63 roots, all orders of the channel map at every visit; all guarded grammars", "why_tests_cant": "termination on every input of an unbounded left-recursive descent guarded by a mutable map; a test can only wait", "anchors": ["domain/languages/lexers/asts/tokens/adapter.go: containerToMatch", "domain/languages/scripts/resources/base/tokens.alex", "applications/languages/lexers/application.go: AST, Tests"]}
{"id": "C95", "title": "Match trees, mistakes and syntax trees are built exactly from the last calls", "statement": "For every sequence of calls on a builder of the lexer's match trees, mistakes and syntax trees, Now returns exactly the object made of the arguments last given since Create; it fails if and only if a mandatory part (a name, a value, a list with an element, a number) is missing. Of alternatives the first in a fixed order is used, whatever the order of the calls: a path with a token and a rule is the token's, a block with a container, a block and a next element is the container's. Refuted for large numbers: an index, line, column or amount of 2^63 or more is taken for a missing one. The mistakes of the parser are what these builders make of the reported place.", "quantifier": "all sequences of calls of any length, all arguments", "why_tests_cant": "the calls may come in any order, be repeated, be mixed with Create; a test tries one order per builder", "anchors": ["domain/languages/lexers/asts/tokens/*_builder.go", "domain/languages/lexers/asts/mistakes/*_builder.go", "domain/languages/lexers/asts/*_builder.go", "domain/languages/lexers/asts/mistakes/adapter.go: buildMistakeFromPath"]}
{"id": "C96", "title": "Grammars, paths and suites are built exactly from the last calls", "statement": "For every sequence of calls on a builder of patterns, rules, tokens and their parts, of paths and their parts, of references, contents and test suites, Now returns exactly the object made of the arguments last given since Create; it fails if and only if a mandatory part is missing (an empty list counts as none). The application that runs test suites keeps the tokens, the channels and both functions that were given, in all eight combinations. Refuted: an instruction with a channel switch and an element is the element in a grammar and the switch in a path.", "quantifier": "all sequences of calls of any length, all arguments", "why_tests_cant": "the calls may come in any order, be repeated, be mixed with Create; a test tries one order per builder", "anchors": ["domain/languages/lexers/containers/patterns/*_builder.go", "domain/languages/lexers/containers/rules/*_builder.go", "domain/languages/lexers/containers/tokens/*_builder.go", "domain/languages/lexers/asts/paths/*_builder.go", "domain/languages/lexers/suites/application_builder.go", "domain/languages/lexers/references/builder.go", "domain/languages/lexers/contents/builder.go"]}
{"id": "C97", "title": "A not-block is looked at first and its mistake names the line", "statement": "When the requested token has a not-block (and the tokens inside have none), AST with prefixes refused answers so: if the best line of the not-block is valid the answer is a mistake that names the token, has no parents and carries the index of that line, which is a line of the not-block that reads some text at the start of the script; otherwise the answer is the one the block alone would get. A tree is always made from the line of the block whose index it carries and spells the non-empty start of the script that line reads. No other mistake speaks of the not-block.", "quantifier": "all grammars whose tokens below the root have no not-block, all channels, all texts, all states of the lexer, every amount of fuel", "why_tests_cant": "the tests never use a not-block with several lines, and the order of the two looks only shows when both blocks match", "anchors": ["domain/languages/lexers/asts/mistakes/adapter.go: token, lineMatch", "domain/languages/lexers/asts/tokens/adapter.go: elementToTokenContent, bestLineToMatches", "domain/languages/lexers/asts/adapter.go: ToAST"]}
{"id": "C98", "title": "Links are found by local token and by reference, the last one winning", "statement": "A collection of links is refused exactly when it is nil or empty. All gives the links in their order. FetchByLocalToken(name) gives the last link of the list with that local token, FetchByReferenceToken(include, ref) the last one with that include name and reference token, and each fails exactly when the list has none. The references and the replacements read from a text are such collections. (Earlier links of the same names are reachable through All only.)", "quantifier": "all lists of links of any length, all names", "why_tests_cant": "repeated names at any distance, in both maps at once; tests have one link", "anchors": ["domain/languages/lexers/references/links/builder.go", "domain/languages/lexers/references/links/links.go"]}
{"id": "C99", "title": "The parser answers the longest-line reading", "statement": "Among the readings a grammar permits, AST answers one particular reading, described without the parser: a token is read along the line that leaves the fewest bytes, the first of these when several do; a repeated token is read until its maximum or until it cannot be read again; an optional rule that is there is read; before every element one channel after the other is read, channels being read inside and after an element only where they are switched on; when the text is over the rest of the line may be absent. Whenever a text has such a reading the answer is this tree (the same tokens, line indices and texts, ending at the same byte); a text no line of the root can read is answered with a mistake; a text has at most one such reading.", "quantifier": "all grammars without not-blocks, specifiers and recursive references, with channels that are single rules and never begin together, all texts, all orders of the channel map, all amounts of fuel, rules read as often as their cardinality permits", "why_tests_cant": "soundness alone (the tree spells the text by the grammar) leaves the choice open; the choice depends on every line of every token at every position", "anchors": ["domain/languages/lexers/asts/tokens/adapter.go: ToToken, bestLineToMatches, tokenToMatch, ruleToRuleMatch", "domain/languages/lexers/asts/adapter.go: ToAST"]}
{"id": "C100", "title": "Programs mean what is written, from text to value", "statement": "For every program made of input and output variables (-> or <-, a type, a name, a colon, a key, perhaps a question mark) followed by declarations, break, continue, increments and decrements, in any number and order, with any non-empty spacing of blanks, tabs and ends of line between them: Parser.AST with the shipped grammar and root program accepts the whole text, ToRoot gives a root, and Execute with the events of the base language has exactly one outcome: the program with these instructions in this order and these header variables (none when there are none), each with the type, name, key, direction and optionality written. A text is the text of one program only. Refuted when the first instruction occurs again later: break, end of line, break is accepted by the parser and Execute fails.", "quantifier": "all programs of that form of any length, all names, keys and spacings, all orders of the channel map, all amounts of fuel above a linear bound, all word sizes and float parsers", "why_tests_cant": "the whole chain of reading, converting and executing for programs of unbounded length; the tests run a handful of fixed texts", "anchors": ["domain/languages/scripts/resources/base/*.alex", "applications/languages/lexers/application.go: AST", "applications/languages/parsers/application.go: Execute", "domain/languages/lexers/asts/tokens/adapter.go", "domain/languages/scripts/*"]}
{"id": "C101", "title": "Builders answer with an object or an error", "statement": "Now on any builder of chains (blocks, transactions, genesis, identities, rings, peers), of cardinalities, of the applications' inputs, of programs of the base language and of the lexer's objects, after any calls, answers with an object or with an error: it never panics. The same holds for the objects adapters build on their way (results of patterns, elements and lines of paths, links).", "quantifier": "all builders of the code, all states their fields can be in", "why_tests_cant": "every combination of missing and present fields in more than a hundred builders", "anchors": ["domain/**/builder.go, *_builder.go: Now", "applications/**/builder.go"]}
{"id": "C102", "title": "Text forms are exactly hexadecimal and base64", "statement": "Decoding accepts exactly the base64 texts of RFC 4648 (standard alphabet, padded), carriage returns and line feeds anywhere, left-over bits of any value, and answers the data they stand for; encoding writes the one such text without line breaks whose left-over bits are zero. Hexadecimal decoding accepts exactly pairs of digits, small or capital; encoding writes small ones. Decrypt answers only on base64 of at least 16 bytes; the hash adapter's FromString accepts exactly hexadecimal texts.", "quantifier": "all texts and all data of any length", "why_tests_cant": "round trips do not show what else is accepted; the set of accepted texts is infinite", "anchors": ["domain/cryptography/encryption.go: Encrypt, Decrypt", "domain/hash/adapter.go: FromString", "domain/cryptography/keys/encryption/adapter.go: FromEncoded", "domain/cryptography/keys/signature/helper.go"]}
{"id": "C103", "title": "RSA keys: halves that travel as text work together", "statement": "The builders of private and public keys answer exactly the key last given since Create (an error when none was), a private key with the public half of its own key; the factory answers exactly the generated key. FromEncoded of either adapter depends on the text only, whatever the adapter converted before, and accepts exactly base64 of a PKCS#1 key. When both halves of a built key travel as text, every message of at most Size-66 bytes encrypted for the public one is decrypted by the private one; longer messages are refused. Public keys of equal hash are equal unless SHA-512 collides or a key is written in 64 bytes.", "quantifier": "all keys, texts, messages, random bytes and histories of the adapters, any RSA library that decrypts what it encrypts and parses what it writes", "why_tests_cant": "all histories of conversions and all message lengths", "anchors": ["domain/cryptography/keys/encryption/builder.go", "domain/cryptography/keys/encryption/publickey_builder.go", "domain/cryptography/keys/encryption/factory.go", "domain/cryptography/keys/encryption/adapter.go", "domain/cryptography/keys/encryption/publickey_adapter.go", "domain/cryptography/keys/encryption/privatekey.go: Decrypt", "domain/cryptography/keys/encryption/publickey.go: Encrypt"]}
{"id": "C104", "title": "No character is cut", "statement": "When the texts of a grammar and the script are in UTF-8, what a rule finds, every part of a valid answer of the lexer, the text a syntax tree was discovered in and the rest of the script it leaves are in UTF-8: no answer begins or ends inside a character, although the code works byte by byte. The grammar's readers cut no character either. (The field Remaining of a single match does not have this property; a counterexample is proved.)", "quantifier": "all grammars and scripts in UTF-8, all rules, paths, channels and orders of the channel map; for trees: grammars without references, not-blocks and rules with empty constants. The shipped grammar asks nothing but a script in UTF-8", "why_tests_cant": "every boundary of every answer for texts with characters of any length; the tests use ASCII only", "anchors": ["domain/languages/lexers/containers/patterns/adapter.go", "domain/languages/lexers/asts/results/adapter.go: ToResult", "domain/languages/lexers/asts/tokens/adapter.go: ToToken", "applications/languages/lexers/application.go: AST"]}
{"id": "C105", "title": "A grammar that refers to itself is read by one definite rule, nested to any depth", "statement": "For a grammar whose tokens may refer to themselves, whenever the lexer answers on a text that has a longest-line reading, the answer is that reading, drawn line by line, and no other; the reading is the one of C99 with one thing more: a recursive reference met again at the very text at which it was last entered is left, together with the rest of its line, and its note is forgotten. A text no line of which reads anything is refused. With the shipped language a declaration whose type is a list nested to any depth, with spaces anywhere between its parts, is read as written when variableDeclaration is the root, and executed to a declaration of that name whose type has the flags of the word inside all lists and the number of lists as depth (modulo 2^64). Refuted: in an instruction (and so in a program) it is not: after the assignment was tried on the same text its note ends the list early, and list<uint> foo is read as list< with uint taken for the name.", "quantifier": "every grammar without negative blocks and with prefix-free single-rule channels, every text, every order of the channels, every nesting depth of list types, every spacing", "why_tests_cant": "nesting has no bound and the lexer keeps a memory of recursive references across all lines it tries, so what is read depends on everything tried before; tests use a handful of depths and never a list type inside an instruction", "anchors": ["domain/languages/lexers/asts/tokens/adapter.go: containerToMatch, recursive tokens", "domain/languages/lexers/asts/paths/recursivetoken.go", "domain/languages/scripts/resources/base/tokens.alex: declarativeType, listType, instruction"]}
{"id": "C106", "title": "Literals mean what is written", "statement": "A literal of the shipped language (digits; a minus and digits; digits around a dot, with or without a minus, with spaces around the minus and the dot; true or false; a quoted text without quotes in it, whatever it contains else), followed by anything that does not continue it, is accepted as a declarableValue and as each of the two narrower tokens it falls under, up to its last byte and with one definite tree. Executed, that tree gives exactly the value written: the decimal number, unsigned when there is no minus, the float strconv.ParseFloat makes of the digits put together without the spaces, the boolean, the text between the quotes; and an error exactly when the number does not fit in the bits the events were made for (any number of bits but one), or when ParseFloat refuses. Nothing else comes out, in whatever order Go's maps are walked.", "quantifier": "all literals of any length, all spacings, all texts behind, all bit sizes but 1, all ParseFloat functions, all orders of the channels and map walks", "why_tests_cant": "numbers of every length against the bit size, every following text; tests have a handful of literals and fixed orders", "anchors": ["domain/languages/scripts/resources/base/tokens.alex: declarableValue, computableValue, primitiveValue, intValue, floatValue, boolValue, stringValue", "domain/languages/scripts/base/parsers/helper.go: those events", "applications/languages/lexers/application.go: AST", "applications/languages/parsers/application.go: Execute"]}
{"id": "C107", "title": "An assignment gives the value written to the name written", "statement": "A text that is one assignment is read as that assignment and means it. The target is a declared name (a plain type, spaces or none, a name, and then a colon), a name that starts with no type word, or an underscore; then an equal sign; then a literal other than true and false, or a word; spaces may stand between any of them. Read as a program (or as an assignment), the text is accepted up to its last byte with one definite tree; executed, it gives a program of exactly that one assignment: to the variable of that type and name, to that name, or to nothing, of the value the literal stands for. A word, also true and false, stands for the list of that name, never for a truth value. A name that begins with a type word declares the rest of it: integer:=5 declares eger. A number that does not fit the number of bits, or a float that strconv.ParseFloat refuses, makes the whole an error, and nothing else comes out, in whatever order Go's maps are walked.", "quantifier": "all names, types, literals and words of any length, all spacings, with and without the colon, all bit sizes but 1, all ParseFloat functions, all orders of the channels and map walks", "why_tests_cant": "names and numbers of every length and spacing, against every longer reading the grammar also tries (operations, list values, calls); tests have a few texts and fixed orders", "anchors": ["domain/languages/scripts/resources/base/tokens.alex: assignment, assignee, assigneeNameFirsts, assigneeNames, assignables, assignable, totalListAssignable, singleAssignable, instruction, program", "domain/languages/scripts/base/parsers/helper.go: those events", "applications/languages/lexers/application.go: AST", "applications/languages/parsers/application.go: Execute"]}
{"id": "C108", "title": "The parts of a root are found by name", "statement": "The builders of roots answer with an object exactly when the fields they need were given since the last Create, with the arguments last given, or with an error. Containers keep their list and its order, their content is the contents joined, and a name fetches the last container that has it or is an error. Nodes fetch and exist by the key of the map they were made of, and their amount is its size; a node put by hand under another key is found under that key and not under its name. In the root of a syntax tree there is one node for each name among the parts of the token (never none); a name exists exactly when a part has it; the node it fetches has that name, its content is the texts of the parts of that name joined in order, that name fetches in it the last of them and any other name is an error.", "quantifier": "all sequences of calls on the builders, all lists and maps of parts, all syntax trees that have a root, all names", "why_tests_cant": "every history of calls and every tree, with names repeated any number of times; tests have single ones", "anchors": ["domain/languages/lexers/roots/builder.go", "domain/languages/lexers/roots/nodes_builder.go", "domain/languages/lexers/roots/node_builder.go", "domain/languages/lexers/roots/containers_builder.go", "domain/languages/lexers/roots/container_builder.go", "domain/languages/lexers/roots/nodes.go: Fetch, Amount, Exists", "domain/languages/lexers/roots/containers.go: Fetch, Content", "domain/languages/lexers/roots/adapter.go: ToRoot"]}
{"id": "C109", "title": "Every text in a syntax tree is one its rule reads", "statement": "When Parser.AST succeeds on a grammar without references to other grammars, whose tokens are simple and whose rules are not named like tokens, the tree follows the grammar down to its texts: each token's parts are those of one of its lines in order, as far as the lexer may stop early; a part under the name of a rule is a non-empty text which that rule, followed by the rest of it, reads as often as its cardinality allows (a constant is that constant repeated, patterns are matches of them, as many as they can take); a blank is a text which the rule of a channel reads. So it is for the shipped grammar, for every text and schedule. Following only the shape, as C93 states it, is strictly less.", "quantifier": "all grammars of that kind, all texts, schedules of the channels and orders of map walks", "why_tests_cant": "every text the parser accepts and every order in which channels are tried; tests look at a few trees", "anchors": ["domain/languages/lexers/asts/tokens/adapter.go: ToToken, ruleToRuleMatch", "domain/languages/lexers/rules/adapter.go: ToResult", "domain/languages/lexers/asts/adapter.go: ToAST", "applications/languages/lexers/application.go: AST", "domain/languages/scripts/resources/base/tokens.alex"]}
{"id": "C110", "title": "Executing what the shipped parser accepts does not panic", "statement": "When Parser.AST with the shipped grammar accepts a text for any of its tokens, and no part of the tree is a comment, ToRoot gives a root of it, and Execute with the events of the base language answers on that root and never panics: it is an error, or an object of the kind the token stands for (a text for a variable's name). Numbers may be of any size, tokens cut short, a statement nested in an equal one: every branch of the events finds what it takes for granted, or fails first. The same for every tree the grammar's rules read, whether a parser made it or not.", "quantifier": "all tokens of the shipped grammar, all texts, schedules of the channels, orders of map walks, bit sizes and behaviours of ParseFloat", "why_tests_cant": "every accepted text, however deep, with every order of the maps; tests execute a few programs", "anchors": ["domain/languages/scripts/base/parsers/helper.go", "applications/languages/parsers/manager.go", "domain/languages/lexers/roots/adapter.go: ToRoot", "applications/languages/parsers/application.go: Execute", "domain/languages/scripts/resources/base/tokens.alex", "domain/languages/scripts/resources/base/channels.alex"]}
