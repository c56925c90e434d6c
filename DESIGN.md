# Formal model of wizadr/steve in Rocq (Coq 8.16.1)

## Method

The Go code is read as text and modelled function by function as small, total,
executable Gallina functions (`rocq/theories/*Model.v`).  Every definition cites
the file and lines it models.  Proofs are in `*Proofs.v`; the property theorems
(and nothing else besides their examples) are in `*Props.v`, each
proved there or by `exact` of a lemma, and followed by `Print Assumptions`.

Conventions of the model:

* Go `string`/`[]byte` = `list byte` (`Coq.Init.Byte.byte`); a length is a `nat`,
  a Go `uint` is an `N` and wrap-around is written explicitly (`mod 2^64`) where a
  property depends on it.
* an error return is `Err`, a Go run-time panic is `Panic`, and a fuelled function
  that runs out returns `NoFuel`; no theorem confuses these with a normal result.
* `nil` slices/maps/interfaces are `None`.
* a builder is a record of the fields set so far, its With... calls are operations
  (`step`), `Now` is a function of the record; "every call sequence" is
  an induction over lists of operations.
* SHA-512, AES, the group edwards25519, and the random source are parameters
  (Section variables, so explicit universally quantified arguments of every
  theorem).  Laws assumed of them are explicit hypotheses of the theorem that
  uses them and are shown satisfiable by a concrete instance beside it.
  Collision resistance is never assumed: theorems conclude "equal, or here is a
  collision".

## Plan per property

| id | model | proof |
|---|---|---|
| C01-C03 | HashModel: FromBytes, FromMultiBytes, FromString, String, hex codec (Go.v) | case analysis on the length; hex codec by induction; a collision of SHA-512 is constructed, never excluded |
| C04-C08 | HashModel: createBlockFromData, resize, Leaves.HashTree, BlockLeaves, Order, Compact | induction on the height of the tree; the leaves of a perfect tree; Order as a filter over the leaves |
| C09-C12, C49, C50 | SigModel: Sign, PublicKey, Verify, RingSign, ring Verify, genK over a record of the curve's operations | algebra from explicit group-law hypotheses, induction along the ring; instance Z/7 |
| C13 | SigModel: String / ToSignature / ToRingSignature with base64 and delimiters | codec induction (Base64.v), exact character sets, refutations for texts that do not come back |
| C14 | SigModel: ToVerification | case analysis |
| C15, C16, C51 | CryptModel: AES-CFB over an abstract block function, base64, RSA key texts | induction on blocks; the codec laws |
| C17-C27, C52, C53 | DomainModel: every builder as record + method calls + Now | induction over call histories; digests determine their fields or a collision is exhibited |
| C28-C30 | CardModel: cardinality builder, membership, adapter | intervals; decimal text by induction |
| C31-C34, C54 | PatModel: groups, series, choices, patterns, discoveries | induction on text and lists |
| C35 | RuleModel: evaluation of a rule (asts/results/adapter.go) | induction on fuel bounded by the text |
| C36 | RuleModel / PathModel: tables | induction over lists; last declaration of a name wins |
| C37-C41, C55-C61, C69, C70 | LexModel: the mutually recursive lexer on explicit fuel, its mutable state threaded, Go's channel-map order as a function of the moment | mutual induction on fuel; a separate relation `reads` in LexSpec.v |
| C42 | PathModel: path construction with the token stack and the cache threaded | fuel bound = tokens not on the stack; every cycle is cut |
| C43, C44, C62 | AstModel: mistakes/adapter.go | structural induction on match trees |
| C63-C65, C68 | AstModel, SuiteModel: asts/adapter.go and the adapter builders | structural induction; composition with the lexer |
| C45, C47, C66 | RootModel: roots and Scan; the order of map iteration is any permutation | structural induction on roots |
| C46, C67 | RootModel, ParseModel: Execute, Trigger; an event is a relation | rule induction |
| C48 | SuiteModel: running the test suites of the tokens | induction over tokens and lines |
| C71-C76 | Regex.v (regexp, leftmost-first), TextModel: the four text grammars; the regular expressions are the strings of sdk.go, parsed and run in Coq | each compiled expression is proved equal to a hand-written reader, which is proved to give what TextSpec / TextTokSpec / TextRefSpec say; `written' sources come back |
| C77-C81 | AppModel: applications/languages/lexers with its resources; files are a parameter; the application's state is threaded through histories of calls | induction over histories; composition of the readers with the lexer |
| C82-C85 | BaseModel: the 45 builders of scripts/base/parsers | induction over call histories |
| C86-C90 | EvtModel: helper.go, one event per token as a small program; EvtSpec: what a syntax tree means, from tokens.alex | well-founded on the nesting of roots; rule induction on `means'; outcome sets over all map orders |
| C91 | LexModel.v, AppModel.v; the channel schedule is a parameter `nat -> list path`; OrdSpec.v says when channels never start together | a channel made of one rule answers the same in every state, so the first valid one of any permutation is the only valid one; congruence through the whole lexer (psame) and the application; the shipped channels by a checked decision procedure on their first words |
| C92 | GramModel.v (the shipped .alex texts), TextModel.v reading them, RootModel.v, EvtModel.v; AdeqSpec.v says which trees conform to a list of tokens, EvtSpec.v what roots mean | the declared tokens are computed by the model of ToTokens and compared with a table of 63 shapes inside the kernel; one lemma per shape turns conforming entries into the premises of a constructor of `means`; induction over trees; then C88 |
| C93 | LexModel.v, AstModel.v, PathModel.v; `conforms` of AdeqSpec.v, with the lexer's liberty as its parameter | induction over the lexer's fuel: every valid block fills its element of the line; the trees' counts are the lexer's counts because no rule is named like a token; the shipped grammar's conditions by a checked boolean inside the kernel |
| C94 | LexModel.v with its recursion map (ls_rec); EndSpec.v: a decidable condition (settles) that follows what can be reached without reading, with the set of names whose note is known to be the current text | simultaneous induction over fuel for four kinds of calls (rules, any container, containers below known notes, containers behind a channel), with a partial-correctness lemma: what may not be absent reads something, and what cannot reach a name leaves the notes alone; the shipped grammar is checked against settles inside the kernel for one root and carried to all roots because their dependencies are the same |
| C95, C96 | BuildModel.v: each builder is the tuple of its fields, its With methods the steps of BaseModel.v, Now a definition of its own; generated from a table read off the Go files, objects as their accessors show them | the fields after any calls are the last arguments since Create (induction over the calls); then cases over what was given; int(uint) by the two's complement of 64 bits |
| C97 | AstModel.v, LexModel.v; AstNotSpec.v: the same grammar with the not-block's lines beside the others is plain | the must line and the not line are each fair trees (C44's induction), so ToMistake's two looks decide by validity; a second induction shows that fair trees never yield a ValidNot |
| C98 | LinkModel.v: the list and the two maps, the inner map made when an include is first seen | induction from the end of the list: one step of the nested map changes exactly one pair of names |
| C99 | LexModel.v, AstModel.v; PickSpec.v: seven mutual inductive relations (gives, bad, line_gives, line_bad, beaten, picks, tokens) that say what is read, what cannot be read and which line is preferred | mutual induction over the derivations (not over fuel): each relation determines what its function of the lexer returns whenever it returns; not covered: recursive references, unbounded rules that could begin again later in the text |
| C100 | the whole chain: GramModel.v (the shipped texts), TextModel.v, LexModel.v, AstModel.v, RootModel.v, EvtModel.v; ProgSpec.v writes programs down as texts and says what they stand for, without the grammar | the shipped tokens are computed in the kernel and compared with shapes; a derivation of PickSpec.v's relations is built for every program text (C99 then gives the tree), the tree's root is shown to be clear (C87) and to mean the program; recursion over the lists of headers and instructions; not covered: assignments, if, for, calls (their tokens refer to themselves) |
| C101 | every Now of DomainModel.v, CardModel.v, AppModel.v, BaseModel.v and BuildModel.v, and the constructors inside PatModel.v, PathModel.v, TextModel.v | cases over the fields |
| C102 | Base64.v and Go.v (encoding/base64, encoding/hex as documented), CryptModel.v, HashModel.v; B64Spec.v states base64 and hexadecimal by the alphabet and the numbers the digits stand for | the 256 characters are compared with the alphabet inside the kernel; induction over the groups of digits, arithmetic by lia |
| C103 | KeyModel.v: keys/encryption, crypto/rsa and crypto/x509 as a record of operations; the laws assumed of them are in KeySpec.v | induction over the calls; C102 for the texts |
| C104 | the models of C18, C24, C33, C71, C73 and C78; UTF-8 (Utf8Spec.v) over them | induction over scripts (a valid character never begins inside another) and over the parts of an answer; counterexample for Remaining |
| C105 | container_to_match's recursive case with its map of notes (LexModel), specified apart by the relations of RecSpec.v, which thread the notes through lines, repetitions and choices; the shipped grammar's declarativeType and listType (computed from the shipped texts), with the types of ListSpec.v | nine-way mutual induction on the relations (RecProofs), embedding of C99's relations (RecProofs3), induction on the type with an invariant on the length of the notes (RecProofs4), execution of the tree by induction on the type (RecProofs6), the misreading of list types in instructions computed |
| C106 | the shipped grammar's value tokens, computed from the shipped texts, read by the lexer's model (LexModel, AstModel) and executed by the base events (EvtModel); literals, their texts, trees and values in LitSpec.v, which mentions none of these | shapes of the seven tokens checked by computation on the shipped grammar, reading by C99's relation (LitProofs2), parts of roots with merged groups and refusals through the trigger relation (LitProofs3), strconv's cut-offs by arithmetic |
| C107 | the shipped grammar from program down to assignment, assignee and assignables, computed from the shipped texts, read by the lexer's model (LexModel, AstModel) and executed by the base events (EvtModel); assignments, their texts, trees and values in AsgSpec.v, which mentions none of these | shapes of the tokens checked by computation on the shipped grammar (AsgProofs2, 4); a line that reads to the end of the text needs no reading of the lines after it, so operations, calls and lists need not be read (AsgProofs); the target and the value by C99's relation (AsgProofs2, 3); refusals carried up through triggers with several parts (AsgProofs6) |
| C108 | domain/languages/lexers/roots: the five builders, Nodes.All/Amount/Fetch/Exists, Containers.Content/List/Fetch over parts of any type (PartModel); the roots of trees as RootModel makes them | builders as in C95; induction on the list for the map that keeps the last of a name; the tree through C45's mirror relation (PartProofs) |
| C109 | LexModel.v, AstModel.v, PathModel.v, RuleModel.v as for C93; `spelled` of SpellSpec.v, which asks of every text that its rule reads it (`rule_times` of LexSpec.v) | the induction of C93 repeated with what a valid rule match says about its text (SpellProofs); then mutual induction on spelled trees for C93's conforms and for the texts at any depth |
| C110 | GramModel.v, RootModel.v, EvtModel.v as for C92; `spelled` of SpellSpec.v; what the events take for granted is listed in SureProofs.v, what the grammar must have for it in SureChecks.v | SureProofs: each event panics on no root, if the roots of the parts it takes for granted are there; SureTree, SureShipped: in a spelled tree without comments they are, from the bytes of the texts (a for statement is never the text of an assignee, an element fetcher has no colon); SureRooted: what the parser accepts has a root; the checks on the shipped grammar are computed inside the kernel |

All properties can be expressed in the model; none is declared not applicable.
Where the code does not do what a reader would expect, the property says what it
does and a theorem whose name ends in `_refuted` (or says so in words) proves the
expectation false of the model, with the counterexample.

## Trusted base

* Coq 8.16.1's kernel, with its bytecode machine (`vm_compute` is used to close
  computations on concrete inputs).
* No axioms: see the list at the end. `vcheck` counts 7 "library axioms"
  `Coq.ssr.ssrunder.Under_rel.*`: they are the fields of a module type of the standard
  library (`Under_REL` in ssrunder.v) that is loaded, and no theorem depends on them.
* The fidelity of the model to /repo, by reading: each definition cites its file and
  lines. Nothing was built or run. GramModel.v is generated from the resource
  files, byte for byte.
* The specification files (`*Spec.v`), which say in their own words what the code is
  compared with.

## What is modelled, file by file

| model | Go code |
|---|---|
| Go.v | strings.Split/Join/HasPrefix/TrimSpace, strconv.Itoa/Atoi/ParseUint/ParseInt, encoding/hex: the parts used |
| Base64.v | base64.StdEncoding |
| HashModel | domain/hash, domain/hashtree |
| SigModel | domain/cryptography/keys/signature: all of it |
| CryptModel | domain/cryptography/encryption.go |
| KeyModel | domain/cryptography/keys/encryption |
| DomainModel | domain/rings, genesis, genesis/privates, transactions, transactions/privates, transactions/secrets, receipts, chains, peers, identities |
| CardModel | domain/languages/lexers/cardinality |
| PatModel | containers/patterns except the text grammar |
| RuleModel | containers/rules except the text grammar, the tables, asts/results |
| PathModel | containers/tokens except the text grammar, asts/paths |
| LexModel | asts/tokens |
| AstModel | asts/mistakes, asts |
| RootModel, PartModel, ParseModel | lexers/roots, applications/languages/parsers |
| SuiteModel | asts/adapter_builder.go, asts/tokens/adapter_builder.go, suites |
| Regex, TextModel | regexp (RegexBytes, TextBytes prove that matching byte by byte answers the same on the patterns of the code); the text grammars of patterns, rules, tokens, references (ToPatterns, Rules, ToTokens, ToReferences) |
| AppModel | applications/languages/lexers, lexers/resources/*, lexers/contents, lexers/paths |
| BaseModel, EvtModel | domain/languages/scripts/base/parsers: builders, objects; helper.go and NewEvents |
| BuildModel, LinkModel | the builders of lexers/asts, containers, suites and references that the adapters above use already filled; references/links |
| GramModel | domain/languages/scripts/resources/base/*.alex |

## What is not modelled

* The libraries: SHA-512, SHA-256, AES, PKCS#1, edwards25519, the random source,
  strconv.ParseFloat are parameters of the theorems; regexp is modelled, rune by rune, for the fragment that
  the code writes (Regex.v says which); strings.TrimSpace is modelled in full (Go.v) and
  specified by the white space of Unicode in UTF-8 (Utf8Spec.v, TrimProofs.v).
* vendor/, main packages, test helpers, and generated strings of errors and logs: an
  error is `Err`, whatever its text.
* Reading of files: a file is what a function of its path answers; two readings of
  a file within one call answer the same.
* Memory: sharing of slices is modelled only where a method changes what it was
  given (builders whose Now changes their fields, the lexer's and the application's
  mutable state). Concurrent use of one object is not modelled.
* Scalars of the curve are residues (SigModel says how this simplifies kyber).
* Accessors that return a field are not listed as definitions: an object is
  modelled by what its accessors return.
* Recursion that Go would run out of stack for: the theorems on termination (C42, C57,
  C86) say that it ends; how deep it goes is bounded but no stack limit is modelled.

## Agreement with the shipped tests

Running every test line of the shipped grammar (63 tokens, Tests of the lexer application)
through the model with vm_compute gives `success` for every line. It takes about 37 minutes,
so it is not part of the build; C92_case and C92_parser_cuts_short run the whole model on
single texts.

## Wrong programs

seeded/LOG.jsonl lists the edits made to a scratch copy of the model, the theorems that
failed and those that were tightened as a result. Survivors whose edit does not change
the behaviour are marked as equivalent in their note.

### What Print Assumptions lists

Every property theorem is followed by `Print Assumptions` in its `*Props.v` file. For each of the 574 theorems in MANIFEST.json it prints
`Closed under the global context`: no axiom, neither ours nor the standard library's. The theorems are:

* C01 (proved): `C01_from_bytes_total_64`, `C01_from_bytes_verbatim`, `C01_from_bytes_digest`, `C01_from_bytes_idempotent`, `C01_from_bytes_injective_refuted`
* C02 (proved): `C02_string_round_trip`, `C02_string_injective`, `C02_string_shape`, `C02_from_string_errors`, `C02_from_string_value`, `C02_compare`
* C03 (proved): `C03_only_concatenation`, `C03_concatenation_binding`
* C04 (proved): `C04_tree_shape`, `C04_nil_is_error`, `C04_empty_list_panics`
* C05 (proved): `C05_leaves_in_order`, `C05_head_is_merkle_root`
* C06 (proved): `C06_head_commits_to_leaves`, `C06_blocks_binding_refuted`, `C06_size_binding_refuted`
* C07 (proved): `C07_order_restores`, `C07_empty_block_refuted`
* C08 (proved): `C08_order_sound`, `C08_order_permutation`, `C08_repeated_leaves_refuted`, `C08_json_list_round_trip`
* C09 (proved): `C09_sign_succeeds`, `C09_public_key_recovered`, `C09_public_key_unique`
* C10 (proved): `C10_verify_rejects_forgery_refuted`
* C11 (proved): `C11_ring_sign_verifies`, `C11_ring_sign_outsider`
* C12 (proved): `C12_verify_true_iff_chain_closes`, `C12_verify_false_iff_chain_open`, `C12_verify_panics_iff_scalar_missing`, `C12_verify_ignores_surplus`, `C12_empty_ring_verifies_everything`
* C13 (proved): `C13_signature_text`, `C13_ring_signature_text`, `C13_private_key_text`, `C13_public_key_text`, `C13_scalar_text_exactly`, `C13_point_text_exactly`, `C13_signature_text_exactly`, `C13_ring_signature_text_exactly`
* C14 (proved): `C14_accepts_exactly`, `C14_rejects_exactly`, `C14_hashes_bind_the_ring`
* C15 (proved): `C15_encrypt_decrypt`, `C15_builder`
* C16 (proved): `C16_decrypt_fails_exactly`, `C16_decrypt_authenticates_refuted`, `C16_bit_flips_carry_over`, `C16_prefix_replaceable`
* C17 (proved): `C17_ring_built_exactly`, `C17_ring_otherwise_error`, `C17_ring_one_member`, `C17_ring_hash_binding`, `C17_ring_hash_determines_members_refuted`
* C18 (proved): `C18_unit_content_built_exactly`, `C18_unit_content_otherwise_error`, `C18_unit_built_exactly`
* C19 (proved): `C19_genesis_built_exactly`, `C19_genesis_otherwise_error`, `C19_genesis_hash_binding`, `C19_unit_hash_binding`, `C19_genesis_private_built_exactly`, `C19_genesis_private_hash_binding`
* C20 (proved): `C20_distinct_contents_distinct_hashes_refuted`, `C20_unit_content_hash_binding`, `C20_hash_hides_content_refuted`
* C21 (proved): `C21_origin_built_exactly`, `C21_content_built_exactly`, `C21_content_hash_binding`, `C21_content_hash_determines_time_refuted`, `C21_transaction_built_exactly`, `C21_transaction_hash_binding`
* C22 (proved): `C22_receipts_share_one_hash`, `C22_privates_share_one_hash`, `C22_private_and_receipt_share_one_hash`, `C22_private_lists_share_by_length`, `C22_receipt_built_exactly`, `C22_private_built_exactly`
* C23 (proved): `C23_secret_built_exactly`, `C23_secret_otherwise_error`, `C23_amount_nonce_refuted`, `C23_nonce_origin_refuted`, `C23_origin_sides_refuted`, `C23_secret_hash_commits_to_public`, `C23_secret_hash_binding`
* C24 (proved): `C24_block_built_exactly`, `C24_block_otherwise_error`, `C24_block_hash_binding`
* C25 (proved): `C25_chain_built_exactly`, `C25_chain_otherwise_error`, `C25_chain_hash_binding`
* C26 (proved): `C26_peer_text_round_trip`, `C26_peer_text_round_trip_char`, `C26_peer_text_accepted_exactly`, `C26_peer_parts_accepted_exactly`, `C26_peer_otherwise_error`, `C26_large_port_round_trip_refuted`, `C26_negative_port_rejected_refuted`
* C27 (proved): `C27_last_call_wins_unit_content`, `C27_last_call_wins_unit`, `C27_last_call_wins_genesis`, `C27_last_call_wins_genesis_private`, `C27_last_call_wins_origin`, `C27_last_call_wins_content`, `C27_last_call_wins_transaction`, `C27_last_call_wins_secret`, `C27_last_call_wins_receipt`, `C27_last_call_wins_transaction_private`, `C27_last_call_wins_block`, `C27_last_call_wins_chain`, `C27_last_call_wins_identity_transactions`, `C27_last_call_wins_identity`, `C27_last_call_wins_collection`, `C27_last_call_wins_peers`, `C27_last_call_wins_ring`, `C27_last_call_wins_peer_without_now`, `C27_last_call_wins_peer_refuted`
* C28 (proved): `C28_is_valid_exactly_denoted`, `C28_delimiter_is_the_interval`, `C28_specific_is_valid`, `C28_builder_exactly`, `C28_specific_builder_exactly`, `C28_range_builder_never_fails`, `C28_satisfiable_refuted`
* C29 (proved): `C29_text_round_trip`, `C29_mandatory_text_panics`, `C29_zero_amount_round_trip_refuted`
* C30 (proved): `C30_accepts_exactly_the_grammar`, `C30_trimmed_is_unique`, `C30_specific_exactly`, `C30_otherwise_error`, `C30_negative_rejected_refuted`, `C30_specific_trims_refuted`
* C31 (proved): `C31_contains_longest`, `C31_contains_none`, `C31_longest_word_unique`, `C31_reverse_up_to_first_match`
* C32 (proved): `C32_pattern_result_exactly`, `C32_pattern_earliest`, `C32_pattern_error_exactly`, `C32_patterns_earliest_first_listed`, `C32_patterns_error_exactly`, `C32_patterns_never_panic`
* C33 (proved): `C33_match_exactly`, `C33_match_iff_first_choice_reads`, `C33_discoveries_prefix_of_input`, `C33_single_serie_exactly`, `C33_single_serie_text`, `C33_next_never_reverse`, `C33_text_accounted_refuted`, `C33_discovery_index_is_offset_refuted`
* C34 (proved): `C34_group_search_exactly`, `C34_group_search_error_exactly`, `C34_remaining_when_at_offset_zero`, `C34_remaining_refuted`
* C35 (proved): `C35_pattern_rule_exactly`, `C35_pattern_rule_always_answers`, `C35_pattern_rule_prefix_within_maximum`, `C35_constant_rule_exactly`, `C35_constant_rule_always_answers`, `C35_empty_constant_never_found`, `C35_constant_prefix_refuted`, `C35_huge_maximum_matches_nothing`
* C36 (proved): `C36_unique_table_built_exactly_when`, `C36_unique_table_finds_exactly`, `C36_unique_table_unknown_name`, `C36_last_wins_table_built_exactly_when`, `C36_last_wins_table_finds_the_last`
* C37 (proved): `C37_valid_spells_a_prefix`, `C37_whole_script_refuted`
* C38 (proved): `C38_best_line`, `C38_furthest_invalid_line_refuted`
* C39 (proved): `C39_at_most_the_maximum`, `C39_occurrences_are_valid`, `C39_valid_within_cardinality`, `C39_never_more_than_the_maximum_refuted`
* C40 (proved): `C40_not_blocks`, `C40_positive_line_required_refuted`
* C41 (proved): `C41_without_permission`, `C41_two_phases`, `C41_history_independent_refuted`
* C42 (proved): `C42_always_answers`, `C42_history_independent`, `C42_element_is_the_unfolding`, `C42_unfolding_is_unique`, `C42_fails_exactly_when`, `C42_no_token_expanded_twice`, `C42_dependencies_exactly`, `C42_recursive_references_resolve`, `C42_endless_recursion_rejected_refuted`
* C43 (proved): `C43_position_exact`, `C43_every_mistake_has_the_position_of_a_text`, `C43_index_is_in_the_script_refuted`
* C44 (proved): `C44_no_mistake_iff_valid`, `C44_lexer_answers`, `C44_not_block_refuted`, `C44_with_prefixes_refuted`
* C45 (proved): `C45_answers_exactly`, `C45_root_mirrors_the_tree`, `C45_container_root_has_its_text`, `C45_own_roots_when_texts_are_distinct`, `C45_own_roots_refuted`
* C46 (proved): `C46_execute_exactly`, `C46_deterministic_events_one_answer`, `C46_application_returns_the_first`, `C46_application_returns_everything_refuted`, `C46_nil_falls_through_refuted`
* C47 (proved): `C47_finds_only_what_is_asked_for`, `C47_fails_only_if_absent`, `C47_every_order_answers`, `C47_roots_of_trees_find_nodes_only`, `C47_root_scan`, `C47_deterministic_refuted`
* C48 (proved): `C48_jobs_are_the_test_lines`, `C48_suites_exactly`, `C48_first_failure_is_returned`, `C48_closed_grammars_never_fail`, `C48_closed_grammars_answer`, `C48_successful_line_is_read`, `C48_undeclared_reference_aborts`, `C48_success_means_whole_line_refuted`, `C48_unrelated_tokens_do_not_matter_refuted`
* C49 (proved): `C49_same_message_reveals_key`, `C49_same_message_reveals_signer`
* C50 (proved): `C50_ring_filler_reveals_key`
* C51 (proved): `C51_rsa_key_text`, `C51_rsa_key_text_errors`
* C52 (proved): `C52_collection_built_exactly`, `C52_collection_otherwise_error`, `C52_peers_built_exactly`, `C52_collection_hash_binding`, `C52_one_element_collection_hash`, `C52_identity_built_exactly`, `C52_identity_transactions_always_built`
* C53 (proved): `C53_transaction_hash_commits_to_ancestry`
* C54 (proved): `C54_find_last_of_that_name`, `C54_find_error_exactly`, `C54_amount_is_bytes`, `C54_is_amount`, `C54_is_at_least`, `C54_is_in_range`, `C54_range_upper_bound_refuted`
* C55 (proved): `C55_valid_is_a_reading`
* C56 (proved): `C56_complete_lines`, `C56_optional_in_the_middle_refuted`, `C56_recursion_reads_less_refuted`
* C57 (proved): `C57_answer_independent_of_bound`, `C57_ends_without_left_recursion`, `C57_repeated_not_block_never_ends_refuted`, `C57_alternating_recursion_never_ends_refuted`, `C57_expected_element_never_ends_refuted`, `C57_not_block_channel_never_ends_refuted`, `C57_switching_channel_never_ends_refuted`
* C58 (proved): `C58_one_channel_one_answer`, `C58_channel_order_irrelevant_refuted`, `C58_asking_twice_refuted`
* C59 (proved): `C59_specifiers`
* C60 (proved): `C60_no_prefix_in_valid_rules`
* C61 (proved): `C61_repeated_constant_read`, `C61_later_occurrence_spoils_the_line_refuted`
* C62 (proved): `C62_mistake_names_its_reason`
* C63 (proved): `C63_answer_decided_by_validity`, `C63_tree_spells_a_prefix_of_the_script`, `C63_prefixes_never_panic_refuted`, `C63_suffix_is_of_the_script_refuted`
* C64 (proved): `C64_never_fails`, `C64_always_answers`
* C65 (proved): `C65_tables_to_answers`, `C65_made_paths_are_plain_and_resolved`
* C66 (proved): `C66_syntax_trees_have_roots`, `C66_not_block_refuted`
* C67 (proved): `C67_one_value_per_container`, `C67_success_is_a_list`, `C67_failure_is_explained`, `C67_events_get_roots_of_their_name_refuted`
* C68 (proved): `C68_lexer_built_or_error`, `C68_lexer_holds_each_channel`, `C68_channels_see_each_other_refuted`
* C69 (proved): `C69_announced_element_is_expected`, `C69_announcement_is_not_valid`
* C70 (proved): `C70_valid_answers_exact`, `C70_valid_is_exact_refuted`, `C70_amounts`, `C70_range_means_cardinality_refuted`
* C71 (proved): `C71_patterns_text_exactly`, `C71_name_denotes_last`, `C71_other_texts_are_errors`, `C71_example`, `C71_example_meaning`
* C72 (proved): `C72_source_read_as_written`, `C72_layout_does_not_matter`, `C72_example`, `C72_any_option_refuted`
* C73 (proved): `C73_rules_text_exactly`, `C73_rules_found_by_name`, `C73_panics_exactly`, `C73_always_ends`, `C73_constants_cannot_contain`, `C73_example`, `C73_example_panic`, `C73_example_errors`
* C74 (proved): `C74_tokens_text_exactly`, `C74_every_answer`, `C74_other_texts_are_errors`, `C74_example`, `C74_example_errors`, `C74_hash_switches_refuted`, `C74_empty_body_refused_refuted`, `C74_separators_anywhere_refuted`, `C74_garbage_refused_refuted`
* C75 (proved): `C75_references_text_exactly`, `C75_panics_exactly`, `C75_always_ends`, `C75_meaning_is_unique`, `C75_example`, `C75_example_panic`, `C75_example_wide`, `C75_example_errors`
* C76 (proved): `C76_references_read_as_written`, `C76_resolvable_sources_accepted`, `C76_example_source`, `C76_dot_is_required_refuted`, `C76_any_path_refuted`
* C77 (proved): `C77_container_built_exactly`, `C77_multiple_built_exactly`, `C77_rooted_built_exactly`, `C77_content_built_exactly`, `C77_paths_built_exactly`, `C77_example`
* C78 (proved): `C78_tokens_exactly`, `C78_other_texts_fail`, `C78_only_rules_panic`, `C78_example`
* C79 (proved): `C79_references_never_work`, `C79_answers_need_no_references`, `C79_example`
* C80 (proved): `C80_kept_without_replacements`, `C80_history_independent_without_replacements`, `C80_other_names_are_kept`, `C80_replacements_exactly`, `C80_example`, `C80_history_independent_refuted`, `C80_only_the_include_is_replaced_refuted`, `C80_failed_calls_change_nothing_refuted`
* C81 (proved): `C81_ast_is_the_lexer`, `C81_unknown_root_fails`, `C81_every_answer`, `C81_suffix_is_ignored`, `C81_root_is_of_the_ast`, `C81_tests_are_asts`, `C81_path_ends`, `C81_example`
* C82 (proved): `C82_append`, `C82_slice`, `C82_assignment`, `C82_list_fetch_element`, `C82_operation_suffix`, `C82_int_increment`, `C82_variable_declaration`, `C82_program`, `C82_for_declaration`, `C82_if_declaration`, `C82_slice_delimiter`, `C82_for_statement`, `C82_header_variable`, `C82_operation`
* C83 (proved): `C83_assignable`, `C83_assignee`, `C83_assignee_name`, `C83_assignee_name_first`, `C83_direction`, `C83_index_value`, `C83_list_value`, `C83_total_list_value`, `C83_total_list_assignable`, `C83_single_assignable`, `C83_operation_element`, `C83_instruction`, `C83_void_func_call`, `C83_operation_func_call`
* C84 (proved): `C84_one_or_more`, `C84_assignables`, `C84_variable_declarations`, `C84_variable_declarations_are_not_empty_refuted`
* C85 (proved): `C85_type`, `C85_types_compare`, `C85_value`, `C85_now_fixes_the_value`, `C85_a_later_value_is_used_refuted`
* C86 (proved): `C86_roots_shrink`, `C86_trigger_looks_inside`, `C86_calls_are_bounded`, `C86_execute_always_ends`
* C87 (proved): `C87_right_reading_is_possible`, `C87_only_reading_when_clear`, `C87_clear_meaning_is_unique`
* C88 (proved): `C88_grammatical_never_fails`, `C88_program_gives_a_program`, `C88_one_name_panics`
* C89 (proved): `C89_left_operand_may_be_the_right_one`, `C89_ab_minus_cd`, `C89_always_the_right_reading_refuted`
* C90 (proved): `C90_values`, `C90_new_names`, `C90_declarations`, `C90_names`, `C90_for_index_may_be_the_value`
* C91 (proved): `C91_apart_channels_one_answer`, `C91_ast_apart_channels`, `C91_shipped_channels_ast`, `C91_shipped_channels_root`, `C91_shipped_channels_tests`, `C91_prefix_and_constants_refuted`
* C92 (proved): `C92_root_exists`, `C92_conforming_trees_mean_something`, `C92_never_fails`, `C92_without_kinds_refuted`, `C92_parser_cuts_short`
* C93 (proved): `C93_accepted_trees_conform`, `C93_ast_conforms`, `C93_shipped_conforms`
* C94 (proved): `C94_guarded_recursion_ends`, `C94_guarded_recursion_answers`, `C94_shipped_always_answers`, `C94_shipped_tests_always_report`
* C95 (proved): `C95_mistakes_are_made_by_the_builders`, `C95_token`, `C95_token_content`, `C95_line_match`, `C95_matches`, `C95_rule_match`, `C95_rule_match_result`, `C95_specifier`, `C95_token_match`, `C95_token_result`, `C95_token_result_matches`, `C95_result`, `C95_mistake`, `C95_mistake_index`, `C95_valid_not`, `C95_specifier_do_not_match`, `C95_contains_next`, `C95_cardinality_is_invalid`, `C95_contains_prefix`, `C95_tree_token`, `C95_tree_line`, `C95_tree_rule`, `C95_tree_tokens`, `C95_tree_result`, `C95_next_element`, `C95_match`, `C95_skip_match`, `C95_block_match`, `C95_mistake_content`, `C95_mistake_path`, `C95_answer`, `C95_tree_match`, `C95_every_number_is_accepted_refuted`, `C95_last_alternative_is_used_refuted`
* C96 (proved): `C96_path`, `C96_element`, `C96_path_line`, `C96_recursive_token`, `C96_path_rule`, `C96_path_specifier`, `C96_path_token`, `C96_token_path`, `C96_next`, `C96_choice`, `C96_serie`, `C96_group`, `C96_pattern`, `C96_discovery`, `C96_rule_element`, `C96_rule`, `C96_rule_pattern`, `C96_grammar_block`, `C96_token_reference`, `C96_grammar_element`, `C96_token_specifier`, `C96_grammar_lines`, `C96_grammar_token`, `C96_suite_line`, `C96_suite`, `C96_suite_application`, `C96_link`, `C96_include`, `C96_references`, `C96_content`, `C96_rule_result`, `C96_path_container`, `C96_path_instruction`, `C96_pattern_container`, `C96_grammar_content`, `C96_grammar_instruction`, `C96_token_specifier_content`, `C96_instructions_alike_refuted`
* C97 (proved): `C97_not_block_first`, `C97_answers_with_a_not_block`
* C98 (proved): `C98_built_iff_not_empty`, `C98_all_in_order`, `C98_last_link_of_a_local_name`, `C98_last_link_of_a_reference`, `C98_links_of_a_text`, `C98_every_link_is_found_refuted`
* C99 (proved): `C99_reads_the_longest_line`, `C99_refuses_what_no_line_reads`, `C99_one_longest_reading`
* C100 (proved): `C100_program_executes`, `C100_text_means_one_program`, `C100_repeated_first_instruction_refuted`
* C101 (proved): `C101_chain_builders`, `C101_card_builders`, `C101_app_builders`, `C101_program_builders`, `C101_lexer_builders`, `C101_inner_builders`
* C102 (proved): `C102_base64_accepted_exactly`, `C102_base64_written_exactly`, `C102_hex_accepted_exactly`, `C102_hex_written_exactly`, `C102_decrypt_needs_base64`, `C102_hash_from_string_exactly`
* C103 (proved): `C103_private_key_built_exactly`, `C103_public_key_built_exactly`, `C103_factory_exactly`, `C103_private_text_exactly`, `C103_public_text_exactly`, `C103_text_keys_work_together`, `C103_public_hash_binds`
* C104 (proved): `C104_rule_finds_characters`, `C104_answers_are_characters`, `C104_grammar_texts`, `C104_paths`, `C104_trees_cut_no_character`, `C104_shipped_grammar`, `C104_every_field_refuted`, `C104_example`
* C105 (proved): `C105_shipped_executes_list_declarations`, `C105_reads_by_choice`, `C105_refuses_what_no_line_reads`, `C105_one_reading`, `C105_extends_the_longest_line`, `C105_example_every_nesting`, `C105_shipped_reads_list_declarations`, `C105_list_instructions_refuted`
* C106 (proved): `C106_literals_mean_what_is_written`
* C107 (proved): `C107_assignments_mean_what_is_written`, `C107_assignments_alone`, `C107_true_is_the_name_of_a_list`, `C107_no_blank_after_a_type`
* C108 (proved): `C108_container`, `C108_node`, `C108_root`, `C108_nodes`, `C108_containers`, `C108_nodes_by_key`, `C108_key_is_the_name_refuted`, `C108_nodes_of_a_tree`, `C108_parts_by_name`
* C109 (proved): `C109_accepted_trees_are_spelled`, `C109_ast_is_spelled`, `C109_shipped_is_spelled`, `C109_spelled_conforms`, `C109_every_text_is_read`, `C109_constants_are_themselves`
* C110 (proved): `C110_spelled_trees_do_not_panic`, `C110_accepted_texts_do_not_panic`
