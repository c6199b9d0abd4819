# Formal model of cathlamet: design

All model and proof files are in `rocq/theories` (logical name `Verif`), Coq 8.16.1, standard library only.
Model files (`*Model.v`) contain definitions only, each with a comment citing the file and lines in `/repo`.
Proof files (`*Proofs.v`) contain lemmas. Property files (`Prop_*.v`) contain only the property theorems, each closed
by `exact lemma` and followed by `Print Assumptions`, plus one `Example` per theorem showing its hypotheses are met.

## Conventions of the model

* **Outcome.** A Rust call is a function into `outcome A := Ret a | Panic | Undef`. `Panic` is a Rust panic
  (assert, slice index, unwrap, `unimplemented!`, checked arithmetic). `Undef` is undefined behaviour: a raw-pointer
  read or write outside the slice it was derived from, or a read of an invalid `bool`/`char`.
  `Result` and `Option` values stay data. Error messages are dropped or reduced to an enumeration.
* **Profiles.** Where debug and release builds differ visibly (shift and subtraction overflow) the function takes a
  `profile := Debug | Release`. Elsewhere arithmetic is modelled with overflow checks on (underflow = `Panic`); a
  theorem that rules out `Panic` then covers release builds too, since no check ever fires.
* **Bytes** are `Coq.Init.Byte.byte`; integers in memory are little endian (x86-64), `usize` is 64 bits.
  Unaligned raw accesses are given their x86 meaning (C16 talks about misalignment separately).
* **Strings** in Rust are UTF-8 byte sequences; characters are Unicode scalar values in `Z`.
* **Floats** are bit patterns. Their decimal formatting and parsing are oracles (section variables / record fields
  quantified over in the theorem), with the assumed round trip stated as an explicit hypothesis.
* **Unicode tables** (`to_uppercase`, `is_alphanumeric`) are arbitrary functions quantified over in the theorems.
* `sort_by` is a stable insertion sort, `binary_search_by` is its documented contract on a strictly sorted list,
  `BTreeMap`/`HashMap` are finite maps (`BTreeMap` with ordered iteration).

## Trusted base

Coq's kernel; the axioms listed by `Print Assumptions` (none so far: every property theorem is
"Closed under the global context"); the faithfulness of the hand translation; the conventions above, including the
meaning given to the Rust standard library (slices, sorting, searching, maps, integer formatting and parsing, UTF-8) and to the code derived by
`serde_derive` (C92).

## What will be modelled, and how each property is proved

| Property | Model | Proof plan |
|---|---|---|
| C01 align | `util::align`, `storage::utils::align_*`, `calc_file_blocks` with machine-width arithmetic | bit-level lemma: masking with `!(2^k-1)` is `v - v mod 2^k`; least-multiple argument |
| C02 bits | `required_bits`, `log2` via `Z.log2`/trailing zeros | arithmetic |
| C03 page = list of rows | whole of `nsm.rs` over `list byte` | representation invariant `Rep page rows`; each operation preserves it; induction over histories |
| C04 capacity | `max_insert_row_size` | exact formula from `Rep`, both directions (accept / panic) |
| C05 empty row | same | exact condition, plus corruption theorem and concrete witness |
| C06 no leak | same | corollary of C03 and C04 |
| C07 path order | `Ord for Path` | induction on paths |
| C08 prefixes | `is_prefix_of`, `is_proper_prefix_of` | induction; universal falsity |
| C09 names | `resolve_qualified_name`, `extract`, `split('.')`, `usize::from_str` | induction on the component list |
| C10 layout | `unroll_type`, `allocate_bitfields`, `calculate_layout` | invariants of the first-fit packing and of the offset loop over the sorted list |
| C11 round trip | `encode_with_source`, `variable_field_offset`, `get_*` | layout invariant, frame lemmas for writes, induction on types |
| C12 sizes | `encoding_size*` | same induction |
| C13 undersized buffer | `copy_bytes` with `Undef` | direct computation for all strings |
| C14 enum sizes | bit masks with profiles | direct, universally over case counts |
| C15 data source | `MarshallerDataSource` | from C11; encoders depend on the source only through the value it presents |
| C16 alignment | layout offsets | positive from C10; witness type for the negative part |
| C17 JSON round trip | encoder, tokenizer, decoder | induction on types with a continuation |
| C18 characters | `write_ch`, string tokenizer, UTF-8 | case analysis per range, both directions |
| C19 integers | decimal formatting, `from_str` | digit-list induction |
| C20 tokenizer totality | tokenizer | measure: remaining input |
| C21 numbers | `match_number` | declarative lexeme relation, soundness and completeness |
| C22 decode well typed | decoder | induction on types |
| C23 member order | `StructParser` | induction on the set of missing members |
| C24 trailing input | `JsonDecoder::parse` | from the continuation form of C17 |
| C25 wide structs | `BitSet` with profiles | direct |
| C26 SQL names | `Name` comparison over an arbitrary upper-casing function | lexicographic order laws |
| C27 unify | `is_compatible`, `unify` | nested induction on types |
| C28 soundness | `Expression::infer_type` | reference evaluator in a separate spec file; induction on expressions |
| C29-C30 DML | `validate_type` for INSERT, UPDATE, DELETE | loop invariants over column lists |
| C31 panics | all of `typing.rs` | mutual induction over the syntax |
| C32 column names | `generate_column_name` | induction over the list; witness for the negative part |
| C33 arity | `SetExpression::infer_type` | `zip` length |
| C34 IN / IS NULL | `Expression::infer_type` | direct |
| C35 CTE | `SelectStatement::infer_type` | non-interference |
| C36 catalog | `schema.rs` | induction over histories |
| C37 location | `Location` | bit arithmetic |
| C38 lists | `BufferListHead` operations | representation predicate for doubly linked lists with frame |
| C39 new pool | `BufferPool::new` with profiles | induction on the number of buffers |
| C40 handles | pool as a transition system, one step per lock-protected region | invariant over all schedules |
| C41 lost writes | same | non-interference of the old content over all schedules, plus witness runs |
| C42 race | same | witness schedule plus conditional theorem |
| C52 waiting, panics | same | case analysis from the invariant |
| C43 geometry | numeric part of `VolumeManager::create` | arithmetic |
| C44 bitmap | bitmap initialisation loop | bit-level lemmas |
| C45 volume ids | `next_volume` with profiles | induction over calls |
| C47-C48 scopes, FROM | `ScalarContext`, `SetExpression`, `TableExpression` | invariant of the symbol map over relations entered |
| C49-C50 WITH | `SetContext::initialize`, `CommonTableExpression` | induction over the list |
| C51 create | `VolumeManager::create`, `init_file_header` with arbitrary environment | case analysis; lengths 48 and 40 are no powers of two |
| C53 parser | tables and actions of `sql/parser.rs`, the LR machine, the grammar of `parser.lalrpop` as an inductive relation | a certificate (LR(1) items of each state) is checked by computation; general soundness, completeness and step bound of checked tables; each action against its rule |
| C54 lexer | the patterns of `sql/parser.rs`, the matcher of `lalrpop_util` | regular expressions by derivatives against character-level descriptions; longest match |
| C55 parse and validate | parser and `typing.rs` | from C31 and the image of the grammar |
| C56 image | printer written for the purpose | mutual induction over syntax trees, with precedence levels |
| C57 forgotten text | same | relational induction over derivations; printed variants |
| C58 errors | same | viable prefixes: reachability and productivity of the states checked by computation |
| C46 type grammar | `types/parser.lalrpop`: lexer, grammar, actions, the LR machine with tables computed for it; a second, character-level and inductive description | as C53 and C54; printer and its inverse |
| C59 type parser | same | as C53, C54 and C58 |
| C60 image of types | same | induction over derivations; printer |
| C61 parsed types in use | parser, `types/mod.rs`, JSON | from C09, C17 and C60: labels of parsed types are identifiers |
| C62 expected tokens | `sql/parser.rs` `__expected_tokens` | states without reductions, found by computation, are reached after 54 of the words; there the list is exact. Witnesses that it is neither sound nor complete elsewhere |
| C63 typing rules | all of `sql/ast/typing.rs` `infer_type`/`validate_type` | declarative rules in `SqlRules.v` (mutual inductives over a catalog relation); one mutual induction over the syntax proves both directions, completeness under the conditions of C31 |
| C64 headers, timestamps | `VolumeHeader`, `FileHeader`, `create`, `init_file_header` | fields read back at fixed offsets; bit arithmetic for the timestamp. The page of 48 bytes is not one a pool can have (C51) |
| C65 records on pages | pages and marshaller together | from C03, C04, C11, C12, C15, C16; the caller that encodes a value and stores the bytes is not in the repository, so it is a relation (`RecordSpec.v`) |
| C66 case of names | all of `sql/ast/typing.rs` | `SqlRespell.v`: equal once all names are in upper case; one mutual induction shows that related trees, scopes and contexts give related results (`SqlSim.v`, `SqlRespellProofs.v`) |
| C67 frame | same | the same induction with equal trees and contexts that agree on the mentioned tables |
| C68 marks | buffer pool as for C40 | invariant over all schedules: the mark equals the existence of a released writing handle |
| C69 writers | `core/json/encoder.rs` with any `dyn io::Write` | the encoder over a writer refines the encoder of C17, by induction over the type, for a relation between written and intended bytes that is equality or `shortened` (`WriterProofs.v`) |
| C70 positions | `core/json/tokenizer.rs` with look-ahead, iterator and byte range | simulation with the tokenizer on characters, kept by every function (`TokProofs.v`) |
| C71 places of parse errors | `Matcher::next` with byte offsets, `Parser::parse` with one token of look-ahead and `last_location`, for both grammars | each call of the matcher reads one word of the lexing relation; the machine with look-ahead agrees with the machine on lists by induction over its steps (`PlaceProofs.v`, `PlaceRun.v`); places are unique because words do not start with blanks |
| C72 byte format | `core/marshaller.rs` as in C10 to C16; no new model | own vocabulary for widths, orders, packing and bits (`FormatSpec.v`, nothing from the model but the shape of layouts); sorting is stable, offsets are dense, a trace of the allocation of tags (`FormatLayout.v`); writes described bit by bit, the image relation holds and is unique (`FormatBits.v`) |
| C73 JSON documents | `core/json/decoder.rs` and `tokenizer.rs` as in C17 and later; no new model | grammar of symbols and documents as inductive relations over text (`JsonDocSpec.v`: no token, parser state or bit set of the model); one token is one symbol both ways, soundness by induction on the type with the data source framed, completeness by mutual induction on documents, determinism of the grammar, values determined by what a source presents (`JsonDocProofs.v`) |
| C74 running queries | `sql/ast/typing.rs` as in C28 and C63; no new model: the program does not run queries | reference evaluator for whole queries (`SqlRun.v`: joins with NATURAL and USING, grouping, set operations, subqueries, WITH, ORDER BY, three-valued logic from C28; operations of the data types, LIMIT numbers, row equality and the positions in which ORDER BY puts the rows are arbitrary parameters; a table of WITH is added to the store under its name, which inference does not do for FROM, so the main theorems exclude its use there and `query_with_refuted` shows why; subqueries see their own FROM only; columns of a subquery in FROM cannot be referred to, as in the code, C48; with GROUP BY a group is represented by its first row); errors in places the code does not check are a separate outcome. Soundness by induction over the syntax with the typing rules of C63 (`SqlRunProofs.v`), transported to the inference functions by C63 (`SqlRunTop.v`) |
| C75 executing statements | as C74 | reference execution of INSERT, UPDATE, DELETE and of sequences (`SqlExec.v`; a failing statement leaves the data as they are); rules `storable` and `assignable` of C63, induction over the sequence (`SqlExecProofs.v`) |
| C76 memory of the pool | `writable_slice`, `readable_slice` on one flat memory (`MemoryModel.v`) under the schedules of C40 | simulation: the flat memory is the concatenation of the pages after every event; arithmetic modulo 2^64 for the addresses |
| C77 dump and load | nothing new; `PipelineSpec.v` composes `parse_type`, `json_decode`, `encode_with_source`, `append_row`, `get_row`, `marshaller_source`, `json_encode` (the composition is ours, the repository has no such tool) | loading is rewritten to putting values on the page (C73, `encode_same`), dumping to the JSON of the values (C65), the round trip is C17/C61; capacity of the copy from C03/C04 |
| C78 case of letters in texts | nothing new; lexer, parser and `typing.rs` together | `SqlText.v`: a relation of values per nonterminal (equal once all names are in upper case) is kept by every rule of the grammar, so derivations of related words give related statements; errors by `fails` (C56) and relatedness of beginnings; validation by C66. Words, not characters: `text_case_refuted` |
| C79 error messages of validation | `SqlMessageModel.v`: all of `typing.rs` once more, each error with its text | specification `SqlBlame.v`: rules giving to every construct the complaint about its first fault, with the typing rules of C63 for what is right; proved by the same induction as C63 (`SqlMessageProofs.v`, `SqlMessageStmt.v`), soundness without any condition, completeness for `safe` statements; texts are told apart by computation. `insert_message_refuted` shows the misleading message |
| C80 error messages of the JSON decoder | `JsonModel.v`: `jerr`, `wanted_text`, `jerr_text` (the texts of `ParseIntError`/`ParseFloatError` are a parameter) | specification `JsonBlame.v`: rules for what cannot be read as a symbol and for the first fault of a text read as a document of a type, over the grammar of C73; lexical part both ways (`JsonBlameLex.v`), documents are run through (`JsonBlameRun.v`), faults stop the decoder by mutual induction and errors are faults by induction on the type (`JsonBlameProofs.v`). `first_fault_refuted` shows the one place where a later fault is reported first |
| C81 handles come to an end | buffer pool as for C40 | measure: each step of a handle lowers the sum of the steps left; a waiting handle or a holder of its lock can go on (C52); the pigeonhole principle for C41 |
| C82 bytes of a page | `core/nsm.rs` as for C03; no new model | specification `NsmBytesSpec.v`: a page written down field by field, and each operation as a function on rows, paddings and free bytes (no function of the model); the stores and the two slot loops act on explicit concatenations (`NsmBytes.v`), induction over the history |
| C83 what NOT NULL changes | `sql/ast/typing.rs` as in C63; no new model | specification `SqlNotNullSpec.v`: columns that differ in nullability only, the IN, LIMIT and OFFSET expressions of a statement, databases with NOT NULL dropped or added; one induction over the syntax for any relation between nullabilities that is reflexive and closed under `or` (`SqlNotNull.v`), used three times (unchanged, looser, stricter), then C63 carries it to validation |
| C84 records found in bytes | `core/marshaller.rs` as in C11; no new model | specification `RecordCanonSpec.v` (a whole record, the primitive types a type uses); `RecordCanon.v`: the size computation is unfolded into the list of variable fields with their offsets, each is linked to the answers of the getters (`level_held`), writing back what was read is the identity on every field kind (`encode_fixed_back`, `put_get_bits`), then induction over the type through the enum payloads |
| C85 pages found in bytes | `core/nsm.rs` as for C03; no new model. Reading is modelled with overflow checks, as in C03 | specification `PageCheckSpec.v` (words of a page, where a row starts and ends, legal sizes); `PageCheck.v`: the masks split a slot into offset and padding, by induction on the number of rows the cells cut out at these places add up to the byte-level form of C82, appending its rows over the page itself leads back to it, and C82 gives the other direction; safety by following every call to the two raw copies |
| C86 other ways to write | nothing new; all of `sql/ast/typing.rs` | `SqlRewriteSpec.v`: rewriting laws closed under all contexts, as mutual relations without types; induction over rewritings (`SqlRewriteInd.v`) shows that they keep the rules of C63 (scopes in another order: `SqlRewriteProofs.v`; laws that use an operand twice need that types are unique, hence the condition of C55), then C63 gives validation (`SqlRewriteTyped.v`) |
| C87 changed types | nothing new; layouts, encoder, marshaller | `SchemaSpec.v`: `extended` relates two types, `type_alignment` computes alignments from the type alone; the layouts of related types differ only in the lists of cases (`SchemaProofs.v`: alignments, `SchemaGrown.v`: unrolling, sorting, linking are parametric), every function on layouts that returns with the smaller one returns the same with the larger one; the way back from C84 (`SchemaTop.v`). Counterexamples for the conditions: `*_refuted` |
| C88 data source | `DataSourceModel.v`: `BTreeMap` as the list of its entries from left to right, searched and inserted into with `Path::cmp`; `new`, `clear`, `add_*`, the four accessors | `DataSourceSpec.v`: `last_word` of a history, `place`s of a value, `speaks`; histories simulated by insertion lists, which answer with the last word; the decoder adds entries only at places of its value found by following the tags (`DataSourceDecode.v`: induction over types, member loops with the set of fields still to come) |
| C89 tables found in bytes | nothing new; pages, layouts, marshaller, JSON | `TableSpec.v`: `table_page` (what can be seen in the bytes), `sizes_check`; C85 gives a history of the page, C84 an encoding of each row, C65, C77 and C87 apply to these (`TableProofs.v`) |
| C90 adding columns | nothing new; `sql/ast/typing.rs` as in C63 | `SqlGrowSpec.v`: lists with elements put in, databases so related, the columns, wildcards and sets a statement uses; induction over the syntax with symbol tables that agree off the new names (`SqlGrow.v`) |
| C91 renaming | nothing new; `sql/ast/typing.rs` as in C63 | `SqlRenameSpec.v`: maps of names that keep (in)equality, the exchange of two names, statements without WITH, `t.*` and INSERT without list; induction over the syntax with symbol tables that agree at a name and at its new name (`SqlRename.v`) |
| C92 stored catalogs | the derived `Serialize`/`Deserialize` of `sql/schema.rs`, `sql/symbols.rs`, `sql/types.rs` and of `VolumeParameters` over the data model of serde (`CatalogModel.v`); a format is two switches: names or order, any keys or strings only; identifiers given as bytes are left out | `CatalogSpec.v`: order, entries, complete structs; structs by an invariant of the visitor's slots (`CatalogProofs.v`) |
| C93 update in place | `core/marshaller.rs` as in C10 to C16; no new model | `PatchSpec.v`: a value with one number changed; the patched bytes are an image (C72) of the new value by induction over the payload types, and images are unique (`PatchProofs.v`) |
| C94 replacing rows | `core/nsm.rs` and `core/marshaller.rs` as in C01, C10 and C82; no new model. There is no function that replaces a row: it is `remove_row` followed by `insert_row` | `ReplaceSpec.v`: bytes unchanged outside given ranges; by the byte-level reading of the two operations (C82), with C84 and C93 for records (`ReplaceProofs.v`, `ReplaceRecord.v`) |
| C95 files of a volume | `storage/mod.rs:257-347, 477-605` (`FileTableModel.v`): the arguments of the 16 calls of `init_file_header`, the attributes, the mirror, the bitmap written through pointers (`poke` is undefined outside of the buffer). The pages are a function from locations; the file headers written are not carried over to the mirror, since `init_file_header` never returns (C51) | `FileTableSpec.v`: least number of blocks, shared blocks, untouched pages; induction over the blocks (`FileTableProofs.v`) |
| C96 white space | the lexer and parser of C53, C54 | `SqlSpaceSpec.v` over the words of `SqlWords.v`: a word with white space or one of the marks in it is the mark or is quoted, and a quoted word is no prefix of another, so that the longest match at a word does not reach beyond the place (`SqlSpaceProofs.v`) |
| C97 cut documents | the decoder of C73 | `JsonCutSpec.v` over the documents of `JsonDocSpec.v`; a document followed by more text is shown to stay a document by induction over its rules, then it is compared with the whole one (`JsonCutProofs.v`) |
| C98 values put in | the lexer, parser and validation of C53, C54 and C63 | `SqlFillSpec.v` maps the strings and numerals of a statement; the semantic actions commute with the map rule by rule (`SqlFillProofs.v`), the words of the two texts correspond (`SqlFillText.v`), and inference is shown not to see the map by mutual induction (`SqlFillType.v`) |
| C99 RFC 8259 | the encoder and decoder of C17 and C73 | `JsonRfcSpec.v` is the grammar of the standard and, apart from it, what its trees mean for a type; both directions by induction over the grammar against the documents of C73 (`JsonRfcProofs.v`); the encoder by induction over the texts of values (`JsonRfcTop.v`) |
| C100 Parts of statements | the parser of C53 | `SqlPartSpec.v` says when words are a part of a phrase; the value of a phrase is a function of the value of each part by induction over the derivation (`SqlPartProofs.v`); the lexer reads a cut text as before up to the cut because the longest word stays the longest |
| C101 White space in type texts | the type parser of C59 | as C96 for the words of types (`TypeSpaceProofs.v`); the phrases of types are a prefix code, the beginning of a word is a word, and no two names or keywords stand side by side (`TypeCutProofs.v`) |
| C102 JSON texts rewritten | the encoder and the decoder of C17 to C25 | bytes that are UTF-8 come from characters the encoder writes correctly, by induction on the type; a document that is read from the text of a value as that value shows that each string in it was read back, so its characters are good; the reader and the text agree on where each part ends (`JsonRewriteProofs.v`); types given as text have good labels (`JsonRewriteParsed.v`) |
| C103 white space in JSON texts | the tokenizer and the decoder of C17 to C25, through the documents of C73 | two texts that read the same symbols in step are documents for the same values, by induction on the document; inserting white space keeps each symbol before it, since numbers and words end at white space or punctuation and strings at their quote (`JsonSpaceProofs.v`); which characters outside ASCII are alphanumeric is a parameter, of which only that white space is not is assumed |
| C104 parts of JSON documents | the tokenizer and the decoder of C17 to C25, through the documents of C73 | `JsonPartSpec.v`: the component of a value at a place, and the value with it exchanged; a document that ends at punctuation, white space or the end of the text can be followed by any of these, by induction on the document, so that what precedes a component does not depend on it (`JsonPartProofs.v`); what the encoder writes depends on the value, neither on the source nor on the path (`JsonPartWrite.v`); the same parameter as in C103 |
| C105 JSON with another type | the decoder of C17 to C25, through the documents of C73 | `JsonWidenSpec.v`: when a type is wider, and when values of two types correspond; induction on the document, where the members of a struct are put into the order of the new fields (`JsonWidenProofs.v`); reflexive, transitive and functional by induction on the type (`JsonWidenMore.v`) |
| C106 pages moved to a wider type | the page, record and JSON functions composed as in C77 (`PipelineSpec.v`) | the dump of C77, read with the wider type by C105; values carried to a wider type have it (`JsonMigrate.v`), so their records fit and are appended one by one |
| C107 JSON texts determine values | the encoder of C17 and C18 | `JsonTellSpec.v`: values that are the same up to the display of floats; assumed of the display of floats: ASCII without comma, closing bracket and brace. A reader for `write_ch` shows that characters form a prefix code, numbers end where a comma, bracket or brace stands, then induction on the type (`JsonTellProofs.v`); row by row for the dumps of C77 (`JsonTellPage.v`) |
| C108 JSON with a narrower type | as C105 and C106 | `JsonNarrowSpec.v`: wider types of the same signs; induction on the document of the wider type, where the members are matched with the fields of the narrower one (`JsonNarrowProofs.v`), then texts and pages (`JsonNarrowTop.v`) |
| C109 room of JSON texts | the encoder of C17 and C18 | `JsonRoomSpec.v`: the bound as a function of type and value; induction on the type, with the number of digits of integers (`JsonRoomProofs.v`); witnesses for the bounds of the leaves |

## Model files, what they cover, and where they simplify

* `NsmModel.v`: `core/nsm.rs`. A page is a `list byte`; row slices handed out are copies.
* `TypesModel.v`, `StrModel.v`: `core/types/mod.rs`, `core/data_source.rs` paths, labels as lists of characters.
* `MarshalModel.v`: `core/marshaller.rs`. Raw pointer writes are list updates that are `Undef` outside the slice.
  A `DataSource` is a record of four accessor functions.
* `Utf8Model.v`: UTF-8 encoding and validation (RFC 3629), the meaning given to `str::from_utf8`.
* `JsonModel.v`: `core/json/{encoder,tokenizer,decoder}.rs` and `IntermediateDataSource`.
  The writer is a growing `Vec<u8>` (its I/O errors do not occur; see `WriterModel.v`). The tokenizer works on the list of characters of the
  input and byte ranges are represented by the text they cover; `TokModel.v` models the positions and C70 shows that
  nothing is lost. Error values are an enumeration without message or
  position. `char::is_alphanumeric` outside ASCII is an arbitrary function; `char::is_whitespace` is the Unicode 15
  list (spelled out in `WhiteSpec.v`). Floats are bit patterns with arbitrary formatting and parsing functions. Loops have fuel equal to the length
  of the remaining input, proved sufficient (`string_loop_fuel` and `next_total`; no theorem mentions the fuel).
  Parsers built by `parser_for_type` are fused with their `parse` methods. The map of
  `IntermediateDataSource` is an association list.
* `TokModel.v`: `core/json/tokenizer.rs` once more, with `char_indices`, the look-ahead character and `value_range` as byte
  positions; `str::get` and `is_char_boundary` work on the bytes of the input. The decoder is not repeated on top of it; it
  uses the tokenizer only through `next`, `token` and `value`. Specification side: `TokSpec.v`.
* `WriterModel.v`: `core/json/encoder.rs` once more, with a writer whose answers to `write` are an arbitrary list (then it
  takes everything). `io::Write::write_all` and `write_fmt` are the standard library's; the pieces in which `write!`
  passes on a number are arbitrary. Calls of `write` with an empty buffer do not occur. Specification side: `WriterSpec.v`,
  which takes the bytes of one character from `JsonModel.write_ch` (described by C18).
* `SqlNameModel.v`: `sql/symbols.rs`, `sql/types.rs` (data types), `sql/schema.rs`. `BTreeMap<Name, V>` is the list of its
  entries in key order with textbook insertion (an equal key keeps its first spelling). `char::to_uppercase` is an
  arbitrary function. The name repeated inside a `Table` or `View` is dropped.
* `SqlModel.v`: the syntax trees of `sql/ast/mod.rs` and all of `sql/ast/typing.rs`. Error messages are dropped (an error is
  `Err tt`); `SqlMessageModel.v` is the same file with its messages (the `{:?}` of a table name is a parameter). Numeric literals carry their text. `SetContext` is passed by value; `ScalarContext` is the map of its symbols.
  The specification side is `SqlSpec.v` (scopes, values, reference evaluator), `SqlTypeSpec.v`, `SqlSafeSpec.v`,
  `SqlStmtSpec.v`, `SqlColumnsSpec.v`, `SqlFromSpec.v`, `SqlRespell.v`, `SqlNotNullSpec.v`, and the typing rules `SqlRules.v`.
* `CatalogModel.v`: what `serde_derive` generates for the catalog types and `VolumeParameters` (fields in order of declaration,
  variants numbered from 0, unknown members ignored, duplicate and missing fields refused) and `serde`'s own code for
  strings, booleans, unsigned integers, `Vec` and `BTreeMap` (entries inserted one by one). A format is a function from
  the calls of the serializer to what a deserializer shows. Here the name inside a `Table` or `View` is kept.
  Specification side: `CatalogSpec.v`.
* `StorageModel.v`: in `storage/mod.rs` the locations, volume parameters, `VolumeManager` (`next_volume`, the sizes computed
  by `create`, its header copy, its bitmap loop), `init_file_header` up to the header copy, the buffer lists and
  `BufferPool::new`. The links of the buffers are one list indexed by buffer number. `create` stops at the header copy,
  which always panics; what follows is a parameter, except for the bitmap loop, which is modelled on its own as the
  128-bit words it stores (a page smaller than the block size is not considered). File system answers, identifiers and
  padding bytes are parameters. Byte sizes of `repr(C)` headers (48 and 40) are part of the model. The parts of `create`
  and `init_file_header` left open here (reserved files, attributes, mirror, storing the bitmap on pages of any size) are
  in `FileTableModel.v`.
  Specification side: `StorageSpec.v`.
* `MemoryModel.v`: the addresses of `writable_slice` and `readable_slice` in one flat memory. A slice outside of the mapping
  is `Undef`. The references are not modelled: what a slice shows is the memory at the time of use.
* `PoolModel.v`: the buffer pool in concurrent use (`buffer_access`, `access_*`, `release_*`, `alloc_lock`, the handles) as a
  transition system. One event is one region under the mutex, one operation on a buffer lock, or one use of a page.
  Events of any number of tasks interleave freely. Panics and cancelled tasks are part of it. `fetch` is an arbitrary
  function that may fail (in the code it is not implemented, so it always fails). Simplified: a page is replaced as a
  whole by a write; slices obtained from a handle are not used after it is dropped; the number of handles of one buffer
  stays below 2^32 without overflow checks; which of several waiting tasks gets a lock is left open.
  Specification side: `PoolSpec.v`.
* `LrModel.v`: the state machine of `lalrpop_util` 0.19.8 (not in the repository, given its documented meaning) without
  error recovery, which the generated file switches off. `SqlTables.v`: the tables of `sql/parser.rs`, copied by a
  script. `SqlActions.v`: its reductions and action functions. Places in the text are dropped. `LexModel.v`: the matcher
  of `lalrpop_util` (all patterns at each place, longest match, the later pattern wins a tie) and regular expressions
  with the meaning of the crate `regex`. `SqlParseModel.v`: the patterns and `SqlStatementParser::parse`. There places count
  characters and the text is split first; `PlaceModel.v` has the byte offsets and asks for one token at a time as the crate does
  (the positions of symbols on the stack, which no action uses, stay out), and C71 shows that both agree. `parse_sql` drops the list of expected tokens in an error, `parse_sql_report` keeps it.
  Specification side: `SqlGrammar.v` (the rules of `parser.lalrpop`), `LexSpec.v`, `SqlWords.v`, `LrSpec.v`,
  `SqlCheckSpec.v`, `SqlErrorSpec.v`, `PlaceSpec.v`, and the printer `SqlShow.v`. `SqlCert.v` is a certificate and not trusted.
* `TypeParseModel.v`: `types/parser.lalrpop`. The file generated from it is not in the repository. `TypeTables.v` holds LALR
  tables for the grammar, computed by a script and checked in Coq; any correct tables give the same answers, by C59. The
  unused rule `INT` has no production in the model, but its token is in the lexer, as in LALRPOP.

## Not modelled

`src/bin/*`, `src/common` (no logic), the display of parse errors,
the `unimplemented!` bodies (they are `Panic`), tokio scheduling and OS I/O, performance.
