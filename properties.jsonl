{"id": "C01", "title": "Alignment rounds up to the least multiple", "statement": "align(value, alignment) for a power-of-two alignment returns the smallest multiple of alignment that is not below value, for every pair whose sum fits the integer type; a non-power-of-two alignment is rejected by core::util::align with a panic. The storage::utils variants compute the same function at each integer width.", "quantifier": "every value, every power-of-two alignment and every integer width, with value + alignment representable", "why_tests_cant": "the argument space is 2^64 x 64; tests sample a few pairs", "anchors": ["src/core/util.rs: align", "src/storage/utils.rs: align_usize, align_u8, align_u16, align_u32, align_u64, align_u128, calc_file_blocks"]}
{"id": "C02", "title": "Bit counts are exact", "statement": "required_bits(v) is the least number of bits n with v < 2^n; log2(v) succeeds exactly on powers of two and returns the exponent; so a tag in 0..n fits the bit field allotted to an n-case enum.", "quantifier": "every usize value", "why_tests_cant": "the full range of usize cannot be enumerated", "anchors": ["src/core/util.rs: required_bits, log2"]}
{"id": "C03", "title": "A slotted page behaves as a list of rows", "statement": "After initialize_page on any page of legal size, and any sequence of append_row, insert_row and remove_row calls that respect the reported capacity and index range, num_rows and get_row(i) return exactly what a plain list of byte strings subjected to the same operations would hold; the initial content of the page is irrelevant, no call panics and no call changes a row it was not asked to change.", "quantifier": "every page size, every power-of-two row alignment, every initial page content, every operation history, every row content and length", "why_tests_cant": "histories are unbounded and interactions between shifting slot tables and shifting row data depend on all earlier row lengths", "anchors": ["src/core/nsm.rs: PageFormat::initialize_page, num_rows, get_row, append_row, insert_row, remove_row"]}
{"id": "C04", "title": "Reported page capacity is exact", "statement": "max_insert_row_size(page) equals page length minus the aligned sizes of the stored rows minus the aligned header including one further slot (0 if negative). A non-empty row is accepted by append_row and insert_row if and only if its length is at most that number; a longer row always panics and an out-of-range index always panics.", "quantifier": "every reachable page and every row and index", "why_tests_cant": "depends on the full history of the page", "anchors": ["src/core/nsm.rs: max_insert_row_size, append_row, insert_row, remove_row"]}
{"id": "C05", "title": "Empty rows on a full page", "statement": "An empty row is always accepted by the capacity check, even when there is no room for its slot. When a slot still fits, appending it is harmless; when no slot fits, append_row of an empty row either panics or overwrites bytes belonging to stored rows, so the rule 'length <= max_insert_row_size implies safe' holds exactly when the row is non-empty or a slot still fits.", "quantifier": "every reachable page", "why_tests_cant": "needs a page filled to a particular level; ordinary tests do not insert empty rows on full pages", "anchors": ["src/core/nsm.rs: append_row, max_insert_row_size"]}
{"id": "C06", "title": "Page space is never leaked", "statement": "The capacity reported by a page depends only on the lengths of the rows currently stored, not on the history; in particular inserting a row and removing it again restores all rows and the reported capacity.", "quantifier": "every reachable page, every index, every row that fits", "why_tests_cant": "quantifies over all histories leading to the same rows", "anchors": ["src/core/nsm.rs: insert_row, remove_row, max_insert_row_size"]}
{"id": "C07", "title": "Path order is a total order with ancestors first", "statement": "Comparison of paths is reflexive, antisymmetric, transitive and total, says Equal exactly for equal paths, and every path compares Less than its proper extensions, with everything between a path and its extension also being an extension.", "quantifier": "all pairs and triples of paths of any length", "why_tests_cant": "paths are unbounded sequences of unbounded indices", "anchors": ["src/core/types/mod.rs: impl Ord for Path, impl PartialOrd for Path"]}
{"id": "C08", "title": "Prefix tests on paths", "statement": "is_prefix_of(p, q) is true exactly when q extends p. is_proper_prefix_of returns false on every pair of paths, including pairs where the first really is a proper prefix of the second.", "quantifier": "all pairs of paths", "why_tests_cant": "unbounded inputs; the second half is a universal negative", "anchors": ["src/core/types/mod.rs: Path::is_prefix_of, Path::is_proper_prefix_of"]}
{"id": "C09", "title": "Qualified names resolve to the element they name", "statement": "If resolve_qualified_name succeeds on a type, extracting the returned path from the type succeeds, and walking the path spells the dotted name (first matching label at each struct or enum, decimal index at each tuple). Conversely, when sibling labels are distinct and contain no dot, every non-empty valid path has a dotted name that resolves to exactly that path. If resolution fails, the error is about the first component that names nothing and tells what kind of element it was looked up in.", "quantifier": "every type, every name, every path", "why_tests_cant": "types nest without bound and names are arbitrary strings", "anchors": ["src/core/types/mod.rs: Path::resolve_qualified_name, Type::extract, Type::find_field_index, Type::find_case_index"]}
{"id": "C10", "title": "Record layouts do not overlap", "statement": "In the layout computed for any type, the byte ranges of the fixed-size fields and of the bit-field containers are pairwise disjoint, each lies inside the fixed part of the record at an offset that is a multiple of its size, and the bit ranges of enum tags inside one container are pairwise disjoint and fit the container.", "quantifier": "every type, of any nesting depth and width", "why_tests_cant": "the packing depends on every field of an arbitrarily large type", "anchors": ["src/core/marshaller.rs: unroll_type, allocate_bitfields, calculate_layout, Layout::new"]}
{"id": "C11", "title": "Marshalling round trip", "statement": "Encoding a value of a type into a large enough buffer and reading any primitive, string, string length or enum tag reachable through the active cases back through the marshaller returns the value that was supplied, whatever bytes the buffer held before. Holds for every type whose enum tags do not exactly fill their container (see C14).", "quantifier": "every type, every value of it, every previous buffer content, every path into the value", "why_tests_cant": "types nest without bound; field positions depend on all sibling fields, string lengths and active cases", "anchors": ["src/core/marshaller.rs: Layout::encode_with_source, Layout::variable_field_offset, Marshaller::get_primitive, get_bytes, get_case_tag, get_length"]}
{"id": "C12", "title": "Encoded size is predicted, and only that many bytes are touched", "statement": "encoding_size computed from the source equals the size returned by encode and the size later computed from the encoded bytes; it is a multiple of the layout alignment; encoding into a buffer at least that long never panics, never writes beyond it and leaves every byte at or beyond the encoded size unchanged.", "quantifier": "every type, value and buffer", "why_tests_cant": "size depends on string lengths and active cases at every nesting level", "anchors": ["src/core/marshaller.rs: encoding_size, encoding_size_with_source, encode_with_source, variable_field_offset"]}
{"id": "C13", "title": "Undersized buffers are not always detected", "statement": "The encoder checks only that the fixed part fits: for a record whose last variable part is a string, a buffer that holds the fixed part but not the string is written past its end (no panic). When the buffer holds less than the fixed part the encoder panics.", "quantifier": "every string value and every buffer shorter than the record", "why_tests_cant": "out-of-bounds writes are undefined behaviour; a test that happens to pass proves nothing", "anchors": ["src/core/marshaller.rs: encode_with_source, copy_bytes"]}
{"id": "C14", "title": "Which enum sizes can be marshalled", "statement": "For a record that is a single enum with n cases the tag round-trips exactly when the number of bits needed for n-1 is not 8, 16, 32 or 64. For the excluded counts (129-256, 32769-65536, ... cases) every encode panics in a debug build, and in a release build the tag is not stored at all: the tag bits keep the old buffer content.", "quantifier": "every number of cases, every tag, every buffer", "why_tests_cant": "tests use enums with a handful of cases", "anchors": ["src/core/marshaller.rs: primitive_for_bits, allocate_bitfields, encode_with_source"]}
{"id": "C15", "title": "An encoded record is a faithful data source", "statement": "A MarshallerDataSource over an encoded record answers every accessor for the value exactly as the original source did; consequently re-encoding it gives byte-identical records (in equal buffers) and the JSON produced from it is identical to the JSON produced from the original.", "quantifier": "every type and value", "why_tests_cant": "equality of two observers over all paths of all types", "anchors": ["src/core/marshaller.rs: MarshallerDataSource", "src/core/data_source.rs: DataSource", "src/core/json/encoder.rs: JsonEncoder::encode"]}
{"id": "C16", "title": "Alignment of variable parts", "statement": "Within a layout every fixed field is naturally aligned relative to the layout start. The start of an enum payload is not always a multiple of the payload's alignment: there are types and values whose encoding performs multi-byte accesses at misaligned offsets.", "quantifier": "every type (positive part); existence of a type and value (negative part)", "why_tests_cant": "misaligned raw access is undefined behaviour that usually passes tests on x86", "anchors": ["src/core/marshaller.rs: calculate_layout, encode_with_source, variable_field_offset"]}
{"id": "C17", "title": "JSON round trip", "statement": "For every type with fewer than 64 fields per struct and distinct labels, and every value whose characters are representable (see C18) the text produced by the JSON encoder is valid UTF-8 and the JSON decoder reads it back to a data source presenting the same value.", "quantifier": "every type and every value in the stated domain", "why_tests_cant": "unbounded nesting and unbounded strings", "anchors": ["src/core/json/encoder.rs: JsonEncoder::encode, emitter_for_type", "src/core/json/decoder.rs: JsonDecoder::parse, parser_for_type", "src/core/json/tokenizer.rs: Tokenizer::next"]}
{"id": "C18", "title": "Which characters survive JSON", "statement": "A character written by the JSON encoder inside a string is read back as itself exactly when it is not U+0000, not a control character below U+0020 outside {08,09,0A,0C,0D} whose low hex digit is A-F, and not in U+8000-U+FFFF. For U+8000-U+FFFF the encoder output is not valid UTF-8; for U+0000 the tokenizer rejects the escape; for the listed control characters a different string is read.", "quantifier": "every Unicode scalar value", "why_tests_cant": "1.1 million characters, and the claim is an equivalence", "anchors": ["src/core/json/encoder.rs: write_ch, emit_utf8_string", "src/core/json/tokenizer.rs: match_string, string_control_char"]}
{"id": "C19", "title": "Integers survive JSON and are range checked", "statement": "Every value of every integer type is read back exactly from its JSON text; and a text accepted for an integer type denotes a number inside the range of that type, digit for digit.", "quantifier": "every value of the 10 integer types; every token text", "why_tests_cant": "128-bit ranges cannot be enumerated", "anchors": ["src/core/json/encoder.rs: emitters for integers", "src/core/json/decoder.rs: parse_primitive_number, PrimitiveParser"]}
{"id": "C20", "title": "Tokenizer totality and progress", "statement": "Tokenizing any input terminates: every successful step that does not report end of input consumes at least one character and never more than remain. The only panic is on a \\u escape denoting a surrogate code point, and such inputs do panic. What is skipped before a token is exactly the white space of Unicode; any other character that cannot begin a token is an error and stays.", "quantifier": "every input string", "why_tests_cant": "all strings of any length", "anchors": ["src/core/json/tokenizer.rs: Tokenizer::new, next, match_string, match_number, string_control_char, match_keyword"]}
{"id": "C21", "title": "Number tokens have the documented shape", "statement": "A Number token is produced exactly for the longest prefix of the input of the form [-] (0 | nonzero digits) [. digits*] [(e|E) [+|-] digits+], its value is exactly that text, and an input starting with a digit or minus sign that has no such prefix, or whose exponent is incomplete, is an error.", "quantifier": "every input string", "why_tests_cant": "all strings of any length", "anchors": ["src/core/json/tokenizer.rs: match_number, digits, value"]}
{"id": "C22", "title": "A successful JSON decode is well typed", "statement": "Whenever the decoder returns Ok for a type without 64-field structs (or, in a debug build, for any type) the resulting data source contains a value of the right kind and range for every element of the type (every field, every tuple component, exactly one enum case chain), so that a subsequent encode of the same type cannot fail on a missing or mistyped element; for types with fewer than 64 fields per struct every input gives a result or an error, except that a \\u escape for a surrogate panics. For a 64-field struct in a release build the claim is false.", "quantifier": "every type, every input text, every previous content of the result", "why_tests_cant": "all inputs, including adversarial ones", "anchors": ["src/core/json/decoder.rs: JsonDecoder::parse, StructParser, EnumParser, TupleParser, PrimitiveParser, StringParser", "src/core/data_source.rs: IntermediateDataSource"]}
{"id": "C23", "title": "Struct members may appear in any order, exactly once", "statement": "For a struct with distinct labels, JSON members in any permutation are accepted with the same result; an object with an unknown, missing or repeated member is rejected.", "quantifier": "every struct type with fewer than 64 fields, every permutation of its members", "why_tests_cant": "factorially many permutations of unboundedly many field types", "anchors": ["src/core/json/decoder.rs: StructParser::parse, BitSet"]}
{"id": "C24", "title": "Trailing input after a JSON value", "statement": "The decoder accepts a document as soon as the value is complete and the next token is lexically valid: any valid document followed by further text (not continuing its last number or keyword) is accepted exactly if that text begins with a valid token or is blank, with the same result as the document alone.", "quantifier": "every type, value and every trailing text whose first token is valid", "why_tests_cant": "universal statement over trailing texts", "anchors": ["src/core/json/decoder.rs: JsonDecoder::parse"]}
{"id": "C25", "title": "Wide structs", "statement": "A struct with more than 64 fields, or with 64 fields in a debug build, is never decoded successfully, and decoding panics on every input that starts an object followed by a valid token; in a release build a struct with 64 fields is accepted exactly as an empty object, giving an empty result; the encoder and marshaller accept these types.", "quantifier": "every struct type with at least 64 fields and every input", "why_tests_cant": "universal over types and inputs", "anchors": ["src/core/json/decoder.rs: BitSet::new_with_elements, StructParser::parse"]}
{"id": "C26", "title": "SQL names compare case-insensitively and consistently", "statement": "Name equality is an equivalence that identifies names differing only in letter case, ordering is a total order, and ordering reports Equal exactly when the names are equal, so maps keyed by names treat case variants as one key.", "quantifier": "every pair and triple of names, for any upper-casing function", "why_tests_cant": "all strings", "anchors": ["src/sql/symbols.rs: Name, impl PartialEq, impl Ord"]}
{"id": "C27", "title": "Type unification laws", "statement": "unify is commutative, associative and idempotent on shapes, succeeds exactly when is_compatible succeeds, and its result is nullable exactly when one side is; is_compatible reports nullability correctly on scalars but reports not-nullable on every pair of tuples.", "quantifier": "all pairs and triples of types", "why_tests_cant": "tuple types nest without bound", "anchors": ["src/sql/ast/typing.rs: ExpressionType::is_compatible, unify"]}
{"id": "C28", "title": "Accepted expressions evaluate without type errors", "statement": "For expressions built from literals, column references, row values, arithmetic, concatenation, comparison, BETWEEN, LIKE, AND/OR/NOT: if inference returns type T, then for every row conforming to the context evaluation under SQL three-valued semantics ends in an arithmetic error or yields a value of type T, and for expressions without row values never NULL when T is not-null. The nullability half is false for row values, and both halves fail outside the fragment: IS NULL and CASE admit expressions that are type errors, IN is typed never NULL but can be NULL.", "quantifier": "every expression of the stated fragment, every context, every row", "why_tests_cant": "expressions nest without bound", "anchors": ["src/sql/ast/typing.rs: Expression::infer_type"]}
{"id": "C29", "title": "Accepted INSERT statements are storable", "statement": "Validation of an INSERT succeeds exactly when the table exists, the source query is accepted, every target column exists, no column is targeted twice, there are as many targets as values, each supplied value has exactly the column's data type and is not nullable where the column is NOT NULL, and every NOT NULL column of the table is supplied. The unused function is_assignable_to makes the same test of one value and one column.", "quantifier": "every statement and every catalog", "why_tests_cant": "arbitrary column lists, tables and queries", "anchors": ["src/sql/ast/typing.rs: InsertStatement::validate_type, Attribute::is_assignable_to"]}
{"id": "C30", "title": "Accepted UPDATE and DELETE statements are well typed", "statement": "Validation of an UPDATE succeeds exactly when the table exists, assigned columns exist and are assigned once, each assigned expression has the column's type and respects NOT NULL, and the filter is Logical; DELETE exactly when the table exists and the filter is Logical.", "quantifier": "every statement and every catalog", "why_tests_cant": "arbitrary statements", "anchors": ["src/sql/ast/typing.rs: UpdateStatement::validate_type, DeleteStatement::validate_type"]}
{"id": "C31", "title": "When statement validation panics", "statement": "Validation of a statement whose IN lists, VALUES lists and CASE expressions are non-empty, in which no CASE has a row value as its only result, and whose default namespace is registered never panics. Each of the excluded situations is reachable and panics. The guards of a CASE are visited in order up to the first wrong one, so that a panic behind a wrong guard is not reached and one behind right guards is.", "quantifier": "every statement and catalog", "why_tests_cant": "panic freedom over all syntax trees", "anchors": ["src/sql/ast/typing.rs: SetSpecification, Expression::infer_type, SetContext::resolve_table_name"]}
{"id": "C32", "title": "Result column names", "statement": "A select list is accepted exactly when each member is; its columns get the requested name if no earlier column has that label, otherwise the requested name followed by the decimal number of requests since the latest column labelled so; t.* requests the columns of t in the order of their names. Pairwise different names are kept. Labels are not always distinct: there are select lists with two result columns of equal name.", "quantifier": "every select list", "why_tests_cant": "arbitrary lists of names", "anchors": ["src/sql/ast/typing.rs: generate_column_name, ResultColumns"]}
{"id": "C33", "title": "Column counts of set operations and VALUES", "statement": "UNION, EXCEPT, INTERSECT and multi-row VALUES do not compare column counts: the result has the smaller number of columns and the excess columns are ignored without error.", "quantifier": "every pair of operands, every list of rows", "why_tests_cant": "arbitrary widths", "anchors": ["src/sql/ast/typing.rs: SetExpression::infer_type"]}
{"id": "C34", "title": "IN and IS NULL typing", "statement": "An IN predicate over scalars of one common type is accepted exactly when an operand is nullable, and then typed as never NULL; IS NULL is given the type of its operand, not Logical.", "quantifier": "every expression and context", "why_tests_cant": "universal over expressions and contexts", "anchors": ["src/sql/ast/typing.rs: Expression::infer_type"]}
{"id": "C35", "title": "Names introduced by WITH", "statement": "A common table expression name is not visible in the FROM clause of its own statement, whatever the statement: every table named in FROM is resolved against the catalog alone, and the type of an accepted select statement does not depend on its WITH list, ORDER BY or LIMIT.", "quantifier": "every select statement, catalog and CTE list", "why_tests_cant": "universal over statements and catalogs", "anchors": ["src/sql/ast/typing.rs: SelectStatement::infer_type, CommonTableExpression"]}
{"id": "C36", "title": "Catalog consistency", "statement": "Over any history of schema creations, a creation succeeds exactly when no schema with that name up to letter case was created before, leaves the other schemas untouched, and the catalog holds exactly the created names, once each, in the first spelling. Every created schema is empty and stays empty, so describe reports an error for every object.", "quantifier": "every sequence of schema creations, every later describe", "why_tests_cant": "unbounded histories", "anchors": ["src/sql/schema.rs: Database::new, create_schema, describe"]}
{"id": "C37", "title": "Storage locations pack losslessly", "statement": "For every volume index and every offset below 2^56 the location built from them returns exactly this index and offset, different pairs give different locations, and larger offsets are rejected.", "quantifier": "every 8-bit index and every 64-bit offset", "why_tests_cant": "2^64 values", "anchors": ["src/storage/mod.rs: Location::new, index, offset"]}
{"id": "C38", "title": "Buffer lists behave as sequences", "statement": "push_front, push_back and remove on the intrusive buffer lists behave as the corresponding operations on sequences without duplicates, in both traversal directions, and do not disturb any other list threaded through the same buffers.", "quantifier": "every number of buffers, every set of disjoint lists, every operation history", "why_tests_cant": "pointer structures: unbounded histories and aliasing", "anchors": ["src/storage/mod.rs: BufferListHead, list_push_front, list_push_back, list_remove"]}
{"id": "C39", "title": "Fresh buffer pool", "statement": "With overflow checks no arguments yield a buffer pool: the call panics, or reports that the memory cannot be mapped. Without them a power-of-two buffer size and 1 to 2^32-2 buffers yield a pool in which every buffer is on the available list exactly once, in order, the other lists are empty and nothing is mapped or locked; other arguments panic. The memory may be smaller than all buffers together, as its size is computed modulo 2^64.", "quantifier": "every buffer size and buffer count", "why_tests_cant": "universal over arguments and build profiles", "anchors": ["src/storage/mod.rs: BufferPool::new"]}
{"id": "C40", "title": "Buffer handles are exclusive and counted", "statement": "In every interleaving of accesses, fills, writes, releases, drops and cancellations, the handle count of a buffer equals the number of outstanding handles on it, all outstanding handles of one buffer share one lock, different buffers never share a lock, all handles of one location are on one buffer, two handles have the same page at the same time only for reading, the page of an open handle changes only by writes through it, and the release of an open handle never panics.", "quantifier": "every schedule of any number of tasks", "why_tests_cant": "schedules are unbounded; races are not reproducible in tests", "anchors": ["src/storage/mod.rs: buffer_access, release_read_only, release_read_write, alloc_lock, dealloc_lock"]}
{"id": "C41", "title": "Buffer pool loses writes and aliases pages", "statement": "After the last handle to a buffer is released, its content no longer influences any later observation, whatever the schedule, unless filling the buffer fails: the next access reinitialises or re-reads it, so written data is lost. After a failed fill the old content is seen again. Two different locations can be mapped to the same buffer at the same time, so that one shows what was written to the other. A location keeps its buffer for ever, even if the access panicked, so more locations than buffers have to share.", "quantifier": "every reachable pool state and every schedule from it (first half); reachable histories (second half)", "why_tests_cant": "universal over states and histories", "anchors": ["src/storage/mod.rs: buffer_access, access_read_only, access_initialize"]}
{"id": "C42", "title": "Release races with a new access", "statement": "There is a schedule in which a release has returned its lock to the free pool while still holding it, and a concurrent access takes that lock and panics; without that interleaving an access never panics on a lock from the free pool.", "quantifier": "every schedule", "why_tests_cant": "needs a precise interleaving", "anchors": ["src/storage/mod.rs: BufferReadOnlyHandle::release, BufferReadWriteHandle::release, buffer_access"]}
{"id": "C43", "title": "Volume geometry", "statement": "Whenever the sizes of a new volume are computed without overflow, header, file table and mirror occupy disjoint block-aligned regions, the table is the least number of blocks for 16 file headers, and the block counts add up. The allocation bitmap, for block sizes of at least 2, starts inside the mirror and overlaps it; it is block aligned only if the block size divides the number of table blocks. A volume accepted with default parameters can be too small for its own metadata, and the default block size is 8192 instead of 4096.", "quantifier": "every block size and file count", "why_tests_cant": "parameter space is unbounded", "anchors": ["src/storage/mod.rs: VolumeManager::create"]}
{"id": "C44", "title": "Initial allocation bitmap", "statement": "For block sizes from 16 bytes, the bitmap computed by create has a bit for every block, and marks exactly the free blocks if and only if metadata takes less than 128 blocks and the number of blocks is, modulo the bits per bitmap block, 0 or 64 less than them. With metadata of 128 blocks or more the first 128 blocks are marked free; words beyond the end of the volume are marked free.", "quantifier": "every block count and metadata size", "why_tests_cant": "arithmetic over all sizes", "anchors": ["src/storage/mod.rs: VolumeManager::create"]}
{"id": "C45", "title": "Volume identifiers", "statement": "Successive calls to next_volume hand out 0, 1, 2, ... without repetition; the 256th call never hands out an identifier (panic in a debug build, error in a release build).", "quantifier": "every sequence of calls", "why_tests_cant": "histories; wrap-around", "anchors": ["src/storage/mod.rs: VolumeManager::next_volume"]}
{"id": "C46", "title": "Type expressions parse unambiguously", "statement": "Every token sequence has at most one parse as a type; the textual form of every type with identifier labels and non-empty components parses back to that type; trailing commas are accepted in struct and enum bodies and rejected in tuples.", "quantifier": "every token sequence and every type", "why_tests_cant": "unbounded nesting", "anchors": ["src/core/types/parser.lalrpop: Type"]}
{"id": "C47", "title": "SQL column references", "statement": "A set of relations can be put in scope exactly when their names differ up to letter case. An unqualified name denotes a column exactly when it is not the name of a relation in scope and exactly one column of all relations has it; a qualified name denotes the column of that name in the relation of that name.", "quantifier": "every list of relations and every name", "why_tests_cant": "all scopes and names", "anchors": ["src/sql/ast/typing.rs: ScalarContext::add_relation, infer_type"]}
{"id": "C48", "title": "What a query's FROM clause puts in scope", "statement": "A query is accepted exactly when its FROM items resolve, their names differ, the WHERE and HAVING conditions are Logical, the grouping expressions have a type and the select list is accepted in that scope. Tables are known by alias or last name; subqueries contribute columns but no name, so their columns can only appear through *; join operators and join conditions are never examined.", "quantifier": "every query and catalog", "why_tests_cant": "queries nest without bound", "anchors": ["src/sql/ast/typing.rs: SetExpression::infer_type, TableExpression::infer_type"]}
{"id": "C49", "title": "Contexts built from WITH lists", "statement": "A context can be initialised from a list of common table expressions exactly if their names differ and each has a type in the context of the earlier ones; otherwise the first without a type or with the name of an earlier one is reported. Then the name of each denotes the type it has in the context of the earlier ones only; other names keep their catalog meaning; and a schema with the name of a common table expression becomes unreachable.", "quantifier": "every catalog and list of common table expressions", "why_tests_cant": "unbounded lists", "anchors": ["src/sql/ast/typing.rs: SetContext::initialize, define_relation, resolve_table_name"]}
{"id": "C50", "title": "Column lists of common table expressions select, not rename", "statement": "A common table expression with a column list is accepted exactly when its query is and every listed name is a column of the query; the result has the listed columns in list order, each with the type of the first query column of that name. A list of new names, which SQL defines as a renaming, is rejected.", "quantifier": "every query and column list", "why_tests_cant": "arbitrary lists and queries", "anchors": ["src/sql/ast/typing.rs: CommonTableExpression::infer_type"]}
{"id": "C51", "title": "Volume creation cannot succeed", "statement": "VolumeManager::create never returns a volume: it panics or reports an error, because the header is copied into a page of different length; init_file_header always panics for the same reason. The list of volumes stays numbered by position even after a panic. A volume is registered and an identifier used up exactly when the sizes can be computed, the file system agrees and an identifier is left, although the call then panics.", "quantifier": "every parameter set, manager state, build profile and behaviour of the file system and buffer pool", "why_tests_cant": "universal over parameters and environment behaviour", "anchors": ["src/storage/mod.rs: VolumeManager::create, init_file_header", "src/common/mod.rs: any_as_u8_slice"]}
{"id": "C52", "title": "The pool panics instead of waiting", "statement": "An access never waits for a free buffer. When all buffers are in use, the access of a new location panics and leaves the location mapped to a buffer in use. The only other panics are a failed fetch, a lock still held by a release in progress, and (with overflow checks) 2^32 handles on one buffer; list operations and releases never panic. A handle waiting for a lock can always get it or some holder of the lock can take a step.", "quantifier": "every reachable pool state, every event", "why_tests_cant": "schedules are unbounded; exhaustion depends on the history", "anchors": ["src/storage/mod.rs: buffer_access, release_read_only, release_read_write, BufferListHead"]}
{"id": "C53", "title": "The SQL parser is total and accepts exactly its grammar", "statement": "Parsing any text returns a statement or an error: the generated tables and actions never panic, never fail to find an action, and stop after at most 17 steps per word plus 2. The parser accepts a text exactly when its words form a statement of the grammar in parser.lalrpop, and returns the value the grammar gives it; the grammar is unambiguous.", "quantifier": "every text", "why_tests_cant": "unbounded texts; 329 states and 223 reductions in generated tables", "anchors": ["src/sql/parser.lalrpop", "src/sql/parser.rs: __ACTION, __EOF_ACTION, __goto, __reduce*, __action*, SqlStatementParser::parse"]}
{"id": "C54", "title": "The SQL lexer takes the longest word", "statement": "The lexer splits a text into words, skipping white space, taking the longest word at each place and a keyword (in any case, including the Unicode foldings of K and S) rather than an identifier; there is only one such splitting. If it stops, no word starts at the reported place. In particular a small e starts no exponent, two quotes in a string are no escape, <> is two words, and digits may be followed by a name without space.", "quantifier": "every text", "why_tests_cant": "unbounded texts; overlapping patterns", "anchors": ["src/sql/parser.lalrpop: match", "src/sql/parser.rs: __intern_token"]}
{"id": "C55", "title": "Validation of parsed statements returns, with two exceptions", "statement": "If the default schema is registered, validating a parsed statement returns unless the statement has IN with an empty list or a CASE with one WHEN whose result is a row value. Statements with these are accepted by the parser and make validation panic, and so does a table name without registered default schema.", "quantifier": "every text, every catalog", "why_tests_cant": "nested syntax of unbounded depth", "anchors": ["src/sql/parser.lalrpop", "src/sql/ast/typing.rs"]}
{"id": "C56", "title": "The statements that can be written", "statement": "A syntax tree is the result of parsing some text exactly when its names are identifiers and not keywords, its literals are well formed, its lists are not empty where the grammar wants elements, row values have two members or more, and the right side of a set operation is not one itself. For each of these, a text with parentheses only where precedence (OR, AND, NOT, comparison, + - ||, * /, sign) or left association asks for them is parsed back to it.", "quantifier": "every syntax tree", "why_tests_cant": "trees of unbounded depth; all combinations of operators", "anchors": ["src/sql/parser.lalrpop", "src/sql/ast/mod.rs"]}
{"id": "C57", "title": "What parsing forgets", "statement": "Texts whose words differ only in the letters of keywords are parsed alike. WITH before INSERT, DELETE or UPDATE is dropped, so the statement refers to tables of these names instead. EXPLAIN QUERY PLAN is EXPLAIN. LIMIT a, b limits to a rows after b, the reverse of the usual meaning of the comma.", "quantifier": "every statement and every text of it", "why_tests_cant": "unbounded statements", "anchors": ["src/sql/parser.lalrpop: Statement, SqlStatement, LimitClause"]}
{"id": "C58", "title": "Parse errors are exact", "statement": "UnrecognizedToken names the first word such that no statement starts with the words up to it; UnrecognizedEOF is returned exactly for texts whose words start some statement but are none; InvalidToken gives the first place where no word starts, and only if the words before it start some statement; ExtraToken is never returned.", "quantifier": "every text", "why_tests_cant": "quantifies over all continuations of a text", "anchors": ["src/sql/parser.rs: __ACTION, __EOF_ACTION"]}
{"id": "C59", "title": "The type parser is total, accepts exactly its grammar and reports exact errors", "statement": "Parsing any text as a type returns a type or an error. It returns a type exactly when the words of the text, read longest first with keywords before identifiers, form a type of the grammar, and then the type the grammar gives. UnrecognizedToken names the first word such that no type starts with the words up to it; UnrecognizedEOF is returned exactly for texts whose words start some type but are none; InvalidToken gives the first place where no word starts, if the words before it start some type; ExtraToken is never returned.", "quantifier": "every text", "why_tests_cant": "unbounded texts, and all continuations of a text", "anchors": ["src/core/types/parser.lalrpop"]}
{"id": "C60", "title": "The types that can be written", "statement": "A type is the result of parsing some text exactly when every tuple, struct and enum in it has a component and every label in it is an ASCII identifier that is not a keyword. Repeated labels are allowed.", "quantifier": "every type", "why_tests_cant": "quantifies over all texts and all types", "anchors": ["src/core/types/parser.lalrpop: FieldList, CaseList, TypeList"]}
{"id": "C61", "title": "Parsed types have named elements and carry JSON unless a label is repeated", "statement": "If a type read from text has no repeated label among siblings, every element has a qualified name resolving to its path, and every value whose characters and floats JSON can carry, with fewer than 64 fields in each struct, survives encoding to JSON and decoding. The later of two siblings with the same label has no name, and a struct with a repeated label is accepted by the parser and the JSON encoder while the decoder rejects the text.", "quantifier": "every text of a type, every path, every value", "why_tests_cant": "unbounded types and values", "anchors": ["src/core/types/parser.lalrpop", "src/core/types/mod.rs: Type::resolve_qualified_name", "src/core/json/decoder.rs"]}
{"id": "C62", "title": "The tokens a parse error says it expected", "statement": "The list of expected tokens in an error of the SQL parser is ordered, without repetition, and does not contain the refused token. At the start of the text and after each of 54 words (those that cannot end a phrase, such as FROM, WHERE, a comma or an operator) it contains exactly the tokens that can come next in some statement. Elsewhere it need not: it can consist of tokens none of which may come next, and it can be empty although some may.", "quantifier": "every text", "why_tests_cant": "whether a token may come next depends on all statements", "anchors": ["src/sql/parser.rs: __expected_tokens", "src/sql/parser.rs: __ACTION"]}
{"id": "C63", "title": "Validation accepts exactly the statements the typing rules allow", "statement": "There is a set of typing rules for expressions, queries, FROM items, common table expressions, VALUES lists, select lists and statements, stated without any inference function, over a catalog relation between table names and columns. In a database whose schemas and objects have distinct names, whatever validation accepts is within the rules. If moreover the default schema exists and the statement has no empty IN list, VALUES list or CASE and no CASE with a row value as its only result, validation accepts exactly the statements within the rules and returns an error for all others; the inferred type of an expression and the inferred columns of a query are the ones the rules give, and the rules give only one. Without the last condition a statement within the rules can make validation panic.", "quantifier": "every database, default schema, statement, expression, scope and query", "why_tests_cant": "unbounded statements; acceptance and refusal must both be exact", "anchors": ["src/sql/ast/typing.rs", "src/sql/ast/mod.rs"]}
{"id": "C64", "title": "Headers and timestamps of volumes", "statement": "Creating a volume puts the header into the first page with every field at its place (magic number, version, identifier, volume size, file table offset, the two logarithms), provided the page had the 48 bytes of the header, and panics without a buffer pool. The bytes of a file header hold its fields in order. A timestamp holds the seconds and the upper 16 bits of the nanoseconds and never decreases with time; but the assertion before it tests two bits in the middle of the nanoseconds, so it panics for three quarters of all times.", "quantifier": "every parameter set, manager state, time and environment", "why_tests_cant": "depends on the clock and on page sizes no test uses", "anchors": ["src/storage/mod.rs: VolumeHeader, FileHeader, VolumeManager::create, init_file_header"]}
{"id": "C65", "title": "Records on pages", "statement": "If every row put on a page by a legal history of appends, inserts and removals is the encoding of a value of one type (from any source, into any buffer), the page shows the plain list of values: it reports their number, row i read through the marshaller presents the i-th value and has the length the record itself reports, its JSON is that of the value, and reading beyond the end panics. Rows start at multiples of the row alignment, so if this is a multiple of the alignment of the layout all fixed-size fields are aligned. A record that takes space can be stored exactly when its predicted size is at most the reported capacity; for records of size 0 the comparison is not enough.", "quantifier": "every type (without the enum sizes of C14), page, alignment, history and value", "why_tests_cant": "histories and values are unbounded, padding bytes are arbitrary", "anchors": ["src/core/nsm.rs", "src/core/marshaller.rs"]}
{"id": "C66", "title": "The case of letters in names does not matter", "statement": "Two statements that differ only in the case of letters in names (schemas, tables, columns, aliases, common table expressions) get the same answer from validation, whatever the spelling in the database and of the default schema; the columns inferred for such queries agree in number, order, type and nullability, and their names up to case, including generated names. Holds for every table of upper case letters, also one that maps a letter to several.", "quantifier": "every statement, query, database, default schema and upper-case table", "why_tests_cant": "a relation between pairs of unbounded statements", "anchors": ["src/sql/symbols.rs", "src/sql/ast/typing.rs"]}
{"id": "C67", "title": "Validation depends only on the tables mentioned", "statement": "The answer of validation to a statement is determined by the columns of the tables that occur in it (outside the conditions of joins): two databases, default schemas and sets of defined relations that resolve these table names alike give the same answer. In particular creating a schema that is neither the default one nor named in the statement changes nothing.", "quantifier": "every statement and pair of contexts", "why_tests_cant": "a relation between pairs of unbounded databases", "anchors": ["src/sql/ast/typing.rs", "src/sql/schema.rs"]}
{"id": "C68", "title": "Marks of written buffers", "statement": "In every state that occurs a buffer is marked dirty exactly if some handle that may write was released on it, and no buffer is marked as submitted. The mark is never taken back. When the last handle on a buffer is released, the buffer becomes the head of the dirty list if it is marked and of the list of available buffers otherwise. A handle that wrote and was dropped without release leaves no mark.", "quantifier": "every schedule of any number of tasks", "why_tests_cant": "all interleavings of unboundedly many operations", "anchors": ["src/storage/mod.rs: BufferPool::release_read_only, release_read_write, list_push_front"]}
{"id": "C69", "title": "JSON encoding to a writer", "statement": "If the writer never takes only a part of a buffer, encoding that returns Ok has written exactly the JSON of the value and encoding that returns an error has written a beginning of it. The same holds for every writer if the type has no characters, strings or labels; then interrupted writes are also repeated. For every writer and type, what was written by a successful encoding is the JSON except that last bytes of characters between quotes may be missing, and an error is one that the writer reported. A writer that always takes at least one byte never makes encoding fail. Success does not mean that the JSON was written: it can be the JSON of another value; and an interrupted write inside a text makes encoding fail.", "quantifier": "every type, source, writer behaviour and way of formatting numbers piecewise", "why_tests_cant": "tests write to a vector, which takes everything", "anchors": ["src/core/json/encoder.rs: write_ch, emit_utf8_string, JsonEncoder::encode"]}
{"id": "C70", "title": "Positions in JSON texts", "statement": "After any calls of next, successful or not, the two positions that the JSON tokenizer remembers lie between characters of the input, in order, and value is the decoded string or the piece of the input between them; so value never panics. The look-ahead character is the one at the current position, the text of a number ends at the current position, and results, tokens and values are those of the model that works on characters.", "quantifier": "every input text, table of alphanumeric characters and number of calls", "why_tests_cant": "tests use few non-ASCII inputs; slicing inside a character panics", "anchors": ["src/core/json/tokenizer.rs: Tokenizer::next, value, mark_start, mark_end, current_pos"]}
{"id": "C71", "title": "Byte positions of parse errors", "statement": "An error of the SQL parser or of the type parser is at the byte position where the text goes wrong. An unrecognized word is the first word that cannot follow the words before it, and its two positions are the numbers of bytes before it and up to its end. An unexpected end is reported at the end of the last word, or at 0 if there is none. An invalid token is reported at the first character that belongs to no word, if the words before it can begin a correct text. There is only one such place and the parser reports it. Asking the lexer for one token at a time gives the same results (for SQL also the same lists of expected words) as splitting the text first, and cutting the text at byte positions never panics.", "quantifier": "every text", "why_tests_cant": "tests only look at whether parsing fails; positions differ from character counts only in texts that are not ASCII", "anchors": ["src/sql/parser.rs: SqlStatementParser::parse, __token_to_integer, start_location", "src/core/types/parser.lalrpop", "lalrpop_util: Matcher::next, Parser::parse, next_token, parse_eof"]}
{"id": "C72", "title": "The exact bytes of an encoded record", "statement": "The bytes of an encoded record follow these rules and nothing else. The fixed part has no holes before its final padding: fields are ordered by width, widest first; among equal widths values and string lengths come in the order of the type, then the containers of enum tags. Tags are taken longest first (ties in the order of the type); each goes into the first container with room for it, right after the tags there, or into a new container of the smallest unsigned width that is large enough. The fixed part is padded to the largest alignment of the variable parts, which follow one after the other, most aligned first, ties in the order of the type. Numbers are stored in two's complement, lowest bit first. A record is aligned for its widest field and most aligned part, and its size is rounded up to that. Padding, unused bits and bytes after the record keep what the buffer had, so encoding is not canonical; for a given buffer the rules determine every byte.", "quantifier": "every type with a layout, every source, every buffer, nested payloads at every depth", "why_tests_cant": "round-trip tests pass for any format that the same code can read back; the offsets of all types, packings and orders cannot be listed", "anchors": ["src/core/marshaller.rs: unroll_type, allocate_bitfields, calculate_layout, encode_with_source", "src/core/util.rs: align"]}
{"id": "C73", "title": "The JSON decoder accepts exactly the documents of the type", "statement": "For a type whose structs all have fewer than 64 fields, decoding a text succeeds with a value just if the text begins with a document for that value and what follows begins with a symbol or is blank. A document is: null for the unit, true and false for booleans, a string of one character for a character, a number or a string holding a numeral in range for an integer (a float likewise, by the parser of the platform), a string for a string, a bracketed list for a tuple, an object with exactly the fields in any order for a struct, an object with the members kind and value in this order for an enum, where of equal labels the last counts. White space may stand before every symbol and nothing else. A struct with equal labels has no documents. A text begins with at most one document of a type.", "quantifier": "every type, every text, every document of any depth and length, both build profiles", "why_tests_cant": "tests try some accepted and some rejected texts; that no other text is accepted and none of the language rejected ranges over all texts and types", "anchors": ["src/core/json/decoder.rs: parser_for_type, parse, must_be", "src/core/json/tokenizer.rs: next, match_keyword, match_string, match_number"]}
{"id": "C74", "title": "Accepted queries give tables of the reported columns", "statement": "Run a query that type inference accepts by a reference evaluator on any data that conform to the catalog. The query must not use r.*, `*` over NATURAL or USING joins, tables of WITH in FROM or IN, or IS NULL in typed positions; tables must not repeat a column name. Then the result is a table with as many columns as reported, every value has the reported data type, or the query fails for a reason that depends on the data (arithmetic, a scalar subquery with several rows), or it hits an error in a part that inference leaves unchecked: a CASE guard, a join condition, USING columns, the column names of WITH, VALUES rows or set operands of different width. Without such parts the last cannot happen. If moreover there are no outer joins, scalar subqueries, IN and row values outside of conditions, columns reported not null contain no NULL. Without the restrictions this fails: r.* is reported in another column order, IS NULL with the type of its operand, `*` counts the columns that NATURAL or USING makes one twice, a table of WITH that has the name of a stored table is checked as the stored one, and outer joins, empty scalar subqueries and IN give NULL where none is reported.", "quantifier": "every catalog, query, conforming data, and every choice of the data types' operations, of row equality and of the arrangement that ORDER BY gives", "why_tests_cant": "there is no executor to test against, and soundness is a statement about all queries on all data; the defects hide in combinations of constructs", "anchors": ["src/sql/ast/typing.rs:242-655", "src/sql/ast/typing.rs:926-1247", "src/sql/ast/typing.rs:1336-1359"]}
{"id": "C75", "title": "Accepted statements keep the data conforming to the columns", "statement": "Execute an INSERT that names its columns, an UPDATE or a DELETE that validation accepts, under the conditions of the previous property, on data that conform to the catalog. If it succeeds, all rows of its table again have the types of the columns and no NULL in a column that is not nullable; it never ends in a type error in a checked part. So any sequence of accepted statements keeps all tables conforming. It fails for an INSERT without column list, which is checked by the names of the source's columns instead of their positions, and for assignments from scalar subqueries, which can be NULL.", "quantifier": "every catalog, conforming data and finite sequence of statements", "why_tests_cant": "there is no executor, and the claim is about all data and all sequences of statements", "anchors": ["src/sql/ast/typing.rs:1363-1443", "src/sql/ast/typing.rs:1447-1511", "src/sql/ast/typing.rs:1515-1538"]}
{"id": "C76", "title": "Buffers in the memory of the pool", "statement": "As long as the size of all buffers together fits 64 bits, the slices of the buffers lie in the mapped memory and apart from one another, no schedule of accesses, writes and releases leaves the memory, and after every schedule each slice holds exactly the page of its buffer. If the size wraps, two buffers can be the same memory and others lie outside of it. A slice kept after the release of its handle shows what others write.", "quantifier": "every buffer size and count, every schedule, page content and backing store", "why_tests_cant": "all interleavings; sizes beyond the memory of a test machine", "anchors": ["src/storage/mod.rs: BufferPool::new, writable_slice, readable_slice, buffer_ref, buffer_mut"]}
{"id": "C77", "title": "Dump and load between JSON and pages", "statement": "Load JSON documents into a page: decode each by a schema read from text, encode it as a record, append the record. The bytes of the page depend only on the values, not on the spelling of the documents. Dump the page: read each row through the marshaller and encode it as JSON. Loading the dump into the same fresh page gives the same page, byte by byte. The dump of any page of records, whatever its history and the padding in its records, fits into every fresh page of the same size and is dumped from there unchanged. This holds for values that JSON keeps, schemas without repeated labels and with fewer than 64 fields per struct, and records that are not empty; it fails for a string with a control character.", "quantifier": "every schema text, list of documents, page content, size and alignment, and every legal history of a page", "why_tests_cant": "five components in a row (schema parser, JSON decoder, encoder, page, JSON encoder) over all values; a disagreement between two of them may need one schema, one value and one page size", "anchors": ["src/core/json/decoder.rs", "src/core/json/encoder.rs", "src/core/marshaller.rs", "src/core/nsm.rs", "src/core/types/parser.lalrpop"]}
{"id": "C78", "title": "The case of letters in SQL texts", "statement": "Two texts whose words agree up to the case of names and the spelling of keywords are parsed to the same statement up to the case of names, and the two statements are accepted, refused or answered by a panic alike by validation; or both texts are refused with the same kind of error, at the word with the same number. The case of letters in the database and in the name of the default schema does not matter either. At the level of characters this fails next to a number: 1E5 is a number, 1e5 is a number followed by a name.", "quantifier": "every pair of texts, every database and default schema, every table of upper case letters", "why_tests_cant": "the property relates all pairs of texts through lexer, parser and validation; one production that keeps or compares the spelling of a word breaks it for statements with that production only", "anchors": ["src/sql/parser.lalrpop", "src/sql/ast/typing.rs", "src/sql/symbols.rs"]}
{"id": "C79", "title": "Error messages of SQL validation", "statement": "If validation reports an error then what the message says is so: the statement is wrong in that way, in that place, and everything that is looked at before is right. A statement against the typing rules has exactly one such message in a database that has the default schema, and it is the one reported. The validation with messages accepts, refuses and panics exactly as the one without. The text of a message determines what was wrong and all names in it, unless a name has an apostrophe in it. One message misleads: a column given twice in an INSERT is reported as not defined in the table.", "quantifier": "every statement, database, default schema and table of upper case letters", "why_tests_cant": "there are more than forty messages and every pair of faults in one statement must be reported in the right order; tests look at single messages for single faults", "anchors": ["src/sql/ast/typing.rs"]}
{"id": "C80", "title": "Error messages of the JSON decoder", "statement": "The JSON decoder reports an error just if the text, read from left to right as a document of the type, goes wrong first in the way the message says, or if the document is complete and what follows is not readable as a symbol. A text has at most one such fault, and it has one just if it is not accepted (escapes for surrogates aside, which panic). The tokenizer reports each of its errors exactly for the texts that are unreadable in that way. The text of a message determines the kind of fault and the name in it. One fault is reported late: a text that should be a single character is only refused after the next symbol has been read, and an error of that symbol replaces the message.", "quantifier": "every text, every type with fewer than 64 fields per struct, every table of alphanumeric characters and every float parser, both build profiles", "why_tests_cant": "thirty messages in a recursive reader; every pair of faults in nested documents must be reported in the right order, and every unreadable text must be reported with the right reason", "anchors": ["src/core/json/decoder.rs", "src/core/json/tokenizer.rs"]}
{"id": "C81", "title": "Handles come to an end", "statement": "Without new calls every schedule of the buffer pool stops after at most three steps for each handle under way, and where no handle can go on all are closed, dropped or failed; from every state that occurs this end can be reached without a panic other than of a fetch. When all handles are closed every access succeeds. A handle dropped without release, or whose page was not filled, keeps its buffer in use for ever. An access can panic for want of a buffer although one is not in use.", "quantifier": "every state of the pool that occurs and every schedule from it", "why_tests_cant": "freedom from deadlock is about all interleavings", "anchors": ["src/storage/mod.rs: access_read_only, access_read_write, access_initialize, buffer_access, release_read_only, release_read_write"]}
{"id": "C82", "title": "The bytes of a page", "statement": "After any legal history a page is, byte for byte: the number of rows, one slot per row (offset of the row plus length of its padding), the free bytes, and the rows with their padding, the first row last. Paddings and free bytes are exactly what the operations leave: appended and inserted rows keep as padding whatever was in their place, moved rows leave their old bytes, a removed row is not erased (removing the last row changes the count only). Any page of this form, however made, shows its rows and is turned by every operation within its capacity into the page of this form that the byte-level reading of the operation says. The rows determine the count, the slots and the place of every row, but not the other bytes.", "quantifier": "every page size and alignment, every initial content of the page, every legal history, every page of the form", "why_tests_cant": "unit tests compare a few pages; the claim fixes every byte, including the ones no read function shows, after every history", "anchors": ["src/core/nsm.rs: initialize_page, append_row, insert_row, remove_row, set_row_offset, get_row"]}
{"id": "C83", "title": "What NOT NULL changes", "statement": "Take two databases whose tables have the same columns up to nullability. If columns become nullable (NOT NULL dropped), every accepted query and DELETE whose LIMIT and OFFSET expressions mention no table stays accepted, and a query keeps its columns with their names and types, each at least as nullable. If columns become not null (NOT NULL added), every accepted query and DELETE without IN stays accepted, each column at most as nullable. An INSERT stays accepted if columns of its target become nullable and columns of the tables it reads become not null, an UPDATE if its target is unchanged and columns of the tables it reads become not null, both without IN. The conditions are needed: a LIMIT with a subquery is refused once the column is nullable, an IN is refused once its operand is not null (defect of C34), an UPDATE from a column made nullable is refused.", "quantifier": "every pair of databases so related, every statement (safe CASE guards, as in C31)", "why_tests_cant": "the claim compares the verdicts on all statements over all pairs of schemas", "anchors": ["src/sql/ast/typing.rs: infer_type, validate_type, is_compatible"]}
{"id": "C84", "title": "Records found in bytes", "statement": "Take any bytes, whoever wrote them, and any type whose tags fit. If the encoding size computed from the bytes lies within them and the marshaller answers every question about them with a value v, then v is a value of the type, the size is the one predicted for v, and encoding v over the bytes from any source changes none of them; so the readable byte strings are exactly those encoding leaves behind. Computing the size checks the bytes: if it ends within them then either there is such a value, and only one, or some bool or char of the type holds bytes that are no value of it and reading it is undefined; without bool and char there always is one. The getters by themselves check nothing: a tag without a case and a length beyond the end are returned as they are (the bytes of such a string are then an undefined read), and a record whose final padding is cut off is readable although its size cannot be computed.", "quantifier": "every type, both build profiles, every byte string", "why_tests_cant": "all byte strings of all types, including the corrupt ones", "anchors": ["src/core/marshaller.rs: encoding_size, variable_field_offset, encode_with_source, get_primitive, get_bytes, get_case_tag, get_length"]}
{"id": "C85", "title": "Pages found in bytes", "statement": "Take any bytes, whoever wrote them. Reading a row of them as a page returns the bytes its slot and the slot before it point at if slot and row lie on the page, and panics otherwise; it never reads outside. If the size is a legal one, the bytes are a page some history of the interface leads to exactly when every row they count can be read and the slot table ends no later than the last row starts; filling an initialised page with the rows in order then gives the same bytes again. If every row can be read, no operation touches memory outside the page, and appending never does whatever the bytes. Nothing in the code checks this: with a slot that points behind the page removing and inserting a row copy memory outside it (undefined), and with a row that runs into the slot table, though readable, removing another row changes it.", "quantifier": "every byte string, every alignment that is a power of two, every row index and operation", "why_tests_cant": "all byte strings including the corrupt ones, and existence of a history for each sound one", "anchors": ["src/core/nsm.rs: get_row, num_rows, aligned_row_offset, row_offset_padding, append_row, insert_row, remove_row, max_insert_row_size"]}
{"id": "C86", "title": "Statements written in another way", "statement": "Rewriting a statement by common laws, anywhere inside of it, does not change what validation answers, nor the names, types and nullability of a query's columns: BETWEEN as two comparisons, comparisons turned around or under NOT, De Morgan, subtraction as addition of the negated number, commuting, regrouping and distributing operators, the order in IN lists, in WITH, in GROUP BY and (when the columns are listed) in FROM, commas as cross joins and the grouping of cross joins. Other rewritings that should be harmless are not: `x = 1` is accepted but `x IN (1)` is not, ELSE NULL is refused where no ELSE is accepted, CASE x WHEN y is checked differently from CASE WHEN x = y, a table in FROM cannot be replaced by a subquery that selects all of it, and set operations of different width cannot be regrouped.", "quantifier": "every catalog, statement without empty lists and row valued CASE, and every sequence of rewritings at any places", "why_tests_cant": "the rewritings can be applied at every place of every statement and in any number; tests compare a few pairs", "anchors": ["src/sql/ast/typing.rs:242-655", "src/sql/ast/typing.rs:926-1247", "src/sql/ast/typing.rs:1336-1538"]}
{"id": "C87", "title": "Changing the type of stored records", "statement": "If a type is changed by renaming fields and cases and by adding cases at the end of enums, at any depth, such that no tag gets more bits and no new case needs a larger alignment than the old cases of its enum, then stored records need not be converted: every value of the old type is written as the same bytes and size with either type, whatever the old type reads from any bytes the new one reads as well, and records of the new type that use no new case are records of the old type. The alignment of a record is determined by the type: the greatest of the sizes of its primitives, 4 for strings, and the sizes of the tags, nested cases included. A struct is stored like the tuple of its fields. Other changes do move bytes: a longer tag makes old records read as other values, a wider case makes them unreadable, and a field added at the end of a struct is not placed at the end.", "quantifier": "every pair of types related in this way, every source, buffer, byte string and value", "why_tests_cant": "tests encode and decode with the same type; compatibility is about two layouts that are computed separately, with sorting and packing that look at the whole type", "anchors": ["src/core/marshaller.rs:107-118", "src/core/marshaller.rs:127-202", "src/core/marshaller.rs:204-381", "src/core/marshaller.rs:409-512", "src/core/marshaller.rs:705-923"]}
{"id": "C88", "title": "The data source holds what it was told last, and after decoding the value alone", "statement": "A data source, filled and cleared by any sequence of calls, answers for a path with the last thing added there since the last clear if that is of the requested kind (and primitive type), and panics otherwise; the map ordered by paths and a list of insertions cannot be told apart. After a successful JSON decode the source has an answer at exactly the places of the decoded value (primitives, strings and case tags): nothing of its former contents is left. The former contents influence nothing once the first symbol was read and stay as they are if it cannot be read. A failed decode may leave part of a value.", "quantifier": "every sequence of calls, every path; every type whose structs have fewer than 64 fields, every input and former contents", "why_tests_cant": "tests use fresh sources and look up the paths they have added; stale or additional entries show only at other paths and after other histories", "anchors": ["src/core/data_source.rs:66-142", "src/core/types/mod.rs:261-274", "src/core/json/decoder.rs:83-516", "src/core/json/decoder.rs:518-538"]}
{"id": "C89", "title": "Tables found in bytes", "statement": "A byte string of a legal page size in which every row can be read, each row has the size that its own contents say, the marshaller presents a value of the type for each row and the slots end before the rows, is exactly a page that could have been filled by storing encoded records of these values, whoever wrote it. The bytes determine the values. For types without bool and char the sizes alone decide this (with them they do not). Such a page can be used like one of the program's own: a value is appended just if its predicted size is at most the reported capacity, any row can be removed, the other values stay; its JSON texts fill a fresh page with the same values; and it is a table, with the same values, of every extension of its type.", "quantifier": "every type within the limits of the marshaller, every alignment, every byte string, every list of values, both build profiles", "why_tests_cant": "tests read pages they have written; pages from disk are arbitrary bytes, and the claim joins the page format, the record format and the change of types", "anchors": ["src/core/nsm.rs:64-73", "src/core/nsm.rs:75-96", "src/core/nsm.rs:170-187", "src/core/marshaller.rs:409-490", "src/core/marshaller.rs:492-666", "src/core/marshaller.rs:705-923"]}
{"id": "C90", "title": "Adding columns to tables", "statement": "When columns are added to tables of the catalog, at any place, a statement that uses no wildcard (* or t.*), no table as the set of an IN, and no column of one of the new names gets the same answer as before: a query the same columns, or the same refusal; UPDATE, DELETE, DESCRIBE and EXPLAIN likewise. An INSERT with a list of columns gets the same answer if the added columns are nullable and new to their table; then any accepted INSERT stays accepted. Each condition is needed: a wildcard shows the new column, an unqualified name can become ambiguous, a table of two columns is no set, a NOT NULL column refuses the INSERT.", "quantifier": "every case mapping, every pair of databases so related, every default schema, every list of new names, every statement", "why_tests_cant": "tests validate statements against one schema; the claim relates every statement's answers under two schemas, and one name can clash in any subquery", "anchors": ["src/sql/ast/typing.rs:151-201", "src/sql/ast/typing.rs:203-239", "src/sql/ast/typing.rs:856-903", "src/sql/ast/typing.rs:1202-1247", "src/sql/ast/typing.rs:1363-1443", "src/sql/ast/typing.rs:1447-1511"]}
{"id": "C91", "title": "Names matter only through their equality", "statement": "If every name in the catalog, in the default schema and in a statement is replaced, different names by different ones and names that differ only in case by names that differ only in case, the answer of validation does not change, and the columns of a query keep their types and nullability in order. In particular any two names can be exchanged, and aliases (names the catalog does not have) in the statement alone. This holds for statements without WITH, without t.*, and with a list of columns in INSERT. Each condition is needed: t.* lists columns in the order of their names, so renaming columns can make a UNION fail; a column without AS is named col, so a WITH column list or an INSERT without a list accepts one name and refuses another.", "quantifier": "every case mapping, every renaming, every database, every default schema, every statement of that form", "why_tests_cant": "tests validate a statement under one choice of names; the claim relates all choices, and the order of names enters through sorted maps only in some paths", "anchors": ["src/sql/symbols.rs:59-67", "src/sql/ast/typing.rs:151-201", "src/sql/ast/typing.rs:856-903", "src/sql/ast/typing.rs:1093-1112", "src/sql/ast/typing.rs:1141-1159", "src/sql/ast/typing.rs:1363-1443", "src/sql/ast/typing.rs:1447-1511"]}
{"id": "C92", "title": "The catalog written and read with serde", "statement": "A catalog (schemata, tables, views, columns) written by any format that can write it is read back unchanged, whether the format gives the names of fields and variants or only their order. A format that takes only strings as keys of maps, as JSON does, can write only the catalog without schemata, because the keys are structs. Any document that is read gives a catalog in the order of its names; of entries whose names differ only in case the last one counts; a struct is read exactly if each field is given once, in any order, and other members are ignored. The parameters of a volume are read back when they fit their integer types, and what is read always fits. What is read is not checked further: a schema can be filed under another name than its own.", "quantifier": "every catalog, every case mapping, every document, every format of the four kinds", "why_tests_cant": "there are no tests of it at all, and the failure with string keys appears only once a schema exists", "anchors": ["src/sql/schema.rs:30-33", "src/sql/schema.rs:97-104", "src/sql/schema.rs:116-165", "src/sql/schema.rs:205-218", "src/sql/symbols.rs:26-29", "src/sql/types.rs:26-51", "src/storage/mod.rs:188-199"]}
{"id": "C93", "title": "Changing one number of an encoded record in place", "statement": "If one number of a value is changed, the record of the new value over the same buffer has the same size and is the old record with the bytes of that number, and no others, replaced; so writing those bytes into an existing record is a correct update and the marshaller reads the changed value back. For a number that is not in the payload of an enum the place is the offset its layout has for it, the same in every record of the type. For a number in a payload there is in general no such offset: the place depends on the parts before it.", "quantifier": "every type with a layout and storable tags, every value, every path to a number, every new number in range, every buffer that is large enough", "why_tests_cant": "that nothing else in the record moves or changes is a statement about all bytes of all records", "anchors": ["src/core/marshaller.rs:514-702", "src/core/marshaller.rs: calculate_layout, encode_with_source"]}
{"id": "C94", "title": "Replacing a row of a page, and changing a number of a stored record", "statement": "Removing a row and inserting another at the same place succeeds whenever the new row is not longer than the old one with its padding, even on a full page. If both take the same space, no byte of the page changes but those of the row, its padding and its slot; with equal lengths the slot stays, and if the row is the last one or needs no padding then nothing but the row changes. So a number of a record on a page is changed by rewriting its bytes only, apart from the padding of the row. The padding is not kept in general: putting back the row that was removed can leave a different page, with bytes of other rows in the padding.", "quantifier": "every page reached by a legal history, every row, every replacement; every type with a layout and storable tags, every list of stored values, every number of every value", "why_tests_cant": "that no other byte of the page changes is a statement about all pages, rows and alignments", "anchors": ["src/core/nsm.rs:98-137", "src/core/nsm.rs:139-168", "src/core/marshaller.rs:514-667"]}
{"id": "C95", "title": "The files, the mirror and the bitmap of a new volume", "statement": "The 16 reserved files of a new volume have the indices 0 to 15, different names of at most 255 bytes, and just as many blocks as hold them. No block is given to two of them except that, in every non-empty volume with blocks of two bytes or more, the allocation bitmap is given blocks of the file table mirror. With pages of the size of a block, the mirror becomes a copy of the file table and the pages of the bitmap hold its bits in order, and no other page changes; with smaller pages the bitmap is written beyond the end of a page, which nothing checks. Writing the attributes of a file header never succeeds, since the name is copied into all that is left of the buffer; hence create never returns a volume, whatever the size of the pages.", "quantifier": "every parameter set whose sizes can be computed, every content of the pages, every build profile, every behaviour of the file system and buffer pool", "why_tests_cant": "parameters, page contents and environment are unbounded, and the code after the first panic is never reached by a test", "anchors": ["src/storage/mod.rs:257-347", "src/storage/mod.rs:477-605"]}
{"id": "C96", "title": "White space in SQL texts", "statement": "White space, of any kind and length, can be put in wherever a word of an SQL text ends, without changing whether the text is accepted and what statement it denotes; it can be taken away at the ends of the text and next to other white space, a quote, a parenthesis, a star, a comma or a slash; and a text means what its words mean when any non-empty white space stands after each. Next to a plus sign it cannot always be taken away, since the exponent of a number may follow; and there are no comments, two minus signs being two operators.", "quantifier": "every text, every place in it, every white space", "why_tests_cant": "texts, places and white space are unbounded, and the longest match of the lexer depends on all characters after the place", "anchors": ["src/sql/parser.lalrpop:28-134", "src/sql/parser.rs"]}
{"id": "C97", "title": "JSON documents cut short and joined", "statement": "For every type other than a number, a document that is cut short anywhere is never accepted by the decoder, not even with another value; documents written one after the other with nothing between them can be divided into documents in one way only, with one list of values; and a document of a string, character, tuple, struct or enum stays one with the same value whatever is written behind it. A numeral that is cut short can be accepted, with another value.", "quantifier": "every type, every document of it with any white space, order of members and spelling, every place of the cut, every former content of the data source", "why_tests_cant": "types, documents and places are unbounded", "anchors": ["src/core/json/decoder.rs", "src/core/json/tokenizer.rs"]}
{"id": "C98", "title": "Values put into a statement", "statement": "Two SQL texts whose words differ only in the contents of strings and numerals are both accepted or both refused, and their statements then differ in those contents only, in every place and in no other. In particular a string without quotes and control characters put in for a marker leaves the rest of the statement as it was, whatever it says. Validation gives the same answer for such statements, and a query the same columns. A value that has a quote can change the statement; there is no way of writing a quote inside a string.", "quantifier": "all texts, all contents, all places, all catalogs and contexts, every mapping of upper case", "why_tests_cant": "texts and values are unbounded", "anchors": ["src/sql/parser.lalrpop", "src/sql/ast/typing.rs"]}
{"id": "C99", "title": "The JSON texts of RFC 8259", "statement": "Of the texts of RFC 8259 that write no character as a pair of escapes, the decoder accepts exactly those that mean a value of the type, and stores this value. What the encoder writes for a value that JSON can carry is such a text and means this value, given that floats are written as numbers of the standard; a string is written as a text of the standard exactly if it has none of the characters that are not read back. Pairs of escapes make the decoder panic; it accepts texts that are none of the standard; the order of the members of an enum matters to it, and 1.0 is not the integer 1; a float that is no number is written as a text that is none of the standard.", "quantifier": "every type with structs of fewer than 64 fields, every text of the standard, every value, every former content of the data source", "why_tests_cant": "texts, types and values are unbounded", "anchors": ["src/core/json/decoder.rs", "src/core/json/tokenizer.rs", "src/core/json/encoder.rs"]}
{"id": "C100", "title": "Parts of SQL statements", "statement": "Any part of a statement can be exchanged for any phrase of the same kind: the text is still accepted, and its statement depends on the value of the part only. Parentheses around an expression that is a part of a statement change nothing, and parentheses around what is of the kind the place asks for can be taken away; parentheses around words that are no part can change the statement. A text that ends with an optional part has a beginning that is accepted as the statement without it; so every text that deletes or updates some rows has a beginning that does it to all rows.", "quantifier": "every text, every derivation of its words, every part of it, every other phrase", "why_tests_cant": "statements nest without bound, and a part can be any of them", "anchors": ["src/sql/parser.lalrpop", "src/sql/parser.rs"]}
{"id": "C101", "title": "White space in type texts, and type texts cut short", "statement": "In the text of a type, white space can be put in wherever a word ends, can be taken away next to other white space and to parentheses, commas, colons and braces, and can be left out altogether if the text is accepted; the type stays the same. If a text and a beginning of it are both accepted, they differ in white space at the end only and mean the same type; so a text that is cut short is refused.", "quantifier": "every text, every place in it, every amount of white space", "why_tests_cant": "texts nest without bound and can be cut anywhere", "anchors": ["src/core/types/parser.lalrpop", "src/core/types/mod.rs"]}
{"id": "C102", "title": "JSON texts read and written again", "statement": "Provided that its floats are read back from their texts and that the labels of the type are not repeated and consist of characters JSON texts carry, a value survives being written as JSON and read again exactly if every character in it, at any depth, alone or in a string, is one that does. In that case reading an accepted text and writing it again gives a text for the same value, reading and writing that one again changes nothing more, and two accepted texts end up as the same text exactly if they stand for the same value. With other characters the text may stand for another value and change once more.", "quantifier": "every type, every value, every source presenting it, every accepted text", "why_tests_cant": "values nest without bound and one character anywhere decides", "anchors": ["src/core/json/encoder.rs", "src/core/json/decoder.rs", "src/core/json/tokenizer.rs"]}
{"id": "C103", "title": "White space between the symbols of JSON texts", "statement": "Whether a JSON text is accepted for a type, and the value it stands for, depend on nothing but the sequence of its symbols (punctuation, words, numbers, strings). White space behind a symbol can be put in or taken out without any effect, even if the rest of the text consists of no symbols at all, provided that numbers and words are followed by white space, punctuation or the end of the text. White space put inside a number or a string does have an effect.", "quantifier": "every type whose structs have fewer than 64 fields, every text, every place in it, every run of white space", "why_tests_cant": "there are unboundedly many texts, places and runs of white space", "anchors": ["src/core/json/tokenizer.rs", "src/core/json/decoder.rs"]}
{"id": "C104", "title": "Parts of JSON documents", "statement": "In an accepted JSON text every component of the value, at any depth, is written in one piece of the text that is a document of its own. This piece can be exchanged for any other document of the type of the component: the text is then accepted, and stands for the value in which just this component is exchanged. The texts the encoder writes for two such values differ in one piece only, which is what it writes for the component alone. A text that the decoder accepts alone, but with something behind the document, cannot be used for that.", "quantifier": "every type whose structs have fewer than 64 fields, every accepted text, every component of its value, every document put in", "why_tests_cant": "texts nest without bound, and the place and the new document are arbitrary", "anchors": ["src/core/json/decoder.rs", "src/core/json/tokenizer.rs"]}
{"id": "C105", "title": "JSON texts read with another type", "statement": "Let a type be widened, at any depth: integers get a type that has all their values, characters become strings, the fields of a struct are put in another order, and enums get further cases or another order of cases. Then every JSON text that was accepted for the old type is accepted for the new one, and stands for the one value with the same numbers, strings, field names and case names. Widening can be done in several steps. A struct cannot be given another field in this way, and a text for a number that two types have in common may be accepted for one of them only (-0).", "quantifier": "every pair of such types whose structs have fewer than 64 fields, every accepted text", "why_tests_cant": "types and texts nest without bound, and the changes can be combined", "anchors": ["src/core/json/decoder.rs"]}
{"id": "C106", "title": "Pages moved to a wider type through JSON", "statement": "Take a page of records of one type whose values JSON keeps, whatever the history of the page, and a wider type (integers with more values, characters as strings, fields or cases in another order, more cases). The page is dumped as JSON texts, one for each row. Loaded with the wider type into any fresh page with enough space for the new records, which may align its rows differently, the texts give a page that holds, in the same order, records of the values with the same numbers, strings, field names and case names. In the other direction the load can fail, since a number need not fit.", "quantifier": "every pair of such types, every page of records and its history, every fresh page with enough space", "why_tests_cant": "types, values, histories of pages and sizes are unbounded, and JSON, records and pages all take part", "anchors": ["src/core/json/decoder.rs", "src/core/json/encoder.rs", "src/core/marshaller.rs", "src/core/nsm.rs"]}
{"id": "C107", "title": "JSON texts determine the values they were written for", "statement": "For a type whose enums have no repeated labels, the encoder gives two values the same bytes exactly if the values are the same up to floating point numbers that are displayed alike. So nothing is lost in writing, even where the decoder does not read the text as it was meant or the bytes are not UTF-8: control characters and characters from U+8000 to U+FFFF are still told apart from everything else. In the same way two pages of records have the same dump exactly if they hold the same values in the same order, whatever their histories, padding and alignment. With a repeated label two cases have the same text.", "quantifier": "every such type, every two values of it, every source that presents them", "why_tests_cant": "types and values nest without bound, and all pairs of values would have to be compared", "anchors": ["src/core/json/encoder.rs", "src/core/nsm.rs"]}
{"id": "C108", "title": "JSON texts read with a narrower type, and pages moved back", "statement": "Let a type be widened without changing the signedness of an integer or a character into a string: integers get a type with more values, fields and cases are put in another order, enums get more cases. Then a JSON text is accepted for the narrower type and stands for a value of it exactly if, with the wider type, it is accepted and stands for the value with the same numbers, strings and labels. So a page of records of the wider type whose values all come from the narrower one can be dumped and loaded, with the narrower type, into any fresh page with enough space. If an unsigned integer became a signed one this is false, since -0 is read with the wider type only.", "quantifier": "every pair of such types without repeated labels and with fewer than 64 fields, every text, every value, every page of records", "why_tests_cant": "types, texts and values nest without bound, and equivalence of acceptance speaks of all texts", "anchors": ["src/core/json/decoder.rs", "src/core/json/encoder.rs", "src/core/marshaller.rs", "src/core/nsm.rs"]}
{"id": "C109", "title": "The room a JSON text takes", "statement": "The encoder writes at most a number of bytes that follows from the type, the tags, the lengths of the strings and the display of the floating point numbers: 4 for a unit, 5 for a truth value, 8 for a character, the digits and sign of the number farthest from zero for an integer, two quotes and six bytes for each byte of a string or label, and the punctuation between them. The dump of a page takes at most the sum over its records. For truth values, characters, integers and strings of each length some value needs all of it.", "quantifier": "every type, every value, every source that presents it", "why_tests_cant": "types and values nest without bound, and a bound speaks of all values", "anchors": ["src/core/json/encoder.rs"]}
