{"id": "C01", "title": "Integer fields round-trip", "statement": "Writing an in-range integer with any fixed-width integer marshal (8/16/32/64 bits, signed or unsigned, big/little/native endian) and reading it back with the same marshal yields the same integer, consuming exactly the marshal's size and leaving every following byte of the stream untouched.", "quantifier": "every integer format, every host byte order, every integer in the format's range, every trailing stream content", "why_tests_cant": "2^64 values per format times arbitrary stream tails; tests sample a handful", "anchors": ["src/infi/instruct/numeric.py:NumericMarshal"]}
{"id": "C02", "title": "Integer bytes are the positional base-256 digits", "statement": "The bytes an integer marshal writes are exactly the base-256 digits of the value modulo 256^size, most significant first for big-endian formats, least significant first for little-endian ones, host order for native ones.", "quantifier": "every integer format, host order and in-range value", "why_tests_cant": "a codec that is wrong in the same way in both directions passes every round-trip test; the wire format must be right for every value", "anchors": ["src/infi/instruct/numeric.py:NumericMarshal.write_to_stream"]}
{"id": "C03", "title": "Out-of-range integers are rejected without output", "statement": "Writing an integer outside the range of the format raises InstructError and writes no byte; every integer inside the range is accepted.", "quantifier": "every integer format and every (unbounded) Python integer", "why_tests_cant": "the boundary must be exact for all of an infinite set of integers", "anchors": ["src/infi/instruct/numeric.py:NumericMarshal.write_to_stream"]}
{"id": "C04", "title": "Integer decoding is total on full-size input and canonical", "statement": "Reading an integer from a stream with at least size bytes always succeeds, yields an in-range value, and re-encoding this value gives back the very bytes read; from a shorter stream it always raises NotEnoughDataError.", "quantifier": "every integer format and every byte stream", "why_tests_cant": "all byte strings of every length", "anchors": ["src/infi/instruct/numeric.py:NumericMarshal.create_from_stream"]}
{"id": "C05", "title": "Bit stream writes touch exactly the addressed bits", "statement": "Writing n bits of a value to the bit stream at the current position ORs the low n bits of the value (least significant first) into exactly the n addressed bits, leaves all other bits unchanged and advances the position by n; a write past the end raises and changes nothing.", "quantifier": "every buffer content, position, width and (possibly negative) integer value", "why_tests_cant": "positions, widths and contents are unbounded and the code has separate head/body/tail chunk paths", "anchors": ["src/infi/instruct/utils/bitstringio.py:BitStringIO.write"]}
{"id": "C06", "title": "Bit stream reads return exactly the addressed bits", "statement": "Reading n bits returns the integer whose bit i is the stream bit at position+i, for i<n, and advances the position by n without changing the content; a read past the end raises.", "quantifier": "every buffer content, position and width", "why_tests_cant": "same chunking paths as writing; unbounded inputs", "anchors": ["src/infi/instruct/utils/bitstringio.py:BitStringIO.read"]}
{"id": "C07", "title": "Bit-field groups round-trip modulo their width", "statement": "Writing a group of consecutive bit fields and reading the bytes back gives for each field its value reduced modulo 2^width; the group writes exactly total-width/8 bytes and padding bits are zero.", "quantifier": "every list of widths whose sum is a multiple of 8 and every assignment of integers", "why_tests_cant": "all layouts and all values", "anchors": ["src/infi/instruct/struct/bit.py:BitFieldListContainer, BitMarshal, BitPaddingMarshal"]}
{"id": "C08", "title": "Positional bit fields round-trip and do not interfere", "statement": "For any set of fields each made of bit slices, all pairwise disjoint, writing and reading back gives each field its value reduced modulo 2^(its total width), whatever the other fields hold.", "quantifier": "every layout of pairwise disjoint slices inside the container and every assignment of integers", "why_tests_cant": "layouts are arbitrary permutations of bits; interference shows only for particular layouts and values", "anchors": ["src/infi/instruct/struct/bit.py:PositionalBitMarshal, PositionalBitFieldListContainer"]}
{"id": "C09", "title": "Read-ahead is transparent", "statement": "After peeking with any sequence of reads in read-ahead mode and leaving the mode, any further sequence of reads through the stream returns exactly what the same reads would have returned on the underlying stream without any peeking.", "quantifier": "every underlying content, every sequence of peek sizes and every sequence of read sizes", "why_tests_cant": "histories of reads of arbitrary length and sizes, interleaving buffer and stream", "anchors": ["src/infi/instruct/utils/read_ahead_stream.py:ReadAheadStream"]}
{"id": "C10", "title": "Read-ahead buffer empties exactly when the peeked bytes were consumed", "statement": "After peeking, the read-ahead buffer is reported empty exactly when the later reads asked for at least as many bytes as were peeked; then the underlying stream stands where it would without peeking.", "quantifier": "every content and history of reads", "why_tests_cant": "history property", "anchors": ["src/infi/instruct/utils/read_ahead_stream.py:ReadAheadStream.is_read_ahead_empty"]}
{"id": "C11", "title": "MinMax stays an interval of sizes", "statement": "Constructing or adding MinMax values built from non-negative bounds not above sys.maxsize gives 0 <= min <= max <= sys.maxsize as long as the sum of minima does not exceed sys.maxsize; addition is sound: a size within the first plus a size within the second lies within the sum unless it exceeds sys.maxsize. Outside these bounds construction can return min > max or a negative max.", "quantifier": "all integer bounds", "why_tests_cant": "unbounded integers, saturation boundary at sys.maxsize", "anchors": ["src/infi/instruct/base.py:MinMax"]}
{"id": "C12", "title": "sizeof equals the number of bytes written", "statement": "Whenever writing a value with a marshal or struct succeeds and no padded string or mapped value in it is bigger than the space declared for it, sizeof of the value succeeds and equals the number of bytes written. A padded string that is too long is written in full while sizeof keeps reporting the declared size.", "quantifier": "every marshal/struct definition built from the library's combinators and every value accepted by write", "why_tests_cant": "arbitrarily nested definitions and values", "anchors": ["src/infi/instruct/struct/__init__.py:Struct.sizeof", "src/infi/instruct/array.py", "src/infi/instruct/string.py", "src/infi/instruct/numeric.py"]}
{"id": "C13", "title": "min_max_sizeof bounds sizeof", "statement": "For definitions without pointers, constant readers used as sizes or key selectors, every successfully written value (fixed-size arrays having the declared length) has a size inside the declared min/max; a definition that reports a fixed size always writes exactly this many bytes. A string with a constant length reports the bounds (0, 0), and a key selector reports the sum instead of the range of its alternatives' bounds.", "quantifier": "every such definition and value", "why_tests_cant": "arbitrary nesting", "anchors": ["src/infi/instruct/base.py:MinMax", "src/infi/instruct/struct/__init__.py:Struct.min_max_sizeof"]}
{"id": "C14", "title": "Struct round-trip", "statement": "For every struct definition and every object whose field values are canonical for their marshals, create_from_string(write_to_string(obj)) gives an object with the same field values. An attribute that is not set counts as the default of its field.", "quantifier": "every nested struct definition and canonical object", "why_tests_cant": "definitions and values are unbounded trees", "anchors": ["src/infi/instruct/struct/__init__.py:Struct.create_from_stream, Struct.write_to_stream"]}
{"id": "C15", "title": "Decoding consumes exactly the encoding", "statement": "Reading a struct from its encoding followed by arbitrary bytes leaves the stream positioned at the first following byte.", "quantifier": "every definition, canonical object and trailing bytes", "why_tests_cant": "self-delimitation has to hold for all continuations", "anchors": ["src/infi/instruct/struct/__init__.py:Struct.create_from_stream"]}
{"id": "C16", "title": "Truncated encodings are rejected", "statement": "Reading any proper prefix of an encoding raises instead of returning an object, for definitions that contain no byte padding, no bit groups larger than their fields and no length prefix that can be negative. Byte padding is skipped without noticing that it is missing.", "quantifier": "every definition, object and truncation point", "why_tests_cant": "all truncation points of all encodings", "anchors": ["src/infi/instruct/struct/__init__.py:Struct.create_from_stream", "src/infi/instruct/padding.py:BytePaddingMarshal.create_from_stream"]}
{"id": "C17", "title": "Constant fields always encode their constant and reject anything else", "statement": "Whatever the object, a constant field writes the encoding of its constant; reading succeeds only when the decoded value equals the constant and otherwise raises InstructError; assigning another value raises InstructError and changes nothing; the attribute shows the constant whatever keyword arguments were given. A constant that is a Struct object is written but can never be read back. Values are equal if they are numbers of the same value, be they ints or floats, the same text or bytes, lists of equal values, or both None.", "quantifier": "every constant, marshal and input", "why_tests_cant": "all inputs", "anchors": ["src/infi/instruct/struct/const.py:ConstField"]}
{"id": "C18", "title": "Optional fields", "statement": "An optional field whose value is None writes nothing and otherwise its marshal's bytes; reading with a false predicate consumes nothing and keeps the default, with a true predicate behaves as a plain field.", "quantifier": "every marshal, predicate, object and stream", "why_tests_cant": "predicates are arbitrary functions", "anchors": ["src/infi/instruct/struct/optional.py:OptionalField"]}
{"id": "C19", "title": "Lazy containers are observationally eager", "statement": "Take a Struct class whose lazy containers hold named and anonymous fields of fixed size that depend on nothing else, and the same class with these groups read eagerly. If the eager class can be read from an input then so can the lazy one, taking the same bytes, and every later history of attribute reads, assignments and conversions to bytes gives the same answers. If the data of a container is broken, reading the object succeeds and the same error comes at the first access, assignment or conversion.", "quantifier": "every such class, every input and every history of get/set/write operations", "why_tests_cant": "histories of operations", "anchors": ["src/infi/instruct/struct/lazy.py:LazyFieldListContainer, LazyField"]}
{"id": "C20", "title": "Padded strings", "statement": "A padded string no longer than its size writes exactly size bytes and reads back as its stripped value for right and both-sided padding; longer values are written in full, exceeding the declared size; left-padded fields are padded on the right, so they do not read back; a fixed-size buffer that is given a shorter value raises IndexError after having written it.", "quantifier": "every size, padding and byte string", "why_tests_cant": "all strings and sizes; the strip/pad interaction depends on the content", "anchors": ["src/infi/instruct/string.py:PaddedStringMarshal"]}
{"id": "C21", "title": "Length-prefixed strings and buffers", "statement": "A length-prefixed byte string writes the length of the stripped value then the value, reads back as the stripped value, and raises when the stream ends early; values too long for the prefix are rejected before anything is written. With the str padding that the VarSizeString macro uses by default, no value can be written or read.", "quantifier": "every size marshal, byte string and stream", "why_tests_cant": "all strings", "anchors": ["src/infi/instruct/string.py:VarSizeStringMarshal, VarSizeBufferMarshal"]}
{"id": "C22", "title": "Arrays", "statement": "Count-prefixed, fixed-count and byte-count-prefixed arrays of round-tripping elements round-trip for every list (of the right length, respectively of non-empty element encodings). A fixed-count array does not check the length of the list it is given.", "quantifier": "every element marshal and every list", "why_tests_cant": "lists of arbitrary length, nested arbitrarily", "anchors": ["src/infi/instruct/array.py"]}
{"id": "C23", "title": "Byte-count arrays terminate iff elements consume bytes", "statement": "Reading a byte-count-prefixed array never loops forever when every element consumes at least one byte; when an element consumes no byte while the remaining count is positive it never returns.", "quantifier": "every element marshal and stream", "why_tests_cant": "non-termination cannot be observed by a test", "anchors": ["src/infi/instruct/array.py:SumSizeArrayMarshal.create_from_stream"]}
{"id": "C24", "title": "Mapped values", "statement": "For every injective map, a mapped field writes the image of the key and reads it back as the key; keys outside the map and decoded values outside the image raise KeyError; non-injective maps are rejected at construction.", "quantifier": "every map, key and stream", "why_tests_cant": "all maps", "anchors": ["src/infi/instruct/mapping.py:FixedSizeMappingMarshal"]}
{"id": "C25", "title": "A failed write never corrupts earlier output", "statement": "write_to_stream only appends: whatever happens (success or exception) everything previously written to the stream is unchanged and what is appended does not depend on it; when writing a struct fails, the fields before the failing one have been written completely and the fields after it not at all.", "quantifier": "every definition, value and crash point inside the write", "why_tests_cant": "every point at which an exception can surface", "anchors": ["src/infi/instruct/struct/__init__.py:FieldListContainer.write_fields"]}
{"id": "C26", "title": "Pointers resolve against the outermost struct", "statement": "A pointer field read inside a nested struct takes its value from the outermost struct being read, not from the struct that declares it. Where no struct is being read, or only structs whose own context names none, it is an AttributeError.", "quantifier": "every nesting depth and every pair of structs", "why_tests_cant": "depends on nesting of contexts", "anchors": ["src/infi/instruct/struct/__init__.py:Struct.get_updated_context", "src/infi/instruct/struct/pointer.py:ReadPointer"]}
{"id": "C27", "title": "Key selectors ignore their mapping", "statement": "Whatever mapping a key selector is built with, reading behaves as if the mapping were empty: the default is used if there is one, otherwise InstructError is raised.", "quantifier": "every mapping, key and stream", "why_tests_cant": "universal negative statement", "anchors": ["src/infi/instruct/struct/selector.py:StructSelectorMarshal"]}
{"id": "C28", "title": "Function selectors read the chosen struct from the start", "statement": "A function selector that peeks any bytes and picks a reader returns what this reader would return when run on the original stream, provided it consumes at least the peeked bytes; otherwise an exception is raised.", "quantifier": "every function, reader and stream", "why_tests_cant": "quantifies over user functions and streams", "anchors": ["src/infi/instruct/struct/selector.py:FuncStructSelectorMarshal"]}
{"id": "C29", "title": "Default values and sharing between instances", "statement": "A new Struct instance sees the declared defaults whatever was done to earlier instances: a default that is immutable, or a list, dict or bytearray of immutable values, is copied for each instance, so that no sequence of in-place changes through other instances is seen through it unless the program itself stores parts of one instance in another. The copy is shallow: lists inside of a default list, and default objects without a copy method such as Structs, are shared by all instances. Buffer fields share one default object between all instances.", "quantifier": "every class, every sequence of instantiations, assignments and in-place changes", "why_tests_cant": "aliasing shows only for particular histories", "anchors": ["src/infi/instruct/struct/__init__.py:copy_if_supported, Field.prepare_instance", "src/infi/instruct/buffer/buffer.py:Buffer.__init__"]}
{"id": "C30", "title": "Bit views denote bit slices", "statement": "Slicing a bit view any number of times with any in- or out-of-range bounds, then converting to bytes, gives exactly the addressed bits, zero padded to whole bytes; slices whose clamped bounds are out of order raise AssertionError; to_bytearray gives the same bits but may leave other bits in the last byte.", "quantifier": "every content, view bounds and chain of slices", "why_tests_cant": "offsets are fractions; bit shifts across byte boundaries", "anchors": ["src/infi/instruct/buffer/io_buffer.py:BitView"]}
{"id": "C31", "title": "Overwriting a bit range changes exactly these bits", "statement": "Assigning to a bit range a value of the same bit length replaces exactly the addressed bits and leaves every other bit and the length unchanged; a shorter or longer value at the end or at a byte boundary replaces the range; a non-negative int is written only as far as the bytes it needs reach, the rest of the range keeps its old bits, and one that does not fit is rejected without any change.", "quantifier": "every content, range and value", "why_tests_cant": "all alignments", "anchors": ["src/infi/instruct/buffer/io_buffer.py:BitAwareByteArray.__setitem__"]}
{"id": "C32", "title": "Extending a bit array appends", "statement": "Extending or concatenating bit arrays of any (fractional) lengths yields the concatenation of their bits, for any sequence of extensions.", "quantifier": "every pair of contents with any bit lengths, any sequence", "why_tests_cant": "all alignments of the append point; internal shift loop", "anchors": ["src/infi/instruct/buffer/io_buffer.py:BitAwareByteArray.extend, __add__, append"]}
{"id": "C33", "title": "Inserting and deleting in bit arrays", "statement": "Deleting a slice removes exactly its bits or raises IndexError, and never raises when it starts at a byte boundary or reaches the end. Insertions at the end, and insertions of at least a byte at a byte boundary, behave as on the bit sequence. Inserting r bits into a byte a value of at least 16-r bits turns the 8-r bits behind the insertion point into zeros.", "quantifier": "every content, offset and length", "why_tests_cant": "needs exact alignment analysis", "anchors": ["src/infi/instruct/buffer/io_buffer.py:BitAwareByteArray._insert_zeros, _del_range"]}
{"id": "C34", "title": "Overlap detection", "statement": "For non-empty ranges has_overlaps is true exactly when two of the ranges intersect, whatever their order, for any sort that leaves no adjacent inversion. With an empty range in the list an overlap can be missed.", "quantifier": "every list of non-empty (possibly open) ranges", "why_tests_cant": "the comparison used for sorting is not a total order", "anchors": ["src/infi/instruct/buffer/range.py:SequentialRangeList.has_overlaps, SequentialRange.__lt__"]}
{"id": "C35", "title": "Range list arithmetic", "statement": "byte_length is the total length, max_stop the largest stop, and byte_offset(n) is the position just after the n-th byte of the concatenation of the ranges, or raises AssertionError beyond its end; to_closed closes exactly the open ranges, or raises when a range starts behind the new end.", "quantifier": "every range list and offset", "why_tests_cant": "lists of arbitrary length", "anchors": ["src/infi/instruct/buffer/range.py:SequentialRangeList"]}
{"id": "C36", "title": "Bit addressing inside a byte range", "statement": "bits[a:b] of a single contiguous byte range addresses the expected bits, and slices that reach outside the range raise; bits[i] addresses the expected bit for i up to, and one past, the last bit and raises behind that; omitted bounds raise. In a multi-range byte reference slices strictly inside one of the ranges address the expected bits; slices from inside one range into the next are shifted in the second by the offset in the first, and the first bit of a later range is taken from behind the range before it.", "quantifier": "every range and bounds", "why_tests_cant": "all offsets", "anchors": ["src/infi/instruct/buffer/reference/range.py:BitSliceRangeReference, BitNumericRangeReference"]}
{"id": "C37", "title": "Reference evaluation terminates", "statement": "Evaluating any reference of any finite reference graph, cyclic or not, terminates; it raises CyclicReferenceError exactly when evaluation would need its own result.", "quantifier": "every finite graph and every behaviour of user functions", "why_tests_cant": "cyclic graphs of arbitrary shape", "anchors": ["src/infi/instruct/buffer/reference/reference.py:Reference.deref"]}
{"id": "C38", "title": "References are evaluated at most once and the call stack is restored", "statement": "During one pack or unpack a reference that evaluated successfully is never evaluated again, later uses see the same value; after evaluation, normal or exceptional, the set of references under evaluation is what it was before.", "quantifier": "every graph, every sequence of evaluations and every failure point", "why_tests_cant": "crash points and histories", "anchors": ["src/infi/instruct/buffer/reference/reference.py:Reference.deref"]}
{"id": "C39", "title": "Packing writes every field at its position", "statement": "Packing fields with closed positions puts each field's bits at its declared positions; where positions overlap the field processed last wins; bits outside all positions up to the end are zero for byte-aligned layouts.", "quantifier": "every list of fields with arbitrary (scattered, overlapping, fractional) closed positions and every value", "why_tests_cant": "all layouts", "anchors": ["src/infi/instruct/buffer/buffer.py:pack", "src/infi/instruct/buffer/io_buffer.py:OutputBuffer.set"]}
{"id": "C40", "title": "Fixed-layout buffers round-trip", "statement": "For a buffer class whose fields have pairwise disjoint closed positions, unpack(pack(obj)) restores every field value that its codec round-trips.", "quantifier": "every layout of disjoint positions and every value", "why_tests_cant": "all layouts and values", "anchors": ["src/infi/instruct/buffer/buffer.py:Buffer.pack, Buffer.unpack"]}
{"id": "C41", "title": "Field integers of 1, 2, 4 and 8 bytes", "statement": "Integer fields of these sizes round-trip over their whole range with the declared sign and byte order, from anywhere in a buffer, and reject everything else; every view with enough bytes decodes and re-encodes to the same bytes, a shorter one raises AssertionError. With the byte order 'unspecified' a 4-byte field is packed to 8 bytes and cannot be unpacked from its own 4 bytes.", "quantifier": "every value, size, sign, byte order, host and position in a buffer", "why_tests_cant": "2^64 values at every bit alignment", "anchors": ["src/infi/instruct/buffer/serialize.py:pack_int, unpack_int"]}
{"id": "C42", "title": "Integers of other widths are little-endian and unsigned", "statement": "Integer fields of any other bit width are written least significant bit first whatever byte order is declared, and round-trip for every non-negative value that fits; values whose magnitude does not fit (and every value in a field of zero bits) raise ValueError; a negative value is accepted silently but reads back as a different, non-negative number; a view that is too short decodes without an error. Without a size, at an open position, nothing can be packed.", "quantifier": "every width, value and position in a buffer", "why_tests_cant": "unbounded widths", "anchors": ["src/infi/instruct/buffer/serialize.py:pack_bit_int, unpack_bit_int"]}
{"id": "C43", "title": "String fields", "statement": "A string field pads to its size with the declared justification (longer strings are written in full) and trims the strip characters and then the padding on unpack; every ASCII string that fits and does not begin or end (on the trimmed sides) with padding or strip characters round-trips; short buffers and non-ASCII text raise; padding or strip given as text instead of bytes always raises.", "quantifier": "every size, justification, padding, strip set, string and buffer", "why_tests_cant": "all strings", "anchors": ["src/infi/instruct/buffer/serialize.py:pack_str, unpack_str"]}
{"id": "C44", "title": "List fields", "statement": "Packing a list concatenates the element encodings; unpacking reads elements until the count or the range is exhausted; lists of fixed-width integers round-trip.", "quantifier": "every list and element width", "why_tests_cant": "arbitrary lengths", "anchors": ["src/infi/instruct/buffer/serialize.py:pack_list, unpack_list"]}
{"id": "C45", "title": "List unpacking may not terminate", "statement": "Unpacking a list without a count terminates when every element consumes at least one bit, and never returns once an element consumes nothing before the end of the range.", "quantifier": "every element unpacker and input", "why_tests_cant": "non-termination is unobservable by tests", "anchors": ["src/infi/instruct/buffer/serialize.py:unpack_list"]}
{"id": "C46", "title": "64-bit floats can never be unpacked", "statement": "Unpacking an 8-byte float field raises for every input.", "quantifier": "every input", "why_tests_cant": "universal negative", "anchors": ["src/infi/instruct/buffer/serialize.py:STRUCT_FLOAT_UNPACKERS"]}
{"id": "C47", "title": "Packed size", "statement": "pack() of a class with a known byte_size returns exactly ceil(byte_size) bytes or raises; the size returned by unpack equals it.", "quantifier": "every class and object", "why_tests_cant": "all layouts", "anchors": ["src/infi/instruct/buffer/buffer.py:Buffer.pack, Buffer.calc_byte_size"]}
{"id": "C48", "title": "Length-prefixed layouts round-trip", "statement": "A buffer whose length field is computed before packing from another field and whose payload position is derived from this length restores its payload on unpack, for every payload that fits.", "quantifier": "every payload", "why_tests_cant": "dynamic layouts depend on values", "anchors": ["src/infi/instruct/buffer/field_reference_builder.py", "src/infi/instruct/buffer/buffer.py"]}
{"id": "C49", "title": "Only InstructBufferError escapes pack and unpack", "statement": "Whatever fails inside pack or unpack while a field is being packed or unpacked, the caller sees InstructBufferError; for a class whose size is known and was computed from its fields, with constant pack conditions, no other exception escapes. (The unrestricted claim is false: conditions, the total size and the final size assertion raise other exceptions; exactly which errors can escape is proved and shown by example.)", "quantifier": "every field behaviour and failure point", "why_tests_cant": "crash points", "anchors": ["src/infi/instruct/buffer/buffer.py:Buffer.pack, Buffer.unpack"]}
{"id": "C50", "title": "Conditional fields", "statement": "A field whose pack condition is false contributes no bytes; a field whose unpack condition is false is set to None and reads nothing, unless the value of this field is needed by another one, in which case it is unpacked nevertheless.", "quantifier": "every condition and layout", "why_tests_cant": "user functions", "anchors": ["src/infi/instruct/buffer/buffer.py:Buffer.pack, Buffer.unpack"]}
{"id": "C51", "title": "Float round trip", "statement": "Every 32- or 64-bit float (by bit pattern) that the format can represent is written as the expected number of bytes in the declared byte order and reads back as the same value; every input of the right length decodes.", "quantifier": "every bit pattern, size and byte order", "why_tests_cant": "2^64 patterns", "anchors": ["src/infi/instruct/numeric.py:NumericMarshal"]}
{"id": "C52", "title": "Decoding does not depend on what follows", "statement": "If reading succeeds on some data then reading the same data followed by any further bytes returns the same value and leaves exactly the further bytes (plus whatever was left before) unread; so a record embedded in a longer stream decodes the same way.", "quantifier": "every definition without byte padding, every input, every continuation", "why_tests_cant": "quantifies over all continuations of all inputs", "anchors": ["src/infi/instruct/struct/__init__.py:Struct.create_from_stream", "src/infi/instruct/utils/read_ahead_stream.py:ReadAheadStream"]}
{"id": "C53", "title": "Zero filling", "statement": "Zero filling a bit array up to a length appends zero bits when its end is at a byte boundary, or no whole byte has to be inserted, or the new end is at a smaller offset in its byte than the old end; in every other case the last eight bits of the array appear a second time in what should be zeros.", "quantifier": "every content without stray bits and every length", "why_tests_cant": "depends on both alignments", "anchors": ["src/infi/instruct/buffer/io_buffer.py:BitAwareByteArray.zfill, _insert_zeros"]}
{"id": "C54", "title": "Gathering scattered input", "statement": "Reading a list of closed ranges from an input buffer returns the concatenation of the bits they select, in order; ranges that reach beyond the end are cut off silently. A range without an end anywhere in the list raises AssertionError.", "quantifier": "every input and list of closed ranges, fractional or not", "why_tests_cant": "lists of arbitrary length, all alignments", "anchors": ["src/infi/instruct/buffer/io_buffer.py:InputBuffer.get"]}
{"id": "C55", "title": "Scattering output", "statement": "Setting a value at a list of closed ranges distributes its bits over the ranges in order, keeps every bit outside of them, and fills gaps behind the old end (with zeros in the cases of zero filling); a value with fewer bits than the ranges raises ValueError, a longer one is cut off. A range without an end, or whose end is before its start, raises AssertionError after the ranges before it have been written.", "quantifier": "every value, list of closed ranges and previous content", "why_tests_cant": "lists of arbitrary length, all alignments", "anchors": ["src/infi/instruct/buffer/io_buffer.py:OutputBuffer.set"]}
{"id": "C56", "title": "Byte-array fields", "statement": "Bytes stored in a byte-array field come back from a range that holds exactly these bits; a range that starts at a byte boundary and ends inside a byte also gets the remaining bits of that byte, which belong to its neighbour; an int assigned to such a field is packed as that many zero bytes.", "quantifier": "every byte string, range and buffer", "why_tests_cant": "all contents and alignments", "anchors": ["src/infi/instruct/buffer/serialize.py:pack_bytearray, unpack_bytearray", "src/infi/instruct/buffer/io_buffer.py:BitView.to_bytearray"]}
{"id": "C57", "title": "Lists of strings", "statement": "Unpacking a list of strings never returns more than one string, whatever was packed and whatever size, padding or count is given: it is the string read from the whole position.", "quantifier": "every buffer, element size, padding and count", "why_tests_cant": "universal negative", "anchors": ["src/infi/instruct/buffer/serialize.py:unpack_str, unpack_list", "src/infi/instruct/buffer/macros.py:str_type_factory"]}
{"id": "C58", "title": "Lists of bit fields read to the end", "statement": "Unpacking a list of integers of a width other than 8, 16, 32, 64 bits without a count returns as many elements as fit into the range, rounded up, each made of the next bits, the last one of whatever is left.", "quantifier": "every width and buffer", "why_tests_cant": "arbitrary lengths and alignments", "anchors": ["src/infi/instruct/buffer/serialize.py:unpack_list, unpack_bit_int"]}
{"id": "C59", "title": "The call stack reported with an error", "statement": "When evaluating references fails, the recorded call stack is the chain of references that led to the failure: it begins with a reference that pack or unpack asked for, every entry asked for the next one, and the last entry raised the error itself or asked for a reference that is already on the chain.", "quantifier": "every graph and every failure point", "why_tests_cant": "depends on the failure point and on what was cached before", "anchors": ["src/infi/instruct/buffer/reference/reference.py:Reference.deref, Context"]}
{"id": "C60", "title": "Static references are constant", "statement": "The static test says yes exactly for references that can be evaluated without looking at the context, and such a reference has one and the same value in every pack and unpack, whatever was evaluated before, and evaluating it changes nothing.", "quantifier": "every graph, every object and every history of evaluations", "why_tests_cant": "all histories and contexts", "anchors": ["src/infi/instruct/buffer/reference/reference.py:Reference.is_static", "src/infi/instruct/buffer/buffer.py:BufferType.calc_byte_size"]}
{"id": "C61", "title": "Objects inside objects", "statement": "An object of a Buffer class that is a field or list element of another object is restored when the outer object is unpacked: a class that reads from its own places from any input that begins with its bytes, a class that reads to the end from exactly its bytes; lists of objects of any length round-trip.", "quantifier": "every class layout, object, list length and continuation of the input", "why_tests_cant": "unbounded lists, nested layouts and all continuations", "anchors": ["src/infi/instruct/buffer/serialize.py:pack_buffer, unpack_buffer, unpack_list", "src/infi/instruct/buffer/macros.py:buffer_field, list_field"]}
{"id": "C62", "title": "Construction of Buffer objects", "statement": "Constructing an object accepts exactly keyword arguments that name fields; each field gets its argument, or its default if there is none, and any other argument raises AssertionError.", "quantifier": "every class and every set of keyword arguments", "why_tests_cant": "all classes", "anchors": ["src/infi/instruct/buffer/buffer.py:Buffer.__init__"]}
{"id": "C63", "title": "Subclasses of Buffer classes", "statement": "The size of a subclass is computed from the fields it adds itself, so a subclass of known size with an inherited field whose constant position lies beyond this size can never be packed, whatever its field values are.", "quantifier": "every such subclass and every object", "why_tests_cant": "universal negative over all objects", "anchors": ["src/infi/instruct/buffer/buffer.py:BufferType.__new__, Buffer.pack"]}
{"id": "C64", "title": "Constructing objects with lazy fields", "statement": "An object constructed with values for all fields of its lazy containers behaves, in every history, like one of the eager class. A field of a lazy container that is given no value is missing although a default is declared, and reading it raises KeyError. Constants in lazy containers accept every assignment and cannot be read before one; those in a group inside of a lazy container stay ordinary constants. A lazy container takes fields of one size only: any other field is a ValueError when the class is defined.", "quantifier": "every class with lazy containers, all constructor arguments and histories", "why_tests_cant": "histories of operations; the defaults are ignored for every class", "anchors": ["src/infi/instruct/struct/lazy.py:LazyField.prepare_instance, LazyField.__set__, LazyField.__get__"]}
{"id": "C65", "title": "Floats in 32-bit fields are rounded to nearest", "statement": "A finite float written to a 32-bit float field reads back, with the same sign, as the nearest value the field can represent, the one with an even last bit if two are equally near; a float at or beyond the middle between the largest representable one and 2^128 raises OverflowError (not InstructError) and nothing is written. 64-bit fields store the bit pattern in the named byte order.", "quantifier": "every finite double and every exported float type", "why_tests_cant": "2^64 doubles; the nearest value is a universal statement over all 32-bit floats", "anchors": ["src/infi/instruct/numeric.py:NumericMarshal.write_to_stream, BFloat32Marshal", "src/infi/instruct/numeric_macros.py"]}
{"id": "C66", "title": "Expressions over references mean what they say", "statement": "An expression of integers, numeric references, +, -, *, //, unary minus, the six comparisons, num_ref, min_ref and max_ref written in a class definition becomes a reference that, whenever the object is packed or unpacked, has the value of the expression over the integers the references then have; division by zero raises ZeroDivisionError, at the latest when the value is needed.", "quantifier": "every such expression of any depth, in any operand order, and all integer values of the references", "why_tests_cant": "Python's operator dispatch tries reflected methods and subclasses first; all nestings and operand orders", "anchors": ["src/infi/instruct/buffer/reference/reference.py:Reference.__add__, __radd__, __eq__, NumericBinaryExpression, NumericUnaryExpression, NumericCastReference", "src/infi/instruct/buffer/reference/builtins.py:MinFuncCallReference, MaxFuncCallReference"]}
{"id": "C67", "title": "Operators on references that are not numeric", "statement": "A reference that was not declared numeric, such as self_ref.x, is not deferred by operators: compared with a constant == is False and != is True at class definition, whatever the attribute will be; every other operator with a constant or another such reference raises TypeError. With a numeric reference on the right all operators are deferred, with one on the left arithmetic raises TypeError if both are objects of the same class. and, or, not never make references: they return an operand or a constant, and raise NotImplementedError when an arithmetic expression or comparison is used as a condition, as chained comparisons do. A chain whose first comparison is decided at class definition is False, without a look at the rest, or the second comparison alone. num_ref of something that is no reference is accepted at class definition and raises AttributeError whenever its value is needed. (Violated expectation: negating a reference that is no number is not rejected; the expression is Python's NotImplemented object.)", "quantifier": "all references, constants, operators and operand orders", "why_tests_cant": "depends on the precedence of and/or in the numeric check and on Python's dispatch for every pair of classes", "anchors": ["src/infi/instruct/buffer/reference/reference.py:Reference.__check_binary_expression_for_numeric, NumericBinaryExpression.__bool__"]}
{"id": "C68", "title": "Positions address the bits they name", "statement": "where=bytes_ref[...] made of indexes, slices, lists of those, .bits of contiguous bytes and + addresses exactly the named bits in the order written, for all values of the numeric references in it. The definition of a byte slice is accepted exactly for omitted bounds, numeric references and non-negative integers in order; references that turn out negative or out of order raise AssertionError when the position is needed. Bit slices accept integers only: a numeric reference as a bound raises NotImplementedError at class definition.", "quantifier": "every position expression of any nesting, all bounds and all values of references", "why_tests_cant": "all nestings, bounds and values; the checks run partly at definition and partly at every pack", "anchors": ["src/infi/instruct/buffer/reference/range.py:ByteRangeFactory, ByteSliceRangeReference, ByteNumericRangeReference, BitSliceRangeReference, BitRangeFactory, RangeReference.__add__"]}
{"id": "C69", "title": "Objects that were read can be printed", "statement": "repr of every object create_from_stream returns produces a text, and that text shows every named field with its value, for definitions whose names are distinct, whose anonymous fields are padding, and whose optional fields tolerate being absent. It is not true without the last condition: an optional number left out (or a number or array never set) makes repr raise TypeError, an unset struct selector AttributeError; an unset struct shows as <none>.", "quantifier": "every definition (nested structs, arrays, bit fields, mappings, selectors, constants), stream, context and value", "why_tests_cant": "The claim is about all definitions and streams, and depends on which fields the data left out; tests print a few objects.", "anchors": ["src/infi/instruct/struct/__init__.py:Struct.__repr__", "src/infi/instruct/struct/__init__.py:Struct.to_repr", "src/infi/instruct/numeric.py:NumericMarshal.to_repr", "src/infi/instruct/array.py:ArrayMarshal.to_repr", "src/infi/instruct/struct/optional.py:OptionalField"]}
{"id": "C70", "title": "Fields are set before user constructors run", "statement": "Constructing a Struct object sets every field to the keyword argument of its name, or else to its default, before any user-written __init__ runs; a field that the constructors in the ancestry of the class leave alone keeps that value, whatever else they do (call their base class or not, assign other attributes, raise). The user's __init__ gets the arguments that are not fields, and those fields it names as parameters. What it assigns to a field stays; assigning another value to a constant raises InstructError and changes nothing.", "quantifier": "every list of fields, every chain of base classes with or without __init__, every program those run, all arguments", "why_tests_cant": "User code, class hierarchy and arguments are arbitrary.", "anchors": ["src/infi/instruct/struct/__init__.py:StructType._create_struct_class_init", "src/infi/instruct/struct/__init__.py:Struct.__init__", "src/infi/instruct/struct/__init__.py:Field.prepare_instance"]}
{"id": "C71", "title": "Which constructor calls are accepted", "statement": "A call with keyword arguments reaches the user-written __init__ of the class exactly if each argument is a field or a parameter and all required parameters are passed, except that a required keyword-only parameter must not have the name of a field. Without user code every call succeeds, and positional arguments and misspelt names are dropped silently. A subclass that adds nothing to a class whose __init__ requires an argument that is also a field cannot be constructed with keyword arguments at all.", "quantifier": "every list of fields, every parameter list, every set of keyword arguments, every class hierarchy above", "why_tests_cant": "The accepted calls depend on the interplay of fields, parameters and inheritance; the one subclass layout in the tests does not show it.", "anchors": ["src/infi/instruct/struct/__init__.py:StructType._create_struct_class_init", "src/infi/instruct/struct/__init__.py:Struct.__init__"]}
{"id": "C72", "title": "Reading and user constructors", "statement": "create_from_stream constructs the object without arguments before it reads: a class whose __init__ has a required parameter raises TypeError with the stream untouched; attributes the constructor stores under names that are not fields survive reading; for classes without user code reading is what the fields define.", "quantifier": "every class with user-written constructors, every stream and context", "why_tests_cant": "User code is arbitrary.", "anchors": ["src/infi/instruct/struct/__init__.py:Struct.create_from_stream"]}
{"id": "C73", "title": "Bit groups are whole bytes", "statement": "Defining a group of bit fields by widths succeeds exactly if every width is between 0 and sys.maxsize and the widths add up to a multiple of 8, and its size is then that many bytes; otherwise BitFieldNotInByteBoundry (or InstructError for an impossible width) is raised at definition. A group defined by bit positions has the size given by its highest position, which must be whole bytes; a declared number of bits replaces it and may not be smaller. Widths and positions cannot be mixed.", "quantifier": "every list of bit fields, flags and paddings, all widths and lists of slices, all declared sizes", "why_tests_cant": "arbitrary many fields and slices", "anchors": ["src/infi/instruct/struct/bit.py:BitFieldListContainer, PositionalBitFieldListContainer", "src/infi/instruct/struct_macros.py:BitFields, BitField"]}
{"id": "C74", "title": "Defaults are checked at definition", "statement": "The macros for padded strings, fixed-size buffers and fixed-size arrays reject a default of the wrong length with AssertionError at definition, and a default they accept can be written and takes exactly the space of the field. A constant is written and read with the type given for it, and a value whose type is not known is rejected without one. A constant made from a Struct object is accepted although no stream can be read with it.", "quantifier": "every name, size, padding, byte string, element type and list", "why_tests_cant": "all sizes and defaults", "anchors": ["src/infi/instruct/string_macros.py:PaddedString, FixedSizeBuffer", "src/infi/instruct/array_macros.py:FixedSizeArray", "src/infi/instruct/struct_macros.py:ConstField"]}
{"id": "C75", "title": "Lengths found in the data", "statement": "A buffer prefixed by its length takes exactly that many bytes, raises InstructError if fewer are left, and for a negative length (of a signed prefix) silently takes everything up to the end of a plain stream (inside of a selector it raises AssertionError). A counted array has exactly the announced number of elements, none for a negative count. The elements of a byte-counted array end exactly where the prefix says or reading fails; a negative count raises AssertionError.", "quantifier": "every prefix marshal, element marshal, stream, position and announced length", "why_tests_cant": "hostile lengths are unbounded", "anchors": ["src/infi/instruct/string.py:VarSizeStringMarshal", "src/infi/instruct/array.py:VarSizeArrayMarshal, SumSizeArrayMarshal", "src/infi/instruct/utils/read_ahead_stream.py:ReadAheadStream.read"]}
{"id": "C76", "title": "Integers in float fields", "statement": "An integer assigned to a float field is stored as the nearest double would be (ties to the even significand); integers that round beyond the largest double raise InstructError (struct.error from a Buffer) and write nothing. Integers up to 2**53 (64-bit types) and 2**24 (32-bit types) are read back exactly. In 32-bit fields larger integers are rounded twice, so the stored value is not always the nearest single.", "quantifier": "every integer, every float type, host byte order", "why_tests_cant": "the rounding must be right at every boundary between representable numbers", "anchors": ["src/infi/instruct/numeric.py:NumericMarshal.write_to_stream", "src/infi/instruct/buffer/serialize.py:pack_float"]}
{"id": "C77", "title": "set_after_unpack is not stored in the object", "statement": "When a field of a Buffer class has a set_after_unpack function, a successful unpack() leaves the attribute of that field as it was before (None if the field's condition is false): neither the unpacked value nor the result of the function is stored. References to the field evaluate to the result of the function.", "quantifier": "all classes without references to functions of the object, all inputs, all objects, all functions", "why_tests_cant": "the tests never use set_after_unpack; the claim ranges over all layouts, inputs and evaluation orders", "anchors": ["src/infi/instruct/buffer/field_reference_builder.py:set_field_unpack_value_ref", "src/infi/instruct/buffer/buffer.py:unpack"]}
{"id": "C78", "title": "After pack() the object holds what was packed", "statement": "After a successful pack() every field that contributed bytes contributed exactly what its packer makes of the value its attribute has now; that value is the one that was there before, or the one set_before_pack (a value, a function, a reference) gave, and no other attribute was changed.", "quantifier": "all classes whose set_before_pack functions do not change the object, all objects, all evaluation orders", "why_tests_cant": "depends on the order in which references are evaluated and on which results are remembered; tests look at single classes", "anchors": ["src/infi/instruct/buffer/field_reference_builder.py:set_field_pack_value_ref", "src/infi/instruct/buffer/buffer.py:pack"]}
{"id": "C79", "title": "unpack() reads every field from its own position", "statement": "After a successful unpack(), every field whose condition holds was decoded from exactly the bits of the input at the field's position, and the attribute is what its unpacker returned: for an integer of 1, 2, 4 or 8 bytes the number whose bytes are there, for other widths the value of the bits, for a byte array the bytes. If all places are fixed and every unpacker accepts what is there, unpack() succeeds, returns the class's size and changes no other attribute.", "quantifier": "all classes, inputs and objects; fields in any order, sharing bytes or not", "why_tests_cant": "the positions depend on references and evaluation order; tests check a few classes on a few inputs", "anchors": ["src/infi/instruct/buffer/buffer.py:unpack", "src/infi/instruct/buffer/field_reference_builder.py:FieldReferenceBuilder", "src/infi/instruct/buffer/io_buffer.py:get"]}
{"id": "C80", "title": "Truncated input to Buffer.unpack", "statement": "If the input ends before the end of an integer field of 1, 2, 4 or 8 bytes, unpack() does not succeed. A class whose fields are byte arrays and integers of other widths accepts input of any length: attributes get what is there, and unpack() still returns the size of the class.", "quantifier": "all classes, all inputs of all lengths", "why_tests_cant": "needs every length and every layout", "anchors": ["src/infi/instruct/buffer/buffer.py:unpack", "src/infi/instruct/buffer/serialize.py:unpack_int", "src/infi/instruct/buffer/io_buffer.py:get"]}
{"id": "C81", "title": "Buffer classes through the struct adapter", "statement": "An object of a Buffer class with a fixed layout, written to a stream with the adapter of its class, is restored by the adapter's create_from_stream from any stream in which those bytes come next, and the stream is left right after them, provided the class's byte_size is an int; create_from_string restores it from the bytes. sizeof, write_to_string and write_to_stream agree on the bytes, and a failed write writes nothing. What the code does beyond this: write_to_string returns a bytearray, which create_from_string refuses; a class without fixed size (ValueError) or whose size is a float object (TypeError) cannot be read from a stream; a stream that ends early is not noticed by the adapter.", "quantifier": "all classes with a fixed layout, all values that fit, all streams (plain and read-ahead) and positions", "why_tests_cant": "needs every layout, value and stream state", "anchors": ["src/infi/instruct/buffer/compat.py:StructTypeAdapter", "src/infi/instruct/buffer/compat.py:buffer_to_struct_adapter"]}
{"id": "C82", "title": "Ints and floats that are equal", "statement": "A constant of a float type may be given as an int: if the type holds it exactly (up to 2^24 for 32 bits, 2^53 for 64) what is written is accepted when read; in general the float that is read is accepted exactly if its value is the int, and infinities and NaNs never are. A map of a float type may have ints as images and restores the key. A constant of an int type given as a whole float is accepted when read but can never be written.", "quantifier": "all float and int types, all values, all constants and maps", "why_tests_cant": "exact comparison across two number types over 2^64 patterns", "anchors": ["src/infi/instruct/struct/const.py:ConstField", "src/infi/instruct/mapping.py:FixedSizeMappingMarshal", "src/infi/instruct/numeric.py:NumericMarshal"]}
{"id": "C83", "title": "Contexts do not leak", "statement": "In every history of operations on contexts (reading, copying, put, update, remove, the contexts that structs derive for their fields) every context behaves as a value of its own: what a nested struct's code does to its context is not seen by the outer struct or by the caller, and the default context of all methods is empty forever. The fields of a struct see the entries of the given context before those of the class. Only the constructors share: WritableContext(d) shares a dict that has entries and copies an empty one.", "quantifier": "all histories, keys, values, contexts", "why_tests_cant": "aliasing over unboundedly many operations and objects", "anchors": ["src/infi/instruct/base.py:ReadOnlyContext", "src/infi/instruct/base.py:WritableContext", "src/infi/instruct/base.py:EMPTY_CONTEXT", "src/infi/instruct/struct/__init__.py:get_updated_context"]}
{"id": "C84", "title": "Numbers as keys of bit views and arrays", "statement": "view[i] is the next eight bits from the (possibly fractional, possibly negative) offset i, clamped to the view, or as many as there are; behind the end it is 0 or IndexError. array[i] = byte replaces exactly these eight bits if they lie inside; near the end it never lengthens the array, writes the bits that lie inside and raises IndexError only if the bytes end there, too; longer values raise AssertionError and change nothing there. del array[i] removes them if they lie inside; at the end it silently takes off the last eight bits.", "quantifier": "all views, arrays, offsets and values", "why_tests_cant": "boundary arithmetic over all alignments and lengths", "anchors": ["src/infi/instruct/buffer/io_buffer.py:BitView", "src/infi/instruct/buffer/io_buffer.py:BitAwareByteArray"]}
{"id": "C85", "title": "Field declarations mean what their arguments say", "statement": "A call of a field builder (int_field, uint_field, be_/le_..., float_field, bytearray_field, str_field, json_field, buffer_field, list_field) is accepted exactly when its arguments bind to the builder's parameters, where is a reference and neither where_when_pack nor where_when_unpack is given (or where is not given and both others are references) and the hooks have the right kind; the field then has these positions, conditions (true when absent), default, hooks and unpack_after fields. A misspelt keyword or a missing type is a TypeError, no position (or an empty one) a ValueError, two positions an AssertionError, a position that is no reference an AttributeError (a where_when_pack that is no reference is accepted by the builder and not covered), an unpack_after that is no field an AssertionError. An integer field packs and unpacks with the declared sign, endianness and byte_size, or the length of its position if byte_size is absent, None or 0; what be_, le_ and u fix cannot be overridden by a keyword. Elements of integer lists are encoded as their type says whatever keywords the list passes on. Integer and float fields are numbers that expressions can calculate with; an expression that calculates with a field of another builder and a number raises TypeError in the class body; every builder uses its own codec in both directions. (Violated expectation: an unknown endianness is accepted by the declaration and fails later.)", "quantifier": "all builders, argument lists, keyword arguments and sizes", "why_tests_cant": "combinations of optional arguments are unbounded; a test only shows particular calls", "anchors": ["src/infi/instruct/buffer/macros.py:int_field", "src/infi/instruct/buffer/macros.py:be_uint_field", "src/infi/instruct/buffer/field_reference_builder.py:FieldReferenceBuilder", "src/infi/instruct/utils/kwargs.py:keep_kwargs_partial", "src/infi/instruct/buffer/serialize.py:pack_int"]}
{"id": "C86", "title": "Which fields a Buffer class has", "statement": "A class statement gives the class exactly the fields visible in it (body, bases, mixins) that no earlier class has taken, in alphabetical order; a field with several names gets the first. In every history of class statements a field belongs to at most one class, its name never changes, and an object has the fields of all classes of its mro, none twice. Constructing sets keyword arguments that name fields (others: AssertionError), lets a plain class attribute hide a field, and otherwise takes the default of the first class in the mro with a field of that name. (Violated expectations: a field of a mixin used by two Buffer classes is missing from the second; a subclass that adds no fields has byte_size 0, so unpack returns 0 and the struct adapter reads no bytes.)", "quantifier": "all histories of class statements, mros, mixins, keyword arguments", "why_tests_cant": "the histories and inheritance graphs are unbounded; ownership depends on what was defined before", "anchors": ["src/infi/instruct/buffer/buffer.py:BufferType.__new__", "src/infi/instruct/buffer/buffer.py:Buffer._all_fields", "src/infi/instruct/buffer/buffer.py:Buffer.__init__", "src/infi/instruct/buffer/reference/field.py:FieldReference.init"]}
{"id": "C87", "title": "Open positions take what is left", "statement": "When an object is packed, a field with a closed position lies there; in a position with an open range (bytes_ref[4:]) the ranges listed before the open one are filled first and the open one takes what is left of the field. Such a split payload is restored by unpack from exactly the packed bytes whenever it is longer than the earlier ranges and the sizes are whole bytes. A shorter payload, or a non-empty range listed after the open one, makes pack fail. (Violated expectation: if the earlier ranges are not whole bytes the packed bytes cannot be unpacked.)", "quantifier": "all classes, objects, position lists and payloads", "why_tests_cant": "positions and payload sizes are unbounded, and where bits go depends on both", "anchors": ["src/infi/instruct/buffer/field_reference_builder.py:PackAbsolutePositionReference", "src/infi/instruct/buffer/field_reference_builder.py:UnpackAbsolutePositionReference", "src/infi/instruct/buffer/io_buffer.py:OutputBuffer.set"]}
{"id": "C88", "title": "Selectors choose the class when unpacking", "statement": "With unpack_selector, unpack() gives a new object of the class the selector returned, read from the field's bits, or the object and size it returned, or None; anything else fails. What is packed depends on the object's own class. If the selector finds the class of the packed object from fields unpacked before it (unpack_after) and from the bytes, then objects, and lists of objects of different classes, come back as they were packed. A list ends at its count or at the end of its bits, and the selector sees the elements before and the index. (Violated expectations: a selector that returns None in a list without a count makes unpack() run forever; byte_size without a selector makes the field impossible to unpack; strings in a list without a size of their own are padded to the size of the whole list.)", "quantifier": "all selectors, classes, objects, lists and field layouts", "why_tests_cant": "selectors are arbitrary functions of the object, the elements before, the index and the input", "anchors": ["src/infi/instruct/buffer/macros.py:buffer_field", "src/infi/instruct/buffer/macros.py:list_field", "src/infi/instruct/buffer/macros.py:unpack_selector_decorator", "src/infi/instruct/buffer/serialize.py:unpack_list"]}
{"id": "C89", "title": "Fields behind one another whose ends only unpacking finds", "statement": "If the positions, arguments and values of a Buffer's fields follow from each other without a circle, pack() puts the bits of every packed value at its place, and unpack() of any input that starts with the packed bytes stores every value again, also if fields take all of the input from some point and later fields start behind what those used (after_ref), if counts and positions come from member functions that look at fields unpacked before, and if a value is read back in another form than it was packed in. For an input that was never packed, unpack() stores what the input determines, also where fields overlap. Counted lists, lists with selectors and nested objects use no more of the input than was packed for them.", "quantifier": "all classes, objects, member functions, layouts, inputs and bytes behind them", "why_tests_cant": "lengths, counts and positions depend on each other and on the data in endless combinations", "anchors": ["src/infi/instruct/buffer/buffer.py:Buffer", "src/infi/instruct/buffer/macros.py:member_func_ref", "src/infi/instruct/buffer/macros.py:after_ref", "src/infi/instruct/buffer/macros.py:list_field", "src/infi/instruct/buffer/serialize.py:unpack_list"]}
{"id": "C90", "title": "The size an object says it has", "statement": "calc_byte_size() of an object returns the byte_size of its class if there is one, without looking at the object. Otherwise it returns the end of the last of the fields its class adds itself, which for a class without inherited fields and an object all of whose fields are packed is the length of what pack() returns. It changes no attribute but those with a set_before_pack. (The general claim that it is the packed length is false: fields whose pack condition is false count, and inherited fields do not; what it is instead is proved.)", "quantifier": "all classes, objects, layouts and numbers of inherited fields", "why_tests_cant": "positions depend on values and on each other in endless combinations", "anchors": ["src/infi/instruct/buffer/buffer.py:Buffer.calc_byte_size", "src/infi/instruct/buffer/reference/total_size.py:TotalSizeReference"]}
{"id": "C91", "title": "String fields with an encoding", "statement": "A str_field with encoding ascii, latin-1, utf-8, utf-16-le or utf-16-be packs exactly the bytes of its characters and raises a UnicodeError for characters the encoding does not have. Unpacking accepts exactly what encoding some text produces (no overlong UTF-8, no surrogates, no half characters). A text that fits is restored if its bytes do not begin or end with bytes that are stripped; with UTF-8 and ASCII padding it is enough that its characters do not. Values that are no strings are packed as str() shows them, bytes objects as their repr. (That every text that fits is restored is false for UTF-16: a text that fills its field and ends with a character below 256 is packed and then cannot be unpacked; this is proved.)", "quantifier": "all five encodings, all texts of any length, all justifications, paddings, strip sets and sizes, all input bytes", "why_tests_cant": "there are a million characters and endlessly many byte sequences that are nearly text", "anchors": ["src/infi/instruct/buffer/serialize.py:pack_str", "src/infi/instruct/buffer/serialize.py:unpack_str", "src/infi/instruct/buffer/macros.py:str_field"]}
{"id": "C92", "title": "Functions of the object run once and their effects stay", "statement": "A member function used as a reference, or a set_before_pack function, is called at most once in one pack(), unpack() or calc_byte_size(), however many fields refer to it and whether or not the operation succeeds. If it is the condition of a field, it is called exactly once in each pack() or unpack() that succeeds. When unpacking, the condition of a field is called on the object as it is after the fields before it were unpacked (a later field still has its old value), and what the function assigns to the object stays.", "quantifier": "all classes, all objects, all inputs, all functions (described by how they change the object)", "why_tests_cant": "how often and when a function runs depends on which other references ask for it, in every combination of fields and conditions", "anchors": ["src/infi/instruct/buffer/macros.py:member_func_ref", "src/infi/instruct/buffer/reference/reference.py:Reference"]}
{"id": "C93", "title": "Positions counted from the end of the input", "statement": "A field whose position depends on input_buffer_length is read at the position that the length of the given input determines. A bytes field at bytes_ref[a:b], where a and b are numbers or input_buffer_length minus numbers, gets exactly the bytes l[a:b] of the input. pack() of an object of such a class always fails if the field is always packed.", "quantifier": "all inputs of any length, all bounds, all classes that contain such a field", "why_tests_cant": "every input length gives another layout", "anchors": ["src/infi/instruct/buffer/reference/contexts.py:InputBufferLengthReference", "src/infi/instruct/buffer/macros.py:input_buffer_length"]}
{"id": "C94", "title": "Objects are written by their own class", "statement": "An object is written as its own class writes it, whatever Struct class or selector is declared for it, even if its class is not among the choices. If its class has the fields of the declared class and more, its bytes begin with those of the declared part, and reading them as the declared class gives that part and stops behind it. So a field behind it is then read from the bytes that the subclass added: such an object is not read back. sizeof() of a selector is the number of bytes written, but sizeof() of a declared Struct class counts the declared part only; the size that SumSizeArray writes in front is then smaller than the number of bytes that follow. A selector raises AttributeError for a value that is not an object.", "quantifier": "all Struct classes and subclasses, all declared marshals, all objects and bytes around them", "why_tests_cant": "each pair of declared and actual class, with any fields and at any nesting depth, is another case", "anchors": ["src/infi/instruct/struct/__init__.py:Struct", "src/infi/instruct/struct/selector.py:StructSelectorMarshal", "src/infi/instruct/struct/selector.py:FuncStructSelectorMarshal", "src/infi/instruct/array.py:SumSizeArrayMarshal"]}
{"id": "C95", "title": "Printing follows the object and the caller's formats", "statement": "An object is shown as its own class shows it, whatever Struct class or selector is declared for it: the text names its class and holds every named field with its value. Numbers are shown with the format that the caller's context gives (int_repr_format, float_repr_format), else with that of the outermost class around the number whose context gives one, else with %d and %f; formats of the caller apply at every depth and hide those of all classes. Without formats in contexts, the text is that of C69. Showing gives one text. A value that is not an object raises AttributeError where an object is declared, except None, which a Struct class shows as <none> and a selector does not.", "quantifier": "all classes with and without contexts, all declared marshals, all objects and nestings, all contexts, all ways of formatting numbers", "why_tests_cant": "each nesting of classes with contexts and each format is another case", "anchors": ["src/infi/instruct/struct/__init__.py:Struct", "src/infi/instruct/struct/selector.py:StructSelectorMarshal", "src/infi/instruct/numeric.py:NumericMarshal", "src/infi/instruct/struct/bit.py:BitMarshal", "src/infi/instruct/base.py:ReadOnlyContext"]}
{"id": "C96", "title": "Printing does not decode lazy containers", "statement": "An object with lazy containers that was read and then used in any way (attributes read and set, converted to bytes) is shown like an object of the same class without laziness after the same uses, except that the fields of a container whose values no use needed are each shown as <lazy>. So repr() decodes nothing and changes nothing, and once every container was needed the texts are equal. Bit fields directly in a lazy container are not shown as <lazy>: as long as the container was not decoded, repr() of the object raises TypeError. A new object for which the constructor got no value for some field in a lazy container cannot be printed either (KeyError).", "quantifier": "all classes with lazy containers of fixed-size fields, all inputs, all histories of uses, all ways of formatting numbers", "why_tests_cant": "the text depends on which containers the history of the object has decoded", "anchors": ["src/infi/instruct/struct/lazy.py:LazyField", "src/infi/instruct/struct/lazy.py:LazyFieldListContainer", "src/infi/instruct/struct/__init__.py:Struct"]}
{"id": "C97", "title": "Packing again gives the same bytes", "statement": "Two objects of a Buffer class that differ only in attributes which packing computes (those with set_before_pack) give the same bytes or the same error and get the same assignments. So the values that computed attributes had before do not matter, and pack() after pack() gives the same result and leaves the object as the first pack() left it. This holds for every class without functions of the object, and with such functions if they read no computed attribute.", "quantifier": "all classes without functions of the object or with functions that look only at attributes that are not computed, all objects, successful or failing packs", "why_tests_cant": "pack() assigns attributes while it evaluates references in an order that depends on the class", "anchors": ["src/infi/instruct/buffer/buffer.py:Buffer", "src/infi/instruct/buffer/field_reference_builder.py:FieldReferenceBuilder"]}
{"id": "C98", "title": "Objects inside objects keep what pack() does to them", "statement": "When a Buffer object is packed, every Buffer object in its buffer_field and list_field attributes that is packed is afterwards what its own pack() leaves, and the bytes it contributed are the ones of that pack(); all other attributes are as if the objects inside had been plain values, and the bytes (or the error) are the same. Packing once more gives the same bytes and changes neither the object nor any object inside, at any depth. If one of the objects of a field cannot be packed, those before it are packed, it is what its own pack() left, and those behind it are not touched.", "quantifier": "all classes without functions of the object, objects and lists of objects inside to any depth, all attribute values", "why_tests_cant": "the objects inside are changed in the middle of the evaluation of the references of the outer object", "anchors": ["src/infi/instruct/buffer/buffer.py:Buffer", "src/infi/instruct/buffer/serialize.py:pack_buffer", "src/infi/instruct/buffer/serialize.py:pack_list", "src/infi/instruct/buffer/field_reference_builder.py:FieldReferenceBuilder"]}
{"id": "C99", "title": "Fields are what the function that declares them says", "statement": "A field declared with UBInt8 and its like, VarSizeString, VarSizeBuffer, PaddedString, FixedSizeBuffer, FixedSizeArray, VarSizeArray, SumSizeArray or with BitField and BitFlag in a group is written in the form its name says (behind its length, number of elements or number of bytes, padded to its size, at the bit positions given, the low bits at the first slice), reading stores it under the declared name and nothing else, and a new object has the value passed for it, or else the declared default.", "quantifier": "all names, element types, defaults, padding directions, bit positions and values", "why_tests_cant": "the declaring functions hand their arguments to constructors with other parameter orders; a test fixes a few of the combinations", "anchors": ["src/infi/instruct/array_macros.py:SumSizeArray", "src/infi/instruct/array_macros.py:VarSizeArray", "src/infi/instruct/array_macros.py:FixedSizeArray", "src/infi/instruct/string_macros.py:VarSizeString", "src/infi/instruct/string_macros.py:PaddedString", "src/infi/instruct/struct_macros.py:BitField", "src/infi/instruct/struct_macros.py:BitFields", "src/infi/instruct/numeric_macros.py:MarshalWithField"]}
{"id": "C100", "title": "References mean what they say", "statement": "A reference built from other references and constants (arithmetic and comparisons on numbers of bytes, negation, num_ref, len_ref, min_ref, max_ref, byte slices, single bytes, lists of ranges, calls of a function) evaluates its arguments once, from left to right, and has exactly the value its notation denotes: sums, products and quotients of bytes and bits, the smallest or greatest argument, the bytes from start up to stop; None, texts and bytes may be compared with == and != with everything and are equal only to the same; it raises only if an argument raises or there is no such value: TypeError for other operators on None or on a number and a text, ZeroDivisionError, AssertionError for positions that are negative or end before they start. A condition counts as false exactly for None, 0, 0.0, and empty strings, lists, ranges and buffers.", "quantifier": "all classes, references, arguments, and states of the evaluation", "why_tests_cant": "arithmetic on fractions of bytes and evaluation order range over all expressions", "anchors": ["src/infi/instruct/buffer/reference/reference.py:NumericBinaryExpression", "src/infi/instruct/buffer/reference/reference.py:NumericUnaryExpression", "src/infi/instruct/buffer/reference/builtins.py:MinFuncCallReference", "src/infi/instruct/buffer/reference/builtins.py:MaxFuncCallReference", "src/infi/instruct/buffer/reference/builtins.py:LengthFuncCallReference", "src/infi/instruct/buffer/reference/range.py:ByteSliceRangeReference", "src/infi/instruct/buffer/reference/func_call.py:FuncCallReference"]}
{"id": "C101", "title": "JSON fields", "statement": "A JSON field is written as the text json.dumps gives, padded with spaces, and a value comes back if json.loads undoes json.dumps; reading drops NULs and then spaces at the end and white space at both ends before json.loads gets the text; a text that is not ASCII or a position that is not there raises; exceptions of json.dumps and json.loads are passed on.", "quantifier": "all values, sizes, bytes, and functions in place of json.dumps and json.loads", "why_tests_cant": "all texts and all widths", "anchors": ["src/infi/instruct/buffer/serialize.py:pack_json", "src/infi/instruct/buffer/serialize.py:unpack_json", "src/infi/instruct/buffer/macros.py:json_field"]}
{"id": "C102", "title": "Errors say which field failed and why", "statement": "The InstructBufferError that pack() and unpack() raise names (attr_name) the first field at which they stopped, all fields before it being packed, unpacked or left out; it is chained to the exception that was raised there; its text lists every reference resolved by then with its value, sorted and none twice, and the chain of references that leads from that field to the reference that raised. It is raised whenever a field fails and every resolved value has a repr; otherwise the caller gets the exception of that repr and nothing about the field. Exceptions of a pack_if, of the check of the packed length and of the size after unpacking come without such a report.", "quantifier": "all classes, objects, buffers, texts of references, and repr functions of values", "why_tests_cant": "every field may fail in every reference, and the report depends on everything evaluated before", "anchors": ["src/infi/instruct/buffer/buffer.py:InstructBufferError", "src/infi/instruct/buffer/buffer.py:Buffer", "src/infi/instruct/buffer/reference/reference.py:Context"]}
{"id": "C103", "title": "The text of Buffer objects", "statement": "repr of a Buffer object is module.Class(name=value, ...) with the fields that its class declares itself, in alphabetical order, and the values of the attributes at that moment; it raises only if the repr of one of these values does, and then that exception. Fields of base classes are not shown: objects that differ only in them have the same text, and an object of a class that adds no field shows as Class(). An object of Buffer itself has no repr: AttributeError.", "quantifier": "all histories of class statements, classes, constructor arguments, assignments and repr functions of values", "why_tests_cant": "every hierarchy of classes and every state of an object", "anchors": ["src/infi/instruct/buffer/buffer.py:Buffer"]}
{"id": "C104", "title": "Texts of references", "statement": "The text of a reference, as shown in errors, never fails; for an expression of numbers, fields, self.x, arithmetic and comparison operators, num_ref, len_ref, min_ref and max_ref it is written as in Python with all parentheses, and two different expressions never have the same text. The texts of after_ref, of the position at which a field is packed, of calls of Python functions and of what unpacks a field with one are always the placeholder (type<id> repr error); products and quotients show the repr of the operator, and lists of ranges none of their elements.", "quantifier": "all references of any depth, numbers and names", "why_tests_cant": "no text may hide how operators are nested, for expressions of any depth", "anchors": ["src/infi/instruct/buffer/reference/reference.py:Reference", "src/infi/instruct/buffer/reference/reference.py:NumericBinaryExpression", "src/infi/instruct/buffer/reference/func_call.py:FuncCallReference", "src/infi/instruct/buffer/reference/after_field.py:AfterFieldReference", "src/infi/instruct/buffer/reference/range.py:ListRangeReference", "src/infi/instruct/buffer/field_reference_builder.py:PackAbsolutePositionReference", "src/infi/instruct/utils/safe_repr.py:safe_repr"]}
{"id": "C105", "title": "Extra arguments of create_from_stream", "statement": "Keyword arguments given to create_from_stream or create_from_string besides stream and context act exactly as other defaults of the fields of that name, in the struct that is read and in every struct inside it, however deeply nested (only the structs that give the length of a string, the size of an array counted in bytes or the key of a selector do not get them), as long as no number gets them. Hence they have no effect where every field is read from the input; an optional field that is left out has the value given; names that no field has are ignored. Where a number gets them, reading fails: a number rejects extra arguments with TypeError before reading anything, so nothing that always contains a number can be read with extra arguments, whatever the input. create_from_string rejects everything but bytes with TypeError. Lazy containers keep the arguments until they are decoded: if the class without laziness can be read with them, no program can tell the lazy object from the eager one; but a lazy container that contains a number is accepted whatever the input, and the error comes when the object is used for the first time.", "quantifier": "all definitions with distinct names, all positional and keyword arguments, contexts and inputs", "why_tests_cant": "the arguments travel down definitions of any depth; what they leave behind depends on which fields the input leaves out", "anchors": ["src/infi/instruct/base.py:Marshal.create_from_string", "src/infi/instruct/struct/__init__.py:Struct.create_from_stream", "src/infi/instruct/struct/__init__.py:FieldListContainer.read_fields", "src/infi/instruct/numeric.py:NumericMarshal.create_from_stream", "src/infi/instruct/array.py:VarSizeArrayMarshal.create_from_stream", "src/infi/instruct/struct/selector.py:StructSelectorMarshal.create_from_stream", "src/infi/instruct/struct/lazy.py:LazyFieldListContainer.read_fields"]}
{"id": "C106", "title": "Operators on positions", "statement": "In a class body positions can be added to each other, and the sum covers the ranges of the left one and then those of the right one. A position cannot be added to a constant. Positions other than that of a single byte are otherwise equal to nothing but themselves, cannot be ordered or calculated with (TypeError), and are no index and no bound. (Violated expectations: bytes_ref[x] with a single index raises AttributeError where it is compared, calculated with, negated or used as an index, because its constructor leaves out an attribute; comparing or calculating with another position and a numeric field is accepted when the class is defined, and fails or is never equal in every pack and unpack; a field plus a position is accepted, and can never be evaluated.)", "quantifier": "all position expressions, references, constants, operators and values", "why_tests_cant": "expressions are unbounded; which of them fail when the class is defined, which only when objects are packed, and with what error depends on the kind of both operands", "anchors": ["src/infi/instruct/buffer/reference/range.py:RangeReference", "src/infi/instruct/buffer/reference/range.py:ByteNumericRangeReference", "src/infi/instruct/buffer/reference/range.py:ListRangeReference", "src/infi/instruct/buffer/reference/reference.py:Reference", "src/infi/instruct/buffer/range.py:SequentialRangeList"]}
{"id": "C107", "title": "Fields that look at lazy containers", "statement": "Take a class whose optional fields look at the object in their predicates and whose strings and arrays take their length from an attribute of the object, none of them looking at a lazy container further on, and the same class with all containers read eagerly. If the eager class can be read from an input then so can the lazy one, taking the same bytes, and every later history of attribute reads, assignments and conversions to bytes gives the same answers. If the data of a container is broken, reading the object raises the error of the eager class as soon as a field looks at the container. A container at which no field looks is not decoded by reading; one at which a field looks first is.", "quantifier": "every such class, every predicate, every input and every history of get/set/write operations", "why_tests_cant": "predicates are arbitrary programs over the attributes, and which containers they decode and when depends on the data", "anchors": ["src/infi/instruct/struct/lazy.py:LazyField", "src/infi/instruct/struct/lazy.py:LazyFieldListContainer", "src/infi/instruct/struct/optional.py:OptionalField", "src/infi/instruct/struct/pointer.py:ReadPointer"]}
{"id": "C108", "title": "What failed packing and unpacking leave behind", "statement": "pack() and unpack() of a Buffer change nothing but attributes of fields, also when they raise. After pack(), returned or raised, an attribute is what it was or what its set_before_pack gives. If the fields at fixed places up to some field can be packed and that one cannot, because its attribute is missing or its value is not accepted, pack() raises InstructBufferError with the values of the fields in front in the object and no other attribute changed except that of the failing field by its own set_before_pack. If fields at fixed places can be read up to some field, and that one cannot be read (for instance because the input ends within an integer), unpack() raises InstructBufferError with the attributes in front of that field assigned from the input and all others as they were. Unpacking a good input into the object later makes all attributes right whatever the failed call left.", "quantifier": "every class of the model, every object, every input and every failing field", "why_tests_cant": "depends on where in the declaration the failure happens and on everything that was assigned before", "anchors": ["src/infi/instruct/buffer/buffer.py:pack", "src/infi/instruct/buffer/buffer.py:unpack", "src/infi/instruct/buffer/reference/reference.py:Context"]}
{"id": "C109", "title": "Arrays of bits as objects", "statement": "A program that makes BitAwareByteArray objects, slices and adds them, assigns, inserts and extends with other arrays, bytes and integers has the effect it has on plain values, as long as no two arrays are made on one bytearray and no array is its own argument: no array changes but the target. Two arrays on one bytearray see each other's assignments bit by bit. Expected and not true: a.extend(a) and a.insert(0, a) double the array; the first doubles it and raises IndexError, the second puts zeros in front and raises ValueError, while a + a is right. Expected and not true: an array stays readable when bytes are deleted through another one on the same bytearray.", "quantifier": "every program of such statements, all arrays and contents; the arrays given to themselves hold whole bytes", "why_tests_cant": "sharing and self-reference depend on which objects a program uses together, and the outcome on all lengths", "anchors": ["src/infi/instruct/buffer/io_buffer.py:BitAwareByteArray.extend", "src/infi/instruct/buffer/io_buffer.py:BitAwareByteArray.insert", "src/infi/instruct/buffer/io_buffer.py:BitAwareByteArray.__setitem__", "src/infi/instruct/buffer/io_buffer.py:BitAwareByteArray._copy_to_range"]}
{"id": "C110", "title": "Bit fields inside lazy containers", "statement": "Objects of a class whose lazy containers also hold bit fields or field lists are read whenever the class without laziness is, taking the same bytes. After to_bytes, or after looking at one ordinary field of every such container, no program can tell them from objects without laziness; in general every history of uses gets the answers of a simple description with open and closed containers. Expected and not true: a bit field of an object that was read has the value in the data and keeps what is assigned to it. Before its container is open it has the value of a newly constructed object, and an assigned value is lost when the container is opened: it is not in the bytes either.", "quantifier": "every class of such items, every input and every history of uses", "why_tests_cant": "what is seen depends on which accesses came before; tests look at a field once or convert first", "anchors": ["src/infi/instruct/struct/lazy.py:LazyFieldListContainer", "src/infi/instruct/struct/lazy.py:LazyField", "src/infi/instruct/struct/bit.py:BitFieldListContainer"]}
{"id": "C111", "title": "Lazy containers inside lazy containers", "statement": "Objects of a class whose lazy containers hold further lazy containers, to any depth, are read whenever the class without laziness is, taking the same bytes; to_bytes gives the same bytes, or the same error, and after a conversion that did not fail no program can tell the difference; in general every history of uses gets the answers of a simple description with open and closed containers, where a failed conversion has opened the containers that come before the failure. An object constructed with values for all lazy fields behaves as without laziness. Expected and not true: a field of an inner container can be read and assigned like any other. Before a field of the outer container is looked at, reading it raises KeyError, and an assigned value is lost when the outer container is decoded.", "quantifier": "every class of such containers of any depth, every input and every history of uses", "why_tests_cant": "what is seen depends on which accesses came before and on the depth; tests look at one container", "anchors": ["src/infi/instruct/struct/lazy.py:LazyFieldListContainer", "src/infi/instruct/struct/lazy.py:LazyField"]}
{"id": "C112", "title": "Values of the wrong type", "statement": "Whatever write_to_string or write_to_stream accepts has, in every field at any depth, a value of a kind that the declaration of the field takes: integers, numbers, bytes, things to loop over, keys of the mapping, objects. Anything else in a number field raises InstructError, in a string or array field TypeError or AttributeError, in place of an object AttributeError, and writes nothing. Expected and not true: a value of the wrong type leaves no trace. A text or a list in a length-prefixed string field raises TypeError after its length was written.", "quantifier": "every class built from the library's fields, nested to any depth, every value and every output so far", "why_tests_cant": "the values that must be refused are all values of all other types in all places; tests try a few", "anchors": ["src/infi/instruct/numeric.py:NumericMarshal", "src/infi/instruct/string.py:VarSizeStringMarshal", "src/infi/instruct/string.py:PaddedStringMarshal", "src/infi/instruct/array.py:VarSizeArrayMarshal", "src/infi/instruct/mapping.py:FixedSizeMappingMarshal"]}
{"id": "C113", "title": "Objects with lazy containers shared by threads", "statement": "Threads that only read fields of an object which was just read from a stream, or call its to_bytes, get, under every schedule, the answers the object gives without laziness, or KeyError or AttributeError where lazy containers are involved; once they are done the object is like one without laziness. Whatever the threads do, an assignment to a field of a lazy container raises nothing but AttributeError, and reading a field nothing but AttributeError and KeyError. No thread waits for another one, and a thread that is alone gets the answers of its history. Expected and not true: reading is safe. For every field of a lazy container two reading threads can be scheduled so that one of them gets KeyError, or AttributeError. Expected and not true: an assignment that returned is in the object. A thread that reads the container meanwhile can undo it. After to_bytes, all reads and assignments of fields by all threads are as if they were done one after another on an object without laziness. Expected and not true: to_bytes while another thread assigns fields gives the bytes of the object at some moment; it can have a later assignment and not an earlier one.", "quantifier": "every class with lazy containers of ordinary and anonymous fields, every input, any number of threads with any programs, every schedule", "why_tests_cant": "the schedules of threads cannot be chosen by a test, and there are unboundedly many", "anchors": ["src/infi/instruct/struct/lazy.py:LazyFieldListContainer, LazyField"]}
{"id": "C114", "title": "Lazy containers in field lists", "statement": "Two classes that declare the same fields and lazy containers in the same order, with whatever field lists around them to any depth, or with one container as _fields_, read and construct the same objects, answer every sequence of accesses, assignments and conversions alike and give the same sizes. Objects that were read, or constructed with all values, behave as those of the class without laziness; a class that is one lazy container takes any input and gives the error of the data at the first use. Field lists do not show in repr if none is empty. Expected and not true: they never show. An empty field list between other fields leaves a comma behind.", "quantifier": "every declaration made of field lists, lazy containers of ordinary and anonymous fields and fields that look at nothing else, every input, every sequence of uses", "why_tests_cant": "the declarations are trees of any depth and the sequences of uses are unbounded", "anchors": ["src/infi/instruct/struct/lazy.py:LazyFieldListContainer, LazyField", "src/infi/instruct/struct/__init__.py:FieldListContainer, StructType.__new__"]}
{"id": "C115", "title": "Methods inherited from Sequence and MutableSequence", "statement": "The elements of a bit view are its bits eight by eight, the last ones padded with zeros. x in view, count(x) and reversed(view) are about these elements; index(x, start, stop) is the first position of x from start on if there is one before stop, and ValueError if there is none before a stop that is not after the end or none at all and the view ends with the bytes it is made of. array.pop() and pop(i) return and remove eight bits, remove(x) removes the first whole element x and raises ValueError without any if the array ends with its bytearray, clear() empties an array of whole bytes up to the end of its bytearray, reverse() reverses the elements of an array of whole bytes. Expected and not true: index always ends with a position where x is or with ValueError (a view that ends before its bytes makes the search for an absent value go on for ever, and the search for an absent 0 end with the length); pop() of fewer than eight bits leaves an empty array, remove of a last element of less than eight bits removes that element, clear() empties every array, reverse() loses nothing.", "quantifier": "every view and array, every value, every offset and bound", "why_tests_cant": "views have any length and start at any bit, and a search without end is not seen by a test that returns", "anchors": ["src/infi/instruct/buffer/io_buffer.py:BitView, BitAwareByteArray"]}
{"id": "C116", "title": "A container that could not be decoded", "statement": "If the data of a lazy container cannot be decoded, the first access, assignment or conversion raises the error of the data. Expected and not true: later ones raise it too. After it, whichever use it was, the fields in front of the one that failed have the values of the input, the failed one and those behind it raise KeyError, and to_bytes fails as long as one of these has no value; the value of an assignment that raised is lost. Once all of them are assigned, the object behaves like one that was never lazy. What is done in one container, with or without an error, makes no difference for the fields outside of it. A field that can be read keeps its value, whatever else is done with the object, until it is assigned. Expected and not true: an input that is too short is rejected when the object is read. A class of lazy containers reads any input, even an empty one, and takes what there is.", "quantifier": "every container of fixed size, every input that is too short or has wrong data, every first use and every history after it", "why_tests_cant": "which fields are left depends on where the data is wrong and on what was done before", "anchors": ["src/infi/instruct/struct/lazy.py:LazyFieldListContainer.instantiate_if_needed", "src/infi/instruct/struct/lazy.py:LazyField"]}
