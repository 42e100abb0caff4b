# Formal model of infi.instruct in Rocq

Target: the Python 3 branches of `/repo/src/infi/instruct` at the pinned commit.  Nothing in /repo
is run; the model is a reading of the source, function by function, with citations.

* `properties.jsonl` lists the properties, `MANIFEST.json` the theorems that prove each of them.
* `seeded/LOG.jsonl` records how the theorems fared against deliberately wrong programs.  Entries with
  `first_proof_that_failed` were stopped at the first lemma that no longer proves and that theorems rest on; `failed` then lists the theorems
  whose proofs use that lemma.  Edits whose entry has no claim of its own were generated (a swapped argument, a
  changed boundary, a dropped step, another error); their `claim` names the properties of the theorems that failed.
* `rocq/theories` has the model (`X.v`), the vocabulary of the statements (`XSpec.v`), the lemmas
  (`XFacts.v`, `XProofs.v`, ...) and the property theorems (`Properties*.v`).

## Files

| model | source | content | vocabulary | properties |
|---|---|---|---|---|
| `Base` | - | Python results with exceptions as values, state monad, bytes, slices | - | - |
| `IntCodec` | `struct.pack/unpack` as used by `numeric.py`, `buffer/serialize.py` | integers and IEEE floats by bit pattern | `CodecSpec`, `FloatSpec` | `PropertiesNumeric`, `PropertiesIntFloat` |
| `Formats` | `numeric.py`, `numeric_macros.py` | the named types | `FormatSpec` | `PropertiesFormats` |
| `BitStringIO` | `utils/bitstringio.py` | bit-wise reads, writes, seeks | `BitFieldSpec` | `PropertiesBits` |
| `Stream` | `io.BytesIO`, `utils/read_ahead_stream.py` | nested streams, programs that read | `StreamSpec`, `SimSpec` | `PropertiesStream` |
| `MinMax` | `base.py` MinMax | interval arithmetic | - | `PropertiesSizes` |
| `Contexts` | `base.py` ReadOnlyContext, WritableContext; `struct/__init__.py` get_updated_context | heap of dicts, histories of operations | `ContextsSpec` | `PropertiesContexts` |
| `Marshal` | `base.py`, `numeric.py`, `string.py`, `array.py`, `mapping.py`, `padding.py`, `struct/*` | deep embedding of marshals and fields; read, write, sizeof, min_max | `MarshalSpec`, `FieldSpec`, `SizeSpec` | `PropertiesSizes`, `PropertiesRoundTrip`, `PropertiesFields`, `PropertiesArrays`, `PropertiesPrefix` |
| `Macros` | `struct_macros.py`, `string_macros.py`, `array_macros.py` | the definition macros | `MacrosSpec` | `PropertiesMacros` |
| `Lazy` | `struct/lazy.py` | objects with data not decoded yet; get, set, write, size | `LazySpec` | `PropertiesLazy` |
| `Heap` | defaults in `struct/__init__.py`, `buffer/buffer.py` | a heap of mutable values, to express sharing | `HeapSpec` | `PropertiesHeap` |
| `Repr` | `to_repr` of all marshals, `Struct.__repr__` | printing | `ReprSpec` | `PropertiesRepr` |
| `StructInit` | `StructType`, `Struct.__init__` | constructors with user code and inheritance | `StructInitSpec` | `PropertiesInit` |
| `Range` | `buffer/range.py` | ranges in eighths of a byte; CPython's sort for short lists | `RangeSpec` | `PropertiesRanges` |
| `RangeRef`, `WhereRef` | `buffer/reference/range.py` | byte and bit addressing, evaluation and definition | `WhereSpec` | `PropertiesRanges`, `PropertiesWhere` |
| `IoBuffer` | `buffer/io_buffer.py` | BitView, BitAwareByteArray, InputBuffer, OutputBuffer | `IoSpec` | `PropertiesIo` |
| `Serialize` | `buffer/serialize.py` | packers and unpackers | `SerializeSpec` | `PropertiesSerialize` |
| `RefEngine` | `buffer/reference/reference.py` | deref with cache, cycle detection, call stack; is_static | `RefSpec` | `PropertiesRefs` |
| `RefOps` | operators of `reference.py`, `builtins.py` | Python's dispatch of binary operators | `RefOpsSpec` | `PropertiesRefOps` |
| `BufferModel`, `BufferMacros` | `buffer/buffer.py`, `field_reference_builder.py`, `macros.py`, the other references | pack, unpack, sizes, classes, constructor | `BufferSpec`, `BufferReadSpec`, `BufferCodecSpec` | `PropertiesBuffer`, `PropertiesHooks`, `PropertiesReads` |
| `Declare` | the arguments of `buffer/macros.py` and of FieldReferenceBuilder; `utils/kwargs.py` | binding of arguments; declared fields; keywords of integer packers | `DeclareSpec` | `PropertiesDeclare` |
| `BufferTypes` | `buffer/buffer.py` BufferType.__new__, _all_fields, __init__; `reference/field.py` | histories of class statements with mro and mixins; who owns a field; constructing | `BufferTypesSpec` | `PropertiesTypes` |
| (`BufferModel`: positions) | `field_reference_builder.py` | open positions | `OpenSpec` | `PropertiesOpen` |
| `SelectModel` | unpack_selector in `buffer/macros.py`, `buffer/serialize.py` | fields and lists whose class is chosen when unpacking | `SelectSpec`, `SeeSpec` | `PropertiesSelect` |
| (`BufferModel`: references) | `buffer/buffer.py`, `reference/`, `serialize.py` | layouts with after_ref, member functions and lists one behind the other | `WideSpec` | `PropertiesWide` |
| `ObjectSize` | `Buffer.calc_byte_size` called by the user | the context of the class's own fields | `ObjectSizeSpec`, `WideSpec` | `PropertiesObjectSize` |
| `StrCodec` | `buffer/serialize.py` pack_str, unpack_str | five encodings, `str()` of other values | `StrCodecSpec` | `PropertiesStrCodec` |
| (`BufferModel`) | functions of the object; `input_buffer_length` | | `MemberSpec`, `LengthSpec` | `PropertiesMember` |
| `Poly` | writing and sizeof by the class of the object (`struct/__init__.py`, `struct/selector.py`) | | `PolySpec` | `PropertiesPoly` |
| `Show` | to_repr with the formats of contexts and by the class of the object (`numeric.py`, `struct/*.py`) | | `ShowSpec` | `PropertiesShow` |
| `LazyShow` | repr of objects with lazy containers (`struct/lazy.py`) | | `LazyShowSpec` | `PropertiesLazyShow` |
| (`BufferModel`) | packing twice | | `RepeatSpec` | `PropertiesRepeat` |
| (`Marshal`) | constants and defaults in groups and among bit fields | | `ConstSpec` | `PropertiesConst` (C14, C17) |
| `Deep` | `buffer/serialize.py` 250-251, 281-285 | nested objects as objects | `DeepSpec` | `PropertiesDeep` |
| (`Macros`, `Formats`) | what the declaring functions of `*_macros.py` make | fields as written, read and constructed | `DeclaredSpec` | `PropertiesDeclared` |
| (`BufferModel`) | `buffer/reference/*.py` | what the references of a user mean | `MeaningSpec` | `PropertiesMeaning` |
| (`BufferMacros`) | `json_field` | | `BufferCodecSpec` | `PropertiesJson` |
| `BufferReport` | InstructBufferError (`buffer/buffer.py` 15-37), Context (`reference/reference.py` 53-54) | what pack() and unpack() raise, with the report it carries | `ReportSpec` | `PropertiesReport` |
| `BufferText` | Buffer.__repr__ (`buffer/buffer.py` 166-169) | text of objects of classes with bases | `BufferTextSpec` | `PropertiesText` |
| `RefText` | `__repr__` and `__safe_repr__` of `buffer/reference/*.py`, `field_reference_builder.py`; `utils/safe_repr.py` | texts of references by their shape | `RefTextSpec` | `PropertiesRefText` |
| `ReadArgs` | `base.py` create_from_string, `struct/__init__.py` create_from_stream, `array.py`, `string.py`, `struct/*`: extra arguments | the reader of `Marshal` with keyword arguments handed on | `ReadArgsSpec` | `PropertiesReadArgs` |
| `LazyArgs` | `struct/lazy.py` with extra arguments of `create_from_stream` | `Lazy` with the reader of `ReadArgs` | `LazySpec`, `ReadArgsSpec` | `PropertiesReadArgs` |
| `WhereOps` | `buffer/reference/range.py` 10-28 and the operators inherited from `reference.py`, `buffer/range.py` 190-194 | operators on positions | in `WhereOpsFacts` | `PropertiesWhereOps` |
| `LazyLook` | `struct/lazy.py` 29-31, 64-82, `struct/optional.py` 14-16, `struct/pointer.py` | fields behind lazy containers that look at them | at the end of `LazyLook`, `LazySpec` | `LazyLookFacts`, `PropertiesLazyLook` |
| `RefFail`, `BufferFail` | `buffer/buffer.py`, `buffer/reference/reference.py` | evaluation of references that raise; the object after a failed call | `BufferFailSpec` | `RefFail`, `BufferFail`, `PropertiesFail` |
| `IoShare` | `buffer/io_buffer.py` 117-275 | arrays that refer to bytearrays; an argument is read while the target is written | `IoShareSpec` | `IoShareFacts`, `IoShareSelf`, `IoShareSeen`, `PropertiesShare` |
| `Lazy` (bit fields) | `struct/lazy.py` 45-82 | bit fields and field lists in lazy containers | `LazyBitsSpec` | `LazyBitsFacts`, `PropertiesLazyBits` |
| `LazyNest` | `struct/lazy.py` 8-82 | lazy containers inside of lazy containers | `LazyNestSpec` | `LazyNestFacts`, `PropertiesLazyNest` |
| `Threads` | `struct/lazy.py` 25-31, 68-82 | threads that get and set fields of one object and call its to_bytes, every access to the instance dictionary being one step | `ThreadsSpec`, `LazySpec` | `ThreadsFacts`, `ThreadsRun`, `ThreadsLinear`, `ThreadsTorn`, `ThreadsErrors`, `PropertiesThreads` |
| `LazyTree` | `struct/__init__.py` 81-109, 132-137; `struct/lazy.py` | lazy containers in field lists of any depth, `_fields_` that is one container | `LazyTreeSpec`, `LazySpec` | `LazyTreeFacts`, `LazyTreeText`, `PropertiesLazyTree` |
| `IoMixin` | `buffer/io_buffer.py` 10, 44-46, 117 (inherited methods) | `in`, `count`, `index`, `reversed`, `pop`, `remove`, `clear`, `reverse`; loops with fuel | `IoMixinSpec`, `IoSpec` | `IoMixinFacts`, `IoMixinMut`, `IoMixinRev`, `PropertiesMixin` |
| `Lazy` (after a failure) | `struct/lazy.py` 71-82 | what is left of a container that could not be decoded | `LazyFailSpec`, `LazySpec` | `LazyFailFacts`, `PropertiesLazyFail` |

Further lemmas on one module only: `LazySizes.v` (sizes of lazy objects), `IoOpen.v` (ranges that buffers refuse), `EqSpec.v` and `EqFacts.v` (equality of values, C17), `LazyConst.v` (constants in groups in lazy containers), `LazyText.v` (texts of lazy objects that wait for a constant, and of new ones), `StructInitCalls.v` (positional
constructor calls), `DefineFacts.v` (declared bit groups, constants and padding), `ReprNumbers.v` (how numbers are
shown), `DeclareKeywords.v` (what codecs are called with), `DeclareNoEndian.v` (a byte order that is None), `DeclareKinds.v` (which fields are numbers, which codec a builder uses), `StructInitStay.v` (attributes that stay), `OptionalFacts.v` (optional fields in whole structs, C18, `PropertiesOptional`), `SelectorFacts.v` (key selectors with a default, C27). `BufferExamples.v` holds the concrete classes used by the non-vacuity examples of `PropertiesBuffer`.

## Conventions

* Exceptions are values: `res A` is `Ok` or `Err`; `stM S A` is a state transformer with a result.
  The state after an exception is part of the result, so partial effects are visible.
* A loop is structural recursion.  A `while` loop that can run forever yields the pseudo exception
  `Diverges`; there are theorems that this happens exactly if the Python loop does not end.
* Behaviour that is left out yields the pseudo exception `NotModelled`.  No theorem says anything
  nontrivial about a run that ends in it.
* Fractional byte offsets are multiples of 1/8 and are modelled as numbers of bits.  Python computes
  them with floats, which is exact below 2^50.
* User code is a parameter: functions, predicates, selectors that read from the stream are arbitrary
  Gallina functions or programs (`rprog`, `prog`), so the theorems hold for all of them.
* Where the code violates the natural property, the violation is a theorem (`..._refuted`, or a
  universally quantified description of what happens instead), next to the part that holds.

## Trusted base

* Coq 8.16.1's kernel, and `vm_compute` (part of it) in some examples.
* Axioms: none.  Each `Properties*.v` file runs `Print Assumptions` for every property theorem, and
  each prints "Closed under the global context".  (`vcheck` lists seven constants of
  `Coq.ssr.ssrunder.Under_rel`; they are opaque parameters of a module of the standard library that
  is loaded with `lia`, no theorem depends on them.)
* Only the standard library is used (`ZArith`, `List`, `String`, `Bool`, `Lia`).
* The reading of Python in `Base.v` (slices, indexing, shifts, `range`), `IntCodec.v` (`struct`),
  `Stream.v` (`BytesIO`) and the comments that cite the source.

## Modelled, and not modelled

Modelled as described above, per file of `src/infi/instruct`:

| file | not modelled |
|---|---|
| `base.py` | extra arguments of `create_from_stream` with user-written `__init__`; the context given to writers (none looks at it) |
| `numeric.py` | - |
| `string.py`, `array.py`, `mapping.py`, `padding.py` | - |
| `numeric_macros.py`, `string_macros.py`, `array_macros.py`, `mapping_macros.py`, `struct_macros.py` | bit slices without bounds; a default name for a macro |
| `struct/__init__.py` | positional-only parameters; a keyword argument called `self` |
| `struct/bit.py`, `struct/const.py`, `struct/optional.py`, `struct/pointer.py` | an error while the message of a wrong constant is built |
| `struct/lazy.py` | threads that size or represent a shared object, and lazy containers with bit fields or containers in them that are shared by threads; selectors and user-written readers that look at lazy containers |
| `utils/bitstringio.py` | - |
| `utils/read_ahead_stream.py` | writing to the wrapped stream (unreachable) |
| `utils/kwargs.py` | the checks that nothing calls |
| `_compat.py`, `errors.py` | not modelled on their own; the Python 2 branches are left out |
| `buffer/range.py` | sorting lists of 64 ranges or more (the theorems hold for any sort without adjacent inversions) |
| `buffer/io_buffer.py` | an array that is its own argument, unless it holds whole bytes (C109); `__str__`, `__repr__` |
| `buffer/serialize.py` | string encodings other than ASCII, Latin-1, UTF-8 and UTF-16 without byte order mark; `str()` of floats, bytearrays, lists and objects; what `json` does (a parameter) |
| `buffer/compat.py` | `to_repr`; whether `byte_size` is an int or a float object is a parameter of the model; a float size with a read-ahead stream |
| `buffer/reference/*.py` | products of two fractions of a byte; arithmetic with the values of float fields; concatenation, repetition and order of texts and lists; equality of lists, objects and floats; min and max of anything but numbers and None; `ref.name` where `name` is an attribute of the class only; true division; references to references as values |
| `buffer/buffer.py`, `buffer/macros.py`, `buffer/field_reference_builder.py` | a `where_when_pack` that is no reference (the builder accepts it); in `BufferModel` attributes that packing assigns in a *nested* object are not written back to it (`Deep` adds this, for classes whose references do not look into nested objects); the text of error messages except the report of InstructBufferError, in which the texts of references and values are parameters |

## Plan per property

| properties | model | proof |
|---|---|---|
| C01-C04, C51, C65, C76 | `IntCodec`, `Marshal`, `Formats` | digit lists over Z, induction on the width; rounding by cases on the exponent |
| C05-C08 | `BitStringIO`, bit containers of `Marshal` | every operation characterised by `Z.testbit` |
| C09, C10, C28, C52 | `Stream` | invariant over read histories; a simulation between streams with the same rest |
| C11 | `MinMax` | linear arithmetic |
| C12-C18, C20-C27, C75 | `Marshal` | induction over the deep embedding (`MarshalInd`) |
| C19, C64 | `Lazy` | refinement to the eager object over histories of operations |
| C29 | `Heap` | invariants over histories of constructions and mutations |
| C30-C33, C53-C55 | `IoBuffer` | refinement of every operation to lists of bits |
| C34, C35, C36 | `Range`, `RangeRef` | the sort leaves no adjacent inversion; addressing as selection from the list of bits |
| C37, C38, C59, C60 | `RefEngine` | fuel bounded by the number of references, invariants of the context |
| C39, C40, C47-C50, C61-C63 | `BufferModel`, `BufferMacros` | refinement of packing to a map from positions to bits; layouts that evaluate in order |
| C41-C46, C56-C58 | `Serialize` | bit lists, loops as iterations |
| C66, C67 | `RefOps` | induction over expressions, case analysis of the operator dispatch |
| C68 | `WhereRef` | induction over position expressions |
| C69 | `Repr` | induction over the deep embedding, using what reading returns |
| C70-C72 | `StructInit` | induction over the chain of classes and over user programs |
| C77-C80 | `BufferModel` | invariants over evaluation: what is remembered agrees with the object and the input |
| C81 | `Compat` | from C40, C47, C80 and the stream lemmas |
| C82 | `Marshal` | exact values of doubles; an int equal to one float equals nothing else that differs from it |
| C83 | `Contexts` | simulation between the heap of dicts and a semantics of values; induction on the history |
| C84 | `IoBuffer`, `IoIndex` | bits before and after; case split on alignment |
| C85 | `Declare` | every builder is the common one after binding; dicts as lookups |
| C86 | `BufferTypes` | invariant over histories of class statements |
| C87 | `BufferModel` (positions), `Range` | `OpenSpec`: what an open position becomes; invariant of the context over evaluation (`OpenProofs`), round trip from C48 |
| C88 | `SelectModel` | `SeeSpec`: layouts with unpackers that look at earlier fields; the round trip of C48 by phases; induction over the list |
| C89 | `BufferModel` (references) | `WideSpec`: what packing and what reading needs, apart; fields that leave the end of the input to others; phases as in C88 (`BufferDep`); the SES page as an instance |
| C90 | `ObjectSize` | from the evaluation lemmas of C89, with the references of the class and one more |
| C91 | `StrCodec` | characters one by one; decoding by strong induction on the number of bytes; fields as in C43 |
| C92 | `BufferModel` | a counter on the object: invariant of dereferencing (counted iff the result is in the cache) |
| C93 | `BufferModel` | references that depend on the input length only: induction on evaluation |
| C94 | `Poly` | dispatch on the class of the object with a depth bound that is large enough; agreement with `Marshal.write` by mutual induction, then C01's round trip for the declared part |
| C95 | `Show` | texts with contexts and by the class of the object, with a depth bound that is large enough; agreement with `Repr.to_repr` by mutual induction; contexts that hold both formats are interchangeable |
| C96 | `LazyShow` | the refinement between lazy and eager objects of C19, with the set of containers that wait to be decoded as a further invariant over the history |
| C97 | `RepeatSpec` | two runs of pack() in lockstep: caches agree, objects differ only in computed attributes; assignments are idempotent |
| C98 | `Deep` | simulation between the class that treats nested objects as values and the one with an extra reference per field that packs the object and writes it back; induction on the depth |
| C99 | `Macros`, `Formats` | lifting the round trips of the marshals to the declared fields; fold over the fields of a new object |
| C100 | `BufferModel` (user references) | inversion of the evaluation relation, arguments by induction |
| C101 | `BufferMacros.json_field` | trimming by induction on the text |
| C102 | `BufferReport` | the cache and the stack after a failing evaluation, by induction on the depth of references; then field by field |
| C103 | `BufferText` on `BufferTypes` | sortedness of declared fields as an invariant of histories; fields one by one |
| C104 | `RefText` | mutual induction on expressions and lists of them: what is behind an expression starts with a delimiter |
| C105 | `ReadArgs`, `LazyArgs` | induction on definitions: reading with extra arguments equals reading with other defaults; attributes that agree except under names still to be read |
| C106 | `WhereOps` | case analysis on both operands; induction on the members of a sum for what it evaluates to |
| C107 | `LazyLook` | predicates as programs that ask for attributes; invariant between the object being read and the eager one |
| C108 | `BufferModel`, `RefEngine` | evaluations that raise as derivations (`RefFail`); induction over the order in which fields are packed and unpacked |
| C109 | `IoShare` | arrays as objects on a heap of bytearrays; simulation of the value model of `IoBuffer` for unshared arrays; induction over the copy loop for an array that is its own argument |
| C110 | `Lazy` | members of lazy containers that are no LazyFields; a simulation between the object and the eager object with the list of closed containers |
| C111 | `LazyNest` | trees of lazy containers; a simulation between the object and the eager object with the outermost closed containers |
| C112 | `Marshal` | an inductive description of the kinds of values each declaration takes; induction over classes |
| C113 | `Threads` | small steps of threads over one object; an invariant of the object and all threads that every step of every thread keeps; a measure for termination; a log for linearizability; explicit schedules for the races |
| C114 | `LazyTree` | declarations as trees of field lists; induction over the tree shows that only the leaves and their order matter, for the lazy class and for the one without laziness, then C19 and C64 apply |
| C115 | `IoMixin` | the methods of `collections.abc` over `__getitem__`, `__setitem__`, `__delitem__` and `__len__` of C31-C33; searches by induction on the distance to the hit, loops without end by induction on the fuel, `reverse` by an invariant on the swapped ends |
| C116 | `Lazy` | the prefix that decodes, by induction on the fields and locality of reading; afterwards the refinement of C19 |
| C73, C74 | `Macros` | sums and maxima of lists |

No property of the list had to be given up as inexpressible.

## Behaviours found that a user may not expect

All are theorems; the properties say which.

* Streams: writing through a read-ahead stream always fails (C10, `C10_write_always_fails`); padding at the end of the data may
  be missing (C16); a negative length takes everything up to the end (C75); a constant that is a
  Struct object can never be read (C17, C74).
* Numbers: a float too large for 32 bits raises OverflowError instead of InstructError (C65);
  an int in a 32-bit float field is rounded twice (C76); a constant that its float type cannot hold
  exactly is written but never accepted (C82);
  in `Buffer` classes 64-bit floats can never be unpacked (C46), 4-byte integers of unspecified byte
  order are packed to 8 bytes (C41), integers of odd widths are little-endian whatever is declared and
  negative ones change silently (C42).
* `del a[len(a)]` of a bit-aware array removes the last byte, and of an empty one makes its length
  negative (C84).
* `WritableContext(d)` shares a dict with entries with its caller, but not an empty one (C83).
* Defaults are shared between `Buffer` objects, and Struct objects nested in a default are shared (C29).
* A class with a position counted from `input_buffer_length` cannot be packed (C93).
* A condition that looks at a later field sees the value the object had before unpack() (C92).
* A SumSizeArray of a Struct class that holds instances of a subclass writes a size in front that is smaller than the bytes that follow; a field behind an instance of a subclass is read from the wrong bytes (C94).
* An object read with bit fields directly in a lazy container cannot be printed before one of the fields was looked at (C96).
* If a set_before_pack function reads the attribute it is for, every pack() gives other bytes (C97).
* An integer field declared with `endian=None` (or `""`) whose size is not 1, 2, 4 or 8 bytes is packed low byte first and
  unpacked high byte first (C85_no_endian_refuted).
* If a field fails and the `repr` of a value resolved by then raises, the InstructBufferError is lost: the caller gets the
  exception of that `repr` (C102_other_errors). References are shown with `safe_repr`, their values are not.
* `repr` of a Buffer object leaves out the fields of base classes (C103_inherited_refuted); `repr(Buffer())` raises (C103_no_fields_refuted).
* In Python 3 the texts of `after_ref`, of the position at which a field is packed, and of `func_ref` of a Python function are
  always "(type<id> repr error)": `Context` is not imported, there is no attribute `position_list`, functions have no
  `func_name`. A list of ranges is shown as the characters of the repr of a generator (C104_no_text_refuted).
* Structs hand extra arguments of `create_from_stream` on to their fields, but numbers take none: a struct with a number in it
  cannot be read with extra arguments, TypeError (C105_number_refuted).
* A condition or size that compares a field that is None with `==` is false, and with `!=` true; every other operator on it raises `TypeError` (C100).
* Extra arguments of create_from_stream make reading a number fail, but a number in a lazy container only fails when the object is used (C105_lazy_number_refuted).
* A new object of a class with lazy containers has no repr unless the constructor got a value for every field in them (C96_new_refuted).
* `bytes_ref[x]` with a single index raises AttributeError in comparisons and arithmetic: the constructor of
  `ByteNumericRangeReference` never reaches that of `Reference` (C106_one_byte_refuted).  `field + bytes_ref[a:b]` is accepted and
  can never be evaluated (C106_reference_plus_position_refuted).
* `-ref` of a reference that is no number is Python's `NotImplemented` object and no error (C67_negated_plain_refuted).
* pack() and unpack() are not atomic: a pack() that raises leaves the values of set_before_pack in the object, an unpack() that raises
  leaves the fields in front of the failing one assigned (C108).
* `a.extend(a)` doubles the array and then raises IndexError; `a.insert(0, a)` puts zeros in front and raises ValueError; `a + a` is
  right (C109).
* A bit field in a lazy container has its default until an ordinary field of the container is looked at or the object is
  converted; a value assigned before that is lost (C110).
* A field of a lazy container inside of another one raises KeyError until a field of the outer one is looked at; a value
  assigned before that is lost (C111).
* A text in a length-prefixed buffer field raises TypeError only after its length was written (C112).
* Two threads that read a field of the same lazy container can get KeyError or AttributeError, and can undo an assignment of a third one; to_bytes can give bytes that mix old and new values when another thread assigns (C113).
* An empty field list between other fields leaves a comma behind in `repr` (C114).
* `index` of an absent value on a view that ends before its bytes never returns, or returns the length for 0; `pop` of fewer than eight bits leaves an array that ends before it starts; `remove` of a last fraction of a byte removes the last eight bits; `clear` of an array with a fraction of a byte raises ValueError; `reverse` replaces bits by zeros (C115).
* A lazy container whose data is wrong raises the error once; afterwards its missing fields raise KeyError (C116).
* A class of lazy containers is read from any input, even one that is too short; the error comes with the first access (C116).
* A UTF-16 string that fills its field and ends with a character below 256 is packed but cannot be unpacked: its last byte, 0, is stripped (C91).
* A bytes object assigned to a string field is packed as its repr, `b'...'` (C91).
* `calc_byte_size()` of an object counts fields that are not packed because their condition is false, and does not count inherited fields (C90).
* Lazy containers ignore defaults, and their constants can be assigned but not read (C64).
* `repr` of an object with an absent optional number raises (C69).
* A class whose `__init__` requires an argument that is also a field cannot be subclassed usefully (C71);
  misspelt constructor arguments are dropped silently without user code (C71).
* `==` and `!=` of a plain reference and a constant are decided at class definition, other operators
  raise; conditions on comparisons raise (C67); bit slices reject references (C68).
* A list of strings unpacks to at most one string (C57); lists of other things may never end (C45).
* A subclass of a `Buffer` class computes its size from its own fields only (C63); errors other than
  InstructBufferError escape from conditions and sizes (C49); a field that is skipped is unpacked
  nevertheless if another field needs it (C50).
* Texts whose selector cuts them from the input come back as bytes, not as the str that was packed (C89).
* The result of `set_after_unpack` is never stored in the object, nor is the unpacked value (C77).
* `Buffer.unpack` does not notice that the input is too short for byte arrays and integers of odd
  widths, and returns the full size (C80).
* Through the struct adapter of a `Buffer` class, `write_to_string` gives a bytearray that
  `create_from_string` refuses; a class that ends with bits has a float size and cannot be read from a
  stream; a stream that ends early is not noticed (C81).
* Zero filling at certain alignments repeats bits instead of writing zeros (C53); a byte array field
  that ends inside a byte reads bits of its neighbour (C56).
