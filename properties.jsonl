{"id": "C01", "title": "Read-your-write for every scalar accessor pair", "statement": "After Set<T>(f, x) on a message, the matching Get<T>(f) returns exactly x (floats: the same bit pattern; bytes/strings: the same byte sequence), whatever the message contained before.", "quantifier": "all 15 accessor kinds, all values of the Go argument type, all declared fields, all message types, all messages reachable by any history from the zero value of setters, appends, Reset and Decode of well-formed buffers whose tags are minimal and whose records have the wire types of the schema (both conditions are necessary for setters, see C25), total size below 2^63", "why_tests_cant": "The value domain is 2^64 wide and the result depends on the previous contents of the buffer (same-length overwrite path vs remove-and-append path, array vs map offsets); tests sample a handful.", "anchors": ["zeropb.go:Set*/Get*", "zeropb.go:setSingle", "offsets.go:Offsets.Get/Set"]}
{"id": "C02", "title": "A setter changes no other field", "statement": "Set<T>(f, x) leaves the result of every accessor of every other field (scalars, bytes, sub-message presence and the whole iteration of repeated fields) unchanged.", "quantifier": "all pairs of distinct fields, all values, all message types, all messages reachable by any history from the zero value of setters, appends, Reset and Decode of well-formed buffers whose tags are minimal and whose records have the wire types of the schema (both conditions are necessary for setters, see C25), total size below 2^63", "why_tests_cant": "Removing a field from the middle of the buffer shifts all following bytes and every recorded offset; the interaction of all field orders, lengths and map/array spills is unbounded.", "anchors": ["zeropb.go:setSingle", "offsets.go:Offsets.Set"]}
{"id": "C03", "title": "Histories of mutations behave like a plain record", "statement": "A message driven by any sequence of Set*, AppendTo*, Reset and Decode of a well-formed buffer answers every accessor exactly as a plain record with one optional value per non-repeated field and one list per repeated field would; no operation of the sequence panics.", "quantifier": "all schemas, all finite operation sequences (any history from the zero value of setters, appends, Reset and Decode of well-formed buffers whose tags are minimal and whose records have the wire types of the schema (both conditions are necessary for setters, see C25), total size below 2^63), all values", "why_tests_cant": "TestRandMutations samples 1000 mutations of tiny messages; the claim is about every history, including those that spill offsets to the map and bring them back.", "anchors": ["zeropb.go:Set*/Get*/AppendBytes/Decode", "golden/testzeropb/test.zeropb.go"]}
{"id": "C04", "title": "Encode always yields a well-formed protobuf message", "statement": "The bytes returned by Encode() after any history are a concatenation of well-formed protobuf records whose per-field contents are exactly the record the history built.", "quantifier": "all schemas; any history from the zero value of setters, appends, Reset and Decode of well-formed buffers whose tags are minimal and whose records have the wire types of the schema (both conditions are necessary for setters, see C25), total size below 2^63", "why_tests_cant": "Well-formedness of the whole buffer depends on the exact bytes removed on every overwrite.", "anchors": ["zeropb.go:setSingle", "zeropb.go:appendSingle", "golden/testzeropb/test.zeropb.go:Encode"]}
{"id": "C05", "title": "Decode(Encode(m)) is observationally m", "statement": "Decoding the bytes of a message into a fresh (or re-used) struct of the same type succeeds and gives the same answer for every accessor as the original.", "quantifier": "all schemas; any history from the zero value of setters, appends, Reset and Decode of well-formed buffers whose tags are minimal and whose records have the wire types of the schema (both conditions are necessary for setters, see C25), total size below 2^63; any prior contents of the receiving struct", "why_tests_cant": "Round trip over an unbounded set of messages.", "anchors": ["zeropb.go:Decode", "zeropb.go:Get*"]}
{"id": "C06", "title": "Decode accepts every well-formed message", "statement": "If buf is a sequence of protobuf records whose field numbers are within the struct's range and whose wire types are varint/fixed32/fixed64/bytes (varints may be non-minimal, fields may be in any order and duplicated), Decode returns nil and every accessor returns what the protobuf specification assigns.", "quantifier": "all record lists, all legal encodings of each varint", "why_tests_cant": "Parser completeness ranges over all well-formed inputs.", "anchors": ["zeropb.go:Decode", "zeropb.go:fieldDataSize"]}
{"id": "C07", "title": "Decode accepts only well-formed messages", "statement": "If Decode returns a nil error then buf is a well-formed protobuf message (the README: Decode 'checks the validity of the encoded bytes').", "quantifier": "all byte strings", "why_tests_cant": "Parser soundness ranges over all inputs, in particular adversarial ones.", "anchors": ["zeropb.go:Decode", "README.md"]}
{"id": "C08", "title": "Truncated messages are reported as unexpected EOF", "statement": "Cutting a well-formed message anywhere that is not a record boundary makes Decode return io.ErrUnexpectedEOF, without panicking; cutting on a record boundary makes it succeed.", "quantifier": "all well-formed messages, all cut points", "why_tests_cant": "TestDecode tries seven literal truncations of one-field messages.", "anchors": ["zeropb.go:Decode", "zeropb.go:fieldDataSize", "zeropb_test.go:TestDecode"]}
{"id": "C09", "title": "Decode is total: it returns on every input without panicking", "statement": "For every byte string Decode terminates and returns nil or an error; it never panics.", "quantifier": "all byte strings, all schemas", "why_tests_cant": "Termination and panic freedom on untrusted input cannot be settled by samples.", "anchors": ["zeropb.go:Decode", "zeropb.go:fieldDataSize"]}
{"id": "C10", "title": "Last occurrence wins for non-repeated fields", "statement": "After Decode, the accessor of a non-repeated field that occurs several times returns the value of its last occurrence in the buffer.", "quantifier": "all well-formed messages, any number and placement of duplicates", "why_tests_cant": "Needs every placement of duplicates.", "anchors": ["zeropb.go:Decode"]}
{"id": "C11", "title": "The iterator of a repeated field yields exactly its occurrences", "statement": "Iterating a repeated message field yields the payload of every occurrence, in wire order, each exactly once, then reports false for ever; other fields interleaved between the occurrences do not matter.", "quantifier": "all well-formed messages, any interleaving, any number of elements", "why_tests_cant": "The iterator re-parses the tail of the message on each step; correctness is an induction over that tail.", "anchors": ["zeropb.go:GetRepeatedNonPacked", "zeropb.go:FindNextField", "golden/raftzeropb/raft.zeropb.go:MessageEntryIterator.Next"]}
{"id": "C12", "title": "AppendTo adds one element at the end", "statement": "AppendTo<F>(x) makes the iteration of F the previous sequence followed by x and changes no other field.", "quantifier": "all elements, all messages reachable by any history from the zero value of setters, appends, Reset and Decode of well-formed buffers whose tags are minimal and whose records have the wire types of the schema (both conditions are necessary for setters, see C25), total size below 2^63", "why_tests_cant": "Depends on all previous contents.", "anchors": ["zeropb.go:AppendBytes", "zeropb.go:appendSingle"]}
{"id": "C13", "title": "Unset fields read as their defaults and presence is exact", "statement": "The accessor of a field with no occurrence returns the zero value (false, 0, empty string, nil slice, (false,nil) for a sub-message, an iterator that is immediately done), and a present but empty bytes/sub-message field is distinguished from an absent one.", "quantifier": "all fields, all messages reachable by any history from the zero value of setters, appends, Reset and Decode of well-formed buffers whose tags are minimal and whose records have the wire types of the schema (both conditions are necessary for setters, see C25), total size below 2^63", "why_tests_cant": "Quantifies over all messages not containing the field.", "anchors": ["zeropb.go:Get*", "offsets.go:Offsets.Get"]}
{"id": "C14", "title": "Offsets is an exact finite map from field id to offset", "statement": "Set(f,o) then Get(f) returns o (present iff o is not 0) and Get of every other id is unchanged; Clear empties it; an id is in the overflow map exactly when its array cell holds the sentinel, and no operation on an in-range id panics.", "quantifier": "all sequences of Set/Clear, all 64-bit offsets, including the boundary 65534/65535/65536", "why_tests_cant": "Two-level storage with a sentinel; the invariant must hold after every history.", "anchors": ["offsets.go:Offsets.Get/Set/Clear"]}
{"id": "C15", "title": "No overflow map is allocated while the message is shorter than math.MaxUint16", "statement": "As long as the encoded message stays shorter than 65535 bytes, decoding and mutating never allocates the offsets map (README: 'Usage will be allocation-less').", "quantifier": "all histories whose messages stay below the bound", "why_tests_cant": "Benchmarks count allocations on a few runs.", "anchors": ["offsets.go:Offsets.Set", "README.md"]}
{"id": "C16", "title": "Setters do not depend on Go's map iteration order", "statement": "The bytes and offsets left by a setter are the same for every order in which the runtime iterates the overflow map.", "quantifier": "all messages, all permutations of the iteration order", "why_tests_cant": "Go randomizes the order; a test sees one order per run.", "anchors": ["zeropb.go:setSingle"]}
{"id": "C17", "title": "Reset yields an empty message", "statement": "Reset with an empty buffer makes every field unset and the message behave as a fresh one whatever it contained; Reset with a non-empty buffer panics.", "quantifier": "all reachable messages", "why_tests_cant": "Quantifies over all prior states.", "anchors": ["golden/raftzeropb/raft.zeropb.go:Reset", "offsets.go:Offsets.Clear"]}
{"id": "C18", "title": "Decode forgets the previous contents", "statement": "The outcome of Decode (error and every later accessor result) depends only on the buffer, never on what the struct held before, even when the previous decode failed.", "quantifier": "all prior states, all buffers", "why_tests_cant": "Struct re-use is an unbounded state space.", "anchors": ["zeropb.go:Decode", "offsets.go:Offsets.Clear"]}
{"id": "C19", "title": "Sub-messages round trip", "statement": "SetMessage(x) followed by Message(&y) returns (true, nil) and y answers every accessor as x does.", "quantifier": "all parent and child messages and histories", "why_tests_cant": "Products of two unbounded state spaces.", "anchors": ["golden/raftzeropb/raft.zeropb.go:SetSnapshot/Snapshot", "zeropb.go:SetBytes/GetBytes"]}
{"id": "C20", "title": "Whole message trees round trip", "statement": "Building any finite tree of nested messages bottom-up with Set*/AppendTo* and reading it back with the accessors and iterators returns the same tree.", "quantifier": "all trees, any depth and fan-out", "why_tests_cant": "TestRandEncode uses depth 3.", "anchors": ["rand_test.go:gogoToZeroViaCopy/zeroToGogoViaCopy"]}
{"id": "C21", "title": "The wire encoding of each scalar type is the protobuf one", "statement": "Every setter emits the wire type and value bytes the protobuf encoding specification prescribes for its type (two's complement 64-bit varint for negative int32/int64, zig-zag for sint32/sint64, little-endian fixed width, length-prefixed bytes, minimal varints).", "quantifier": "all values of all 15 types", "why_tests_cant": "Interoperability must hold for every value.", "anchors": ["zeropb.go:Set*"]}
{"id": "C22", "title": "Scalar accessors interpret foreign encodings as the protobuf specification does", "statement": "For a varint-typed record of any 64-bit varint value the accessor returns the value protobuf prescribes (truncation for 32-bit types, zig-zag decoding, non-zero means true).", "quantifier": "all 64-bit wire values, all varint types", "why_tests_cant": "2^64 wire values per type.", "anchors": ["zeropb.go:GetBool/GetInt32/GetUint32/GetZigZagInt32"]}
{"id": "C23", "title": "Re-setting a field does not grow the message", "statement": "A setter replaces the field's previous record: the new length is the old length minus the size of the field's previous record plus the size of the new one, and a message built only with the API contains at most one record per non-repeated field.", "quantifier": "any history from the zero value of setters, appends, Reset and Decode of well-formed buffers whose tags are minimal and whose records have the wire types of the schema (both conditions are necessary for setters, see C25), total size below 2^63", "why_tests_cant": "A leak would show only after long histories.", "anchors": ["zeropb.go:setSingle"]}
{"id": "C24", "title": "Same-size updates are in place", "statement": "If the new encoded value has the length of the old one, the setter keeps the message length and every byte outside the value's own bytes.", "quantifier": "all fields and values, all messages reachable by any history from the zero value of setters, appends, Reset and Decode of well-formed buffers whose tags are minimal and whose records have the wire types of the schema (both conditions are necessary for setters, see C25), total size below 2^63", "why_tests_cant": "Depends on all positions and lengths.", "anchors": ["zeropb.go:setSingle"]}
{"id": "C25", "title": "Setters are correct on any message Decode accepted", "statement": "A setter applied to a message obtained by Decode of any well-formed buffer (any legal varint encoding of the tags) stores the value and leaves the other fields alone.", "quantifier": "all well-formed buffers including non-minimal tag encodings", "why_tests_cant": "The setter recomputes the tag length instead of measuring it; only adversarial encodings show the difference.", "anchors": ["zeropb.go:setSingle"]}
{"id": "C26", "title": "Unknown fields survive", "statement": "Records of fields the schema does not declare are accepted by Decode and preserved verbatim by later mutations and Encode.", "quantifier": "all well-formed messages with undeclared field numbers", "why_tests_cant": "Forward compatibility must hold for all unknown records.", "anchors": ["zeropb.go:Decode", "offsets.go:Offsets.Set", "README.md"]}
{"id": "C27", "title": "Accessors never panic after a successful Decode", "statement": "Once Decode has returned nil, no accessor of the struct panics or reads bytes outside the message.", "quantifier": "all byte strings accepted by Decode, all accessors", "why_tests_cant": "Decode does not know the declared types; only particular wire-type mismatches show it.", "anchors": ["zeropb.go:Get*", "zeropb.go:Decode"]}
{"id": "C28", "title": "Accessors are safe after a failed Decode", "statement": "After Decode returned an error, accessors of the struct do not panic.", "quantifier": "all byte strings rejected by Decode", "why_tests_cant": "All truncation points and fields.", "anchors": ["zeropb.go:Decode"]}
{"id": "C29", "title": "Reads never write", "statement": "Decode, the accessors, the iterators and Encode modify no byte of any buffer, so they may be used concurrently with each other on shared bytes.", "quantifier": "all memories, all messages", "why_tests_cant": "Absence of writes for all executions.", "anchors": ["zeropb.go:Decode/Get*/FindNextField"]}
{"id": "C30", "title": "Bytes and string accessors are zero-copy views", "statement": "GetBytes/GetString and the iterators return a window of the message's own memory: inside the message buffer, at the payload of the field.", "quantifier": "all memories (any aliasing), all messages produced by histories of calls, all decoded well-formed buffers (the field's last record having wire type 2; C74 for all others)", "why_tests_cant": "Pointer identity for all positions.", "anchors": ["zeropb.go:GetBytes/GetString/GetRepeatedNonPacked/FindNextField"]}
{"id": "C31", "title": "Setters write only to the message's own buffer", "statement": "A setter or append modifies no memory outside the capacity window of the message's buffer (apart from freshly allocated memory), and in particular not its argument.", "quantifier": "all memories with arbitrary other slices, all capacities and growth policies", "why_tests_cant": "A stray write shows only for particular layouts.", "anchors": ["zeropb.go:setSingle/appendSingle"]}
{"id": "C32", "title": "Setters copy their argument", "statement": "After SetBytes/SetString/AppendBytes the stored value does not change when the caller later overwrites its own slice, and the value stored is the one the argument had at the call, also when the argument is a view of the message itself.", "quantifier": "all memories, all arguments, including ones obtained from the accessors of the same message", "why_tests_cant": "Aliasing combinations are unbounded.", "anchors": ["zeropb.go:setSingle", "zeropb.go:SetBytes"]}
{"id": "C33", "title": "Messages in disjoint memory are independent", "statement": "Any interleaving of operations on two messages with disjoint buffers gives each message the results it would have had alone.", "quantifier": "all interleavings, all growth policies", "why_tests_cant": "All interleavings.", "anchors": ["zeropb.go:setSingle/appendSingle/Decode"]}
{"id": "C34", "title": "Mutating a sub-message does not change its parent", "statement": "After parent.Message(&child), mutating child leaves every accessor of parent unchanged.", "quantifier": "all parents, children and mutations", "why_tests_cant": "The child shares the parent's memory including its spare capacity; only particular sizes expose it.", "anchors": ["golden/raftzeropb/raft.zeropb.go:Snapshot", "zeropb.go:GetBytes", "zeropb.go:setSingle"]}
{"id": "C35", "title": "Iterator errors are those of the element", "statement": "Iterator.Next and the sub-message accessor return true with exactly the error that decoding the element's payload returns, and advance past the element regardless.", "quantifier": "all well-formed outer messages with arbitrary element payloads", "why_tests_cant": "All payloads.", "anchors": ["golden/raftzeropb/raft.zeropb.go:MessageEntryIterator.Next/Snapshot"]}
{"id": "C36", "title": "Split sub-messages are merged or rejected", "statement": "A non-repeated message field encoded in several records is merged (protobuf) or rejected (README: 'Decode returns an error for this').", "quantifier": "all well-formed messages with duplicated message fields", "why_tests_cant": "Needs duplicates in the input.", "anchors": ["zeropb.go:Decode", "README.md"]}
{"id": "C37", "title": "The generator gives every field a slot", "statement": "In generated code the offsets array is strictly longer than every declared field number, so no generated accessor can index out of range.", "quantifier": "all message descriptors with protobuf-legal field numbers", "why_tests_cant": "All schemas.", "anchors": ["generate/generate.go:generateMessage"]}
{"id": "C38", "title": "Generated accessors pair up with the right codec", "statement": "For each non-repeated field the generated getter and setter carry the same field number and the Get/Set functions of the same codec, which is the one protobuf assigns to the declared type; only groups are refused.", "quantifier": "all field descriptors", "why_tests_cant": "All types and names.", "anchors": ["generate/generate.go:generateSimpleField/fieldToGoTypeSimple/generateMessageField"]}
{"id": "C39", "title": "Generated repeated-field tables are exact", "statement": "The RepeatedFields table emitted for a message contains exactly the numbers of its repeated fields.", "quantifier": "all message descriptors", "why_tests_cant": "All schemas.", "anchors": ["generate/generate.go:generateMessage"]}
{"id": "C40", "title": "Generated declarations do not clash", "statement": "The top-level types and the methods emitted for a message with distinct field names are pairwise distinct, so the generated file compiles.", "quantifier": "all message descriptors with distinct field names", "why_tests_cant": "Needs adversarial names.", "anchors": ["generate/generate.go:toGoCase/generateRepeatedMessageField"]}
{"id": "C41", "title": "Generate emits exactly the requested files", "statement": "The response has one file per non-nil input descriptor whose name was requested, in input order, with the content determined by that descriptor alone.", "quantifier": "all requests", "why_tests_cant": "All requests.", "anchors": ["generate/generate.go:Generate/generateFile"]}
{"id": "C42", "title": "Accessor names are well-formed exported identifiers", "statement": "toGoCase keeps exactly the letters and digits of the proto field name in order, upper-cases the first of each run, so a legal proto identifier starting with a letter becomes an exported Go identifier.", "quantifier": "all field names", "why_tests_cant": "All strings.", "anchors": ["generate/generate.go:toGoCase"]}
{"id": "C43", "title": "The indenting writer concatenates and stops at the first error", "statement": "StringTree.Write passes the rendering of its arguments to the writer in order; after the first writer error nothing more is written and Error() reports that error.", "quantifier": "all argument lists, all writers (any failure point)", "why_tests_cant": "All failure points.", "anchors": ["generate/stringtree.go:StringTree.Write/Error"]}
{"id": "C44", "title": "Results do not depend on capacities, growth policy or memory layout", "statement": "Two runs of the same calls on messages with the same contents give the same results, whatever spare capacity the buffers have, wherever they lie and however append reallocates.", "quantifier": "all memories, capacities, growth policies and interleavings of calls on any number of messages with separate memory", "why_tests_cant": "Capacity growth is chosen by the Go runtime; tests see one policy.", "anchors": ["zeropb.go:setSingle/appendSingle", "zeropb.go:Decode"]}
{"id": "C45", "title": "Programs using the generated API behave as the schema says", "statement": "For every schema whose generated package compiles, a program that makes any legal sequence of setter, append, Decode and Reset calls on a message, by the method names derived from the schema, never panics, changes no other message, and the generated accessors, sub-message accessors and iterators then return what the sequence of calls wrote.", "quantifier": "all schemas accepted by the generator and the compiler, all messages of the schema, all call sequences, all fields", "why_tests_cant": "The golden tests cover two schemas and a few call sequences; a mistake in a name, number, codec or table shows only for some schemas.", "anchors": ["generate/generate.go:generateMessage/generateField", "zeropb.go", "golden/testzeropb/test.zeropb.go"]}
{"id": "C46", "title": "Different inputs get different output files", "statement": "The files of a response have pairwise different names when the requested files do.", "quantifier": "all requests", "why_tests_cant": "All names.", "anchors": ["generate/generate.go:generateFile"]}
{"id": "C47", "title": "Reading, decoding and resetting allocate nothing", "statement": "For messages of at most 65535 bytes, every accessor, sub-message accessor and iterator call, and Reset and Decode, leave the heap without a new allocation; and a sequence of Set and Append calls allocates nothing as long as the message stays within the buffer's capacity and 65535 bytes.", "quantifier": "all memories, messages, field numbers, wire contents and capacities", "why_tests_cant": "An allocation benchmark measures one message; the claim is about all of them, including odd capacities and boundary sizes.", "anchors": ["README.md", "zeropb.go:Decode/setSingle/appendSingle/FindField/FindNextField", "offsets.go:set"]}
{"id": "C51", "title": "Slices already handed out keep their contents while the message is mutated", "statement": "A []byte, an iterator or a sub-message obtained from a message keeps its contents while other fields of that message are set or appended.", "quantifier": "all messages, outstanding views and later mutations", "why_tests_cant": "Whether a view is overwritten depends on capacities, record order and sizes.", "anchors": ["zeropb.go:setSingle", "zeropb.go:appendSingle", "zeropb.go:GetBytes"]}
{"id": "C52", "title": "Appending to a returned slice does not change the message", "statement": "A client that calls append on a []byte returned by an accessor leaves the message unchanged.", "quantifier": "all messages, fields, appended bytes and capacities", "why_tests_cant": "Depends on the capacity of the returned slice, which tests do not vary.", "anchors": ["zeropb.go:GetBytes", "zeropb.go:FindNextField"]}
{"id": "C53", "title": "A copy of the message struct is an independent snapshot", "statement": "After copying the message struct, calls on one copy do not change what the other returns.", "quantifier": "all messages and call sequences on either copy", "why_tests_cant": "Sharing shows only for particular capacities and record positions.", "anchors": ["zeropb.go:setSingle", "offsets.go:FieldOffsets", "golden/testzeropb/test.zeropb.go:struct types"]}
{"id": "C48", "title": "Decode costs one step per top-level field and does not look into nested data", "statement": "Decode of a message with n top-level records runs its loop exactly n+1 times, and the bytes inside length-delimited fields influence neither its result nor its cost.", "quantifier": "all well-formed messages, contents of nested fields and receiving structs", "why_tests_cant": "A benchmark measures a few messages; the README promises it for all.", "anchors": ["README.md", "zeropb.go:Decode"]}
{"id": "C49", "title": "Iterating over a repeated field is linear", "statement": "A full iteration over a repeated field inspects every record from the first element to the end of the message exactly once; each call of Next inspects the records up to the next element only.", "quantifier": "all well-formed messages, repeated fields and positions in the iteration", "why_tests_cant": "Depends on how other fields are interleaved.", "anchors": ["README.md", "zeropb.go:FindNextField", "golden/testzeropb/test.zeropb.go:Next"]}
{"id": "C50", "title": "Concatenating encodings merges messages", "statement": "Decoding the concatenation of two encoded messages gives the merged message: for non-repeated fields the second message wins where it has the field, elements of repeated fields are concatenated, sub-messages are merged.", "quantifier": "all pairs of well-formed messages and all fields", "why_tests_cant": "All pairs of messages.", "anchors": ["zeropb.go:Decode", "zeropb.go:FindNextField"]}
{"id": "C54", "title": "After a failed Decode the completely received fields are readable", "statement": "If the message ends inside a record, Decode returns io.ErrUnexpectedEOF and the accessors and iterators of the fields whose records are complete still return their values.", "quantifier": "all messages, all cut positions, all fields", "why_tests_cant": "Every cut position of every message.", "anchors": ["zeropb.go:Decode", "zeropb.go:FindNextField"]}
{"id": "C55", "title": "The plugin writes the whole response or nothing, and reports failures", "statement": "protoc-gen-zeropb writes to standard output the encoding of the response to the request on standard input, all of it or (if anything fails before the write) nothing, and signals failure to its caller.", "quantifier": "all inputs, all behaviours of the protobuf library and of the operating system's read and write", "why_tests_cant": "Every failure point of the environment.", "anchors": ["cmd/protoc-gen-zeropb/main.go:run", "cmd/protoc-gen-zeropb/main.go:main", "cmd/protoc-gen-text/main.go:run"]}
{"id": "C56", "title": "Enum fields interoperate with protobuf", "statement": "An enum number written by any protobuf implementation is read back as the same number (as uint32 bits), and an enum number written by zeropb is encoded as protobuf prescribes.", "quantifier": "all enum numbers (32-bit signed), all encodings of the record, all histories before the write", "why_tests_cant": "The tests only use the enum numbers 0 and 1.", "anchors": ["zeropb.go:GetUint32", "zeropb.go:SetUint32", "generate/generate.go:fieldToGoTypeSimple"]}
{"id": "C57", "title": "Text shows exactly the fields that are set", "statement": "Text/WriteText of the test message write, in field order, name and value of exactly the scalar fields that are set, then the sub-message and the elements of the repeated field recursively; the text is the same for the built message and for any struct its encoding is decoded into.", "quantifier": "all trees of messages, any nesting depth, any order of the calls that built them, any previous contents of the receiving struct", "why_tests_cant": "All combinations of set fields and nesting.", "anchors": ["golden/testzeropb/string.go:Text", "golden/testzeropb/string.go:WriteText", "offsets.go:Get"]}
{"id": "C58", "title": "Memory safety on untrusted input", "statement": "Whatever bytes Decode is given (malformed, truncated, wrong wire types) and whatever it answers, no accessor, sub-message accessor or iterator call returns a slice or string outside the capacity window of the buffers the caller passed to Decode, and no answer depends on a byte outside them.", "quantifier": "all memories, all buffers with any contents and any sharing, all readers, all schedules of Decode, Get, Message, iterator and Encode calls, successful or not", "why_tests_cant": "The unsafe string cast and the unchecked lengths after a failed Decode must be safe for every hostile input and heap layout; tests see one layout.", "anchors": ["zeropb.go: GetString, GetBytes, FindField, FindNextField, Decode", "golden/testzeropb/test.zeropb.go: accessors, iterators"]}
{"id": "C59", "title": "A returned string is an immutable value", "statement": "A string returned by GetString keeps its value for ever, as Go strings do.", "quantifier": "all messages, all string fields, all later calls", "why_tests_cant": "The string shares the message's memory through an unsafe cast; whether a later call changes it depends on the history and layout.", "anchors": ["zeropb.go: GetString, SetString, setSingle"]}
{"id": "C60", "title": "The encoding has no dead bytes", "statement": "A message built with setters, AppendTo and Reset encodes to a shortest protobuf encoding of its contents; overwriting a value never leaves garbage, so the size depends only on the contents.", "quantifier": "all message types, all sequences of setter, append and reset calls, all protobuf byte strings with the same contents", "why_tests_cant": "Minimality compares with every byte string that means the same and must hold after every history of overwrites that shrink and grow records.", "anchors": ["zeropb.go: setSingle, Set*, AppendBytes", "offsets.go"]}
{"id": "C61", "title": "Equal contents have equal bytes", "statement": "Two messages built with the API that have the same contents encode to the same bytes.", "quantifier": "all message types, all pairs of histories with the same resulting contents", "why_tests_cant": "Ranges over all pairs of histories; the run-time appends first-set fields in call order.", "anchors": ["zeropb.go: setSingle", "README.md"]}
{"id": "C62", "title": "Schema evolution: one version writes, another reads", "statement": "A message built under one version of a message type can be decoded under another: added fields read as defaults, removed fields are kept in the bytes, compatible type changes (int32/int64/uint32/uint64/bool, sint32/sint64, fixed/sfixed, string/bytes, singular/repeated messages) read as the value converted as in C++.", "quantifier": "all pairs of schemas, all histories of the writer, all fields and pairs of compatible types", "why_tests_cant": "Ranges over all pairs of versions, values and histories.", "anchors": ["zeropb.go: Decode, Get*, FindNextField", "generate/generate.go: array size"]}
{"id": "C63", "title": "The offset table keeps its documented invariant", "statement": "In every state a client can bring a message into, a field's slot holds the out-of-range marker exactly when the field's offset is in the overflow map, as documented and as the repository's own test helper checks.", "quantifier": "all message types, all sequences of calls with any arguments and any input bytes, including calls that panic and are recovered", "why_tests_cant": "Ranges over all call sequences, all (malformed) inputs and all points at which a call can panic.", "anchors": ["offsets.go: Offsets, Get, Set, Clear", "zeropb_test.go: verifyOffsetsInvariants", "zeropb.go: setSingle, Decode"]}
{"id": "C64", "title": "A setter that panics has no effect, and a message is reusable after any panic", "statement": "If a setter panics and the panic is recovered, the message reads as before; after any calls and panics, Decode or Reset makes the struct behave like a new one.", "quantifier": "all message types, all reachable states (any calls, any input bytes, recovered panics), all setter calls", "why_tests_cant": "Ranges over all panic points in all reachable states.", "anchors": ["zeropb.go: setSingle, Set*, AppendBytes, Decode, Reset"]}
{"id": "C65", "title": "Fields before an unsupported record survive a recovered Decode panic", "statement": "If Decode panics on a group or on a field number beyond the type's array and the panic is recovered, every non-repeated field other than that one reads what the records before it say.", "quantifier": "all message types, all previous contents, all well-formed prefixes, all unsupported records and all remaining bytes", "why_tests_cant": "Ranges over all prefixes and all trailing bytes.", "anchors": ["zeropb.go: Decode", "offsets.go: Set"]}
{"id": "C66", "title": "Whole trees can be exchanged with another protobuf implementation", "statement": "Any protobuf encoding of a message tree (any record order, any varint encoding, duplicates of scalars, undeclared fields with a slot) decodes and reads as that tree; after any mutations made in step on a zeropb struct and on an ordinary tree of objects, zeropb's bytes are an encoding of the tree and its accessors show the tree; the bytes determine the tree.", "quantifier": "all families of mutually recursive message types, all trees, all encodings of them, all sequences of mutations (setters, sub-messages decoded or built elsewhere, appends, Reset, Decode)", "why_tests_cant": "The repository's randomised tests (TestRandDecode, TestRandEncode, TestRandMutations) sample this; it must hold for every tree, encoding and sequence.", "anchors": ["rand_test.go: gogoToZeroViaBytes, zeroToGogoViaCopy, mutate, TestRandMutations", "zeropb.go: Decode, Set*, AppendBytes, FindNextField", "golden/testzeropb/test.zeropb.go"]}
{"id": "C67", "title": "Decode and the accessors on every byte string whatsoever", "statement": "For any bytes at all, Decode's outcome and what every scalar, string and bytes accessor then returns are determined by a walk over the bytes: Decode returns nil exactly when the walk arrives at the end, io.ErrUnexpectedEOF exactly when it reaches a place where the input ends too early, panics exactly when it meets an unsupported tag or leaves the buffer at the front, and fails to return exactly when the walk comes back to a position; if it returns it does so within len+2 iterations. After it returned, each accessor obtains what is at the last (repeated: first) position of its field on the walk.", "quantifier": "all message types, all previous contents of the struct, all byte strings (well-formed, truncated, overlong, hostile), all fields and accessor types", "why_tests_cant": "Ranges over all byte strings; fuzzing samples them and cannot show non-termination or its absence.", "anchors": ["zeropb.go: Decode, fieldDataSize, Get*", "offsets.go: Set, Get"]}
{"id": "C68", "title": "Accessors read the decoded buffer in place", "statement": "After Decode of a well-formed message, an accessor returns what the buffer then holds where the field's last value was: a caller who overwrites other bytes of the buffer does not change it, a caller who overwrites the value with another encoded value reads that one, and fields absent from the message stay absent whatever is written. (README: the encoded message must not be modified while in use.)", "quantifier": "all message types, well-formed messages, record orders, fields of scalar, string or bytes type, and all later writes of the caller into the buffer", "why_tests_cant": "A test overwrites one buffer in one way; the claim is about every write to every byte of every message.", "anchors": ["zeropb.go: Decode, GetBool, GetInt32, GetString, GetBytes", "README.md: usage notes"]}
{"id": "C69", "title": "The same behaviour on 32-bit platforms", "statement": "Where Go's int has 32 bits, every history of calls on a message leaves the same encoded bytes and gives the same answers as where it has 64, and Decode has the same outcome on every well-formed message.", "quantifier": "all message types, histories of setter/append/reset/decode calls, well-formed messages", "why_tests_cant": "CI runs on one platform, and the difference needs particular field numbers or lengths; the claim is about all of them.", "anchors": ["zeropb.go: Decode, FindNextField, fieldDataSize, setSingle, appendSingle"]}
{"id": "C70", "title": "Absent descriptor entries mean protobuf's defaults", "statement": "The plugin's response to a request does not change when absent entries (name, number, label, type, package) are replaced by protobuf's default values and nil list elements are removed.", "quantifier": "all code generator requests", "why_tests_cant": "Requests are arbitrary trees with any entries missing.", "anchors": ["generate/generate.go: Generate, generateFile, generateMessage", "generate/descriptor.pb.go: getters"]}
{"id": "C71", "title": "Iterators and sub-message accessors on every byte string whatsoever", "statement": "After Decode returned, with or without an error, on any bytes at all, a loop over the iterator of a repeated field delivers exactly the elements found by walking the bytes from the field's first record, in order, and then ends, panics, reaches beyond the message or fails to return exactly where that walk does; each successful Next leaves strictly fewer bytes, so a loop makes at most len+1 calls; a sub-message accessor decodes exactly what a bytes accessor would have returned.", "quantifier": "all byte strings (well-formed, truncated, overlong, hostile), message types, previous contents, repeated and sub-message fields, calls of Next", "why_tests_cant": "Ranges over all byte strings and all calls of Next on them; non-termination cannot be observed by a test.", "anchors": ["zeropb.go: FindNextField, GetRepeatedNonPacked, GetBytes", "golden/testzeropb: iterators' Next, sub-message accessors"]}
{"id": "C72", "title": "Every history of calls over any bytes is a history of a byte string and positions", "statement": "A message behaves, under every sequence of setters, appends, Decode of arbitrary bytes (whether it reports an error or not) and Reset, as a byte string with one position per field: a setter adds the record at the end, overwrites the value if it takes as many bytes, or removes the value with the bytes in front of it that its tag would take and adds the record at the end; the outcome of each call (returns, panics, reaches beyond the message, does not return), the encoded bytes and the answers of all getters, iterators and sub-message accessors are those of that machine, with no condition on the decoded bytes.", "quantifier": "all message types, all histories of mutating calls with any arguments, all byte strings given to Decode, all queries after them", "why_tests_cant": "Ranges over all call sequences and all byte strings, including malformed ones on which setters corrupt or stretch the message.", "anchors": ["zeropb.go: setSingle, appendSingle, Set*, Decode, Get*, FindNextField", "offsets.go: Set, Get, Clear, AdjustAll"]}
{"id": "C73", "title": "Exact effect of a setter or append on memory", "statement": "After a setter or append call on a message reached by any history over any bytes, every byte of every array that existed before the call is determined: nothing outside the capacity window of the message's buffer changes; inside it, a first set or append writes tag, length and value one after the other behind the message as long as each fits, an overwrite of a value of the same size writes the value in place, and a change of size first moves the bytes behind the value down over it and then adds the record; the message stays in its array exactly if the record fits in the capacity, and otherwise is in memory of its own. Hence what every slice, string, iterator, sub-message and struct copy obtained earlier reads afterwards is determined too.", "quantifier": "all message types, all histories of mutating calls over any bytes, all layouts of memory and capacities, all growth policies of append, all arguments outside the message's own window, all slices obtained before", "why_tests_cant": "Ranges over all memory layouts, aliasing patterns and growth policies; a test sees one allocation pattern.", "anchors": ["zeropb.go: setSingle, appendSingle, Set*", "offsets.go: AdjustAll"]}
{"id": "C74", "title": "What a call that reaches beyond the message reads", "statement": "On a message reached by any history over any bytes, and in any memory, the result of every getter is determined, including those the bytes send beyond the end of the message: such a getter reads as if the message went on to the end of the capacity of the slice given to Decode (so it returns bytes of the caller's memory that are not part of the message) and panics exactly if that is not enough. A setter that, on malformed bytes, stretches the message instead of removing the old record makes that many cells behind the message part of it, with the bytes and getters that follow from this, and panics exactly if the capacity does not suffice. The same as for getters holds for the element a call of Next delivers, which is then the last.", "quantifier": "all message types, histories over any bytes, memory layouts and capacities, getters, setters and fields; all iterators", "why_tests_cant": "Ranges over all malformed messages and all capacities; whether bytes are disclosed depends on memory behind the message that tests do not control.", "anchors": ["zeropb.go: Get*, Set*, setSingle, FindNextField", "offsets.go: adjust"]}
{"id": "C75", "title": "Programs over shared memory", "statement": "Any program that uses any number of messages, copies of messages, sub-messages decoded from their parent's bytes, slices and strings returned by getters, iterators and buffers of its own over the same memory, aliased in any way and over any bytes, well-formed or not, sees exactly what a small machine of byte arrays, slices (array, offset, length, capacity) and unbounded field positions prescribes, call by call: which call returns which slice, value or error, which cells of memory every call changes (including cells other messages and views lie in), when a message moves to a new array, and which call panics or never returns. The machine leaves open only the allocator's choices (which fresh array, how much spare capacity), and in all its states every slice held by the program and every message's buffer lies within its array.", "quantifier": "all programs (sequences of 16 kinds of actions on any numbers of messages, slices and iterators), all message types, all bytes, all growth policies of append", "why_tests_cant": "The space of aliasing patterns, capacities and malformed bytes is unbounded, and effects appear in messages other than the one that is called.", "anchors": ["zeropb.go: Get*, Set*, AppendBytes, setSingle, appendSingle, Decode, FindNextField, GetRepeatedNonPacked", "offsets.go: Offsets", "golden/testzeropb/test.zeropb.go: generated accessors"]}
{"id": "C76", "title": "Programs over shared memory that recover from panics", "statement": "A program as in C75 that recovers from every panic and goes on with the messages, slices and iterators it has still sees exactly what the machine prescribes, where a panicking call leaves behind: nothing changed (getters, iterators, Reset, the client's own slice operations, and setters that find the field's position or extent outside the message); the new buffer together with the positions of all records passed before the panic (Decode; the offending record's position too if its wire type is unknown); or unchanged positions over bytes of which the part behind the old value has already been moved (a setter that would have to stretch the message and finds no room). Appends never panic. No panic leaves a slice or message outside its array, so later calls cannot corrupt memory.", "quantifier": "all programs, all message types, all bytes, all growth policies, any number of recovered panics at any points", "why_tests_cant": "Panics happen at data-dependent points in the middle of updates; what the message holds afterwards depends on all earlier calls and on aliasing.", "anchors": ["zeropb.go: Get*, Set*, setSingle, appendSingle, Decode, FindNextField", "offsets.go: Offsets", "golden/testzeropb/test.zeropb.go: generated accessors"]}
{"id": "C77", "title": "Goroutines", "statement": "Let a program build any messages and byte slices, then start any number of goroutines that use them, each executing any sequence of calls of the API and operations on its own slices, recovering from panics, with their memory accesses interleaved in any order (not just whole calls). If every goroutine writes only to messages and slices whose memory (the struct, its overflow map, the buffer up to its capacity) no other goroutine uses, and to memory it allocates itself, then there is no data race and no access outside allocated memory; every goroutine sees and leaves behind exactly what it would if it ran alone after the common beginning; memory nobody may write to is unchanged; all goroutines can come to an end. In particular: goroutines that share nothing may execute any programs; any number of goroutines may read the same messages with all getters, Encode and iterators and Decode the same bytes into structs of their own, and each may build messages of its own. Conversely a setter next to a getter on the same message, even of another field or of the same size, and setters on a message and its struct copy, do race.", "quantifier": "all programs and common beginnings, all message types, all bytes, all numbers of goroutines, all interleavings of single memory accesses, all allocators and growth functions", "why_tests_cant": "The race detector and stress tests see a few of exponentially many interleavings, and races of appends into shared spare capacity depend on the allocator's choices.", "anchors": ["zeropb.go: Get*, Set*, AppendTo, setSingle, appendSingle, Decode, FindNextField", "offsets.go: Offsets", "golden/testzeropb/test.zeropb.go: generated accessors"]}
{"id": "C78", "title": "The order of the records in the encoding", "statement": "The bytes Encode returns are determined by the sequence of operations alone, as follows: a field set for the first time and an appended element go to the end; a setter whose new record has the size of the field's last record replaces it in place; a setter whose new record has another size takes the last record out and puts the new one at the end; Reset empties the message; Decode takes over the records of the buffer in their order; every record written by a setter or append is the one canonical encoding of its value. So two messages have the same bytes exactly if they have the same records in this order, and setting a field again to the value just set changes no byte.", "quantifier": "all message types, all pairs of histories of setters, appends, Reset and Decode of well-formed buffers with minimal tags and matching wire types, total size below 2^63", "why_tests_cant": "The order depends on the sizes of all earlier values; tests compare a few literal encodings.", "anchors": ["zeropb.go: setSingle, appendSingle, Decode", "golden/testzeropb/test.zeropb.go: Encode, Reset, setters"]}
{"id": "C79", "title": "Cost of a call in memory accesses", "statement": "On a message with any history, a getter makes at most 14 memory accesses, 3 if the field is absent, whatever the sizes of the message and of the value, and writes nothing; Encode makes one access and a repeated getter at most four, on any memory; a setter whose value takes as many bytes as the old one makes at most 26 plus the size of the value, so it neither moves nor reads the rest of the message; any other setter is linear in the message, the number of fields and the value. Decode of a well-formed buffer makes at most 30 accesses for each record however long its bytes (and at most 6 for each byte) plus one for each field number of the type; Next makes at most 20 for each record up to the next one of its field and never looks at the bytes of the elements.", "quantifier": "all message types, histories, memories holding the message, fields, values, buffers, growth functions and allocators", "why_tests_cant": "Benchmarks time a few messages; a bound must hold for every message and history, and zero-copy means that no access touches the payload bytes.", "anchors": ["zeropb.go: Get*, Set*, setSingle, Decode, fieldDataSize, FindNextField", "offsets.go: Offsets.Get, Offsets.Set", "golden/testzeropb/test.zeropb.go: Encode, getters, setters"]}
{"id": "C80", "title": "Building a message costs linear time in total", "statement": "Filling a message by any sequence of appends and first-time setters (each field set once, before any append to it) makes at most 400 memory accesses per call plus 20 per byte given plus 18 per byte the buffer already had, provided append grows a full slice by at least an eighth; a single call may copy the whole buffer, but not the sequence more than a constant number of times.", "quantifier": "all sequences of calls, all field numbers, values and slices in memory, all buffers and capacities, all growth functions that grow by an eighth, all memories and allocators", "why_tests_cant": "An amortised bound is about all sequences of calls together with all capacities the allocator may return.", "anchors": ["zeropb.go: setSingle, appendSingle, AppendBytes", "offsets.go: Offsets.Set"]}
{"id": "C81", "title": "Messages behind a reader-writer lock", "statement": "Let a program build any messages and byte slices, then start any number of goroutines that use those common messages, slices and variables only inside critical sections of one sync.RWMutex: between Lock and Unlock any calls of the API and operations on slices, recovering from panics; between RLock and RUnlock only getters, Encode, iterators and slicing on what is common, and messages of the section's own: built with setters, or Decode of common bytes into them and getters. Each goroutine chooses its next section from what it has seen and from the common variables, and there may be infinitely many sections. With memory accesses interleaved in any order the lock allows, there is no data race and no access outside allocated memory; the sections have a total order in which each sees exactly what it sees when the sections before it that write, and then it, are executed one after the other on the specified machine; while nobody is writing, memory holds the messages that machine holds; every goroutine inside a section can come to its end. Conversely a setter (even to a value of the same size) under RLock races with a getter under RLock.", "quantifier": "all common beginnings, all numbers of goroutines and strategies for choosing sections, all interleavings of single memory accesses the lock allows, unbounded numbers of sections, all message types, bytes, allocators and growth functions", "why_tests_cant": "Which methods may run under RLock is a statement about every pair of calls at every interleaving of their accesses; the race detector sees the ones that happen.", "anchors": ["zeropb.go: Get*, Set*, AppendTo, setSingle, appendSingle, Decode, FindNextField", "offsets.go: Offsets", "golden/testzeropb/test.zeropb.go: generated accessors"]}
{"id": "C82", "title": "Cost on hostile bytes", "statement": "On any bytes whatsoever (cut short, corrupted, or chosen by an attacker) and whatever positions and memory the struct holds: if Decode of n bytes comes back, by returning nil or an error or by panicking, it has made at most (n+1)(2n+10)+4 memory accesses plus one for each field number of the type; Next at most (n+1)*2n+n, writing nothing; any getter at most n+14, writing nothing. This is the right order: for every size there are buffers, at most 48 bytes longer, that Decode accepts with a nil error, for every message type, only after at least length^2/100 accesses, and iterators on which Next needs as many; so the linear bounds of C79 hold of well-formed bytes only.", "quantifier": "all bytes of all lengths, all message types, memories, structs, iterators, fields and allocators; for the converse all sizes below 2^60", "why_tests_cant": "The worst case is a shape of overlong varints and backward jumps that neither tests nor random fuzzing build, and an upper bound is about all inputs.", "anchors": ["zeropb.go: Decode, fieldDataSize, FindNextField, Get*", "offsets.go: Offsets.Get, Offsets.Set"]}
{"id": "C83", "title": "The Go release does not matter", "statement": "go.mod asks for Go 1.12, whose binary.Uvarint reads an overlong varint to its end; since Go 1.17 it gives up at the eleventh byte. Whatever binary.Uvarint does on malformed varints, as long as it reads well-formed ones as documented, every history of legal calls leaves the same struct, and Decode of any well-formed message, all getters, sub-message accessors and iterators answer the same. The two Uvarints differ exactly on inputs that begin with eleven bytes of 128 or more, and a single call by any client, legal or not, on bytes without eleven such bytes in a row answers, or fails, the same with both. On other bytes a newer Go can turn an error into a panic or an endless loop, and a panic into success.", "quantifier": "all functions in place of Uvarint that read well-formed varints, all message types, schemas and histories with less than 2^63 bytes of input, all well-formed messages; all single calls on all structs whose buffer, and all inputs which, have no eleven continuation bytes in a row", "why_tests_cant": "Tests run with one Go release, and the releases differ only on malformed varints of eleven bytes and more; that no legal use ever presents one to Uvarint is a statement about all histories.", "anchors": ["zeropb.go: every function that calls binary.Uvarint or binary.Varint", ".circleci/config.yml", "go.mod"]}
{"id": "C84", "title": "With a recent Go hostile bytes cost linear", "statement": "Built with Go 1.17 or later, whose binary.Uvarint stops at the eleventh byte, Decode of any bytes that comes back at all, by returning or panicking, has made at most 32 memory accesses for each byte of the input plus one for each field of the message type; Next at most 22 for each byte; a getter at most 15 in all, whatever the buffer and the stored positions. With the Go 1.12 of go.mod the first two can be made quadratic and the third linear (C82). The programs counted are those of C82 with nothing but Uvarint replaced.", "quantifier": "all memories, all buffers (well-formed or not), all message types and fields, all iterators", "why_tests_cant": "A bound on the cost of every input cannot be observed on chosen inputs; the adversary picks the worst one, and an iteration may jump backwards.", "anchors": ["zeropb.go: Decode, FieldIterator.Next, fieldDataSize, GetBool, GetInt32, GetBytes and the other getters", "go.mod"]}
{"id": "C85", "title": "Setters and appends cost linear on hostile messages too", "statement": "On any message struct whatever, decoded from hostile bytes (with or without an error), left behind by a recovered panic or with arbitrary contents, with any arguments, a setter that returns or panics has made at most 150 + 15 * length + 2 * fields + 8 * entries of the overflow map + the size of the value memory accesses, where length is that of the message before the call, even if the call takes spare capacity of the buffer into the message; AppendTo at most 120 + 6 * length + twice the size of the element. In every state a client can reach the overflow map has at most one entry for each field.", "quantifier": "all memories, struct contents, fields, types, values (legal or not), capacities and growth policies of append; all states reachable by any calls with recovered panics", "why_tests_cant": "A bound on the cost of every call on every corrupt state cannot be observed on chosen inputs.", "anchors": ["zeropb.go: SetBool and the other setters, AppendBytes, setSingle, appendSingle", "offsets.go: offsets.Set, offsets.Get"]}
{"id": "C86", "title": "Fork and join", "statement": "Let a program execute calls in one goroutine, then start goroutines on the messages and slices it has, wait until all have ended (sync.WaitGroup), go on with the variables it had and those the goroutines made, start goroutines again, and so on, any number of times; the memory accesses of goroutines that run at the same time are interleaved in any order. If at every fork each goroutine writes only to memory no other of them uses (as in C77), and assigns to no common variable, then nothing races and nothing is accessed outside allocated memory at any time, all goroutines can come to an end, and once they have, the interleaving is an execution of the goroutines one after the other, in whatever order one likes. The whole ends with the same memory, variables and results as one program in one goroutine that executes everything in the order of the text; the specified machine says what these results and the bytes of all messages are.", "quantifier": "all programs of any number of rounds, all numbers of goroutines in each, all interleavings of single memory accesses, all message types, bytes, allocators and growth functions, recovered panics included", "why_tests_cant": "Stress tests and the race detector see a few of exponentially many interleavings in each round, and what a later round does depends on what all earlier ones left in shared buffers and capacities.", "anchors": ["zeropb.go: Decode, the getters, setters and AppendBytes, FieldIterator.Next", "offsets.go: offsets.Get, offsets.Set"]}
{"id": "C87", "title": "Messages that are handed over", "statement": "Let a program build any messages and byte slices and divide them into parcels, each of which may write only to memory no other parcel uses (as in C77; memory nobody writes to may be in several). At any time a parcel is with at most one goroutine, which executes calls on it and then hands it over: sends it over a channel, puts it into a pool, unlocks the mutex that belongs to it. Which goroutine takes which parcel next, and what it does with it, may depend on anything, without bound on the number of sections; sections on different parcels run at the same time, memory access by memory access, in any interleaving. Two parcels nobody is working on may be put together (a message filled by one goroutine is set as field of another's); what is done then may use the messages and slices of both, and writes to memory of either. Then there is no data race and no access outside allocated memory; what the sections on a parcel see, and the bytes the parcel holds between them, are what the specified machine shows for these sections one after the other, as if no other parcel existed, for parcels put together first what was done on the one, then what was done on the other; memory no parcel may write to is unchanged; no section panics out of a recovering goroutine and every section can come to its end. When all parcels are handed back the program goes on as in C86.", "quantifier": "all common beginnings, all numbers of parcels and sections, all orders of handing over, all interleavings of single memory accesses, all message types, bytes, allocators and growth functions", "why_tests_cant": "Pools and pipelines reuse buffers and capacities across goroutines; the interleavings and hand-over orders are unboundedly many, and a race detector sees one of them.", "anchors": ["zeropb.go: Decode, the getters, setters and AppendBytes, FieldIterator.Next", "offsets.go: offsets.Get, offsets.Set"]}
{"id": "C88", "title": "Parcels passed over channels", "statement": "Let a program build any messages and byte slices, divide them into parcels (as in C87), give each parcel to one of any number of goroutines, and let the goroutines run: each receives parcels from channels (or pools, which may give out any parcel in them, or mutexes that have a parcel), executes calls of the API on parcels it has, recovering from panics, and sends parcels over channels, what it does next depending in any way on what it has received and seen. If every goroutine, by itself, keeps to the rule that it uses and sends only parcels it was given or has received and has not sent since, that it sends over a channel only parcels the channel is for, and that its calls stay within the parcel's rights, then, in any interleaving of single memory accesses and with any scheduling of the channels: no two goroutines ever have the same parcel, none has one that is in a channel, and none is lost; there is no data race and no access outside allocated memory; no section panics out of a recovering goroutine and all that are being executed can come to their ends; memory of no parcel is unchanged; and what was seen on a parcel, by whichever goroutines, and the bytes it holds whenever nobody works on it, are what the specified machine shows for the calls on it in the order of the events. When all goroutines have been waited for, the program goes on with everything they made, as in C86. A goroutine that goes on with a parcel it has sent does race.", "quantifier": "all beginnings, numbers of goroutines, parcels and channels, all strategies of the goroutines, all interleavings of single memory accesses and channel operations, all message types, bytes, allocators and growth functions", "why_tests_cant": "The schedules and the programs are unboundedly many, and a race detector sees one schedule of one program.", "anchors": ["zeropb.go: Decode, the getters, setters and AppendBytes, FieldIterator.Next", "offsets.go: offsets.Get, offsets.Set"]}
