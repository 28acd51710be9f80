# Formal model of danhhz/zeropb in Rocq (Coq 8.16.1)

zeropb is a Go library (`zeropb.go`, `offsets.go`) that keeps a protobuf message
as its encoded bytes plus an array of 16-bit offsets, a code generator
(`generate/`) that emits one struct with accessors per message type, and two
protoc plugins (`cmd/`).  The model follows this division.  `properties.jsonl`
lists the properties, `MANIFEST.json` the theorems, `seeded/LOG.jsonl` the wrong
programs the theorems were tried on.  Theorems named `_refuted` prove that a
property is *false* of the code as written, by a concrete witness; `_partial`
proves it under the guard stated in it.

## Trusted base

* Coq 8.16.1's kernel (including its `vm_compute` conversion), and that the
  sources in `rocq/theories` are what it was given.
* **Axioms: none.** `Print Assumptions` answers "Closed under the global context"
  for each of the theorems in `MANIFEST.json` (each is followed by a
  `Print Assumptions` in its `P_*.v` file).  Loading std++ loads ssreflect, whose
  `ssrunder` module type has abstract fields (`Under_rel...`); no theorem
  depends on them, they appear only in a listing of everything loaded.
  No `Admitted`, no kernel check switched off, no functor, no module type.
* That the model says what the code says.  Every definition of the model cites
  the lines of /repo it transcribes; simplifications are in the same comment and
  collected below.  Two cross-checks inside Coq: the generator model applied to
  the repository's recorded requests (`golden/*.parsed`) computes, byte for byte,
  the committed outputs (`Golden.v`, `C41_case`); the generated text is
  parsed and interpreted (`GoSem.v`) and shown to act like the hand-transcribed
  method model (`GenApi.v`) - so the latter is not an independent guess.
* The specifications: `Spec.v` (protobuf wire format and plain records), `Tree.v`,
  `SpecCost.v`, `GoLang.v`/`GoCheck.v`/`GoSem.v` (a subset of Go), `GenSpec.v`
  (schemas as protoc hands them over).  They use no definition of the model of
  the code (GenSpec.v uses the descriptor data types, GoSem.v the runtime model
  as the meaning of package `zeropb`).

## What is modelled, and how

| file | models / contains | source |
|---|---|---|
| GoBase.v | outcomes `res` (`Ok`, `Panic`, `PastLen` = slice expression past len but within cap, `OutOfFuel`), wrap-around, slice expressions, `copy` | Go language spec |
| Varint.v | `encoding/binary` Uvarint/Varint/PutUvarint/PutVarint, little endian | Go 1.12 (`.circleci/config.yml`) |
| Offsets.v | `Offsets` Get/Set/Clear, array and overflow map | offsets.go, all |
| Runtime.v | every Get*/Set*/Append*, setSingle, appendSingle, FindField, FindNextField, Decode, Reset over byte *values* | zeropb.go, all |
| GenApi.v | the generated struct and its methods, iterators | golden/*/*.zeropb.go, generate.go templates |
| Heap.v | the same functions again over a memory: arrays, slices (array, offset, len, cap), map references; `append` with an arbitrary growth policy; aliasing is visible | zeropb.go, offsets.go |
| HeapApi.v | clients holding several structs, slices and iterators in one memory; schedules of readers | client side |
| Gen.v | generate.Generate, generateFile, generateMessage, all field templates, toGoCase, goFieldType, StringTree | generate/generate.go, generate/stringtree.go, all |
| Golden.v | requests and outputs of the golden tests, as literals (tools/mkgolden.py) | golden/ |
| Main.v | main/mainErr of both plugins | cmd/*/main.go |
| Text.v | Text/WriteText of the test message | golden/testzeropb/string.go |
| Spec.v | wire format as relations (`is_varint`, `payload_enc`, `wire`), field values, typed reading, plain records | protobuf encoding spec |
| SpecScan.v | a reader walking over arbitrary bytes by position (forward, or backward over overlong varints), and what is found at a position | - |
| SpecFind.v | how an iterator moves through arbitrary bytes: elements, skipped records, where the search ends | - |
| SpecPos.v | a message as a byte string and one position per field: what every mutation and query does to it, whatever the bytes | - |
| SpecMem.v | the cells of the array window under a message after a setter or append; where the message then is | - |
| SpecCost.v, Tree.v, SpecTree.v, SpecHist.v | distances between records; trees of messages; encodings of trees and clients mutating a tree and a struct in step; histories over arbitrary decoded messages | - |
| Share.v, Recover.v, SpecShare.v, SpecRecover.v | clients over shared memory, recovering from panics; the machine that specifies them | client side; zeropb.go again, with state surviving panics |
| SpecLock.v, SpecFork.v, SpecHand.v, SpecChan.v | the rules for messages behind a lock, for fork and join, for messages handed over and sent over channels | clients of zeropb.go |
| Access.v, AccessApi.v, SpecGo.v | goroutines interleaving single memory accesses; every function again, access by access; the rule goroutines keep to | zeropb.go, offsets.go, Go memory model |
| PanicState.v | the mutating calls and Decode as state machines whose state survives a panic (for clients that recover) | zeropb.go, offsets.go |
| Validate.v | the tables of TestEncode/TestDecode replayed in the model (a check of the model, not a proof) | zeropb_test.go |
| GoLang.v, GoCheck.v, GoSem.v | lexer, parser; type checker; interpreter for the Go subset of generated files | Go language spec |
| GoCheckTests.v | some 250 small Go packages on which the verdict of GoCheck.v is fixed (tests of that specification, not proofs) | Go language spec |
| GenSpec.v, GenClient.v | legal descriptors, what they declare; programs calling generated methods by name | protobuf / Go |
| Api.v | histories of calls on one struct, and the plain record they denote | - |
| VarintFacts ... Core6, TreeFacts, HeapFacts ... HeapStable, HeapBefore, HeapSafe, Cost, Cut, Canon, Evolve, GenHist, PanicFacts, PanicDecode, Interop, ScanFacts, Gen*, GoCheckFacts, TextFacts | lemmas | - |
| Demo.v | the concrete messages and histories used in the `*_case` examples | - |
| P_*.v | the property theorems, their examples and `Print Assumptions` | - |

Loops are recursion on fuel returning `OutOfFuel`; `Fuel.v` proves that a loop
not finished after `len + 2` iterations never finishes, so `OutOfFuel` means
divergence and nothing else.  Setters take Go's map iteration order as an
argument (C16 shows it is irrelevant).  Heap functions take append's growth policy
as an argument (C44 shows it is irrelevant).

### Not modelled, or simplified

* `int` is 64 bits (32 bits in Runtime32.v only); the theorems on messages assume lengths below 2^62 or 2^63
  where additions could wrap (stated in each theorem).
* Floats are their bit patterns (`math.Float32bits` etc. are identities here).
  NaN payload changes by float hardware are outside the model.
* nil and empty slices are the same at the value layer for the message buffer; for
  accessor results (`SetBytes(nil)`, absent field) they are distinguished.
* The `unsafe` casts in GetString/SetString/AppendString: a Go string is a slice
  header without capacity, shared memory visible in the heap layer.  The garbage
  collector is not modelled.  Goroutines (C77) interleave single memory accesses in
  one order all agree on; that this is what Go does for programs without data races
  (which C77 proves them to be) is the promise of the Go memory model.  C29 is about
  whole calls.  A reader-writer lock is modelled as its promise (C81), waiting for
  goroutines to end too (C86), handing a message over as exclusive possession (C87), channels, pools and mutexes with
  what they guard as bags of messages that one goroutine at a time takes from or adds to (C88).
* Stack scratch arrays (`[10]byte`), escape analysis and struct allocation: only
  heap arrays and maps of message data count as allocations in C47.
* Cost (C48, C49) is iterations of the loops, not time.
* Main.v: proto.Unmarshal/Marshal/MarshalText, the OS and `glog` are parameters with
  no assumed behaviour.  Text.v: `strconv.Quote` and the formatting of floats are
  parameters.
* Generator: identifiers are ASCII (protoc guarantees it); descriptor getters of
  github.com/golang/protobuf return the protobuf default for absent values;
  `strings.Repeat`'s overflow panic is out of reach.  Compiler limits (array size)
  are outside GoCheck.v; GoCheck.v rejects what is outside the subset, so an
  accepted package compiles, and for generated packages rejection is matched
  with a concrete rule of Go (C40).
* Test and benchmark files (`*_test.go`), `internals.go` (a test helper exposing the
  offsets map) and the gogo-generated `raftpb`/`testpb` packages are not modelled.

## The properties: what is proved and how

Value layer (P_Value.v, P_State.v, P_Decode.v; method: the invariant "buffer is the
concatenation of a list of records, offsets index it", each call maps the record list
to an explicit new one, induction over the history):

* C01, C02, C03, C05, C10-C13, C19, C23, C24: for every schema, every history of calls
  from the zero struct (including decodes of foreign buffers).
* C04, C06, C08, C18, C21: against the relational wire format of Spec.v.
* C07, C09: exact classification of Decode's outcome for every input without an
  overlong varint or a length prefix of 2^63 or more; witnesses of the failures outside; C67
  covers all inputs.
* C67 (P_Scan.v): Decode and the accessors on every byte string, by simulation of the loop with
  the walk of SpecScan.v; divergence by pigeonhole on positions.
* C71 (P_Find.v): the same for FindNextField, iterators and sub-message accessors, against SpecFind.v.
* C72 (P_Pos.v): every history of calls over any bytes, by simulation with the machine of SpecPos.v
  (PosFacts.v); subsumes what C25/C27/C28 leave open, at the price of a specification in terms of
  positions rather than of records.
* C73 (P_Effect.v): the cell by cell effect of setters and appends on the arrays (HeapEffect.v: the
  effect is threaded through copy and append of the heap model), over the machine of SpecPos.v.
* C74 (P_Beyond.v): the outcomes C67/C71/C72 call "beyond the message", decided by the capacity in the
  heap model (gets_in, next_in, stretches of SpecMem.v).
* C75 (SpecShare.v, Share.v, P_Share.v): a machine for programs over shared memory (byte arrays, slices,
  positions; outcome of every action given the allocator's choice), proved to be what the heap model does
  by simulation (ShareRel.v, ShareStep.v), deterministic (ShareDet.v) and within bounds (ShareSane.v).
* C76 (SpecRecover.v, Recover.v, P_Recover.v): the same with recovered panics.  Recover.v models the calls
  that write once more, statement by statement, over a memory and struct that survive a panic; it agrees with
  Heap.v where the calls return (RecoverFacts.v).  Setters: RecoverSet.v; Decode: PanicState.v's loop; simulation
  and determinism: RecoverStep.v.
* The memory of Heap.v carries its allocator (two functions choosing the identity of the next byte array and
  map, `pick` makes any choice fresh): every theorem over the heap model holds for every allocator, and
  C75/C76 name it (`p_empty al`).
* C77 (SpecGo.v, P_Go.v): goroutines.  Access.v is a machine whose programs load and store single
  locations (bytes, slice headers, offsets, map references, maps); AccessApi.v models every function once
  more, access by access; AccessMem/Obj/Set/Run.v prove by weakest preconditions that a goroutine alone
  does what Recover.v says (so C76 applies) and touches only what it knows; AccessFacts.v proves that
  goroutines with separated writes do not interfere (an invariant over interleavings that carries, for every
  goroutine, the choices of the allocator so far); AccessFork.v starts them from a common state;
  AccessRule.v derives the conditions from the rule of SpecGo.v, which can be read off a program.
* C78 (SpecOrder.v, P_Order.v): the list of records after every operation, from the representation invariant
  of the value layer (`set_result`); unique parsing gives the equivalence for equal bytes.
* C79, C80 (SpecSpend.v, P_Spend.v; SpendFacts.v, SpendGet.v, SpendSet.v, SpendMore.v, SpendScan.v): the programs
  of AccessApi.v run alone with every access counted (`spends`). Bounds by a cost-counting predicate transformer over
  the access programs, from the representation invariant; C80 by a potential (16 accesses per byte of capacity gained).
* C81 (SpecLock.v, P_Lock.v; LockFacts.v): the machine of C77 with a reader-writer lock, access by access; goroutines
  are strategies.  Invariant: memory includes that of one program, the beginning and the finished sections that write;
  on top of it either one open writer has made its accesses so far, or readers, separated from each other and
  writing only to what they allocated (the invariant of C77), have made theirs.
* C83 (P_Release.v; RuntimeGo.v, Release.v, ReleaseCalm.v): RuntimeGo.v repeats every function that calls
  binary.Uvarint with Uvarint as a parameter (lemmas: the one of Go 1.12 gives back Runtime.v).  For any function that
  reads well-formed varints the programs agree on structs that represent records (the invariant of the other proofs);
  on buffers without eleven continuation bytes in a row the two Uvarints agree on every suffix, hence every call does.
  Examples, by computation and an induction over laps, of bytes on which the releases differ.
* C82 (P_Hostile.v; SpendHostile.v, SpendTotal.v, SpendWorst.v, SpendWorstRun.v): the counted programs of C79 on any
  bytes. Upper bound: each iteration is linear and the positions are distinct (the pigeonhole of Fuel.v). Lower bound: an
  explicit family of buffers (records that jump into a run of continuation bytes, from which the overlong tag leads
  back to the next record), with a predicate transformer for executions that exist.
* C84 (P_Modern.v; SpendGo.v): the counted programs with Uvarint's program as a parameter (given Go 1.12's they are
  those of C82, by computation); for one that makes at most B accesses, Decode's laps make at most 2B+10 each and
  visit distinct positions. B is 11 for Go 1.17.
* C85 (P_HostileSet.v; SpendSetAny.v): the counted setters of C79 on any struct: whatever the stored position and the
  length prefix say, the slice expressions that succeed confine the copy and the new length to twice the old length.
* C86 (SpecFork.v, P_Fork.v; ForkJoin.v): rounds of goroutines in the machine of C77.  Two steps of different goroutines
  of a race-free execution commute (allocations too), so the accesses of each one can be moved before all others'; what
  one then executes with the variables of those before it in between is the same program with variables renumbered
  (`same`: programs that make the same accesses).  The sequential program is an execution from the empty memory, so the
  premises of C77, C81 and of the next round hold again.
* C87 (SpecHand.v, P_Hand.v; HandFacts.v): parcels with at most one section being executed on each.  An execution is
  simulated by C77's machine with one goroutine per parcel whose program is all sections begun so far: when a section
  begins, that goroutine's program is extended from the start (`tracks`: the longer program makes the accesses of the
  shorter one, then goes on).  When two parcels are put together, the one's goroutine is moved before the other's as in
  C86 and its end continued with the other's program, renumbered.  The theorems then follow from those of C77 and C86.
* C88 (SpecChan.v, P_Chan.v): goroutines as strategies over what has happened to them, channels as bags of parcels with
  their variables.  Invariant: the state stands for one of C87's machine, with a place for each parcel; possession is not a
  side condition of the steps but follows from the rule, which each goroutine keeps by itself.
* C14-C17: Offsets as a finite map; order independence; Reset.
* C20 (P_Tree.v), C66 (P_Interop.v): induction on trees over any family of mutually recursive types.
* C22, C25-C28, C36: exact behaviour on foreign input under a stated guard, with
  counterexamples outside it; C25 also for whole histories (P_Hist.v).
* C48-C50, C54 (P_Cost.v), C56 (P_More.v), C57 (P_Text.v),
  C60, C61 (P_Canon.v), C62 (P_Evolve.v).
* C63-C65 (P_Panic.v): invariant over all states reachable by any calls on any bytes,
  panics included; PanicState.v is proved to be the same program as Runtime.v.
* C69 (P_Width.v): Runtime32.v is the part of zeropb.go that computes with int, with the width as
  parameter; at 64 bits it is Runtime.v by conversion, at 32 bits it is proved to agree with it on
  the stated inputs by the same inductions over records.

Heap layer (P_Heap.v, P_Mem2.v, P_Safe.v; method: simulation between heap and value layer for
structs whose capacity windows are disjoint, frame lemmas per function):

* C29-C34, C44, C47, C51-C53, C58, C59, C68 (P_Place.v).

Generator (P_Gen.v, P_Main.v; method: the emitted text is characterised
piecewise, lexed and parsed to an explicit syntax tree, which is then type-checked and
interpreted symbolically):

* C37-C43, C45, C46, C55, C70 (P_Default.v).

## Findings: claims a user would rely on that the code breaks

Each is a proved `_refuted` theorem with a concrete witness.

1. C07: Decode accepts a buffer that is not a protobuf message (overlong varint), and
   one with field number 0.
2. C09: Decode loops for ever on an 11-byte input (Uvarint returns a negative size);
   panics on field numbers outside the array and on group tags.
3. C22: sint32 wire values of 2^32 and more are decoded differently from protobuf.
4. C25: setters corrupt messages whose existing tag is not minimal or whose record has
   another wire type.
5. C26: an unknown field beyond the largest declared number makes Decode panic.
6. C27, C30: a record of the wrong wire type makes accessors panic or return slices that
   extend beyond the message.
7. C28, C54: after a failed Decode accessors may panic or return bytes beyond
   the message; iterators may never return.
8. C32, C51, C52, C53: aliasing - a setter whose argument is a view of the same
   message can store other bytes; views change under a resizing set; append to a returned slice
   overwrites the message; copies of a struct share the buffer.
9. C34: mutating a sub-message overwrites the parent's next fields.
10. C36, C50: split sub-messages are neither merged nor rejected.
11. C40: names that are legal protobuf give Go packages that do not compile.
12. C46: two inputs can get the same output file name.
13. C55: the plugin exits with status 0 after a failure.
14. C56: negative enum numbers are not encoded as protobuf prescribes.
15. C57: the text form does not determine the message.
16. C59: a string already returned changes when the field is set again.
17. C61: equal messages may have different bytes (order of the calls).
18. C62: a reader whose schema lacks the writer's largest field number panics.
19. C63: with spare capacity behind the message, a setter on a field sent with another
    wire type can break the offset table (a third field then reads from offset 0).
20. C64: such a setter can panic after having moved bytes of other fields.
21. C69: with 32-bit ints, fields numbered 2^28 and more cannot be used, and Decode accepts
    some truncated messages and panics on others (a length prefix just below 2^31).
