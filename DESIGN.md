# Formal model of GlobalCorrelator_HLS in Rocq (Coq 8.16.1)

## 1. Approach

The code is a set of small loop nests over fixed-size arrays of records of
fixed-width integers.  The model is a set of total, computable Gallina
functions over `list`, `Z`, `nat`, `bool` and records, one per C++ function,
each with a comment citing file and lines.

* `ap_int<N>` / `ap_uint<N>` values are `Z`.  HLS arithmetic on them is exact
  (widening); an assignment to an N-bit variable is `wrapS N` (two's complement)
  or `wrapU N`.  `>>` on signed values is the arithmetic shift = `Z.shiftr`.
* `int` arithmetic that can overflow goes through `i32`, which returns `UB
  SignedOverflow` outside the 32-bit range.
* Undefined behaviour is a distinct outcome: `res A := Ok a | UB kind` with
  kinds `SignedOverflow`, `OutOfBounds`, `Uninit`, `AssertFail`, `MissingReturn`,
  `EmptyStream`, `DivByZero`, `TrapRep`, `NullDeref`, `BadConversion` (a float an integer type cannot hold).  Array reads/writes whose index is not the loop counter of
  that very array are checked (`rd`/`wr`).
* Memory that the code does not initialise (stack arrays, unwritten struct
  fields) is an explicit argument (`junk`, `old`), universally quantified in
  the theorems.
* Array sizes (NTRACK, NCALO, ...) are list lengths or `nat` parameters: the
  theorems hold for every size, hence for every configuration in data.h.
* HLS pragmas, timing, resource use and printing (except the pattern files)
  are not modelled.

## 2. Files

| file | contents |
|---|---|
| `Base.v` | wraps, `res` monad, list helpers |
| `Data.v` | records of data.h, `clear`, field ranges |
| `PFHw.v` | firmware/simple_fullpfalgo.cpp (algorithm part) |
| `PFRef.v` | simple_fullpfalgo_ref.cpp |
| `Encoding.v` | mp7pf_encoding.h, mp7wrapped_* |
| `Puppi.v` | puppi/ |
| `PuppiTable.v` | puppi/firmware/simple_puppi.h: the weight table in floating point |
| `Bhv.v`, `Vtx.v` | vertexing/ |
| `Regionizer.v` | regionizer/ |
| `Serializer.v`, `SerText.v` | utils/pattern_serializer.*: the MP7 and CTP7 state machines, and the characters they print |
| `Discrete.v`, `DiscreteIO.v` | DiscretePFInputs.h (types, binary read/write), DiscretePFInputs_IO.h (region and event iteration, binary32 vertex position) |
| `Fill.v` | DiscretePFInputs.h: filling from and reading as floating point (IEEE 754 round-to-nearest on rationals), operator< |
| `Convert.v` | DiscretePF2Firmware.h, Firmware2DiscretePF.h |
| `Printf.v`, `HumanRead.v` | C format strings; utils/pattern_serializer.*: the human-readable file |
| `RegionLoop.v`, `PFTest.v` | simple_fullpfalgo_test.cpp in its three builds |
| `Console.v` | what test_utils.cpp, DiscretePFInputs_IO.h, pattern_serializer.cpp and simple_fullpfalgo_test.cpp print on the console |
| `RegConsole.v` | what regionizer_test.cpp prints on the console |
| `BhvConsole.v` | what bram_hist_vtx_test.cpp prints on the console |
| `PFDebug.v` | simple_fullpfalgo_ref.cpp with its debugging printout (g_debug_), and sessions of events and switches |
| `Particle.v` | DiscretePFInputs.h PFParticle accessors |
| `BhvSummary.v` | the quotients and resolutions bram_hist_vtx_test.cpp prints (%.3f, sqrt) |
| `VtxConsole.v` | what simple_vtx_test.cpp prints (std::cout << of floats and doubles) |
| `PuppiConsole.v` | what simple_pfpuppi_test.cpp prints |
| `EventLoop.v`, `RegTest.v`, `RegFiles.v` | regionizer/regionizer_test.cpp: exit code, text dumps, pattern files |
| `BhvTest.v` | vertexing/bram_hist_vtx_test.cpp: exit code, error count, tests, text dumps, pattern files |
| `PuppiTest.v` | puppi/simple_pfpuppi_test.cpp: exit code and printed numbers |
| `SpecPFWrap.v`, `PFWrap.v` | particle flow with 16-bit sums: specification and proof for every legal input |
| `SpecPFRef.v`, `PFRefWrap.v`, `PFRefAgree.v`, `PFRefEvents.v` | the reference algorithm with 16-bit sums, its agreement with the firmware on every legal input, and the four situations in which they may differ |
| `MixedIO.v` | programs that call nextRegion and nextEvent of one DiscretePFInputs in any order |
| `RandomInputs.v` | utils/random_inputs.h for any sequence of random numbers; `ap_int += float` is a parameter constrained only on non-negative operands |
| `VtxTest.v` | vertexing/simple_vtx_test.cpp for any sequence of random numbers |
| `TestUtils.v` | utils/test_utils.cpp |
| `Spec*.v` | independent specifications used in theorem statements |
| `*Proofs.v`, `*Facts.v` | lemmas |
| `Props_*.v` | the property theorems only, each followed by `Print Assumptions` and by an `Example` showing a non-trivial instance of its hypotheses |

## 3. Plan per property

| id | model | proof method |
|---|---|---|
| C01 | PFHw vs PFRef | refinement stage by stage; false in general (keep flag, ptErr=1), so `_refuted` + `_partial` on the maximal domain |
| C02 | link functions | fold invariant (first argmin); link_ref by the same scan (best_match_ref) |
| C03-C08, C52 | PFHw | case analysis per slot, fold invariants for sums |
| C09, C10 | ptsort | in-place shift = insertion; induction over input, permutation and sortedness |
| C11 | PFHw | `UB` outcome excluded on the domain; witness for negative ptErr |
| C12, C13 | dr2, dq | arithmetic (lia/nia), table lookup |
| C14, C15 | PFHw | relational: run with slot cleared vs original |
| C16-C19 | Encoding | bit arithmetic via div/mod, frame lemmas on list update |
| C20-C25 | Puppi | fold invariants; weight table universally quantified; C24: the exact condition for either side to be defined, and agreement whenever both are |
| C26-C30 | Bhv | induction over track list; argmax scan |
| C31-C34 | Vtx | fold invariants; tree reduction by induction on depth |
| C35-C41 | Regionizer | arrays as functions of the index (`TabFacts`), insertion = stable sort + truncation, merge of sorted lists; C37/C38 false in the default build (NCALO = 5 < 7) |
| C42 | muon regioniser | as above + modular arithmetic |
| C43-C46 | Serializer | invariants over event histories |
| C47-C48 | DiscreteIO | codec induction; call histories |
| C49-C50, C55 | Convert | induction over the vectors, case analysis per field |
| C51 | TestUtils | case analysis |
| C53 | Encoding | range lemmas for every unpacked field |
| C56 | HumanRead | a reader that ignores the formats recovers the table; induction over lines and characters |
| C57 | PFTest | the loop over regions reduced to a walk over the dump's regions (C48), each test by C18, the files by C43-C46 and C56 |
| C58 | RegTest | the event loop reduced to a walk over the dump's events (C48), each test by C37-C40; invariants for the streams (empty between tests) and array sizes |
| C59 | RegFiles | a word-and-integer reader applied to the text; injectivity of the table |
| C60 | RegFiles | transposition as an injective index map, packing by C19, the files by C43-C44; decoding gives injectivity |
| C61 | BhvTest | the event loop reduced to a walk (C48), each test by C26-C30, totality for tracks of any pt |
| C62 | BhvTest | the text files by a word-and-integer reader, the pattern files by C19, C43-C44; decoding gives injectivity |
| C63 | DiscreteIO, EventLoop, RegionLoop | where a prefix of an event ends: reader by reader; simulation between the cut file and a complete one |
| C64-C66 | Fill | rounding on Q: monotone, relative error, exact on short numbers (FloatFacts); error budget below half a unit for the round trips |
| C67 | PuppiTable | composition of monotone roundings; the C library's log, sqrt and pow are arguments, asked to increase and to have a few values (`libm_ok`); accuracy by error bounds of every rounding, with sqrt and pow right to 1e-6 (`libm_accurate`) |
| C68 | PuppiTest | the region loop reduced to a walk over the dump's regions (C57); ranges of the reference's outputs; converse of the overflow condition of C20 |
| C69 | VtxTest | bounds through monotone roundings; both finders by C32 and C34, uniqueness of the first maximum |
| C70 | MixedIO | relation between the object and a position in the dump, induction over the calls; the position specification is functional |
| C71 | RandomInputs | bounds through monotone roundings, invariant over the loops and over the calls |
| C72 | PFHw vs SpecPFWrap | every stage proved against 16-bit arithmetic, each `mapM`/`foldM` either succeeding or overflowing; equality with SpecPF under `sums_fit` |
| C73 (and C01) | PFRef vs SpecPFRef | as C72 for the reference; agreement by comparing the two specifications term by term outside four named situations, each shown necessary by an event |
| C74 | Console vs SpecConsole | a reader of lines that knows no formats; each conversion of the format read back to its argument (C56) |
| C75 | Console vs SpecConsole | the walk of C57 run side by side with its text; the text of each step is a list of rows and rows of a concatenation concatenate |
| C76 | PFHw, PFRef vs SpecSym | through the specifications of C72 and C73: distances are kept, so every candidate list, sum and balance is; `top_n` of two lists that agree slot by slot agrees |
| C77 | PFHw, PFRef vs SpecSym | the same with a reordering that keeps equal objects in order (constructed for every permutation); sorted lists of equal pt are equal |
| C78 | PFHw, PFRef vs SpecLocal | through the specifications of C72 and C73: an object outside the group is never a candidate for a link, and sums over the slots of the event reduce to sums over the slots of the group |
| C79 | Puppi vs SpecPuppiSym | congruence of the loops for motions and dropped candidates; the exact description of C24 for the order |
| C80 | RegConsole vs SpecRegConsole | the walk of C58 with its text, erasing the text gives back the functions of RegTest; the comparison loops on arbitrary regions by induction on the slots |
| C81 | BhvConsole vs SpecBhvConsole | the walk of C61 with its text and counters; the rounding as in C39, with the error of the 24-bit product |
| C82 | PFDebug vs SpecPFDebug, SpecPFSession | the printing functions are factored into those of PFRef and a text per loop iteration; each line is read back into words and numbers and identified with a rule of SpecPFRef; the square roots and coordinates with the error of their 24-bit floats |
| C83 | PFHw, PFRef, Encoding with two memories | every use of the old contents is in hwPtPuppi or in the sorting buffer; insertion keeps lists equal up to hwPtPuppi, and a buffer of zero pts is pushed out by as many non-negative candidates; witnesses where it is not |
| C84 | PFTest, Serializer, SerText, Encoding vs SpecReplay | the files' characters read back to the lines of C57; demultiplexing gives each test's words (arithmetic on frame and column numbers); C18/C19 decode them and C83 frees the memory |
| C85 | PFHw, PFRef vs SpecShare | the links of SpecPF give the three partial functions; sums over a partition of EM clusters by hadronic cluster are exchanged and compared term by term; a witness where a sum of tracks wraps |
| C86 | PuppiConsole vs SpecPuppiConsole | the loop with messages of C75 run beside that of C68; each line read back |
| C87 | VtxConsole vs SpecVtxConsole | the %g conversion read back by an independent reader of decimals; C69 gives the numbers |
| C88 | BhvSummary vs SpecBhvSummary | C81 with the float quotients, the correctly rounded root and %.3f spelt out; error bounds over the rationals |
| C89 | Particle, Fill, Convert, PFHw vs SpecParticle | C57's storing bounds, C49, C03's slots and C50 composed; binary32 error bounds of the division |
| C90 | Bhv vs SpecBhvMove | from C28's first maximal bin and its uniqueness; bin totals under displacement, addition and redistribution of tracks |
| C91 | Regionizer vs SpecRegMove | from the closed form of every region (C37, C42); sorting commutes with the motions; sorted lists of pts are unique |
| C92 | Vtx vs SpecVtxMove | from the closed forms of C32 and C34; the first maximal slice is unique and the slice sums are invariant under reordering |
| C93 | BhvTest, RegTest, Serializer, Encoding vs SpecReplay2 | from the file contents of C60 and C62, reading from characters (C45), the decoding of C14, and uniqueness of the regions of C37 |
| C94 | PFTest, PuppiTest, RegTest, BhvTest vs SpecDeterm | the outcomes of C57, C58 and C61 are functions of the dump: uniqueness of the regions (C37) and of the kept muons, C83 for the two particle-flow algorithms, the vertex search ignores its output object; two outcomes cannot stop at different tests |
| C95 | Serializer, SerText, HumanRead, RegFiles, BhvTest vs SpecCrash | the reader of a prefix of a text returns the leading lines; the text after k calls is a prefix of the text of the whole history (C43, C46, C56, C59, C62), and a complete group of an MP7 file only depends on patterns already written |
| C96 | Regionizer vs SpecCopies | the sorted buffers are permutations of the candidates (as for C37-C40), kept as multisets: what is lost is exhibited; the copies are counted by summing over the 18 regions |
| C97 | Regionizer vs SpecSoft, SpecCopies | selecting the objects above a threshold commutes with the stable sorts, the cuts of sorted lists and the windows; a sorted list is determined by its parts of equal pt, which gives the selection from all sectors at once |
| C98 | Regionizer, PFHw, PFRef, Puppi vs SpecChain | every slot of a region is a shifted arrival or cleared, so the domains of C72, C73 and C01 are met; equal regions and agreeing candidates give equal alpha sums; C39's origin carried through the charged candidates; C18 and C19 applied to a region for the links; C98_calm puts the condition for agreement on the fibres (calm events, as in C101) |
| C99 | Regionizer, PFHw, PFRef vs SpecChain | C40's completeness gives the slot of the region; with nothing admissible near it the sums of C72 and C73 vanish, so the rules give the object itself; what the selection drops is not harder than what it keeps |
| C100 | Regionizer, PFHw, PFRef vs SpecChainSym | the regions of a mirrored, turned or distantly changed event by C91; legal regions (C98) put the mirrored ones in the domain of C76 |
| C101 | Regionizer, PFHw, PFRef vs SpecChainEnergy | the copies the regionizers make (C96) and the budget of a region (C85, and C72/C73 for the tracks), summed over the eighteen regions; for calm events the sums over a region are bounded by those over the fibres (C96), so nothing overflows and both runs are defined (C72, C73) |
| C102 | Regionizer, PFHw, PFRef vs SpecChainMuon | the muons of a region by C42, its tracks by C40, the matching by C72/C73; the coordinates of the two regionizers are compared |
| C54 | DiscreteIO (integer soft-float for `20*z0`) | rational bounds on round-to-nearest-even |

False properties are recorded as `..._refuted` theorems with a concrete
witness, next to the strongest true variant.

## 4. Trusted base

* Coq 8.16.1's kernel (type checker and `vm_compute` conversion) and the
  standard library modules imported by `Base.v` (Lists, ZArith, Bool, Arith,
  Lia, Sorting) plus QArith and Lqa for the floating-point properties (C54, C64-C67, C69, C71, C87-C89).  No other library is used.
* `Print Assumptions` is run under every property theorem; each prints
  "Closed under the global context": no axioms are used, not even the standard
  library's.  (A context listing of the whole development also shows the module
  parameters `Coq.ssr.ssrunder.Under_rel.*`, which the standard library's ssr
  files load; no theorem depends on them.)
* The model is tied to the code only by reading: every definition cites the
  lines it models.  What the model takes as given about HLS: `ap_int` arithmetic
  is exact until assignment, assignment wraps in two's complement, `>>` on
  signed types is arithmetic, comparison between `ap_int`s of different width
  compares values, `ap_int` to `int` conversion sign-extends.

Modelled: see the table in section 2.  Not modelled: HLS pragmas and timing,
console printing of the test programs other than simple_fullpfalgo_test, regionizer_test, simple_pfpuppi_test, simple_vtx_test and bram_hist_vtx_test (whose conversion of infinities and NaNs to ap_int and to text is a parameter), the tcl scripts,
file-system errors.  Floats in `Fill.v` are the rational numbers they stand for: the sign of
zero and of infinity is not kept, float operations are taken to be done in
binary32 (no excess precision), `round` is exact.  A short
`fread` is modelled as storing the bytes there are and leaving the others of its
target unchanged, as glibc does (the C standard leaves a partially read element
indeterminate); a count not completely read is `Uninit`.

## 5. Comparison of the model with recorded data

The code cannot be run here, but the repository ships two event dumps
(regionizer/data). The model was extracted to OCaml outside this repository
(not part of the proof) and run on them:

- the event reader of `DiscreteIO.v` consumes both files (250 events each, 1067255
  and 1368630 bytes) completely and the writer gives back the same bytes;
  every event has the 12 regions the test programs expect;
- on the first six events of each file the particle-flow test program returns
  0 after 72 runs in all three builds, the vertex test program finds no
  mismatch, and the regionizer test program returns 0 in the MP7 build and
  writes out of bounds in the default one, as C58_default_configuration_refuted says.
