# Formal model of fftMPI in Rocq/Coq

Source: `/repo` (read as text, never built or run).  Model and proofs: `/verif/rocq/theories`
(logical name `Verif`).  Properties: `/verif/properties.jsonl` (C01..).  Status: `/verif/MANIFEST.json`.

## 1. Shape of the model

Everything executable is a total Gallina function over `list`, `nat`, `Z`, `option`, records.

* **Undefined behaviour is an outcome.**  A buffer is a `list A` indexed by `Z`; a read or write outside
  `[0, length)` makes the whole operation return `None`.  "No UB" is therefore a theorem, never an assumption.
* **Integers** are unbounded `Z` (C++ `int`), except in the overflow properties (C43, C77, C78, C83, C86), where every intermediate
  value is collected and compared with the 32-bit range.
* **Scalars.**  Remaps are polymorphic in the element type.  Transforms are parametric in a record of field
  operations (add, sub, mul, negate, half, cos/sin tables); theorems assume the ring laws explicitly and are then
  instantiated with the reals (`Coq.Reals`), so "exact arithmetic" is literal.  C51-C53, C61 and C70-C72 run the same programs over
  IEEE numbers (`Coq.Floats.SpecFloat`) and bound the rounding error.
* **MPI.**  A rank is a straight-line program over instructions (local pack/unpack/compute, `Irecv`, `Send`,
  `Waitany`+unpack, `Alltoallv`).  A global small-step relation interleaves ranks and message deliveries;
  point-to-point channels are FIFO per ordered pair (one tag, one communicator, as in the code), a delivery writes
  the receive buffer at delivery time, `MPI_Send` may complete eagerly or only after delivery (chosen by an arbitrary
  predicate), `MPI_Waitany` picks any completed request.  `Alltoallv` completes on a rank once every member of its
  group has entered it.
* **Collective setup calls** (`MPI_Allgather`, `MPI_Allreduce`, `MPI_Comm_create`): `Setup3d.v`/`Setup2d.v`/`Remap.v`
  give setup the list of all ranks' arguments; `Spmd.v` has the program of a single rank, which sees only its own
  arguments and the results of its collective calls, and C49 proves that the two agree.

## 2. Files

| file | content |
|------|---------|
| `Base.v` | checked arrays, C-style loops, list lemmas |
| `Spec.v` | independent specification: boxes, tilings, storage order, DFT |
| `Pack3d.v`, `Pack2d.v` | all pack/unpack routines, function by function (model) |
| `Pack3dProofs.v`, `Pack2dProofs.v` | each variant = list of element copies |
| `Sched.v` | MPI small-step machine (model) |
| `SchedProofs.v` | diamond property, termination, unique outcome, deadlock freedom |
| `MemProofs.v`, `Phases.v`, `Exec.v` | frame lemmas, Hoare triples for phases of all ranks, "every execution ends in" |
| `Remap.v` | remap generic in the geometry (2d and 3d share it): plans, groups, counts, program |
| `RemapPlan.v`, `RemapProofs.v`, `RemapTriple.v`, `RemapMain.v` | plan symmetry, group closure, correctness for all schedules |
| `Remap3d.v`, `Remap2d.v`, `RemapInst.v` | the two geometries (model) and the proof that they fit `Remap.v` |
| `RemapThms.v`, `RemapTop.v`, `PackTop.v`, `RemapFinal.v`, `ExRemap.v` | statements of C01-C14 assembled, example layouts |
| `Layout.v`, `LayoutProofs.v`, `Count.v` | factor, procfactors, surfarea, prime_factorable, pencils and bricks |
| `Double.v`, `DoubleProofs.v` | IEEE double rounding, the areas of surfarea computed with it, their laws and error |
| `Setup3d.v`, `Setup2d.v` (+`Proofs`) | FFT setup: validation, layouts, remap objects, sizes |
| `LayoutFinal.v` | C15-C21, C46 assembled |
| `Kiss.v` | KISS FFT (model) |
| `KissPure.v` | value of every cell after the 1d transform, with no law of arithmetic used |
| `KissFactor.v`, `KissAlg.v`, `KissReal.v` | plan factorisation; butterflies = DFT over any ring; the reals |
| `Fft1d.v` | batches and scaling (model + proofs) |
| `KissFinal.v` | C22-C24 assembled, runs over GF(419) |
| `Fft3d.v` | compute, only_1d_ffts, only_remaps, only_one_remap of FFT3d as per-rank programs (model) |
| `Frame.v` | which cells a remap may change |
| `Fft3dProofs.v`, `Fft3dMain.v` | stages: remap between layouts, batch of 1d transforms along one axis, scaling |
| `DftMulti.v` | 2d and 3d DFT as plain sums (specification) and its inverse |
| `Fft3dTop.v`, `Fft3dFinal.v`, `Fft3dStmt.v`, `Fft3dEx.v` | C25-C31, C37, C38 assembled; runs on a 2x2x2 grid, refutation witnesses |
| `Fft2d.v`, `Fft2dMain.v`, `Fft2dTop.v`, `Fft2dFinal.v`, `Fft2dStmt.v`, `Fft2dEx.v` | the same for FFT2d: C32, C33 and the 2d parts of C28-C31, C37, C38 |
| `Life.v` | heap of blocks with owners; constructors, setup, destructors of FFT and Remap objects as allocation and free (model) |
| `LifeProofs.v`, `LifeFft.v`, `LifeObj.v` | ownership invariants |
| `Tune.v` | tune and tune_trial, one rank, arbitrary clock (model) |
| `TuneProofs.v`, `TuneNum.v`, `TuneTop.v`, `TuneFinal.v`, `TuneReal.v` | C39, C40, C47; layouts that setup really computes |
| `Proto.v`, `ProtoProofs.v` | API calls, histories, documented misuse; C34-C36 |
| `MemUse.v` | counts of each remap object from the models of setup; C44 |
| `TuneStat.v`, `TuneTime.v`, `TuneStatEx.v` | the trials, the time they take and the result vectors of tune, in terms of the calls made between clock readings; C73, C74 |
| `Report.v` | main, plan and timing of the eight test programs: calls, clock readings, the lines printed (model) |
| `ReportProofs.v`, `ReportCpp.v`, `ReportPort.v`, `ReportEx.v` | what each line of the report states; the Fortran and Python reports against it; C75, C76 |
| `LifeEx.v`, `TuneEx.v` | concrete histories and tune runs, refutation witnesses |
| `Wrap.v`, `WrapProofs.v` | C and Fortran interface functions; C41, C42 |
| `Pack32.v` | the packing routines with 32-bit checked int arithmetic, checked pointers and the int `size` of memcpy (model) |
| `Pack32Proofs.v`, `Pack32Proofs2.v`, `Pack32Top.v`, `Pack32Ex.v` | the checks of each routine in closed form, equality with `Pack3d.v`/`Pack2d.v`, the plans of setup(), witnesses; C77 (`PropertiesPack32.v`) |
| `Remap32.v` | remap() and compute() with the routines of `Pack32.v` |
| `Remap32Sim.v`, `Remap32Proofs.v`, `Remap32Top.v`, `Remap32Fft.v`, `Remap32Ex.v` | programs whose local steps agree on small arrays have the same executions; the remaps and transforms; a remap that does nothing; C78 (`PropertiesRemap32.v`) |
| `Bits.v`, `BitsEx.v` | the result of a transform as a function of the data alone, in any arithmetic; two jobs with different doubles; C79 (`PropertiesBits.v`) |
| `Extract.v`, `ExtractEx.v` | remaps and the forward path of compute() without the tiling of the output boxes; runs on overlapping and partial boxes; C80 (`PropertiesExtract.v`) |
| `Traffic.v`, `TrafficEx.v` | messages of the caller on the communicator it gives to the library: with tag 0 as programs between the calls, with other tags as a second copy of the message machine whose calls alternate with those of the library on each rank; C81 (`PropertiesTraffic.v`) |
| `ConvMath.v`, `Convolve.v`, `ConvolveEx.v` | cyclic convolution and the DFT; forward call, multiplication by the caller in the output layout, backward call (the convolution the documentation describes); C82 (`PropertiesConvolve.v`) |
| `SymMath.v`, `Laws.v`, `LawsEx.v` | linearity, shift, conjugate symmetry and Parseval's identity for the DFT on the grid, and the same laws as relations between runs of compute(); C84 (`PropertiesLaws.v`) |
| `Screen.v` | output() of the test programs on all ranks with its token, main() with -o (model), `has_printed` (specification) |
| `ScreenProofs.v`, `ScreenOrder.v`, `ScreenTop.v` | one complete run of output(), counting of messages on every pair of ranks, output() between operations of the library; C85 (`PropertiesScreen.v`) |
| `ScreenInt.v`, `ScreenIntProofs.v` | output() and main() with -o with 32-bit ints, overflow undefined; C86 (`PropertiesScreenInt.v`) |
| `Remap32Ops.v`, `TestInt.v`, `TestIntProofs.v`, `Remap32Main.v` | all operations of an FFT object, the trials of tune() and the test programs with 32-bit ints, overflow undefined; C83 (`PropertiesOps32.v`) |
| `Overflow.v` | every C int expression that setup and Remap::setup evaluate, as expression trees with checked evaluation (model) |
| `OverflowProofs.v`, `OverflowFft.v`, `OverflowTop.v` | bounds, exact conditions, witnesses; C43 |
| `Spmd.v` | setup as the program of one rank between collective calls; lock-step semantics of the calls (model) |
| `SpmdProofs.v`, `SpmdSetup.v` | unique end state; the ranks' programs end in the shares of the global setup; C49 |
| `Only1d.v` | batches of consecutive lines (specification), only_1d_ffts; C50 |
| `Binary.v` | doubles and floats: operations, twiddle phase, normalisation factor as the code computes them (model) |
| `Round.v`, `RoundKiss.v`, `RoundFft.v`, `RoundThms.v` | rounding model (specification); error analysis of butterflies, 1d, distributed transforms; C51, C52 |
| `RoundL2.v`, `RoundL2Fft.v`, `RoundL2Thms.v`, `RoundL2Final.v` | Parseval, error of a butterfly stage in the Euclidean norm, composition over stages, axes and the round trip; C70 (`PropertiesL2.v`) |
| `TestNorm.v`, `TestNormTop.v` | C61's runs with the norm bound of C70: iteration of round trips in the norm, overflow conditions, double and single builds; C71 (`PropertiesNorm.v`) |
| `RoundDouble.v`, `RoundTable.v`, `RoundFinal.v` | IEEE arithmetic satisfies the rounding model; accuracy of the table (with a bound on the error of M_PI); C53, examples |
| `Fma.v`, `FmaProofs.v`, `FmaFinal.v` | arithmetic with products kept exact until they are added, a parameter says which (model); it satisfies the rounding model; C72 (`PropertiesFma.v`) |
| `DoubleFma.v` | procfactors and surfarea with fused products (model), the laws of `areas` for them |
| `Backend.v` | the MKL, FFTW2, FFTW3 and KISS variants of setup_ffts, perform_ffts, scale_ffts, deallocate_ffts; library calls by their documented interface (model) |
| `BackendProofs.v`, `BackendFinal.v` | equality of the batches for all data, plans made and destroyed; C54, examples |
| `TestProg.v` | test/test3d.cpp, test2d.cpp, simple.cpp: processor grids, boxes, initial data, the loop of transforms, validate, random (model) |
| `TestLayProofs.v`, `TestDataProofs.v`, `TestRunProofs.v`, `TestMainProofs.v`, `TestFinal.v`, `TestTop.v` | their layouts, contents, whole runs; C55-C58, examples |
| `TestSurf.v` | the chosen processor grids have the least true surface up to rounding (C55_surface) |
| `TestOpt.v` | options() and output() of test3d.cpp and test2d.cpp (model) |
| `TestOptProofs.v`, `TestOutProofs.v`, `TestOptTop.v`, `TestOptItems.v`, `TestNum.v` | the command line as a grammar (specification) and as a list of items with the last value of each global (specification, without the model's assignments), decimal numbers (specification), what output() prints; C59, C60, examples |
| `TestRound.v` | the double and float operations of initialize() and validate() (model), what validate() prints for given arrays |
| `TestRoundRun.v`, `TestRoundTop.v` | repeated round trips in rounded arithmetic, whole runs; C61, examples |
| `Bind.v` | C prototypes, src/*_wrap.f90 and src/fftmpi.py: parameter passing, a small language for the Python methods (model) |
| `BindSpec.v`, `BindProofs.v`, `BindLife.v` | what a binding has to deliver (specification), method by method and whole object lives; C62, C63 |
| `Ops.v` | sequences of operations as code of all ranks: tune_trial, main() and timing() of the test programs (model) |
| `OpsSeq.v`, `OpsProofs.v`, `OpsTop.v` | sequences in general, what each operation needs, reads and gives (specification), trials and test programs; C64 |
| `Objects.v`, `ObjectsEx.v` | calls on several objects (model, specification and proofs); example; C65 |
| `Volume.v`, `VolumeFft.v` | amounts of data in the MPI calls of a program, number of points that change owner, balance of the internal layouts (specification and proofs); C66 |
| `Oom.v` | the allocations, tests, uses and releases of setup, compute and tune in source order, with failing allocations (model, specification) |
| `OomProofs.v` | first failing allocation decides the outcome, state of the plans; C67 |
| `Port.v` | Fortran and Python test programs where they differ from the C++ ones (model) |
| `PortLay.v`, `PortOpt.v`, `PortNum.v`, `PortData.v`, `PortFinal.v` | their layouts (single precision), options, what they take for numbers, arrays and checks; C68, C69 |
| `Properties*.v` | only `Theorem ... exact lemma. Qed.` + `Print Assumptions` + Examples |

## 3. Per property

| id | model | how it is proved, and what came out |
|----|-------|-----------|
| C01-C03, C07, C08 | `Remap3d.setup` plan of each rank from the list of all extents; `remap` as a program | pack/unpack = enumerated copies of the overlap's points; every output point lies in exactly one overlap; out-of-place and aliased (in = out) memories; result for *every* execution via `SchedProofs` |
| C04-C06, C38 | `Sched.v` | diamond property under the disjointness invariant of pending receive slots and unpack targets + one lock-step run => all runs end in the same state, same length, never stuck, never UB; sequences of phases |
| C09 | `Pack3d.v`, `Pack2d.v` | loop invariants: each variant equals the same list of copies |
| C10, C11 | closure loop of `setup`, counts/displacements | the loop computes the connected component (least closed set); sorted list => equal for members; pairwise counts |
| C12 | two remaps | composition of C01 with the inverse permutation |
| C13, C14 | 2d analogues | C14: `sizeof(double)` in the 2d memcpy routines overruns in a single precision build; refuted, guarded claim proved |
| C15-C17 | `factor`, `procfactors` over an abstract type of areas (`areas`, `area_laws`) | invariants over the double loop; laws proved for exact and for double arithmetic; C17 refuted beyond 50 divisors and for 2d (surfarea is a tile area) |
| C16 | tiling arithmetic `ip*n/np` | monotone division split |
| C18 | `prime_factorable` | induction on n |
| C19 | acceptance test of setup | only the input boxes are validated, overlapping boxes can pass; refutations plus what is guaranteed |
| C20, C21 | sizes computed by setup | max lemmas; C21 refuted for the 3d remap_midfast with exchange=1 |
| C22-C24 | `kf_factor`, `kf_work`, butterflies, batches | induction on the factor list; butterflies = short DFTs over any ring with a root of unity |
| C25-C33 | compute as phases | stages: DFT along one axis commutes with redistribution.  Refuted without guards: out-of-place (memcpy of half the data, `in` read again), scaling (normnum = outsize), backward buffers with exchange=1 |
| C34-C36 | heap with owners, call histories | induction over histories; FFT2d second setup, destructors without setup, memoryflag switched after setup are refutations |
| C37 | sequences of compute | composition of C25-C33 for any number of calls |
| C39, C40, C47 | tune as a function of an arbitrary clock | trial sequences; refuted: buffers in exchange=1 trials, division by zero, "fastest of all trials", same choice on all ranks |
| C41, C42, C45, C48 | wrappers, constructors | equations; best-setting variables cannot be read, FFT2d default packflag |
| C43 | all integer expressions of setup | a bound on processors times points per grid dimension is exact; total-size bound alone refuted |
| C44 | memusage accounting | exact difference; not equal in general (refuted both ways) |
| C46 | preflag/postflag reductions | characterisation of the reduced flag |
| C50 | `only_1d_ffts3`, `only_1d_ffts2` | three (two) batches of C24 on the flat array |
| C51, C52 | `Kiss.v`, `Fft3d.v`, `Fft2d.v` over any rounded arithmetic | invariant "y is z up to k roundings of quantities of size B", through every butterfly, with B the sum of moduli; exponents add up over stages and dimensions |
| C53 | `Binary.v` | rounding of `SpecFloat` from its definition; PI enclosed by a Machin series; chord bound for the phase error |
| C49 | `Spmd.v` | symbolic run of all ranks in step, call by call; the step relation is deterministic; stuck runs when ranks pass different dimensions or settings |
| C54 | `Backend.v` | a KISS transform that succeeds has read its whole line, so the batches agree as partial functions and the programs are equal; then C25-C33 and C50 carry over.  MKL refuted for ranks without lines |
| C55 | `TestProg.v` | search loops keep the best grid; `1.0*ip*n/np` in doubles is floor(ip*n/np) below 2^53; then C18.  Refuted: test2d modes 1 and 3 pass permute = 2, unknown to FFT2d |
| C56 | `TestProg.v` as a program of the ranks | C27/C32 composed nloop times, every cell known, so the reported error is known.  Refuted for default grids: normnum = outsize shows as a large error |
| C57 | validate() | loops = maximum over cells.  Refuted: NaN is reported as 0 |
| C58 | random() | Schrage's method = multiplication mod 2^31-1, no int overflow; full period from the factorisation of 2^31-2.  Refuted for the accepted seed 2^31-1 |
| C59 | `TestOpt.v` | loop over args = derivations of a grammar, each global = the value of the last option naming it or its default, checks = a predicate on the values; ranks compared by shifting the seed; composed with C56 from command line to reported error.  Refuted: seed 0, product of the processor grid, -n 0 in test2d |
| C60 | output() | position m of the loop = point number m of the tile; lines sorted by rank and position.  Refuted for output(1,..): division by zero, wrong points, permuted storage |
| C61 | `TestRound.v` | IEEE comparison and absolute value are exact, so the maximum is; C52 iterated nloop times, the data growing by a bounded factor each time; composed with C55 and C53.  Refuted: single precision with -i seed and -r |
| C62 | `Bind.v`, Fortran part | dummies and C parameters agree position by position (checked table), so for all variables each parameter is delivered.  Refuted for setup_memory |
| C63 | `Bind.v`, Python part | argtypes against prototypes, then one run of each method with symbolic arguments; lives by induction over the calls with the C library an arbitrary function.  Refuted: setup_memory, the Remap classes, ints beyond 32 bits |
| C64 | `Ops.v` | every operation is a list of `good` steps from any memory of the right size; sequences by induction, the result of each determined by the field its input cells hold; a barrier is an empty all-to-all |
| C65 | `Objects.v` | the same induction with calls of any object; streams: the cells a stream has produced are not touched by the other. Refuted: ranks that call in different orders |
| C66 | `Remap.v`, `Fft3d.v`, `Setup3d.v` | counts over the instructions of a rank = sizes of the overlaps; overlaps of disjoint layouts partition the moved points; an absent first or last remap means equal layouts, hence no moved points |
| C67 | `Oom.v` | composition of chunks: each ends with its live arrays, or with the verdict on its first failing allocation. The sentence "every failure is reported" is false (finding 28), so the theorem gives the outcome array by array |
| C68 | `Port.v`, Fortran part | layouts: single-precision laws, proved for IEEE rounding, make the truncated cuts exact below 2^24; options: both parsers as instances of one loop, compared argument by argument; arrays: loops equal to the C++ loops after shifting the index. Refuted where findings 29-32 say |
| C69 | `Port.v`, Python part | the same comparison of parsers; the search for a grid minimises the truncated surface. Refuted where findings 33-35 say |
| C70 | as C51-C53 | Parseval for a butterfly: one radix-p stage adds at most ceil(sqrt p) times its roundings in the norm; stages are isometries up to sqrt p, so errors add; then the axes of the grid; scaling elementwise |
| C71 | as C61, with K*nloop*u <= 1/2 instead of a bound that grows with the points | one round trip multiplies norm + underflow term by at most (1+u)^K, so the deviation after nloop of them is ((1+u)^(K nloop) - 1) times the start; the sum of moduli in the overflow guard is at most sqrt(points) times the norm (Cauchy-Schwarz); an element is at most the norm |
| C72 | the arithmetic: any predicate on the histories of two numbers says whether their product is kept exact | underflow of a fused sum is paid for by the slack the butterflies leave (`cnear`), so that the rounding model of C51 may allow it in sums and no constant changes; grids: relative error of the computed surfaces. Refuted: equal grids in all builds (finding 36) |
| C73 | every reading of the clock follows a barrier; the manual's schedule and the estimate are written down again as `enough`, `per_trial`, `trial_calls` | the log of the model is compared with the list of calls; times: a weight for each call that bounds the differences of clock readings. Refuted: tmax is kept exactly, never more than niter rounds |
| C74 | as C73 | entries of the result vectors are averages over the calls between two numbered readings (`interval`, `average`); the settings are those of the last setup in the log before them. Refuted for besttime after the test run alone |
| C75 | `Report.v` (timing, plan, main; C++, C) | `faithful`: titles in order; times as differences of clock readings with exactly the named calls between (`took`); vectors by index; the numbers of the object. C programs equal; calls equal to those of C64 |
| C76 | `Report.v` (Fortran, Python) | every line as a function of the C++ line (`py_title`, `f_line`), every call as a function of the C++ call (`f_call`); exactly when they fail. Refuted: equality |
| C77 | all of pack3d.h, pack2d.h in 32 bits | equality with the unbounded routine under the exact condition of each version; on the plans of setup(). Refuted: memcpy of long lines, array permutation beyond 2^30 numbers, `end` one past the array |
| C78 | remap(), compute() with the routines of C77 | same executions as with unbounded ints for tiles and lines small enough; C01, C25, C27, C32, C33 for these programs. Refuted without the bound on lines: a remap that silently does nothing |
| C79 | one result field for all process counts and layouts | existential over fields before the universal over jobs; from the values of C29's proof. Backward: separate for equal and different layouts, refuted across (doubles of `Binary.v`) |
| C80 | output boxes that overlap or leave points out | remaps: delivered where some input box has the point, unchanged elsewhere. Forward transforms: `loose3`/`loose2` (input tiles, output legal and inside the grid) instead of `ready3`/`ready2`; same result as C25/C32. Refuted for the way back |
| C81 | `Traffic.v` over `Sched.v`, `Objects.v` | between: sequencing of executions (confluence); other tags: projection of the joint machine on each side, calls that return at once cannot block; refuted for pending messages with tag 0 |
| C82 | `Convolve.v` over `Fft3d.v`, `Fft2d.v`, `Ops.v` | convolution theorem on the grid (shift of a periodic sum); C25 and C26 composed with the caller's step by sequencing; frame of the three steps |
| C83 | `Remap32Ops.v`, `TestInt.v` (what `Ops.v`, `TestProg.v` have in unbounded integers) | simulation as for C78, the caller's loops evaluated expression by expression; C64 carried over. Refuted without the conditions (three witnesses) |
| C84 | `Laws.v` over `Fft3d.v`, `Fft2d.v`, `Convolve.v` | C25, C26 and C82 give the runs; the laws of the DFT (`SymMath.v`, `RoundL2Final.v`) relate their results; Hermitian to real through the inverse transform |
| C85 | `Screen.v` over `Ops.v`, `TestOpt.v` | one run in which the token visits the ranks in turn, then confluence; for the order an invariant that balances sends begun, messages under way, receives posted and receives completed on every pair of ranks |
| C86 | `ScreenInt.v` (what `TestOpt.v`, `Screen.v` have in unbounded integers) | output() evaluated expression by expression as for C83; simulation of the whole program, C85 carried over. Refuted without the conditions (two witnesses) |

"Refuted" properties: the claim as one would first write it is false of the code.  `properties.jsonl` then states the
exact truth (guarded claim and the failure); both halves are theorems (`..._refuted` for the failure, by a concrete
witness run with `vm_compute` or an explicit construction).

## 4. Trusted base

* Coq 8.16.1 kernel (and `vm_compute`), `coq_makefile`.
* `Print Assumptions` is run under every property theorem; the result is in section 6.
* The reading of the C++ source (each definition cites file and lines), and the MPI model of section 1.

## 5. What is and is not modelled

Modelled, function by function: src/pack3d.h, src/pack2d.h (all routines), src/remap3d.cpp, src/remap2d.cpp
(setup, remap, collide, destructor), src/fft3d.cpp, src/fft2d.cpp (constructor, destructor, setup, setup_memory,
compute, only_1d_ffts, only_remaps, only_one_remap, tune, tune_trial, remap, remap creation, setup_ffts,
perform_ffts, scale_ffts, deallocation, prime_factorable, factor, procfactors, surfarea), src/kissfft.h,
src/memory.cpp (smalloc, srealloc, sfree as used), src/*_wrap.cpp (all functions), src/*_wrap.h and src/*_wrap.f90 (all declarations), src/fftmpi.py (all classes),
test/test3d.cpp, test2d.cpp, simple.cpp, and where they differ from these test/test3d_c.cpp, test2d_c.cpp, test3d_f90.f90, test2d_f90.f90, simple_f90.f90, test3d.py, test2d.py, simple.py.

Simplifications, stated at the definitions:
* Values and memory life are separate models of the same functions: `Fft3d.v`/`Remap.v` compute values on checked
  arrays and take the object for granted; `Life.v` tracks blocks and pointers and takes counts from the former
  (`MemUse.v`).
* MPI_Allreduce, MPI_Allgather and MPI_Comm_create inside setup are global values in `Setup3d.v`, `Setup2d.v` and
  `Remap.v` (setup is given all ranks' arguments); C49 discharges this.  `Spmd.v` leaves out the 1d plans and
  allocation, and treats a collective call as one step of all ranks (a call that not all ranks make is stuck).
* `areas`: the arithmetic of surfarea is any ordered type satisfying `area_laws`; `exact_areas` and `double_areas` are
  instances. `double_areas` rounds after every operation (53 bits, ties to even, no overflow or underflow, which cannot
  occur for int arguments); `fused_areas` (C72) keeps products exact; extended registers are not modelled.
* Transforms use exact arithmetic except in C51-C53, C61 and C70-C72.  There every C operation is one rounding to the scalar type
  (no extended registers), except that in C72 products may be kept exact until they are added.  C72 allows a kept product to be
  stored, copied and multiplied, which no machine does; a product that is kept is kept in every sum it occurs in.  With -DFFT_SINGLE, `HALF_OF` multiplies and subtracts in double before
  rounding; the model rounds the product too, which differs only when the half is subnormal.  Accuracy of the C
  library's cos and sin is a hypothesis (`libm_ok`).  Overflow is excluded by a condition on the data.
* `floor(sqrt(n))` is exact.
* `Life.v`: using `memory` after `delete memory` is read two ways (`strict` or not); `compute_life` checks the remaps
  of both directions; `OUser` is any block that is not the object's.
* `Tune.v`: times are rationals (no rounding, no overflow to infinity), the clock is arbitrary (not even monotone).  The log has the
  barriers and broadcasts in it; MPI_Wtime is always read directly after a barrier.  In C73_time waiting takes no time of its own.
* `Report.v`: times and quotients are rationals; log(n)/log(2) is any function; a line is its format and its values; what the
  constructor, setup and tune leave in the object, the processor grids and the error are parameters (other properties say what they are).
* `Overflow.v`: lists the int arithmetic of setup; comparisons, MIN/MAX, prime_factorable, size_t, double and
  MPI reductions have no int overflow of their own or are not listed.
* `Pack32.v`: comparing and decrementing loop variables needs no check; a pointer that moves between checked pointers is not checked again;
  `size` is reduced modulo 2^32 (implementation-defined, what the compilers do); with `strict` a pointer must lie in its array or one past it.
* `Remap32.v`: the packing routines are those of `Pack32.v`; the other ints of remap(), perform_ffts() and scale_ffts() are loop
  counters bounded by ints setup() computed, whose values C43 is about.
* `Traffic.v`: the caller's receives name source and tag (no MPI_ANY_SOURCE, MPI_ANY_TAG); while its messages with other tags are under way
  the caller does not touch the arrays of the library.
* `Wrap.v`: `fft_set` changes one variable, `Proto.CSet` sets all the settings at once.

* `Backend.v`: MKL, FFTW2 and FFTW3 compute the exact DFT of each line and are undefined outside their documented
  interface; array alignment, planner flags and the status values of DFTI calls are left out.
* `TestOpt.v`: atof is an arbitrary function to the rationals; atoi of a number outside int is undefined; error_all ends the
  calling rank with its message; output() is the list of its lines, rank after rank (the token that makes it so is in `Screen.v`;
  printing is a step that reads the array work and changes nothing, so text buffered by the system is not modelled).
* `TestProg.v`: doubles of the layout code are rationals with a rounding function after each operation; the value
  AM*seed of random() is an arbitrary function of the integer state (the rounded product in C61); timers and statistics are left out.  The C versions
  of the test programs (test/*_c.cpp) are not modelled separately.
* `Port.v`: the Fortran and Python test programs, only the parts that differ from the C++ ones; a part not listed there was read
  and is the same statement by statement.  READ with i10 and f10.3 is modelled on words of at most 10 characters without blanks in
  the theorems; an unreadable number, a Python exception and an undefined name end the rank (`FAIL`, `None`); Python's
  float() is an arbitrary partial function; Python's / on ints rounds down (the files are Python 2).

* `Bind.v`: Python 2, the subset of it that the methods use; a numpy array is its address (its dtype and size are not checked by
  the code either); printing is left out; the C library is an arbitrary function of the words it receives; addresses
  of the results are cells of their own.

* `Ops.v`: MPI_Barrier is an all-to-all exchange of empty messages; MPI_Wtime, the statistics of timing() and printing are
  left out here (`Report.v` has them); output() and validate() only read the array and are not part of the sequence (`Screen.v` puts output() in).  With -t the loops of timing()
  clear 2*nfft_in values, not all fftsize values: what lies beyond is stale and is transformed too (timing only).

* `Objects.v`: all objects use the same send and receive buffers of the rank, which setup_memory() and remap() allow; two data
  arrays.

* `Oom.v`: the numbers in the arrays are left out; which attempts fail is an arbitrary function of their number; a failing
  `new` ends the process; releases at the end of an object's life are in `Life.v`, which assumes no failure.

Not modelled: the inside of FFTW and MKL, real time, MPI errors.

## 6. Assumptions printed

Theorems over the reals - C22_kiss_is_dft, C22_dft_inverse, C24_batch, C25_forward_is_dft,
C26_backward_is_inverse_dft, C26_backward_exact, C26_scaling_refuted, C27_*, C32_*, C33_*, C50_*, C51_rounded_1d,
C51_higham, C52_*, C53_*, C54_* (but not C54_mkl_*), C56_run_*, C56_simple, C56_test?d, C56_?d_large, C56_?d_refuted, C57_validate_*, C59_run_*, C68_validate_?d, C68_validate_zero, C68_simple, C61_* (but not C61_random_single_refuted), C70_* (but not C70_growth), C71_*, C78_forward_*, C78_roundtrip_*, C80_forward_*, C82_multiplier_*, C82_convolution_*, C82_loop_* (without `sig_not_dec`), C84_*, C72_* (but not C72_areas, C72_min, C72_same_grid_refuted) - depend on
`ClassicalDedekindReals.sig_not_dec`, `ClassicalDedekindReals.sig_forall_dec` and
`FunctionalExtensionality.functional_extensionality_dep` (standard library); C53_*, C61_run_*, C61_test?d_*, C70_double_*, C70_single_*, C71_run_*, C71_test?d_* and these C72_* (but not C72_plain, C72_fused) also on
`Classical_Prop.classic` (standard library, through its series for PI).  Every other property theorem is
"Closed under the global context".  No axiom is declared in this development.

## 7. Disagreements between code and documentation found

1. compute, only_remaps, only_one_remap: the memcpy used when there is no first remap copies insize scalars, half the data.
2. compute backward: `remap(in,out,remap_postfast)` reads the caller's `in` instead of the intermediate `out`.
3. FFT::remap passes `in` again to the second half of a two-stage exchange.
4. normnum = outsize: elements beyond outsize stay unscaled after a backward transform with insize > outsize.
5. remap_midfast with exchange=1 (3d): the second object's sizes are not taken into sendsize/recvsize.
6. setup validates only the input boxes, and only their count and range.
7. factor() stores at most 50 divisors, so "Nprocs is too large" is never reported and the grid may not be optimal.
8. (ip+1)*n and in_ihi+1 can overflow int.
9. tune: trials with exchange=1 can overrun buffers; division by a zero time; ranks may choose different settings.
10. FFT2d: second setup not detected; destructor of an object never set up; Remap destructor likewise.
11. pack2d memcpy routines use sizeof(double) in single precision.
12. memusage does not count the self message and counts a request as a pointer.
13. 2d surfarea is the tile area, so every grid is equally good; in doubles rounding noise chooses (3 processors on
    2 x 5 get 3 x 1, on 8 x 8 get 1 x 3).
14. FFT2d starts with packflag 0; documented default 2.
15. fft?d_get_* cannot read cbest, ebest, pbest, besttime; remap?d_set ignores "memory".
16. permute outside the documented range leaves pointers unset.
17. Bindings: fft3d_wrap.f90 and fft2d_wrap.f90 declare the buffers of fft?d_setup_memory as `type(c_ptr)` without
    `value`, so C receives the address of the pointer.  fftmpi.py: setup_memory of both FFT classes uses csendbuf and
    crecvbuf before assigning them; the argtypes of remap?d_create and remap?d_setup do not match the C prototypes, the
    remap setup methods use undefined names, and `remap?d_compute` does not exist, so the Remap classes
    cannot be instantiated; destroy() followed by deletion raises an (ignored) AttributeError; ints beyond 32 bits are
    reduced silently (C62, C63).
18. Settings and grid dimensions must be equal on all ranks; this is neither documented nor checked (C49: otherwise a
    rank can wait for ever).
19. MKL build: DFTI_NUMBER_OF_TRANSFORMS is set to total/length, which is 0 on a rank without lines; the value must be
    positive, and the returned status is ignored (C54).  FFTW3 build: plans are made for NULL arrays and run on the
    caller's arrays, whose alignment need not match (read, not modelled).
20. test2d (also test2d_c.cpp, test2d.py, test2d_f90.f90) passes permute = 2 to FFT2d in modes 1 and 3; FFT2d knows 0
    and 1 only and uses unset variables (C55).  The comment at fft2d.cpp:215-218 lists 0, 1 and 2.
21. test2d uses the output grid nprocs x 1 in every mode, test3d another output grid in mode 1, so item 4 makes -v report
    large errors for correct transforms: `test2d -g 5 5 -i index -v` on 4 ranks at least 24, `test3d -g 5 5 5 -m 1
    -i index -v` on 8 ranks at least 124 (C56).
22. validate() compares with `delta > epsilon`, which is false for NaN: a result of NaN everywhere gives Max error 0 (C57).
23. `-i seed` adds the rank and checks each rank's own seed: with seed 0 rank 0 stops in the
    barrier of error_all and the others go on (C59); seed 2147483647 is accepted and gives zeros only (C58).
24. output(1,..) prints nfft_in lines of the output layout, whose number of points is nfft_out, and ignores permute; on
    a rank without output points it divides by zero (C60).
25. test2d rejects -n 0, which is documented for -tune; inpx*inpy*inpz can overflow (C59).  -i random in single precision: validate compares the float with
    the double it was rounded from, so even -r reports an error (C61).
26. simple_f90.f90 calls mpi_finalize without ierr; test?d_f90 print "Initialize grid" as a difference of swapped times.
27. All messages of all objects use tag 0 on the caller's communicator: calls on several objects must be made in the same order
    on all ranks, which the documentation does not say (C65).
28. Not every failing allocation is reported: pflag, pgroup and the srealloc of pgroup in Remap3d/2d::setup() with collective
    communication (remap3d.cpp:438-493, remap2d.cpp:391-446), the KISS plans of setup_ffts(), the temporary array of each
    in-place kiss_fft() and tune()'s array (fft3d.cpp:776, 906, 949, fft2d.cpp:727, 855, 895) are used without a test. For a
    plan, setup() even ends normally and compute() crashes later (C67_refuted).
29. test3d_f90 and test2d_f90: `if (vflag == 0) call validate()` is inverted, so -v prints an error that was never computed;
    validate restarts the generator at seedinit while initialize used seedinit + me, so on ranks > 0 it would find an error
    in an exact result (C68_report_refuted, C68_validate_3d).
30. test3d_f90 and test2d_f90: `-i` compares "-i" itself with zero, step and index, so these words end in a failing READ; the code
    for them writes and output() reads work(0), in front of the array; the 2d step leaves imaginary parts unset; `if (me /= iproc)
    continue` does nothing (C68_init_words_refuted, C68_step_index_3d_refuted, C68_step_2d, C68_output_refuted).
31. Fortran test programs: the bounds are computed in single precision and lose points beyond 2^24 (C68_layout_refuted); the
    keywords of fft?d_set lack c_null_char, so whether a setting takes effect depends on the next byte in memory (C68_keyword);
    the time of -tune is read with f10.3, so "10" means 0.01 s (C68_tune_time_refuted); test2d_f90 accepts -n 0.
    A number counts only up to its tenth character, and a word only up to its 32nd (3d) or 64th (2d), so "-n 00000000012" means 1 (C68_cut_refuted).
32. test3d_f90: the loops timing remap 4 call only_one_remap with which = 5, which does nothing (C68_timing_refuted).
33. test3d.py: the grid check multiplies only inpx*inpy and tests outpy twice: -pin 2 2 2 on 8 ranks is rejected, -pin 2 2 3 on 4
    accepted, -pout 2 2 0 accepted and then divided by (C69_grid_refuted); -n 0 is rejected even with -tune.
34. test3d.py and test2d.py: surfaces are computed with integer division, so the grid chosen can leave most ranks empty
    (4x4x4 on 64 ranks: 1x8x8, 48 ranks without points; C69_surface_refuted).
35. test3d.py: modes 2 and 3 call an undefined name; output() raises an exception on more than one rank; simple.py discards the
    result of allreduce and prints rank 0's value (C69_main, C69_output_refuted, C69_simple_refuted).
36. The processor grids depend on how the compiler rounds: 18 processes share out a 16x16x16 grid as 3x6 pencils if surfarea is
    compiled without fused multiply-add and as 6x3 with it.  A job whose processes do not all run the same code (mixed
    processors, different builds) can disagree on the layout without any check (C72_same_grid_refuted).
37. tune: the limit tmax can be exceeded by one setup; the estimate counts the test run and nine trials but not the final setup
    (C73_limit_refuted).  The manual says that the tuning is limited to tmax.
38. tune: when time is short tflag is silently reset to 0, which the manual does not mention, and niter is then computed anew
    without the original value as an upper bound: niter = 1 and tflag = 1 can give two rounds per trial (C73_rounds_refuted).
39. tune: after the test run alone besttime is rank 0's time on every rank, although tfft[0] is each rank's own
    (C74_besttime_refuted); after more trials besttime is each rank's own time.
40. doc/api_tune.txt: packflag is said to be tried with 1, 2, 3, the code tries 0, 1, 2; the test run is said to be a single forward
    FFT, the code makes a pair for flag 0 and a backward FFT for flag -1; "if the single forward FFT exceeded tmax/2" leaves
    out the setup, which counts too.
41. test3d_f90 and test2d_f90: `8 * 2*fftsize` is computed in default integers before it is stored in an integer*8, so the megabytes
    printed are wrong (the computation is undefined) from 2^27 points per rank on, 2^28 in single precision; in 2d `nx * ny` likewise
    from 2^31 grid points on (C76_fortran_size_refuted).
42. test3d.py prints "2d brick proc grid" and "time/fft2d"; test2d.py prints a backslash in "Time for remap \#1"; both divide by the
    measured time and raise ZeroDivisionError where the C++ programs print inf or nan (C76_python_zero_refuted).
43. All test programs: the rate in "Gflops" is a count divided by 2^30, not 10^9.
44. test3d_f90 and test2d_f90: with -tune "Initialize grid" subtracts the setup time and not the tuning time, without it nothing is
    subtracted (C76_fortran_refuted; item 26).
45. pack3d.h:557, 587 and pack2d.h:325, 349: `size = nfast*sizeof(..)` is stored in an int.  Lines of 2^28 doubles or more make
    memcpy copy too little, nothing, or run far beyond the arrays (C77_memcpy_silent_3d_refuted, C77_memcpy_crash_3d_refuted); a whole remap then
    can return without having copied anything (C78_remap_silent_refuted).
46. The permuting pointer routines compute `end` as if the stride continued beyond the last element, so it lies beyond one past the
    array, which C++ does not allow (C77_end_beyond_3d_refuted); no machine we know of is affected.
47. The permuting array routines add the stride once more after the last element; the sum can overflow from 2^30 numbers per tile on
    (C77_array_overflow_3d_refuted).
48. The order of the dimensions in a backward transform depends on inout_layout_same, so its bits can change when the output layout, permute
    or the process count changes (C79_backward_3d_refuted); forward transforms are reproducible.  The manual says nothing about it.
49. Output boxes that overlap or miss points are accepted by setup() (finding 6) and forward transforms serve them correctly (C80_forward_3d);
    a backward transform from boxes that miss points silently uses whatever the work arrays held (C80_back_3d_refuted).
50. The library does not duplicate the caller's communicator and uses tag 0 on it. A message of the caller with tag 0 that is pending
    during a call is taken for a message of the library, without an error if it is not too long, and the caller then receives grid data
    (C81_pending_refuted). Exchanges that are complete when the call starts, or use another tag, are safe (C81_between, C81_overlap).
    The documentation of the comm argument (doc/api_create.txt:24) does not say so.
51. Test programs: `kglobal + jglobal + iglobal + 1` of -i index is an int and overflows on long thin grids even if the tiles are small;
    `2*nfft_in` overflows for a rank with 2^30 points, where nfft_in and the array still fit (C83_index_refuted, C83_double_refuted).
    output() overflows likewise in `2*m` (C86_points_refuted) and, for a wide output box, in `nxlocal*nylocal` (C86_layout_refuted).
