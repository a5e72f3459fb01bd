{"id": "C01", "title": "3d remap delivers every owned point", "statement": "After Remap3d setup() and remap() with distinct in and out buffers, every processor's out buffer holds, for each grid point of its output box and each of the nqty components, exactly the value that the unique input owner of that point held on entry, stored at the offset prescribed by permute (0: i fastest, 1: j fastest, 2: k fastest).", "quantifier": "every processor count, every pair of input and output tilings of the grid (including empty tiles), every nqty >= 1, permute in {0,1,2}, collective in {0,1}, packflag in {0,1,2}, every data content", "why_tests_cant": "the space of pairs of tilings of an arbitrary grid over arbitrarily many ranks is infinite; tests sample a handful of regular decompositions", "anchors": ["src/remap3d.cpp:Remap3d::setup", "src/remap3d.cpp:Remap3d::remap", "src/pack3d.h", "doc/api_remap.txt"]}
{"id": "C02", "title": "3d remap is memory safe within the documented buffer sizes", "statement": "If in holds at least nqty times the input volume, out at least nqty times the output volume, and the send and receive buffers at least the sendsize and recvsize returned by setup(), then remap() performs no out-of-bounds access to any of the four buffers, writes nothing outside the nqty*output-volume prefix of out, and does not modify in when out is a different buffer.", "quantifier": "every processor count, tiling pair, nqty, permute, collective, packflag and every buffer length satisfying the documented minimum", "why_tests_cant": "an overrun of one element in one rank for one unusual tiling is silent under test; absence must be shown for all tilings", "anchors": ["src/remap3d.cpp:Remap3d::setup", "src/remap3d.cpp:Remap3d::remap", "src/pack3d.h"]}
{"id": "C03", "title": "In-place 3d remap equals out-of-place 3d remap", "statement": "Calling remap() with in and out the same buffer leaves in the output region exactly the data an out-of-place remap would have produced.", "quantifier": "every processor count, tiling pair, nqty, permute, mode and data content, buffer large enough for both layouts", "why_tests_cant": "aliasing makes correctness depend on the order of every read and write across all overlaps; tests only see some overlap patterns", "anchors": ["src/remap3d.cpp:Remap3d::remap", "doc/api_remap.txt"]}
{"id": "C04", "title": "Point-to-point remap result does not depend on message timing", "statement": "In point-to-point mode the final contents of every rank's out buffer are the same for every order in which messages are delivered and every order in which MPI_Waitany reports completed receives.", "quantifier": "every interleaving of rank steps, message deliveries and wait completions, every plan produced by setup", "why_tests_cant": "the number of interleavings is unbounded and an MPI runtime exercises only a few of them", "anchors": ["src/remap3d.cpp:Remap3d::remap (MPI_Irecv, MPI_Send, MPI_Waitany)"]}
{"id": "C05", "title": "Point-to-point remap never deadlocks", "statement": "If every rank of the communicator calls remap() on matching plans, no reachable state is stuck and every execution is finite, even when MPI_Send blocks until the matching receive is posted, and on return no message is left in flight.", "quantifier": "every schedule, every mixture of buffered and synchronous completion of MPI_Send, every plan produced by setup", "why_tests_cant": "deadlock freedom is a property of all schedules; MPI implementations buffer small messages so tests hide the synchronous case", "anchors": ["src/remap3d.cpp:Remap3d::remap", "src/remap3d.cpp:Remap3d::setup"]}
{"id": "C06", "title": "Back-to-back remaps do not mix messages", "statement": "When ranks execute a sequence of remaps on the same communicator (as one FFT, or several FFTs, do) with some ranks running ahead of others, each receive is satisfied by the message of the same remap, and the final buffers equal those of executing the remaps one after another globally.", "quantifier": "every finite sequence of plans, every schedule", "why_tests_cant": "requires a rank to run ahead by several phases; the relevant races appear only under adversarial timing", "anchors": ["src/remap3d.cpp:Remap3d::remap", "src/fft3d.cpp:FFT3d::compute"]}
{"id": "C07", "title": "3d remap send and receive plans agree", "statement": "For every ordered pair of ranks, the first sends a message to the second if and only if the second expects one from the first, there is at most one such message, both sides agree on its length, and the length is nqty times the number of grid points in the intersection of the sender's input box and the receiver's output box.", "quantifier": "every ordered pair of ranks, every pair of tilings, every nqty", "why_tests_cant": "a mismatch on one pair for one tiling hangs or truncates; quantifies over all tilings and all ranks", "anchors": ["src/remap3d.cpp:Remap3d::setup", "src/remap3d.cpp:Remap3d::collide"]}
{"id": "C08", "title": "All remap modes give identical results", "statement": "The contents of the output region after a remap are the same for collective = 0 and 1 and for packflag = 0 (array), 1 (pointer), 2 (memcpy).", "quantifier": "every tiling pair, nqty, permute, data content and mode combination", "why_tests_cant": "six implementations of packing and twelve of unpacking times two transports must agree on every strided box", "anchors": ["src/pack3d.h", "src/remap3d.cpp:Remap3d::setup", "src/remap3d.cpp:Remap3d::remap"]}
{"id": "C09", "title": "Packing variants are equivalent and exact", "statement": "Each of the three implementations of pack and of unpack (plain, permute once, permute twice, specialised for 1, 2 and n components) moves exactly the addressed box between the strided array and the contiguous message, in the same order, and touches no other element.", "quantifier": "every box shape, stride, component count and buffer content", "why_tests_cant": "loop-bound and stride errors appear only for particular shapes; there are unboundedly many shapes", "anchors": ["src/pack3d.h", "src/pack2d.h"]}
{"id": "C10", "title": "Collective remap groups are consistent", "statement": "In collective mode every rank that takes part computes a group that contains itself and all ranks it exchanges data with, two ranks in each other's group compute the identical ordered group, and groups of different ranks are equal or disjoint, so communicator creation and the collective exchange are called with consistent arguments.", "quantifier": "every rank, every processor count, every pair of tilings", "why_tests_cant": "the group is a transitive closure over an overlap graph; wrong closures need particular graph shapes with long chains", "anchors": ["src/remap3d.cpp:Remap3d::setup", "src/remap2d.cpp:Remap2d::setup"]}
{"id": "C11", "title": "Collective exchange counts match pairwise", "statement": "In collective mode the count a rank passes for sending to a peer equals the count the peer passes for receiving from it, displacements give disjoint slots inside the buffers of the sizes returned by setup, and ranks that exchange nothing have count zero.", "quantifier": "every pair of ranks in a group, every pair of tilings, every nqty", "why_tests_cant": "erroneous counts are undefined behaviour in MPI and often happen to work", "anchors": ["src/remap3d.cpp:Remap3d::setup", "src/remap3d.cpp:Remap3d::remap"]}
{"id": "C12", "title": "Remap followed by the reverse remap restores the data", "statement": "Remapping from layout A to layout B with permutation p and then from B to A, with the axes and permutation that undo p, restores the original contents of A on every rank.", "quantifier": "every pair of tilings, nqty, permute, mode", "why_tests_cant": "round trips must hold for all layouts and all data", "anchors": ["src/remap3d.cpp", "src/fft3d.cpp:FFT3d::remap_forward_create", "src/fft3d.cpp:FFT3d::remap_inverse_create"]}
{"id": "C13", "title": "2d remap delivers every owned point safely", "statement": "After Remap2d setup() and remap() (in place or not) every processor's out buffer holds for each point of its output rectangle the value held by the input owner, at the offset prescribed by permute (0 or 1), with no access outside the four buffers when they have the documented sizes.", "quantifier": "every processor count, pair of tilings, nqty, permute, collective, packflag (double precision) and data content", "why_tests_cant": "as for the 3d case: infinite family of tilings", "anchors": ["src/remap2d.cpp:Remap2d::setup", "src/remap2d.cpp:Remap2d::remap", "src/pack2d.h"]}
{"id": "C14", "title": "2d memcpy packing depends on the build precision", "statement": "2d remaps copy exactly the elements of the addressed rectangle in a double-precision build for every packflag and in a single-precision build for packflag 0 and 1. With packflag = 2 in single precision the routines copy nfast*sizeof(double) bytes, twice the rectangle's lines: there are legal calls in which this runs outside the buffers, and every non-empty message is copied past the end of a buffer that exactly fits it (finding: sizeof(double) should be sizeof(PACK_DATA)).", "quantifier": "every rectangle and both precisions", "why_tests_cant": "an over-read or over-write of a few floats is invisible to functional tests", "anchors": ["src/pack2d.h:pack_2d_memcpy", "src/pack2d.h:unpack_2d_memcpy"]}
{"id": "C15", "title": "Processor grids use all processors", "statement": "The processor grids chosen for the pencil stages and the brick stage of a 3d or 2d FFT are positive, multiply to the number of processors, and have extent 1 in the dimension in which a pencil stage transforms.", "quantifier": "every processor count and every grid size; surface areas in any arithmetic that obeys the stated order laws, which exact arithmetic and IEEE double arithmetic are both proved to obey", "why_tests_cant": "depends on the divisor structure of the processor count", "anchors": ["src/fft3d.cpp:FFT3d::factor", "src/fft3d.cpp:FFT3d::procfactors", "src/fft2d.cpp:FFT2d::procfactors", "doc/api_stats.txt"]}
{"id": "C16", "title": "Internal pencil and brick layouts tile the grid", "statement": "In each internal stage every grid point is owned by exactly one processor, each processor's box lies inside the grid (or is empty), and in each pencil stage every non-empty box spans the whole transformed dimension.", "quantifier": "every grid size, every processor count including more processors than points", "why_tests_cant": "integer division splits must tile exactly for all n and p", "anchors": ["src/fft3d.cpp:FFT3d::setup", "src/fft2d.cpp:FFT2d::setup"]}
{"id": "C17", "title": "Processor grids minimise communication surface up to the divisor limit", "statement": "The 3d processor grid chosen has the least surface area among all factorisations of the processor count (with extent 1 in dimensions of size 1), exactly so if the areas are computed exactly and up to a relative 2^-49 if they are computed in IEEE double arithmetic, provided the count has at most 50 divisors not above its square root, which holds for every count up to 2600. Beyond that limit the claim is false, because factor() silently drops divisors (50400 processors), so the error 'Nprocs is too large to factor' can never be reported. In 2d the minimised quantity is the tile area, which is the same for all grids, so in exact arithmetic the grid is always 1 x P even when another grid has a smaller perimeter; in double arithmetic that holds when P is a power of two, and otherwise rounding noise decides (P=3 on 2 x 5 gives 3 x 1).", "quantifier": "every processor count and grid size; exact and IEEE double arithmetic for the surface areas", "why_tests_cant": "optimality is a statement about all factorisations of all processor counts", "anchors": ["src/fft3d.cpp:FFT3d::procfactors", "src/fft3d.cpp:FFT3d::surfarea", "src/fft2d.cpp:FFT2d::surfarea"]}
{"id": "C18", "title": "Setup accepts exactly the supported grid dimensions", "statement": "FFT setup reports an error for a dimension less than 2 or having a prime factor other than 2, 3, 5, and accepts every dimension >= 2 of the form 2^a 3^b 5^c.", "quantifier": "every integer triple or pair of grid dimensions", "why_tests_cant": "universally quantified over all integers", "anchors": ["src/fft3d.cpp:FFT3d::prime_factorable", "src/fft3d.cpp:FFT3d::setup", "src/fft2d.cpp:FFT2d::setup"]}
{"id": "C19", "title": "Setup rejects input boxes outside the grid and disjoint input boxes that do not tile it", "statement": "FFT setup reports an error if an input box of some rank is malformed or reaches outside the grid, or if the input boxes are pairwise disjoint but leave a grid point unowned; so accepted disjoint input boxes tile the grid exactly. The stronger claim the error text makes is false: overlapping input boxes with the right total volume are accepted, and output boxes are not checked at all.", "quantifier": "every assignment of input and output boxes to ranks", "why_tests_cant": "needs reasoning over all possible wrong layouts", "anchors": ["src/fft3d.cpp:FFT3d::setup", "src/fft2d.cpp:FFT2d::setup", "doc/api_setup.txt"]}
{"id": "C20", "title": "fftsize is large enough for every stage", "statement": "The fftsize returned by FFT setup is at least the number of points the rank owns in the input layout, in the output layout and in every intermediate layout of a forward or backward transform.", "quantifier": "every grid, processor count, layouts, settings", "why_tests_cant": "an undersized buffer for one intermediate stage of one layout is silent corruption", "anchors": ["src/fft3d.cpp:FFT3d::setup", "src/fft2d.cpp:FFT2d::setup", "doc/api_setup.txt"]}
{"id": "C21", "title": "FFT send and receive sizes cover every remap but one", "statement": "The sendsize and recvsize returned by FFT setup are at least what each remap of a forward or backward transform needs, except in 3d for the second stage of the mid-to-fast remap of a backward transform with exchange = 1. For that stage the sizes are not counted and recvsize can be too small, for every collective setting.", "quantifier": "every grid, processor count, layouts, permute, collective, exchange", "why_tests_cant": "the maximum is accumulated over up to twelve internal remaps under several configuration branches", "anchors": ["src/fft3d.cpp:FFT3d::remap_forward_create", "src/fft3d.cpp:FFT3d::remap_inverse_create", "src/fft2d.cpp:FFT2d::remap_inverse_create"]}
{"id": "C22", "title": "1d transform computes the DFT", "statement": "The built-in 1d transform of length n returns X[k] = sum_j x[j] exp(-+ 2 pi i j k / n) exactly in exact arithmetic, in place or not, for the forward and backward directions.", "quantifier": "every length n from 1 to 2^31-1, every input vector, every stride of the input, both directions, any contents of the temporary", "why_tests_cant": "mixed radix recursion over all lengths; tests sample lengths and compare with tolerances", "anchors": ["src/kissfft.h:kiss_fft_alloc", "src/kissfft.h:kiss_fft_stride", "src/kissfft.h:kf_work"]}
{"id": "C23", "title": "1d plan factorisation is complete", "statement": "The factor list built for a 1d plan multiplies to n, has every radix equal to 4 or a prime (for n = 1 the single stage 1), has its stage lengths in decreasing divisibility order ending at 1, and needs at most 32 stages for any length representable in a 32-bit int; lengths accepted by setup (2^a 3^b 5^c) only use the radices 2 to 5.", "quantifier": "every n from 1 to 2^31-1", "why_tests_cant": "termination and bounds for all n", "anchors": ["src/kissfft.h:kf_factor", "src/kissfft.h:kiss_fft_alloc"]}
{"id": "C24", "title": "Batched 1d transforms act line by line", "statement": "A batch of 1d transforms replaces each of the contiguous lines of the local pencil by its own transform and touches nothing else in the buffer.", "quantifier": "every line length, number of lines and content", "why_tests_cant": "off-by-one in batch offsets depends on the shape", "anchors": ["src/fft3d.cpp:FFT3d::perform_ffts", "src/fft2d.cpp:FFT2d::perform_ffts"]}
{"id": "C25", "title": "Forward 3d transform is the 3d DFT", "statement": "After a forward compute(), in place, or out of place when the plan starts with a remap, every rank holds, for each point of its output box, the value of the 3d DFT of the global input array, stored in the order prescribed by permute. The call runs to completion under every schedule; the input array (when distinct) and all cells beyond 2*fftsize are unchanged.", "quantifier": "every grid accepted by setup, processor count, valid input and output tilings, permute in {0,1,2}, collective, exchange, packflag, schedule and data (exact arithmetic)", "why_tests_cant": "distributed correctness over all layouts and settings", "anchors": ["src/fft3d.cpp:FFT3d::compute", "src/fft3d.cpp:FFT3d::setup"]}
{"id": "C26", "title": "Backward 3d transform is the inverse 3d DFT", "statement": "After a backward compute(), in place, or out of place when the plan ends (forward) with a remap and does not start with one, every rank holds, for each point of its input box, the conjugate-sign 3d DFT of the array held in the output layout, divided by the number of grid points when scaling is on and the point is among the first outsize elements of the rank. In particular all elements are scaled if no rank has more points on input than on output. Otherwise some are not scaled, because normnum is outsize (finding). With exchange=1 the buffers sized by setup() can be too small for the backward remaps, and then the call is undefined behaviour (finding; see C21); the positive claim assumes they suffice, which holds for exchange=0.", "quantifier": "as for the forward transform", "why_tests_cant": "distributed correctness over all layouts and settings", "anchors": ["src/fft3d.cpp:FFT3d::compute", "src/fft3d.cpp:FFT3d::scale_ffts"]}
{"id": "C27", "title": "Forward then backward restores the input", "statement": "An in-place forward followed by a backward compute() returns the original data when scaled is 1, and N times the original data when scaled is 0, N being the number of grid points; for scaled 1 this is claimed of the first outsize elements of each rank, hence of all if insize <= outsize everywhere; the elements beyond come back multiplied by N.", "quantifier": "every grid, processor count, layouts, settings and data (exact arithmetic)", "why_tests_cant": "every layout and every history of settings", "anchors": ["src/fft3d.cpp:FFT3d::compute", "src/fft3d.cpp:FFT3d::setup (norm, normnum)", "doc/api_setup.txt"]}
{"id": "C28", "title": "Out-of-place compute equals in-place compute", "statement": "compute() with out different from in leaves in out exactly the result the in-place call would have produced, and leaves in unchanged, provided the first stage executed is a remap and, backward, the last stage is not. In the other cases the claim is false: without a first remap only insize of the 2*insize scalars are copied to out, and backward the last remap reads in instead of the transformed data (findings).", "quantifier": "every layout, settings, data", "why_tests_cant": "depends on which remaps are needed for the given layout", "anchors": ["src/fft3d.cpp:FFT3d::compute", "src/fft2d.cpp:FFT2d::compute", "doc/api_compute.txt"]}
{"id": "C29", "title": "Transform result is independent of performance settings", "statement": "The result of compute() does not depend on collective, exchange or packflag: two plans that differ in these only give, for every direction, identical values in every cell of the result, in any arithmetic.", "quantifier": "every pair of settings, every layout, data, direction", "why_tests_cant": "all combinations over all layouts", "anchors": ["src/fft3d.cpp:FFT3d::compute", "doc/api_setup.txt", "src/fft2d.cpp:FFT2d::compute"]}
{"id": "C30", "title": "remaponly and only_remaps move data without transforming it", "statement": "With remaponly set, or via only_remaps(), a forward call moves the global array from the input layout to the permuted output layout unchanged, a backward call does the reverse, and forward followed by backward is the identity: in place always, out of place when the first stage is a remap (and for compute() backward the last is not). Out of place without a first remap only half of the data is moved (finding).", "quantifier": "every layout, permutation, exchange setting, data", "why_tests_cant": "all layouts", "anchors": ["src/fft3d.cpp:FFT3d::compute", "src/fft3d.cpp:FFT3d::only_remaps", "src/fft2d.cpp:FFT2d::only_remaps"]}
{"id": "C31", "title": "only_one_remap performs the documented remap", "statement": "only_one_remap(in,out,flag,which) moves the global array from the layout before stage `which` to the layout after it: in place always; out of place for the middle stages when exchange=0 and for the outer stages when the plan has a remap there. In the other out-of-place cases the result is wrong: with exchange=1 the second of the two remaps reads in, and an outer stage without a remap copies half of the data or none (findings).", "quantifier": "every which in 1..4 (3d) or 1..3 (2d), direction, exchange setting, layout, data", "why_tests_cant": "aliasing and the two-step exchange interact only for particular settings", "anchors": ["src/fft3d.cpp:FFT3d::only_one_remap", "src/fft3d.cpp:FFT3d::remap", "src/fft2d.cpp:FFT2d::only_one_remap"]}
{"id": "C32", "title": "Forward 2d transform is the 2d DFT", "statement": "After a forward 2d compute(), in place, or out of place when the plan starts with a remap, every rank holds for each point of its output rectangle the value of the 2d DFT of the global input array, stored in the order prescribed by permute. The call runs to completion under every schedule; the input array (when distinct) and all cells beyond 2*fftsize are unchanged.", "quantifier": "every grid accepted by setup, processor count, valid input and output tilings, permute in {0,1}, collective, exchange, packflag (memcpy packing only with 8-byte scalars, see C14), schedule and data (exact arithmetic)", "why_tests_cant": "distributed correctness over all layouts", "anchors": ["src/fft2d.cpp:FFT2d::compute", "src/fft2d.cpp:FFT2d::setup"]}
{"id": "C33", "title": "Backward 2d transform is the inverse 2d DFT and undoes the forward one", "statement": "After a backward 2d compute(), in place, or out of place when the plan ends (forward) with a remap and does not start with one, every rank holds for each point of its input rectangle the conjugate-sign 2d DFT of the array held in the output layout, divided by the number of grid points when scaling is on and the point is among the first outsize elements of the rank; forward then backward in place restores the data (times the number of points where not scaled). All elements are scaled if no rank has more points on input than on output; otherwise some are not, because normnum is outsize (finding). The buffers sized by setup() suffice for every setting.", "quantifier": "as for the forward 2d transform", "why_tests_cant": "distributed correctness over all layouts", "anchors": ["src/fft2d.cpp:FFT2d::compute", "src/fft2d.cpp:FFT2d::scale_ffts"]}
{"id": "C34", "title": "Misuse of the 3d call protocol is reported", "statement": "For every finite history of API calls on an FFT3d object: compute, only_1d_ffts, only_remaps, only_one_remap before setup, a second setup or tune, setup_memory before setup or when the library owns the memory, compute/only_remaps/only_one_remap without buffers, and tune with invalid arguments stop with the error message of that misuse; no other error message is ever given except by the validation of the layout; and every call that is not a misuse returns and changes nothing beyond its purpose, provided memoryflag was not switched after setup and the buffers have the reported sizes.", "quantifier": "every finite sequence of API calls", "why_tests_cant": "histories are unbounded", "anchors": ["src/fft3d.cpp:FFT3d::setup", "src/fft3d.cpp:FFT3d::setup_memory", "src/fft3d.cpp:FFT3d::compute"]}
{"id": "C35", "title": "Misuse of the 2d call protocol is reported, except a second setup", "statement": "For every finite history of API calls on an FFT2d object the same holds as for FFT3d (C34), with one exception: a second setup() is accepted without an error and what the first one allocated is never freed.", "quantifier": "every finite sequence of API calls", "why_tests_cant": "histories are unbounded", "anchors": ["src/fft2d.cpp:FFT2d::setup", "src/fft2d.cpp:FFT2d::setup_memory", "src/fft2d.cpp:FFT2d::compute"]}
{"id": "C36", "title": "Destroying an object frees exactly what the library allocated", "statement": "After any history in which memoryflag is not switched after setup, destroying an FFT3d object, an FFT2d object that was set up once, or a Remap object that was set up, succeeds and leaves exactly the memory that is not the library's. Destroying an FFT2d or Remap object that was never set up is undefined; switching memoryflag off after setup leaks the buffers, switching it on after setup_memory frees the caller's buffer.", "quantifier": "every finite sequence of API calls followed by destruction", "why_tests_cant": "histories are unbounded and uninitialised reads often work by luck", "anchors": ["src/fft3d.cpp:FFT3d::~FFT3d", "src/fft2d.cpp:FFT2d::~FFT2d", "src/remap3d.cpp:Remap3d::~Remap3d", "src/remap2d.cpp:Remap2d::~Remap2d"]}
{"id": "C37", "title": "A plan can be reused any number of times", "statement": "Any sequence of forward and backward computes on one plan completes, and each call gives the same result as the same call on a fresh memory holding the same input data; the calls carry no state from one to the next.", "quantifier": "every finite sequence of compute calls and data", "why_tests_cant": "histories are unbounded", "anchors": ["src/fft3d.cpp:FFT3d::compute", "src/remap3d.cpp:Remap3d::remap", "src/fft2d.cpp:FFT2d::compute"]}
{"id": "C38", "title": "Whole transforms are schedule independent and deadlock free", "statement": "A complete transform executed by all ranks terminates under every schedule and every choice of message buffering, without undefined behaviour, in a number of steps that does not depend on the schedule, and its result is the one of the lock-step execution.", "quantifier": "every schedule of all ranks' message sends, receives and collectives during compute", "why_tests_cant": "all interleavings", "anchors": ["src/fft3d.cpp:FFT3d::compute", "src/remap3d.cpp:Remap3d::remap", "src/fft2d.cpp:FFT2d::compute"]}
{"id": "C39", "title": "tune leaves a legal, ready configuration", "statement": "If every setting to be tried can be set up with sufficient buffers (in 2d always, in 3d if input and output layouts agree), no trial takes 1e20 seconds or more and the first time measured is positive and not extreme, tune() returns with the object set up with exactly the settings reported as best; these were one of the recorded trials and are legal values or the caller's own; memoryflag and the caller's memory are unchanged; 1 to 9 trials are recorded, within the result vectors. For differing 3d layouts tune overruns its buffers, and with a clock that does not advance it divides by zero.", "quantifier": "every timing outcome of the trials, every flag, niter, tmax, tflag, exchange and processor count", "why_tests_cant": "timing results are arbitrary reals", "anchors": ["src/fft3d.cpp:FFT3d::tune", "src/fft3d.cpp:FFT3d::tune_trial", "src/fft2d.cpp:FFT2d::tune", "doc/api_tune.txt"]}
{"id": "C40", "title": "tune selects the fastest trial of each phase", "statement": "tune() chooses collective and exchange of the first fastest trial of the first phase and, if packflag is varied, the first fastest of the three packflag trials with these. It is not always the fastest recorded trial, and with time for two more runs only, the caller's own settings are discarded even if measured faster than what is chosen.", "quantifier": "every timing outcome of the trials", "why_tests_cant": "timing results are arbitrary reals", "anchors": ["src/fft3d.cpp:FFT3d::tune", "src/fft2d.cpp:FFT2d::tune", "doc/api_tune.txt"]}
{"id": "C41", "title": "Fortran interface is the C interface with 1-based indices", "statement": "Calling a Fortran setup or tune entry with 1-based inclusive bounds on every rank has the same effect (result or error, sizes, object, heap) as calling the C entry with the corresponding 0-based bounds, for FFTs and remaps in 2d and 3d, and the tile used holds exactly the caller's points; all other arguments pass unchanged.", "quantifier": "all argument values", "why_tests_cant": "all bounds of all ranks, grids and settings; one wrong offset among twelve only shows for layouts split along that axis", "anchors": ["src/fft3d_wrap.cpp", "src/fft2d_wrap.cpp", "src/remap3d_wrap.cpp", "src/remap2d_wrap.cpp"]}
{"id": "C42", "title": "Keyword settings behave as named variables", "statement": "Setting a keyword of an FFT through the C interface changes exactly the named variable; unknown keywords change nothing; after any sequence of sets the last one naming a variable decides. Reading a known name gives the variable, an unknown name gives -1 or NULL, and the reported length is that of the string or the number of trials. Every documented variable can be read except cbest, ebest, pbest and besttime, which no function and keyword give. Remap objects obey the same rules for collective and pack but ignore the documented keyword memory.", "quantifier": "all keyword strings and values, all sequences of set calls", "why_tests_cant": "the keyword is an arbitrary string, values and sequences of calls are unbounded, and 'changes nothing else' ranges over every other variable", "anchors": ["src/fft3d_wrap.cpp:fft3d_set", "src/fft3d_wrap.cpp:fft3d_get_int", "src/fft2d_wrap.cpp:fft2d_set", "src/remap3d_wrap.cpp:remap3d_set", "doc/api_stats.txt", "doc/api_setup.txt"]}
{"id": "C43", "title": "Setup index arithmetic: when it overflows", "statement": "For every accepted setup of an FFT3d or FFT2d object whose tiles (two values per point, an empty extent counted as one) can be counted in a 32-bit int and with 7*nprocs <= INT_MAX, no int or bigint expression evaluated by setup (processor factorisation, index ranges, tile sizes, every remap's extents, offsets, strides, sizes and running sums) overflows or divides by zero on any rank, and each yields its mathematical value, if and only if for every processor grid used the number of processors times the number of grid points fits in an int in each dimension. In particular 2*nfast*nmid*nslow <= INT_MAX together with nprocs*max(nfast,nmid,nslow) <= INT_MAX suffices. It is not enough that the total number of scalars fits in an int: 4096 ranks with 2 x 2 x 2^20 points overflow in (ip+1)*n/np. A stand-alone remap is exact for disjoint tiles that fit when isize*jsize+ihi <= INT_MAX, and may overflow otherwise; the index check in_ihi+1 overflows when in_ihi is INT_MAX.", "quantifier": "all grid sizes, processor counts, layouts, settings and ranks", "why_tests_cant": "overflow occurs only at sizes beyond test machines", "anchors": ["src/fft3d.cpp:FFT3d::setup", "src/fft2d.cpp:FFT2d::setup", "src/remap3d.cpp:Remap3d::setup", "src/remap2d.cpp:Remap2d::setup", "src/fft3d.cpp:FFT3d::procfactors", "src/fft3d.cpp:FFT3d::factor"]}
{"id": "C44", "title": "Reported memory usage against allocated memory", "statement": "After setup, the bytes of all arrays and buffers the library holds equal memusage plus, for each remap, (bytes of a request - bytes of a pointer) per receive, plus 28 + one pack plan + one request + one unpack plan for a point-to-point remap with a message to itself. With collective = 1 and requests as large as pointers the two are equal; otherwise memusage may be too small or too large.", "quantifier": "every configuration", "why_tests_cant": "all configurations", "anchors": ["src/fft3d.cpp:FFT3d::setup", "src/fft3d.cpp:FFT3d::remap_memory", "src/remap3d.cpp:Remap3d::setup"]}
{"id": "C45", "title": "A construction with the wrong precision is rejected", "statement": "Creating an FFT object reports an error unless the requested precision (1 or 2) equals the precision the library was compiled with.", "quantifier": "all integer precision arguments and both builds", "why_tests_cant": "both builds and all integers", "anchors": ["src/fft3d.cpp:FFT3d::FFT3d", "src/fft2d.cpp:FFT2d::FFT2d"]}
{"id": "C46", "title": "All ranks agree on whether a redistribution step is performed", "statement": "In setup all ranks make the same decision about performing or skipping the redistribution before the first and after the last transform stage, and it is skipped only if every rank's data is already in the required layout.", "quantifier": "every processor count and layouts, including ranks whose own layout would not need it", "why_tests_cant": "a disagreement on one rank for one layout deadlocks", "anchors": ["src/fft3d.cpp:FFT3d::setup", "src/fft2d.cpp:FFT2d::setup"]}
{"id": "C47", "title": "Ranks stay in step during tune if they choose the same settings", "statement": "Two ranks that enter tune with the same settings and arguments and receive the same broadcast times make the same sequence of communicating calls (barrier, broadcast, setup, compute, only_1d_ffts, only_remaps, only_one_remap), if they choose the same settings; but each rank compares its own times, so that they may choose settings with which their final setups do not match.", "quantifier": "every clock of every rank, every argument, 2d and 3d", "why_tests_cant": "depends on timing differences between ranks", "anchors": ["src/fft3d.cpp:FFT3d::tune", "src/fft2d.cpp:FFT2d::tune"]}
{"id": "C48", "title": "Default settings", "statement": "A new FFT3d object has the documented defaults collective = 2, exchange = 0, packflag = 2, memoryflag = 1. A new FFT2d object has packflag = 0 instead of the documented 2, the other defaults as documented.", "quantifier": "all precision arguments accepted, both builds", "why_tests_cant": "tests set the values explicitly", "anchors": ["src/fft3d.cpp:FFT3d::FFT3d", "src/fft2d.cpp:FFT2d::FFT2d", "doc/api_setup.txt"]}
{"id": "C49", "title": "Setup run by each rank alone gives the global result", "statement": "Let every rank run FFT3d::setup (FFT2d::setup, Remap3d::setup, Remap2d::setup) as its own program, with its own input and output boxes, learning about other ranks only from the results of MPI_Allreduce, MPI_Allgather and MPI_Comm_create, and with the same dimensions, permutation and settings on all ranks. Then every execution reaches one and the same end: no rank ever waits in a collective call that another rank does not make, all groups passed to MPI_Comm_create are legal, and either all ranks stop with the same error message or every rank holds exactly its share of the setup computed from all ranks' arguments together; in particular all ranks agree on the redistribution flags and on which remaps exist. If the dimensions, or the collective setting of a remap, differ between ranks, a run can end with one rank waiting for ever.", "quantifier": "all numbers of ranks >= 1, all boxes on every rank (valid or not), all dimensions, permutations, settings and area arithmetics; all executions", "why_tests_cant": "tests run few rank counts with valid, regular layouts; mismatched collectives appear only for particular combinations of boxes on different ranks", "anchors": ["src/fft3d.cpp:FFT3d::setup", "src/fft3d.cpp:FFT3d::remap_forward_create", "src/fft3d.cpp:FFT3d::remap_inverse_create", "src/fft2d.cpp:FFT2d::setup", "src/remap3d.cpp:Remap3d::setup", "src/remap2d.cpp:Remap2d::setup", "src/error.cpp:Error::all"]}
{"id": "C50", "title": "only_1d_ffts transforms lines in place and moves nothing", "statement": "After setup, only_1d_ffts(in,flag) on every rank replaces consecutive stretches of nfast values of the rank's array by their (forward or conjugate) DFT, as many as the rank's fast layout has lines, then of the result stretches of nmid values, as many as the mid layout has lines, then stretches of nslow values (FFT2d: fast, then slow). Values stay where they are, no scaling is applied, values beyond fftsize and all other arrays are unchanged, no other rank's data is used, and every execution completes.", "quantifier": "all rank counts, tilings, permutations, settings and dimensions accepted by setup, all array contents, both directions, all executions; exact real arithmetic", "why_tests_cant": "the test programs use only_1d_ffts for timing on zeroed arrays and never look at the result", "anchors": ["src/fft3d.cpp:FFT3d::only_1d_ffts", "src/fft2d.cpp:FFT2d::only_1d_ffts", "src/fft3d.cpp:FFT3d::perform_ffts"]}
{"id": "C51", "title": "Rounding error of the 1d transform", "statement": "kiss_fft of length n with rounded arithmetic (each add, subtract, multiply, halving within relative error u plus an underflow term) and a rounded twiddle table: unless the data is so large that overflow is possible, every output is finite and differs in modulus from the exact (forward or conjugate) DFT of the inputs by at most ((1+u)^k - 1) times the sum of the moduli of the inputs (plus the underflow term), in place and out of place, and no other cell changes. k, the number of roundings from an input to an output, is at most (2t+8) log2 n for n = 2^a 3^b 5^c, where t is the error of a table entry in units of u; and (1+u)^k - 1 <= ku/(1-ku).", "quantifier": "all lengths below 2^31, both directions, all finite inputs, strides and offsets, every arithmetic satisfying the rounding model, every table of the stated accuracy", "why_tests_cant": "a test sees the error of one input on one machine; the bound is over all inputs and lengths, and the tests of the repository compare with a fixed tolerance", "anchors": ["src/kissfft.h:kiss_fft", "src/kissfft.h:kf_work", "src/kissfft.h:kiss_fft_alloc"]}
{"id": "C52", "title": "Rounding error of the distributed transforms", "statement": "With rounded arithmetic as in C51, compute of FFT3d and FFT2d on all ranks gives, in every execution and layout, finite values within ((1+u)^K - 1) times the sum of the moduli of the whole input grid of the exact multi-dimensional DFT, K being the sum of the 1d counts of C51 over the dimensions (plus those of the scaling factor and its use when backward scaling is on, where the bound is divided by the number of grid points). A forward transform followed by a backward one returns every input value (times the number of grid points if scaling is off) within the corresponding bound with 2K roundings. Redistribution adds no error, and cells outside the transform's share are untouched.", "quantifier": "all rank counts, tilings, permutations, settings, dimensions accepted by setup (under the guards of C25-C33), all finite inputs that cannot overflow, all executions, every arithmetic satisfying the rounding model", "why_tests_cant": "tests measure one grid and one set of random values; the worst case over inputs and the independence from the processor grid are not observable", "anchors": ["src/fft3d.cpp:compute", "src/fft2d.cpp:compute", "src/fft3d.cpp:scale_ffts", "src/kissfft.h:kiss_fft"]}
{"id": "C53", "title": "The rounding model holds of IEEE doubles and floats", "statement": "IEEE binary64 (default build) and binary32 (-DFFT_SINGLE) arithmetic satisfy the rounding model of C51 with u = 2^-53 and 2^-24. If the C library's cos and sin err by at most c * 2^-53 for arguments up to 7 in modulus, the twiddle table kiss_fft_alloc computes for any length below 2^31 (phase rounded three times from the double M_PI) is accurate to 15 + 2c roundings in double and to 2 in single precision (c up to a million); the normalisation factor 1/(nfast*nmid*nslow) is accurate to 3 and 2 roundings for up to 2^63 points. Hence the forward transform and the round trip of the default build, and the round trip of the single precision build, satisfy the bounds of C52.", "quantifier": "all finite operands without overflow, all lengths below 2^31, all indices, all grids of C52 with fewer than 2^63 points, every cos and sin of the stated accuracy", "why_tests_cant": "the table of a long transform has millions of entries and the accuracy of each depends on the platform; the tests only look at the final error on one platform", "anchors": ["src/kissfft.h:kiss_fft_alloc", "src/kissfft.h:kf_cexp", "src/fft3d.cpp:setup", "src/fft3d.cpp:scale_ffts", "src/fftdata.h"]}
{"id": "C54", "title": "All 1d back ends give the same transform", "statement": "Built with FFTW2, FFTW3 or KISS, and with MKL if every rank has lines to transform in every layout, compute (every direction, scaling, remaponly, in place or not) and only_1d_ffts have exactly the same executions and results, so the forward transform is the DFT and the backward one its inverse; setup_ffts succeeds and deallocate_ffts destroys every plan it created exactly once, also where equal lengths share plans. With MKL a rank that owns no lines asks the library for a batch of zero transforms, outside what the library promises.", "quantifier": "every back end, accepted setup, settings, direction, data and schedule", "why_tests_cant": "a build uses one back end only; batches depend on the layout of every rank", "anchors": ["src/fft3d.cpp:FFT3d::setup_ffts", "src/fft3d.cpp:FFT3d::perform_ffts", "src/fft3d.cpp:FFT3d::scale_ffts", "src/fft3d.cpp:FFT3d::deallocate_ffts", "src/fft2d.cpp:FFT2d::setup_ffts", "src/fft2d.cpp:FFT2d::perform_ffts", "src/ffttype.h"]}
{"id": "C55", "title": "Test programs lay the grid out correctly", "statement": "For every number of ranks and grid within int, test3d, test2d (grids given or chosen) and simple choose processor grids whose product is the number of ranks (test3d and test2d one of least true surface up to a relative 2^-49, for test3d's output in modes 1 and 3 of the xy plane with one plane in z), give every rank the box [floor(i n/p), floor((i+1) n/p)) in each dimension although they compute it in doubles, so input and output boxes tile the grid and setup accepts exactly the grids whose dimensions are products of 2, 3, 5 above 1. test2d in modes 1 and 3 calls setup with permute = 2, which FFT2d does not have: undefined behaviour.", "quantifier": "all rank counts, grid sizes, modes, given processor grids, with processors times grid dimension below 2^53", "why_tests_cant": "the tests are these programs; rounding of 1.0*ip*n/np can only go wrong for large sizes", "anchors": ["test/test3d.cpp:proc_setup", "test/test3d.cpp:proc3d", "test/test3d.cpp:proc2d", "test/test3d.cpp:grid_setup", "test/test2d.cpp:proc_setup", "test/test2d.cpp:grid_setup", "test/test2d.cpp:plan", "test/simple.cpp:main"]}
{"id": "C56", "title": "What a whole run of the test programs does and reports", "statement": "Running initialize() and nloop round trips in place ends, on every schedule, with every value of rank r at point p multiplied by 1 if its position is below the rank's number of output points and by (number of grid points)^nloop otherwise, the reported maximum error is exactly the largest resulting deviation, and memory outside the work array's first 2*fftsize scalars is unchanged. So with equal input and output processor grids test3d and test2d report 0 and simple reports 0; with -r every value is unchanged in any arithmetic. With default grids test3d in mode 1 on 8 ranks (5x5x5) reports at least 125^nloop - 1 and test2d in mode 0 on 4 ranks (5x5) at least 25^nloop - 1 for a correct transform.", "quantifier": "all accepted layouts, settings, initialisations, seeds, loop counts and schedules", "why_tests_cant": "a test run checks one size; the failing ones need ranks with more input than output points", "anchors": ["test/test3d.cpp:main", "test/test3d.cpp:initialize", "test/test3d.cpp:validate", "test/test2d.cpp:main", "test/test2d.cpp:initialize", "test/test2d.cpp:validate", "test/simple.cpp:main", "src/fft3d.cpp:FFT3d::compute"]}
{"id": "C57", "title": "validate() reports the exact worst deviation", "statement": "The Max error printed by -v is 0 or some deviation, and at least every deviation, between the two values of a point on any rank and the ones initialize() wrote there (step, index, zero or the rank's random stream). A value that is not a number is not noticed: the reported error can be 0.", "quantifier": "all contents of the work arrays, layouts, initialisations and seeds", "why_tests_cant": "a validation that misses points or compares against wrong values passes exactly when it should not", "anchors": ["test/test3d.cpp:validate", "test/test2d.cpp:validate"]}
{"id": "C58", "title": "The random numbers of the test programs", "statement": "For seeds from 1 to 2^31-2 random() replaces the seed by 16807*seed mod 2^31-1 without int overflow, never reaches 0, and repeats only after 2^31-2 numbers. The seed 2^31-1, which options() accepts, gives only zeros.", "quantifier": "all seeds and stream positions", "why_tests_cant": "the period has two thousand million elements", "anchors": ["test/test3d.cpp:random", "test/test2d.cpp:random"]}
{"id": "C59", "title": "The command line of the test programs", "statement": "options() of test3d and test2d accepts exactly the command lines that are sequences of documented options with their arguments and whose values pass the sanity checks, and sets exactly the globals they name: each global ends with the value of the last option that names it, or with its default; settings for communication, exchange and packing are always in range. If every number fits an int, a command line accepted by rank 0 is accepted by every rank with the same globals except that the seed has the rank added, and every other message than the seed's is the same on all ranks. A number is what its decimal figures after blanks and sign say, up to the first other character, and 0 for a word without figures. Numbers up to 1290 cause no undefined behaviour. An accepted line with mode 0, equal processor grids, no -r and no -tune runs to a reported error of exactly 0 in exact arithmetic. Not so: seed 0 stops rank 0 but not rank 1; the product of the processor grid can overflow; test2d rejects -n 0 with -tune, which test3d accepts.", "quantifier": "all argument lists, ranks, numbers of ranks, grids, initial contents", "why_tests_cant": "infinitely many argument lists; the divergence between ranks shows only as a hang", "anchors": ["test/test3d.cpp:options", "test/test2d.cpp:options", "test/test3d.cpp:error_all"]}
{"id": "C60", "title": "The grid printed by the test programs", "statement": "output(0,..) prints, rank after rank and in storage order, one line for every point of the grid with its owner and its two values, no point twice and no other point. output(1,..) does the same for the output layout if every rank has as many output as input points and the data is not permuted. Otherwise, with default grids, it can divide by zero, print points outside the grid, leave out points, and print values beside the wrong point.", "quantifier": "all grids, layouts, numbers of ranks, array contents", "why_tests_cant": "only chosen grids would be printed and compared by eye", "anchors": ["test/test3d.cpp:output", "test/test2d.cpp:output"]}
{"id": "C61", "title": "The error the test programs print in IEEE arithmetic", "statement": "In double and in single precision, validate() prints the greatest deviation of the work array from the initial values up to a relative error of 2^-53, if the array is finite. With output parts at least as large as input parts, after any number of round trips the array is finite and this deviation is at most (growth^nloop - 1) times the size of the data (plus the rounding of the initial values to float), where growth is 1 + points*((1+u)^roundings - 1). So test3d and test2d in mode 0 with equal processor grids print at most about 4*nloop*points*roundings*u times the size of the data whenever 4*nloop*points*roundings*u <= 1. In single precision with -i seed even a run without transforms prints a positive error.", "quantifier": "all grids, layouts, settings, numbers of ranks, initial data, seeds, numbers of round trips, executions, and all C libraries whose cos and sin have bounded error", "why_tests_cant": "a run shows the error of one input on one machine; the bound holds for all inputs and interleavings", "anchors": ["test/test3d.cpp:validate", "test/test3d.cpp:initialize", "test/test2d.cpp:validate", "src/fft3d.cpp:compute", "src/fft2d.cpp:compute"]}
{"id": "C62", "title": "The Fortran interfaces deliver every argument to C", "statement": "Every routine of src/*_wrap.f90 is bound to an existing C function (the _fortran variant where there is one) with an interoperable result and the same parameters in the same order, every C function has such a routine, and for all variables of the caller each C parameter receives what its type asks for: numbers, handles and data pointers by value, results, the new handle and keywords by address. The only exceptions are fft3d_setup_memory and fft2d_setup_memory: there C receives the addresses of the two pointer variables instead of the buffers.", "quantifier": "all routines and all variables (addresses and values) of the caller", "why_tests_cant": "a Fortran compiler cannot check bind(c) interfaces against C; the Fortran test programs never call setup_memory or the remap interface", "anchors": ["src/fft3d_wrap.f90", "src/fft2d_wrap.f90", "src/remap3d_wrap.f90", "src/remap2d_wrap.f90", "src/fft3d_wrap.h", "src/fft2d_wrap.h", "src/remap3d_wrap.h", "src/remap2d_wrap.h"]}
{"id": "C63", "title": "The Python classes call C as documented", "statement": "FFT3dMPI and FFT2dMPI: the constructor calls create once with communicator, precision and the address of the handle, or exits without a C call if the precision is not 1 or 2. Every method except setup_memory has the parameters of its C function, makes exactly one C call, to that function, with handle and arguments in place (for arguments of the right types, ints in 32 bits) and returns what C returned or stored. For all sequences of method calls with all arguments, valid or not, caught exceptions included, the C calls of an object are create, then calls that fit their prototypes on the handle create stored, then destroy exactly once at the end; no handle of another object is touched. setup_memory raises UnboundLocalError for all numpy arrays and never reaches C; Remap3dMPI and Remap2dMPI cannot be constructed (AttributeError); ints beyond 32 bits reach C reduced modulo 2^32.", "quantifier": "all arguments, all sequences of method calls, all states, and every C library (any function of the words it receives; for lives: one that writes only its result arguments)", "why_tests_cant": "only a few calls with valid arguments are tried; invalid arguments, exceptions and deletion at any point are unbounded in number", "anchors": ["src/fftmpi.py:FFT3dMPI", "src/fftmpi.py:FFT2dMPI", "src/fftmpi.py:Remap3dMPI", "src/fftmpi.py:Remap2dMPI", "src/fft3d_wrap.h", "src/fft2d_wrap.h"]}
{"id": "C64", "title": "Any mix of operations on one object runs to the end, each as if it were alone", "statement": "After setup, any sequence of compute, only_1d_ffts, only_remaps, only_one_remap, barriers and writes of the caller to its array, the same on all ranks and each legal for the sizes setup returned, runs to its end in every execution: no deadlock, no message of one operation taken by another, no access out of bounds. Array lengths stay, arrays that are not the output of an operation stay, and so does everything beyond fftsize complex values. Each operation computes from the cells it reads the same result it would compute alone on any other memory with the same input. Barriers do not change any array. In particular a trial of tune() ends on all ranks for every nper, flag and tflag and makes the calls the per-rank model of tune() logs, and the test programs end for every mode, with or without -r and -t, and any number of loops; the array validate() sees in modes 0 and 1 is that of C56.", "quantifier": "all sequences of operations, all rank counts, grids, layouts, settings and arithmetics, all executions (both readings of standard-mode sends)", "why_tests_cant": "Interleavings of consecutive operations (a rank already in the next operation while another is still in the last) depend on timing; sequences are unbounded.", "anchors": ["src/fft3d.cpp:tune_trial", "src/fft2d.cpp:tune_trial", "src/fft3d.cpp:only_remaps", "src/fft3d.cpp:only_one_remap", "src/fft3d.cpp:only_1d_ffts", "test/test3d.cpp:main", "test/test2d.cpp:main", "test/test2d.cpp:timing"]}
{"id": "C65", "title": "Several objects on one communicator do not disturb each other", "statement": "Any sequence of legal calls on any number of FFT3d, FFT2d, Remap3d and Remap2d objects that share one communicator, the caller's arrays and the send and receive buffers, mixed with barriers and writes of the caller, runs to its end on all ranks in every execution; arrays no call writes and cells beyond the largest share keep their contents; every call computes, from the cells it reads, what it would compute alone. Two streams of calls on different arrays may be interleaved in any order that is the same on all ranks: each ends with the result it has without the other. The order must be the same on all ranks: otherwise messages of different objects (all sent with tag 0) are taken for each other without an error.", "quantifier": "all rank counts, all sets of objects with their layouts, dimensions, permutations and settings (under the guards of C01-C33), all sequences and interleavings of their operations, all memory contents, all executions, every arithmetic", "why_tests_cant": "the test programs create one object; a message of one object received by another depends on timing and on the sequence of calls, of which there are infinitely many", "anchors": ["src/remap3d.cpp:remap", "src/remap2d.cpp:remap", "src/fft3d.cpp:compute", "src/fft2d.cpp:compute", "src/fft3d.cpp:setup_memory"]}
{"id": "C66", "title": "Communication volume and balance of the layouts", "statement": "In a remap, rank r sends rank q (q different from r) exactly nqty scalars for every grid point that is in r's input tile and in q's output tile, and q expects exactly as many; without collective communication this is one message, or none if the tiles share no point, and a rank exchanges nothing with itself. All ranks together send nqty scalars for every point that changes its owner, whatever the communication mode, packing mode and permutation. compute() and only_remaps() send two scalars for every change of owner along the chain input layout, fast, (brick,) mid, (brick,) slow, output layout (reversed for the backward path) and nothing else; only_1d_ffts() sends nothing. In the layouts the library chooses itself, every rank has in every divided dimension the size over the number of parts, rounded down or up, and the numbers of parts multiply to the number of ranks.", "quantifier": "all rank counts, layouts, dimensions, permutations, settings, flags, in 2d and 3d, every arithmetic", "why_tests_cant": "the test programs check results and time, not what is sent: a remap that sends points twice, sends to itself or divides the work unevenly gives the right result", "anchors": ["src/remap3d.cpp:setup", "src/remap3d.cpp:remap", "src/remap2d.cpp:setup", "src/remap2d.cpp:remap", "src/fft3d.cpp:setup", "src/fft3d.cpp:compute", "src/fft2d.cpp:setup", "src/fft2d.cpp:compute", "src/fft3d.cpp:only_remaps"]}
{"id": "C67", "title": "Allocation failure", "statement": "Whatever allocations fail during setup() of a remap or FFT, the first failing one that matters decides the outcome: setup stops with the message belonging to that array, before any use of it. Exceptions, exactly: pflag and pgroup in collective setup have no test and are used when NULL (a pgroup of a rank without messages is never used, its failure is harmless); KISS plans have no test either, setup ends normally and a later transform is undefined iff it uses a plan whose allocation failed or the temporary array of one of its 1d transforms fails. If nothing that matters fails, setup ends and later remaps use live arrays only. With point-to-point communication setup never has undefined behaviour. tune()'s array is written to without a test after srealloc.", "quantifier": "all patterns of failing allocations, all message counts and buffer sizes, all communication modes, memory modes, dimensions, numbers of lines, in 2d and 3d", "why_tests_cant": "allocations do not fail in tests; the failure of the k-th allocation for every k and every shape cannot be provoked", "anchors": ["src/remap3d.cpp:setup", "src/remap2d.cpp:setup", "src/fft3d.cpp:setup", "src/fft2d.cpp:setup", "src/fft3d.cpp:setup_ffts", "src/fft3d.cpp:tune", "src/memory.cpp:smalloc", "src/memory.cpp:srealloc", "src/kissfft.h:kiss_fft_alloc", "src/kissfft.h:kiss_fft_stride"]}
{"id": "C68", "title": "The Fortran test programs", "statement": "test3d_f90, test2d_f90 and simple_f90 agree with the C++ programs as far as this: (layout) if 2*P*n+P+1 < 2^24 for every dimension n, P the number of ranks, the boxes computed in single precision, less one, are the tiles of the chosen processor grid, partition the grid and suit the library's setup; beyond that points can be lost (2^24+1 points on one rank). (options) For words of at most 10 characters the Fortran program accepts a command line iff the C++ program does, with the same settings, except: a word READ cannot read stops it, test2d_f90 also accepts -n 0 with -tune, -i step and -i index always stop it, and the time of -tune without a decimal point counts thousandths. Longer words differ: a number is cut after 10 characters and a word after 32 in 3d, 64 in 2d, without a message. (data) zero and random starts fill exactly the cells the C++ program fills with the same values; the unreachable step and index code writes in front of the array in 3d and leaves values unset in 2d. (checks) validate computes the C++ deviation with seedinit, hence 0 for an untouched array on rank 0 and at least 2^-31 on any other rank with points; -v never prints a computed deviation. output() always reads in front of the array. timing() of test3d_f90 executes what test3d executes except that the loops timing the fourth remap run no backward remap, and nothing at all in modes 2 and 3. A setting passed without final zero takes effect iff the next byte in memory is zero, else nothing changes. simple_f90 fills 1,2,3,... and reports the greatest deviation from it.", "quantifier": "all dimensions, numbers of ranks, processor grids, command lines, seeds, boxes, array contents, rounding functions with the stated laws (IEEE single precision among them)", "why_tests_cant": "these programs are the tests: a test program that never prints a computed error, or loses points only for large grids, passes every run; agreement for all command lines and grids is not sampled", "anchors": ["test/test3d_f90.f90:options", "test/test3d_f90.f90:grid_setup", "test/test3d_f90.f90:initialize", "test/test3d_f90.f90:validate", "test/test3d_f90.f90:output", "test/test3d_f90.f90:timing", "test/test3d_f90.f90:plan", "test/test2d_f90.f90:options", "test/test2d_f90.f90:initialize", "test/test2d_f90.f90:validate", "test/test2d_f90.f90:output", "test/simple_f90.f90"]}
{"id": "C69", "title": "The Python test programs", "statement": "test2d.py accepts a command line iff test2d does, with the same settings, except where int() or float() raises. test3d.py agrees with test3d exactly for processor grids with 1 in z (or none given) and at least one iteration: other valid grids are rejected, and it accepts grids that do not match the number of ranks, even one with 0 in z. The processor grid it chooses factors the number of ranks and minimises the surface computed with integer division, which need not be the true surface (4x4x4 points on 64 ranks: 48 ranks get no point); its boxes are the tiles of that grid and partition the points. random() gives the states of the C++ generator for all seeds 0..2^31-1. test3d.py runs the operations of test3d in modes 0 and 1 and fails in modes 2 and 3; test2d.py runs those of test2d. output() fails on every rank when there are several, and prints the lines of the C++ program on one. simple.py prints rank 0's deviation, not the greatest.", "quantifier": "all command lines, numbers of ranks, dimensions, modes, seeds, loop counts, boxes, array contents", "why_tests_cant": "agreement of two parsers and of the grid search for all inputs is beyond sampling; the failing cases need particular grids, modes or rank counts", "anchors": ["test/test3d.py:options", "test/test3d.py:proc3d", "test/test3d.py:proc2d", "test/test3d.py:grid_setup", "test/test3d.py:random", "test/test3d.py:output", "test/test2d.py:options", "test/test2d.py:proc2d", "test/test2d.py:output", "test/simple.py"]}
{"id": "C70", "title": "Rounding error in the Euclidean norm (RMS error)", "statement": "With rounded arithmetic as in C51 and C52, the Euclidean norm of the error of a transform (1d, or distributed 2d/3d, in every execution and layout) is at most ((1+u)^K - 1) times the norm of the exact result (which is sqrt(number of points) times the norm of the input, by Parseval), plus a term of the size of the smallest normalised number times points squared; K is the sum over the dimensions and over the radices p that the code factors them into of ceil(sqrt p) times the roundings of one radix-p butterfly, at most (6t+24) log2 of the length for lengths 2^a 3^b 5^c. So the relative RMS error grows with the logarithm of the grid, whatever the data (C52 bounds each value by the sum of all moduli). Forward followed by backward returns the input with relative error (1+u)^(2K+s+2) - 1 in the norm, hence also with that error relative to the norm at each point. For a 1024^3 grid in double precision with a libm within 3 units this is below 2e-13. Outputs are finite; cells outside the share are untouched.", "quantifier": "all lengths below 2^31, rank counts, tilings, permutations, settings, dimensions accepted by setup (under the guards of C25-C33), all finite inputs that cannot overflow, all executions, every arithmetic satisfying the rounding model; IEEE double and single as instances", "why_tests_cant": "an RMS error measured on random data says nothing about the worst input; a worst case over all data and all grids cannot be sampled", "anchors": ["src/kissfft.h:kf_bfly2..kf_bfly_generic,kf_work,kiss_fft", "src/fft3d.cpp:compute,scale_ffts", "src/fft2d.cpp:compute,scale_ffts"]}
{"id": "C71", "title": "Norm of the error of the test programs' round trips", "statement": "Under the conditions of C61, after nloop round trips the Euclidean norm (RMS) of the deviation of the work arrays from the data initialize() stored is at most ((1+u)^(K*nloop) - 1) times the norm of those data (plus an underflow term), with K as in C70: the relative RMS error grows with nloop and the logarithm of the grid, not with the number of points. No single value, hence not the error test3d/test2d print, is further off than that norm plus the rounding of the initial values. So in mode 0 with equal processor grids the programs print a finite number of at most (1+2^-53) (2*nloop*K*u*(sqrt(points)*17/12*(largest initial value) + underflow term) + rounding of the initial values) whenever 2*nloop*K*u <= 1, for up to 2^62 points in double and 2^38 in single precision: below 2e-7 for 10 round trips of 1024^3 random numbers in double precision.", "quantifier": "all grids, layouts, settings, numbers of ranks, initial data, seeds, numbers of round trips, executions, and all C libraries whose cos and sin have bounded error", "why_tests_cant": "a run shows the error of one input on one machine and grid; the bound holds for all of them and all interleavings", "anchors": ["test/test3d.cpp:validate", "test/test3d.cpp:initialize", "test/test2d.cpp:validate", "src/fft3d.cpp:compute", "src/fft2d.cpp:compute"]}
{"id": "C72", "title": "Error bounds where the compiler fuses products with sums", "statement": "A C++ compiler may contract a*b+c to a fused multiply-add (gcc does by default where the processor has one, the XL compiler of src/Makefile.mira too). Whichever products of the butterflies, of C_MUL, of HALF_OF and of the scaling are kept exact until they are added, the 3d and 2d transforms and round trips have the error bounds of C53 (every value) and C70 (Euclidean norm), with the same constants, in double and in single precision; where nothing is fused the operations are the IEEE ones, where a product is fused there is one rounding for product and sum. If procfactors and surfarea are compiled so, the processor grids are still legal and within 1+2^-49 of the least surface. They need not be the same grids, though: 18 processes that do not all run the same code disagree on the pencils of a 16x16x16 grid, and two of them claim the same points.", "quantifier": "all choices of the fused products (by history of the operands; by grid for surfarea), grids, layouts, settings, numbers of ranks, data without overflow, executions, and all C libraries whose cos and sin have bounded error", "why_tests_cant": "a test runs one compiler's choice on one machine; the results of two compilers differ in the last figures, so there is no reference to compare with but a bound", "anchors": ["src/kissfft.h:kf_bfly2", "src/kissfft.h:kf_bfly3", "src/kissfft.h:kf_bfly4", "src/kissfft.h:kf_bfly5", "src/fft3d.cpp:compute", "src/fft2d.cpp:compute", "src/fft3d.cpp:procfactors", "src/fft3d.cpp:surfarea", "src/Makefile.mira"]}
{"id": "C73", "title": "tune makes the trials the manual describes and takes tmax plus one setup at most", "statement": "Let ts and tf be rank 0's times for the setup and the one round of transforms (a pair for flag 0) of the test run, ts >= 0 and tf > 0. A tune() that returns makes exactly these calls: the test run with the settings it was given; two broadcasts; the 9, 6, 3, 2, 1 or 0 trials of the manual in its order, as many as there is time for when one run takes ts + tf (one trial only if the given settings are not the defaults); the setup with the settings chosen; the clock is read, after a barrier, around every part. Each trial has niter rounds, with the details (1d transforms, all remaps, each remap, as many rounds each) if tflag is 1, if ten such runs fit into tmax or tmax is 0; else as many rounds as fit into a tenth of tmax; else, without the details, as many as fit; else one round without the details. If no setup takes longer than ts and no round of any part longer than the test run suggests, the time from the first to the last reading of the clock is at most tmax + ts if the test run is within tmax, 2 ts + tf if it is not, and 10 (ts + niter tf) + ts or 10 (ts + 3 niter tf) + ts without a limit. tmax itself can be exceeded, because the final setup is left out of the estimate. Details asked for are dropped silently when time is short, and with niter 1 there can then be two rounds per trial; never more than niter otherwise.", "quantifier": "all object states that a history of calls leads to, all layouts, clocks (values of MPI_Wtime), arguments, rank 0 and other ranks, 2d and 3d", "why_tests_cant": "the schedule depends on measured times; a test sees the few schedules its machine happens to produce", "anchors": ["src/fft3d.cpp:731-1013 (tune)", "src/fft3d.cpp:1015-1102 (tune_trial)", "src/fft2d.cpp:684-955 (tune)", "doc/api_tune.txt:55-121"]}
{"id": "C74", "title": "The result vectors of tune contain the averages of what was measured", "statement": "After a tune() that returns, entry i of cflags, eflags, pflags, tfft, t1d, tremap, tremap1 to tremap4 (3 in 2d), for each i below ntrial, describes one trial, in the order the trials were made: the settings are those of the setup of that trial; tfft is the time between the two readings of the clock around its transforms, divided by the number of transforms made there; t1d, tremap and tremapN likewise for only_1d_ffts, only_remaps and only_one_remap with which = N, or 0 if the details were not measured; npertrial is the number of rounds. With time for one trial or none the test run is entry 0. setuptime is the time of the final setup, with the settings reported as best. besttime is the recorded time of a trial with these settings, except that after the test run alone it is rank 0's time, which on another rank need not be the time that rank recorded.", "quantifier": "all object states that a history of calls leads to, all layouts, clocks, arguments, rank 0 and other ranks, 2d and 3d; besttime: no time reaches 1e20 s", "why_tests_cant": "the times differ from run to run; a wrong index, a missing division or a clock read in the wrong place gives plausible numbers", "anchors": ["src/fft3d.cpp:756-976 (tune)", "src/fft3d.cpp:1015-1102 (tune_trial)", "src/fft2d.cpp:684-955", "doc/api_stats.txt:33-43"]}
{"id": "C75", "title": "The report of the C++ and C test programs states what was measured", "statement": "A run of test3d or test2d (C++ or C, modes 0 to 3, at least one loop) on rank 0 that ends prints exactly the lines of the report in their order, and each states what its title says: the library, the grids and the settings of the object; for each trial of a tuning one line, in order, with element i of each result vector; the numbers of transforms and of processes; the bytes allocated for the grid (element size times 2 fftsize) and memusage, divided by 2^20; the maximum error if validate() was called; as each time the difference of two readings of the clock, each after a barrier, between which exactly the calls of the title were made: partitioning and creating plus allocating and initialising, without setup or tuning, for 'Initialize grid'; setup, or the object's setuptime after a tuning; the tuning, or 0; the loop of transforms; with -t the loops of 1d transforms only, of all remaps, of each remap. The time per transform is the time divided by the number of transforms; the flop rate is 5 n log2(n) divided by that time and by 2^30, and the fractions are those of the time of the transforms, if that is not 0. The C programs print the same as the C++ programs and make the same calls. Ranks other than 0 print nothing. The program ends if the vectors have an element for each trial and twice the number of loops is an int. The calls are those of the program of C64, plus validate() and output().", "quantifier": "all options, clocks (values of MPI_Wtime), objects that the constructor, setup and tune leave, numbers of processes; 2d and 3d", "why_tests_cant": "the tests print these numbers and nobody checks them; a wrong divisor, a clock read at the wrong place or a wrong vector gives plausible output", "anchors": ["test/test3d.cpp:206-252 (main)", "test/test3d.cpp:552-600 (plan)", "test/test3d.cpp:789-996 (timing)", "test/test2d.cpp:205-251", "test/test2d.cpp:496-542", "test/test2d.cpp:711-896", "test/test3d_c.cpp", "test/test2d_c.cpp"]}
{"id": "C76", "title": "Where the reports of the Fortran and Python test programs differ from those of the C++ programs", "statement": "Whenever the C++ program's run on rank 0 ends (at least one loop): (Python) the Python program makes the same calls and prints the same lines with the same values, except for titles (test3d.py says '2d brick proc grid' and 'time/fft2d', test2d.py prints '\\#' in three lines), unless it raises an exception, which happens exactly if the time of the transforms is 0 or, in 3d, in modes 2 and 3; (Fortran) the Fortran program prints the same lines with the same values, except that the 3d title of a trial has small letters, 'Initialize grid' includes the setup time (without tuning) or subtracts the setup time instead of the tuning time (with tuning), and 'Max error' is a variable that was never set; it validates without -v only, and in 3d it calls only_one_remap with which = 5 for the backward remap 4 in modes 0 and 1 and for remap 4 in modes 2 and 3; all other calls are the same. Its result is undefined exactly if the bytes of the grid or, in 2d, the number of grid points exceed a default integer.", "quantifier": "all options, clocks, objects, numbers of processes; 2d and 3d", "why_tests_cant": "the differences look like plausible numbers; the overflow needs a large grid, the exception a clock that does not advance", "anchors": ["test/test3d_f90.f90:128-190", "test/test3d_f90.f90:824-1101", "test/test2d_f90.f90:734-984", "test/test3d.py:518-697", "test/test3d.py:720-772", "test/test2d.py:459-621", "test/test2d.py:644-696"]}
{"id": "C77", "title": "The packing routines with 32-bit ints", "statement": "Every routine of pack3d.h and pack2d.h, run with 32-bit int arithmetic in which overflow is undefined, does what the same routine does with unbounded integers (same elements copied to the same places, undefined exactly when an access is out of bounds), for every plan whose fields are positive ints and arrays of at most INT_MAX elements, under exactly these conditions. Packing, and unpacking without permutation: none for the array and pointer versions, at most INT_MAX bytes per line for the memcpy version; longer lines are copied only up to their number of bytes modulo 2^32 (read as a signed int), and memcpy is called with a huge size if that is negative. Permuting array versions: if and only if the index reached after the last line is an int. Permuting pointer and memcpy versions: if and only if the length of a line is an int and, if pointers may only point into an array or one past it, 'end' of the last line does so. For the plans of Remap3d::setup and Remap2d::setup with at most INT_MAX numbers per tile: packing and unpacking are as with unbounded integers, the memcpy version if a line of the packed tile has at most INT_MAX bytes, the permuting array version if the tile has at most 2^30 numbers. Not without these bounds: a line of 2^28 complex doubles is not packed at all by the memcpy version, one of 2^27 ends in a memcpy of 2^64 - 2^31 bytes; the permuting array version overflows on a tile of INT_MAX numbers where the pointer version does not; 'end' lies beyond one past the array already for a tile of 2 x 2 points.", "quantifier": "all plans, tiles, overlaps, offsets, numbers per point, element sizes (2d: 8 bytes), contents, the three packing methods, all permutations; 2d and 3d", "why_tests_cant": "the failures need tiles of gigabytes, and the formal violation of pointer arithmetic shows on no machine", "anchors": ["src/pack3d.h:60-784", "src/pack2d.h:60-435", "src/remap3d.cpp:230-420", "src/remap2d.cpp:220-380"]}
{"id": "C78", "title": "Remaps and transforms with 32-bit ints", "statement": "A whole remap, and any sequence of calls of compute() of a 3d or 2d transform, run with packing routines that calculate in 32-bit ints (overflow is undefined), ends in every execution as it does with unbounded integers, provided the arrays have at most INT_MAX numbers and, for a remap: nq times the points of every in and out tile is at most INT_MAX; with the memcpy method a line of an in tile (and, without permutation, of an out tile) has at most INT_MAX bytes; with the array method and a permutation nq times the points of every out tile is at most 2^30. For a transform made by setup() it suffices that 2*fftsize of every rank is at most INT_MAX (2^30 with the array method) and, with the memcpy method, that a line of complex numbers along each direction of the grid has at most INT_MAX bytes; then forward transforms leave the DFT and round trips give back the data. Not without the bound on lines: a remap of 2^28 complex doubles in one line on one rank with the memcpy method ends without error and leaves every array as it was.", "quantifier": "all rank counts, layouts, permutations, numbers per point, methods of communication and packing, contents, sequences of calls, schedules; 2d (8-byte numbers) and 3d", "why_tests_cant": "the bounds are reached only with gigabytes per rank, and the failing call reports nothing", "anchors": ["src/remap3d.cpp:629-711", "src/remap2d.cpp:582-664", "src/fft3d.cpp:560-605", "src/fft2d.cpp:526-565", "src/pack3d.h:60-784", "src/pack2d.h:60-435"]}
{"id": "C79", "title": "The values of a transform do not depend on how the grid is distributed", "statement": "In any arithmetic, in particular in IEEE doubles and floats bit by bit, the forward transform of a grid of data depends on these data only: for any number of processes, input and output layouts, permute, collective, exchange, packflag, choice of arrays (under the guards of C25) and schedule, each process ends with the same values at the same grid points, and nothing beyond 2*fftsize or in other arrays changes. The same holds of the backward transform (with scaling: if no process has more points on input than on output, see C26) among jobs in which input and output are laid out alike (equal boxes on every process, permute 0), and among jobs in which they are not. Between the two kinds it is false, since they transform the dimensions in opposite orders: in doubles a job of one process and a job of two can return 2^-60 and 0 at the same point for the same spectrum.", "quantifier": "all arithmetics, grid dimensions accepted by setup, data, rank counts, tilings, permutations, settings, schedules; 3d and 2d", "why_tests_cant": "tests compare with a tolerance and never compare two process counts or layouts bit by bit; the claim is about all pairs of layouts", "anchors": ["src/fft3d.cpp:285-295", "src/fft3d.cpp:560-605", "src/fft2d.cpp:288-297", "src/fft2d.cpp:526-565"]}
{"id": "C80", "title": "Output boxes need not tile the grid for remaps and forward transforms", "statement": "setup() does not check the output boxes. If they overlap or leave points out, a remap still gives every process, at each point of its output box that some process has on input, the value of that point, in every execution, and leaves the cells of the other points of its output box as they were. If the input boxes tile the grid and the output boxes lie inside it, a forward transform leaves in every process the DFT at every point of its output box, and nothing beyond 2*fftsize or in other arrays changes (under the guards of C25). There is no way back: from boxes that leave points out, forward followed by backward does not give the data times the number of points.", "quantifier": "all disjoint input boxes, all output boxes (for transforms: legal and inside the grid), data, rank counts, permutations, settings, schedules; 3d and 2d", "why_tests_cant": "all test programs tile the grid on output; the claim is about every family of boxes", "anchors": ["src/remap3d.cpp:95-330", "src/remap2d.cpp:95-320", "src/fft3d.cpp:257-273", "src/fft3d.cpp:365-420", "src/fft2d.cpp:260-276"]}
{"id": "C81", "title": "Messages of the caller on the library's communicator", "statement": "The library sends on the caller's communicator itself, with tag 0. Programs of the caller that exchange messages with tag 0 between the calls and leave none behind may run before, between and after calls on any objects without a barrier: every execution ends as if the parts ran one after the other. Messages of the caller with another tag or on another communicator, pending or not and in any order with the calls, never make a call do something undefined or change its result, and a call waits only for ranks that are at calls of the caller; if the caller starts an exchange before the calls and completes it after them, every execution of both ends with the result each has alone. A message with tag 0 that is pending during a call breaks this: the library takes it for its own without an error and the caller receives grid data, or the call fails because the message is too long.", "quantifier": "all rank counts, objects, calls legal for their sizes, programs of the caller (without wildcard receives), data, completion policies and schedules", "why_tests_cant": "the test programs send no messages of their own; the outcome depends on what is pending and on timing", "anchors": ["src/remap3d.cpp:69", "src/remap3d.cpp:646-657", "src/remap2d.cpp:69", "src/remap2d.cpp:599-610", "src/fft3d.cpp:115"]}
{"id": "C82", "title": "Convolution: forward transform, multiplication in the output layout, backward transform", "statement": "A caller that runs compute() forward in place, multiplies the value of every point of its own output box by G at that point (where the permuted output layout puts it, leaving all other cells alone), and runs compute() backward in place ends, on every rank, with the cyclic convolution of its input with the backward transform of G at every point of its input box in the input order; if G is the forward transform of g, with the convolution of x and g times the number of grid points, or exactly that convolution when the backward call is scaled and every rank has at least as many output points as input points. The cells beyond the FFT's own work area, the other array and all array lengths stay as they were. As for C26, the exchange buffers sized by setup() are assumed to suffice for the backward call in 3d, which holds for exchange=0.", "quantifier": "all grids, rank counts, settings, tiling input and output layouts, permutations, inputs and multipliers (exact arithmetic), schedules", "why_tests_cant": "the test programs never multiply between the two transforms; correctness must hold for every kernel, layout and schedule", "anchors": ["doc/layout.txt:154-166", "doc/api_setup.txt:188-195", "src/fft3d.cpp:560-605", "src/fft2d.cpp:526-565"]}
{"id": "C83", "title": "All operations of an FFT object, the trials of tune() and the test programs do not overflow 32-bit ints on tiles that are small enough", "statement": "With 32-bit ints, where overflow is undefined, any sequence of compute, only_1d_ffts, only_remaps, only_one_remap, barriers and length-keeping writes of the caller ends in every execution with exactly the memory it has with unbounded integers, if twice the largest tile is at most INT_MAX (2^30 for packflag array) and, for packflag memcpy, a line of each dimension has at most INT_MAX bytes. So does every trial of tune(). So do the test programs (initialize, FFT loop, timing section, every mode, initialisation and flag) if in addition, for -i index, nx+ny+nz-2 <= INT_MAX (nx+ny-1 in 2d) and, in 3d, a rank without points has a box whose first two sides multiply to at most INT_MAX; validate() then computes the same error. Without these conditions the test programs overflow: -i index on 2147483647 x 2 x 2 points however small the tiles; 2*nfft_in for a rank with 2^30 points; nfft_in itself for an empty box with large sides.", "quantifier": "all grids, rank counts, settings, layouts, programs, memories whose arrays have at most INT_MAX elements, schedules", "why_tests_cant": "overflow needs tiles of 2^29 points and more or lines of 2^28, and undefined behaviour can look right", "anchors": ["src/fft3d.cpp:620-703", "src/fft2d.cpp:580-662", "src/fft3d.cpp:1026-1101", "test/test3d.cpp:526", "test/test3d.cpp:618-660", "test/test3d.cpp:720-782", "test/test3d.cpp:789-908", "test/test2d.cpp:474", "test/test2d.cpp:560-596"]}
{"id": "C84", "title": "Laws of the transforms hold between runs of compute()", "statement": "In exact arithmetic, for all layouts, settings, permute values and schedules, in 3d and 2d: a forward call on a*x+b*y (complex a, b) yields a times the result for x plus b times the result for y; a forward call on x moved by d around the grid yields the result for x times exp(-2 pi i (d.k/N)) at wave vector k; a forward call on real data yields values that are conjugate at k and -k (modulo the dimensions); a forward call on z yields from Y(k) and Y(-k) the results of forward calls on its real part, (Y(k)+conj Y(-k))/2, and on its imaginary part, (Y(k)-conj Y(-k))/(2i); the sum of |X|^2 over the grid is the number of points times the sum of |x|^2; a backward call on data with conjugate values at k and -k leaves exactly zero in every imaginary part, scaled or not; forward call, multiplication by such a multiplier and backward call turn real data into real data.", "quantifier": "all grids, rank counts, settings, layouts, permute values, fields, factors, shifts, schedules; exact arithmetic", "why_tests_cant": "each law relates several runs for all fields and layouts; a test compares single fields on a few layouts, up to rounding", "anchors": ["src/fft3d.cpp:560-605", "src/fft2d.cpp:526-565", "src/kissfft.h:154-166", "doc/layout.txt:154-166"]}
{"id": "C85", "title": "The token of output() orders the printing and disturbs nothing", "statement": "output() of the test programs passes an empty message from rank to rank, with tag 0 on the communicator world, the queue that the library's own messages use. For every number of ranks, completion policy of MPI_Send and interleaving: output() ends on all ranks, each having done its part exactly once; in every state of every execution of any program that runs to its end, followed by output(), followed by anything, the ranks that have printed are a first part of 0..n-1, so the lines appear rank after rank; if the part of a rank is undefined (division by zero of output(1,..), C60) that point can be reached under every policy. The test programs with -o end, in every mode, with or without -t and -r, with exactly the memory they have without -o; the first output is that of the filled array, the last that of the array after the FFTs, in the layout of C60; both orders hold there too. In modes 2 and 3 this is under the guard of C60 that each rank has as many output points as input points.", "quantifier": "all rank counts, contents, completion policies of MPI_Send, interleavings, states of executions; for the test programs all grids, layouts, settings, modes, -t and -r, loop counts", "why_tests_cant": "whether a token on the library's own queue can be taken for a library message, and whether the order can be violated, depends on the interleaving and the completion of sends, which a test does not control", "anchors": ["test/test3d.cpp:668-715", "test/test3d.cpp:214-252", "test/test2d.cpp:604-642", "test/test2d.cpp:213-253"]}
{"id": "C86", "title": "output() and the test programs with -o are right in 32-bit ints, and when not", "statement": "With every int expression of output() evaluated in 32 bits and overflow undefined (nfft_in, nxlocal and nylocal, m % nxlocal, m / (nxlocal*nylocal), the global indices, 2*m and 2*m+1): if each rank's input box is in the grid and twice its points fit in an int (and, for a box without points, the product of its first two sides), output(0,..) prints, for every array, exactly the lines it prints in unbounded integers; output(1,..) does if moreover each output box is in the grid and has as many points as the input box. The test programs with -o, in which initialize(), the clearing loops, the packing, the remaps and output() are all in 32-bit ints, end under the conditions of C83 and the guard of C60, in every execution, every mode, with or without -t and -r, with the memory that the program in unbounded integers has without -o; the two outputs are those of the array as filled and as transformed, each grid point once; the ranks print in order. Without the conditions it is false: a rank with 2^30+1 points, a number that fits, overflows in 2*m; a rank with one input point and an output box of 65536 x 32768 points overflows in nxlocal*nylocal, where unbounded integers would print the line.", "quantifier": "all grids, layouts, contents, rank counts, settings, modes, initialisations, -t and -r, loop counts, completion policies of MPI_Send and interleavings", "why_tests_cant": "the overflow needs arrays of gigabytes per rank or degenerate layouts; printing such grids is never done in a test; the order of the ranks depends on the interleaving", "anchors": ["test/test3d.cpp:668-715", "test/test3d.cpp:214-252", "test/test3d.cpp:526", "test/test2d.cpp:604-642", "test/test2d.cpp:213-253", "test/test2d.cpp:474"]}
