# KML in Rocq: design

Source modelled: `/repo` (shkevin/KML), C++ core under `tools/cpp/KML`, plus the
float-typed Cython containers. The code is not built or run; the model is a
transcription by reading.

## 1. Shape of the model

* **Outcomes.** Every C++ call is a total Gallina function into
  `outcome A = Ret a | Throw e | Undef u` (`Outcome.v`). `Undef` is undefined
  behaviour (null/dangling dereference, out-of-bounds access, read of an
  uninitialised cell, integer division by zero, signed overflow, out-of-range
  cast, violated library precondition), kept distinct from exceptions and from
  values.
* **Arithmetic.** All numeric code is written once over a record of operations
  `arith` (`Arith.v`) and instantiated twice: `B64` = IEEE-754 binary64, round to
  nearest even (Flocq `BinarySingleNaN`, executable; this is the code's real
  arithmetic) and `RA` = the reals (what the code computes without rounding).
  Theorems stated for every `A : arith` hold in both, NaN and infinities
  included. Each theorem says which arithmetic it is about.
* **State.** Each class is a record of its data members; methods are functions
  `state -> outcome state` (or `outcome (state * result)`). Containers of the
  standard library are lists; `size_t` members whose wrap-around matters
  (RingBuffer) are `N` with explicit `mod 2^64`; `int` marker positions of P2
  are `Z` with an explicit overflow check; other counters are `nat`
  (unreachable 2^64 wrap ignored).
* **Heap.** LinkedList nodes live in an explicit heap (finite map location ->
  node) where freed or null locations are absent; histogram bins are values plus
  allocation/deallocation counters.
* **Concurrency.** RingBuffer and LinkedList have a second, small-step model in
  which each shared-memory access is one step and threads interleave arbitrarily
  (sequentially consistent; the C++ data race itself is UB). `WeakMem.v` runs
  RingBuffer's accesses on weak memory.
* **Oracles.** `log2` is a parameter of the entropy model; the theorems about
  exact arithmetic instantiate it with the real binary logarithm.

Files: `X.v` the model of class X (no proofs), `XFacts.v` the proofs,
`Spec.v` the independent specification vocabulary, `P*.v` only property
theorems, closed by `exact`, each followed by a non-vacuity example and
`Print Assumptions`. `Replay.v` replays the repository's own unit tests on the
model in binary64 by `vm_compute` (a test of the transcription).

## 2. Plan per property

| Property | What is modelled | How it is proved |
|---|---|---|
| C01-C03 | RingBuffer over cells `option T`, head/tail/full in N mod 2^64 | refinement to a list queue by induction over the call history |
| C04 | small-step threads, mutex, one access per step | invariant over schedules + commutation to lock order |
| C05 | same model, unlocked reader | constructed schedule for every W |
| C06 | batch update as a monadic fold | algebra of the fold, per class |
| C07-C08, C10-C12 | node heap | representation invariant (segment of linked nodes), induction over history |
| C09 | both models | both refine the same queue |
| C13 | small-step LinkedList update | witness schedule |
| C14-C15 | Utils over B64 | Flocq rounding lemmas |
| C16 | Utils over B64 and RA | real arithmetic, witness |
| C17-C19 | Utils, IBin | case analysis, generic arithmetic |
| C20-C22 | histogram, generic arithmetic | invariants by induction over updates |
| C23, C31, C32, C35 | histogram | general or concrete failing histories |
| C24, C26-C30, C33 | histogram over RA (some B64) | invariants: sorted bins; multiset abstraction |
| C25 | histogram over B64 | no-UB invariant inside the window; witnesses beyond |
| C34 | allocation counters | invariant |
| C36-C40 | StreamingMean/Variance | refinement to the window list; exactness on integers with Flocq |
| C41-C47 | StreamingP2Quantile, B64 and generic | marker/height invariants, Flocq bracketing lemma for the linear step |
| C48-C51 | WindowedP2Quantile, StreamingIQR | simulation and witnesses |
| C52-C56 | WindowedFAME, StreamingMAD | step invariants, multiples-of-step invariant |
| C57-C60 | StreamingEntropy over RA with real log2 | entropy recurrence + multiset abstraction; failing families |
| C61 | all counters | induction |
| C62 | binary64 -> binary32 -> binary64 conversion | Flocq format inclusion |
| C63 | WindowedFAME over B64 | halving until underflow, then absorption |
| C64 | independent transcription of the Jain-Chlamtac algorithm (`P2Jain.v`) | step-by-step representation relation; the paper's table replayed |
| C65 | StreamingMAD | simulation by two independent FAME runs |
| C69-C71 | histogram inside its window, separated data | invariant over the bins (disjoint, covering, exact counts), instantiated for reals and doubles |
| C72 | histogram quantile | closed form on two-valued data |
| C73-C75 | StreamingMean and StreamingVariance over B64 | error invariant (1+u)^(2n)-1 with Flocq; stream of ties for the lower bound |
| C76-C77 | WindowedFAME | two-phase descent argument; zero-step invariant over B64 |
| C78 | StreamingP2Quantile, WindowedP2Quantile, StreamingIQR | commutation with an affine map, step by step |
| C79-C80 | StreamingHistogram, StreamingEntropy | commutation with a scaling; modest-edges invariant |
| C81-C82 | WindowedFAME, StreamingMAD | commutation with a scaling; step bound |
| C83-C84 | constructors and destructors | heap accounting invariant over all programs |
| C85-C86 | StreamingP2Quantile | deviation invariant for the three inner markers (reals and doubles); markers stay collinear on ramps |
| C87-C88 | WindowedFAME | counting argument while the step is constant; step halved k times, then one step per observation |
| C89-C90 | RingBuffer, LinkedList, threads | data race = two conflicting next accesses in a reachable state; lock-holder invariant; explicit schedules |
| C91 | WindowedP2Quantile | invariant over blocks of W + 1 observations: last position = 4 + late observations |
| C92 | StreamingHistogram | the deque of indices is W zeros followed by the indices of the observations, minus those popped |
| C93 | StreamingHistogram | the invariant of C92 with no zeros and only W - n free places |
| C66-C67 | Python values, argument conversion, constructors, update loop | induction over the iterable; Flocq for int -> double; PPyArgs.v: the parameters of a constructed object are the arguments |
| C68 | live-object counters per class | induction over events |
| C94 | WindowedFAME, StreamingMAD | distance to the interval: decreases by a step or is below the step, which halves; with epsilon > 0 an absorbing region of (distance, step) |
| C95 | StreamingEntropy | forward error analysis; the factor (n-1)/n contracts the error so that it grows linearly |
| C96 | StreamingEntropy | invariant of the sliding histogram carried through decrement and increment; telescoping over bursts |
| C97 | StreamingP2Quantile | invariant of the published algorithm along the ones: the marker position grows like q N, each move adds a multiple of q^2 times the relative step, summed to a logarithm |
| C98 | IStreamingHistogram | relative error of the quotients and of each addition, induction along the running sum; strict growth of the entries; concrete run for the excess |
| C99 | StreamingMean, StreamingVariance, WindowedFAME, StreamingMAD | relation between the two runs, preserved by every operation on doubles; concrete runs for P2 and the histogram |
| C100 | PyStreamingHistogram | Python calls refine to C++ calls, strictly increasing left edges keep dict keys apart, composition with C33 and C69; PPyArgs.v: dict assignment and order of the map keys |
| C101 | RingBufferConc.v | `moves` counts the used turns; each call fits its longest path; rounds over the running threads finish all their calls; readers finish in their own turns (PRingSteps.v) |
| C102 | AllocFail.v (update stopped at push_back) | the window is a fold over events, exact sums follow; W successes replace every entry |
| C103 | AllocFail.v (add stopped at its three allocations) | monotone total, bounds by induction over events |
| C104 | PyIterate.v: Python code as a coinductive tree, threads as stacks of update loops, turns chosen by a schedule | history of calls replays to the object (induction over turns); faults traced to the first failing call; instances from C01, C10, C37 |
| C105 | PyIterate.v | three-phase invariant of a feeding thread under arbitrary other threads; symbolic execution of single-thread programs |
| C106 | Wrap64.v: the same updates with counters modulo 2^64 | simulation: same window and sum, wrapped counter; restart at count 0 |
| C107 | Printing.v: print operators over an abstract number format | loop = intercalation; prefix-free parsing of the text |
| C108 | FailMake.v: the constructors on a heap that stops serving requests | triples (accepted, requests, blocks, losses) for constructor combinators |
| C109 | WeakMem.v: RingBuffer.tcc on memory with happens-before views and stale reads | stuttering simulation by the sequentially consistent machine without the observers; knowledge invariants |
| C110 | Work.v: the update functions again with a count of element accesses | the answers are those of the model; bounds by structural rules; log2 halving |
| C111 | Histogram.v, P2.v, Fame.v, MAD over doubles, streams with NaN | invariant: NaN bins are never part of a merged pair; markers above a NaN stay NaN; a NaN moves neither branch of FAME |
| C112 | Members.v: assignments to m_windowSize, m_window, m_historyCount between calls | invariant on the written cells of the buffer; simulation of a longer buffer by its prefix; sum minus window sum is constant |
| C113 | Contract.v: the contractible expressions with a choice at each | the bracket of P2 proved for an arbitrary formula; the rounding analyses of C75 and C95 with one rounding less |
| C114 | a relative comparison with an infinite argument is false; results of + and - are finite only if the operands are | front position of the bin search; absorption by induction on the stream; equality of FAME states |
| C115 | the state after any choice of failing allocations in update | simulation of the failing run by a run over the kept observations; recurrence of the error; NaN and dangling index by symbolic execution of the first W+1 calls |
| C116 | results on data scaled by a power of two, in doubles | rounding commutes with powers of two away from the ends of the range (Flocq); lower bounds on non-zero sums from the spacing of doubles; then commutation of every function with the scaling, induction over the data |
| C117 | results on permuted data | the window invariants (C02, C06), the exact histogram of separated data (C26), uniqueness of sorted lists; for P2 the sort of the first five and a fold over the continuation; concrete pairs where the order matters |
| C118 | the histogram of data in well separated groups | invariant: each bin inside one group, bins sorted by group, counts per group; a full histogram has two neighbouring bins of one group (pigeonhole), whose gap is definitely smaller than any gap between groups |
| C119 | the histogram of increasing data with non-shrinking gaps | closed form by induction on the number of data: the search ends at the end, the first gap is never definitely undercut, so the first two bins are merged each time |
| C120 | one outlier and the P2 median | invariant c <= h0 <= .. <= h4 and c < h2 kept by each adjustment (a parabola is taken only strictly inside, a line moves at most half way); eight observations worked out with the published algorithm (C64), scaled by affine equivariance (C78) |
| C121 | far observations and FAME, MAD | joint induction on the two streams; after j far observations the estimate is within (j+1) steps of the range, so the comparison with a far observation and the halving test have the same results in both |
| C122 | larger observations, larger estimates | mean: the exact formula, and in doubles a joint induction on two runs (rounded addition and division are monotone, an infinite sum stays); P2: insertion into sorted lists is monotone pointwise; the refutations by computation in doubles |
| C123 | data on a grid | the running sum stays a multiple of 2^e by an integer of at most 53 bits, so every addition and subtraction is exact; one rounding in the division; for 2^k observations the division is exact too |
| C124 | FAME on a grid | simulation between the double and the real run: a state on the grid 2^g of at most 53 bits makes median +- step, the difference and the halving exact; the median stays within one step of the data, the steps are powers of two times the last one |
| C125 | copies that throw | model of the state each function leaves behind when an operation on T throws; refinement to queues with failing operations; for LinkedList the invariant size = length - k modulo 2^64 |
| C126 | FAME, windowed P2, IQR and histogram quantiles on data scaled by a power of two, in doubles | as C116; for FAME the estimate is a multiple of a power of two that shrinks by one per observation, which bounds it away from zero; witnesses for the refuted parts |
| C127 | Range of the answers of WindowedP2Quantile and StreamingIQR, exact answer after a calm period | invariant over restarts: all five heights lie in the range of the data and are sorted from the fifth observation of a block on; on equal heights every adjustment is the identity; witness in doubles |
| C128 | evaluate() between observations does not change later answers when called outside the first four observations of a block | simulation between the asked and the unasked object: equal, or differing only in heights that the rest of the block overwrites; sorting is idempotent; witness in doubles for the excluded moments |
| C129 | Relative error bound of the double mean and variance while nothing leaves the window | induction over the stream with the sum of magnitudes as scale; relative error of every addition (also subnormal); witnesses for constants and for sliding windows |

## 3. Trusted base

1. Coq 8.16.1's kernel and the compiler that runs it (`vm_compute` is used, in
   `Example`s, `Replay.v` and the witness lemmas; `native_compute` is not).
2. The statements of the theorems in `P*.v` and the vocabulary they use
   (`*Spec.v`, `P2Jain.v`, `Defaults.v`).
3. The axioms printed by `Print Assumptions`, listed per theorem in
   `ASSUMPTIONS.md`. Only the standard library's occur:
   * none ("Closed under the global context") for the containers, counters,
     batch, window and lifetime theorems and the generic-arithmetic ones;
   * `ClassicalDedekindReals.sig_forall_dec` and
     `FunctionalExtensionality.functional_extensionality_dep` for theorems about
     real numbers;
   * additionally `ClassicalDedekindReals.sig_not_dec` and
     `Classical_Prop.classic` for theorems about doubles (through Flocq, which
     adds no axiom of its own).
   The development itself has no axiom, admitted proof, section-less variable or
   switched-off check, and no functor or module type.
4. That the model matches the code. Every definition cites the lines it
   transcribes; `Replay.v` runs the repository's own tests on the model.

### Modelled code

| Source (under `tools/`) | Model | Simplifications |
|---|---|---|
| `cpp/.../RingBuffer.{h,tcc}` | `RingBuffer.v` | `size_t` as N modulo 2^64; `std::unique_ptr<T[]>` as a list of `option T` (None = uninitialised); allocation failure and the copy/move operations left out |
| same, threads | `RingBufferConc.v` | sequential consistency, one memory access per step, mutex as a flag |
| `cpp/.../LinkedList.{h,tcc}`, `Node.{h,tcc}` | `LinkedList.v` | heap as a finite map from locations to nodes; sizes in nat; display as the list of printed values |
| same, threads | `LinkedListConc.v` | all calls of the common interface; not display and the destructor |
| RingBuffer and LinkedList, operations of T that throw | `ThrowCopy.v` | which operation of a call throws is given by the event; `m_size` of LinkedList modulo 2^64 |
| `cpp/.../IDataStructure.*`, `IStreaming.*`, `IMetric.*`, `IStreamingStatistic.*` | `Outcome.v` (batch update), members inlined in each record | the deque of IStreaming is an `option (list _)` |
| `cpp/.../Utils.{h,cc}` | `Utils.v` | `std::log2` a parameter; the message printed by xlogx dropped |
| `cpp/.../IBin.{h,tcc}` | `IBin.v` | `operator<<` in `Printing.v` (C107) |
| `cpp/.../IStreamingHistogram.{h,tcc}`, `StreamingHistogram.{h,tcc}` | `Histogram.v` | bins by value plus allocation counters; counters in nat; the (ill-formed) copy and move operations left out; int/size_t conversions of bin indices as naturals with an explicit out-of-range outcome |
| `cpp/.../StreamingMean`, `StreamingVariance` | `Mean.v` | counters in nat |
| `cpp/.../StreamingP2Quantile`, `WindowedP2Quantile`, `StreamingIQR` | `P2.v` | `std::sort` as insertion sort; marker positions in Z with overflow check; iostream output dropped |
| `cpp/.../WindowedFAME`, `StreamingMAD` | `Fame.v` | heap objects inlined |
| `cpp/.../StreamingEntropy` | `Entropy.v` | `ceil(log2(windowSize))` in the constructor as the integer upper logarithm (C60 says when the double computation agrees) |
| constructors and destructors of all statistics, the metric and the histogram | `Ownership.v` | only `new`/`delete` expressions of the library, not the storage inside `std::` containers; addresses are never reused; an update that throws ends the program |
| `cython/kml/**/*.pyx` | `PyFloat.v`, `Cython.v`, `PyHist.v`, `PyIterate.v` | annotations carry no check (Cython 0.29); Python values reduced to float, int, None, iterable, other; a float as size left open; `isinstance(x, Iterable)` as the constructor `PyIter`; the dict of `report` as its list of entries in insertion order, keys compared with `==`; truth values of arguments left open; the state after an exception thrown inside a C++ update not described |

Decimal literals such as `0.0001` are `lit m d`, which is proved
(`FloatFacts.lit_nearest`) to be the double nearest to the rational m/d. The
double operations are IEEE-754 binary64 to nearest even without contraction
(no fused multiply-add, no extended precision, no `-ffast-math`); `Contract.v`
has the expressions a compiler may contract with a choice at each (C113).

### Not modelled

* `AdaptiveNormalizer`, `ITransformer`, `IOptimizer`,
  `StochasticGradientDescent`: declarations without usable bodies.
* Copy/move constructors and assignments (those of IBin copy the fields, i.e. are
  the identity), the message of `xlogx` on stdout. How a stream formats a double is
  a parameter (`Printing.v`).
* Allocation failure, except in constructors (`FailMake.v`) and in the update
  calls of StreamingMean, StreamingVariance and StreamingHistogram
  (`AllocFail.v`) and of StreamingEntropy (`EntropyFail.v`); the result containers of
  `pdf`, `cdf`, `report` assume that memory suffices.
* 2^64 wrap-around of counters, except RingBuffer's indices and the history
  counters of the statistics (`Wrap64.v`, C106). By C61 a history counter is the
  number of calls, the total count of the histogram stays within the window (C21), bin
  counts within the number of calls, the size of LinkedList within the memory.
* The C++ memory model, except for RingBuffer (`WeakMem.v`, C109: happens-before
  views, stale plain reads, races marked). There values appear neither out of thin
  air nor from writes that come later in the order of execution; a real compiler
  may do anything after a race. LinkedList's concurrent model is sequentially
  consistent only; C13 exhibits wrong results already there.
* Build files, `setup.py`. Python code around the objects is an arbitrary
  behaviour (`PyIterate.v`): code of `__iter__`, `__next__` and `__float__` is not
  told apart, and that a C++ call is not interleaved with Python code rests on
  the interpreter lock.

Not expressible in this model: running times (C110 counts accesses to elements; not
counted are arithmetic and the reallocation of vectors), what a program does after a
data race, the format of floating-point values on a stream, classes whose code cannot be instantiated
(`AdaptiveNormalizer`, `ITransformer.tcc`, `IOptimizer`, declared-only move
constructors, the ill-formed histogram copy/move operations).

## 4. What the proofs found

Violations of what the code or its documentation promises, each a theorem:

| Where | What | Theorem |
|---|---|---|
| RingBuffer | windowSize 0: first update is undefined | C02 |
| RingBuffer | `size`/`empty`/`full` unlocked: impossible values | C05 |
| LinkedList | `reset`/destructor of an empty list dereference null; nodes leaked | C10, C11 |
| LinkedList | `full()` means non-empty | C12 |
| RingBuffer | `size`, `empty`, `full` race with `update`, `pop`, `reset` | C89 |
| LinkedList | concurrent updates lose items, concurrent pops are undefined; update races with every call, the mutex of reset protects nothing | C13, C90 |
| Utils | tolerance order is no strict weak order; infinities undecided | C14, C16 |
| Histogram | sliding window charges expiries to the wrong bins, later out of bounds | C23, C25 |
| Histogram | quantile undefined for an empty or single bin, not monotone | C31 |
| Histogram | reset keeps the total count; bins leaked; far-apart doubles | C32, C34, C35 |
| Histogram | quantile exceeds every bound on data of two values, depends on the unit; a shift of the data changes the number of bins | C72, C79 |
| Mean | windowed mean drifts by a constant at every observation | C74 |
| Mean / Variance | drift, NaN contamination, negative or cancelled variance in doubles | C38, C39, C75 |
| Variance | public window and history counter never maintained | C40 |
| P2 | NaN quantile accepted; zero padding below five; evaluate mutates; int overflow | C41, C44, C45, C47 |
| WindowedP2 / IQR | default window divides by zero; extrapolating weights; negative IQR | C48, C49, C51 |
| Histogram | the window's deque starts with W zeros: observations are kept for 2 W updates and W expiries are charged to the smallest bin | C92 |
| Histogram | reset keeps the total count: a reset after n observations leaves a window of W - n and masses that add up to less than one; a reset straight after construction repairs C92 | C93 |
| WindowedP2 | marker positions survive every restart and overflow after about 2^31 (W+1)/(W-4) observations | C91 |
| FAME / MAD | step underflow freezes the estimate; a step size that is not positive freezes it at a first observation of zero; negative MAD in doubles; MAD grows by at most 0.1 per observation in any unit; the FAME estimate can be 1/2 when all but k+1 of 5*2^k observations are c | C63, C77, C56, C82, C88 |
| Entropy | undefined when the bins run out (the unit test TestUniformEntropyWithDecrement is such a stream); negative when sliding; null window | C58, C59 |
| Memory | a deleted StreamingEntropy leaves its histogram and bins; a throwing StreamingIQR constructor leaves a WindowedP2Quantile | C84 |
| StreamingEntropy | the evicted value is taken out with the count over the last 2W observations; the reported entropy of a sliding window can exceed every bound while the window is constant | C96 |
| StreamingP2Quantile | the estimate of a low quantile follows a change of the data only like 3 q^2 ln(N/m): after 10^5 zeros and 10^9 ones the 0.1-quantile estimate is still below 1/3 | C97 |
| IStreamingHistogram::cdf | the last entry can exceed 1 in doubles (nine equal masses), and quantile() at it throws | C98 |
| IStreamingHistogram::pdf | the density of a narrow bin can overflow to infinity | C27 |
| StreamingP2Quantile | the median of negated data is not the negated median: 4 for 1, 2, 4, ..., 64 and below -9 for their negatives | C99 |
| PyStreamingHistogram | quantile(0.5) of a new histogram is undefined behaviour in the interpreter instead of an exception | C100 |
| RingBuffer | a thread stopped between lock and unlock blocks all later update/pop/reset (C101); nothing in the code can stop it there except the scheduler, since the guarded bodies do not wait (and lock_guard would unlock if copying an element threw) |
| Variance | std::bad_alloc in the second push_back puts the two means out of step for windowSize updates: negative variance (C102) |
| Histogram | std::bad_alloc in m_window->push_back leaves the item counted but unrecorded: total and number of bins exceed their limits, the total for good (C103) |
| Python iterators | an iterator may use the object it feeds: its own calls land between its elements; a raising or endless iterator leaves its elements in the object | C104, C105 |
| WindowedP2Quantile, StreamingIQR | `windowSize = 2^64 - 1`: `m_windowSize + 1` wraps to 0, the first update divides by zero | C106 |
| StreamingMean, WindowedFAME, StreamingMAD | after 2^64 observations the counter is 0 again: mean 0, FAME restarts | C106 |
| StreamingVariance, StreamingIQR, StreamingMAD | bad_alloc while the second member is made: the first member leaks | C108 |
| RingBuffer::size | may still return 0 after another thread's update has returned (stale plain reads) | C109 |
| StreamingHistogram::update | an update that merges visits the whole index window, including the constructor's zeros: its work is not bounded by the number of bins | C110 |
| StreamingHistogram::merge | a gap next to a NaN bin never compares below the minimum; if all gaps are such, the initial l_minIndex = number of bins is used as an index | C111 |
| WindowedP2Quantile::evaluate | after a restart with fewer than five observations the stale markers are sorted, NaN included | C111 |
| IDataStructure::m_windowSize | public and not const although RingBuffer's allocation and both containers' logic depend on it never changing | C112 |
| IStreaming::getWindow | hands out the mean's internal deque; editing it shifts all later estimates | C112 |
| StreamingVariance::evaluate | on targets with contraction the variance of a single observation can be -1; clamp at 0 or compile with -ffp-contract=off | C113 |
| definitelyLessThan, StreamingHistogram | an infinity never compares less: plus infinity is counted in the lowest bin, minus infinity swallows later observations; reject non-finite input | C114 |
| StreamingMean, StreamingVariance, StreamingP2Quantile | one infinity (for the variance, one observation of 2^512) spoils the result for good | C114 |
| StreamingEntropy::update | the index is pushed before the histogram's update can throw: a failing update leaves it behind, later decrements divide 0 by 0 (NaN for good) or read past m_bins; push after the update, or pop on exceptions | C115 |
| IStreamingHistogram, IBin | which values share a bin depends on the unit of measurement beyond powers of two: 0.9999 and 1 m are one bin, 999.9 and 1000 mm are two | C116 |
| StreamingHistogram, StreamingP2Quantile, WindowedFAME | results depend on the order of the observations: 1, 5, 8, 12 in two bins counts 1,3 or 3,1; FAME of 1, 9 is 2, of 9, 1 it is 4.5 | C117 |
| IStreamingHistogram | N-1 outliers take N-1 bins; all the other data share one bin | C118 |
| StreamingHistogram | no bound on the width of a bin: on a steadily increasing stream the first bin swallows everything but the last numBins-1 observations | C119 |
| StreamingP2Quantile | not robust: one outlier shifts the median estimate by a fixed fraction of its distance, and in exact arithmetic the estimate never returns | C120 |
| WindowedFAME, StreamingMAD | bounded influence of outliers after the first observation, unlike P2 (C120); an outlier in first place sets the step | C121 |
| StreamingMean (sliding, doubles), StreamingP2Quantile, WindowedFAME | a larger observation can give a smaller estimate | C122 |
| StreamingMean, StreamingVariance | drift (C38, C74) and negative variances (C39) cannot occur for data on a binary grid of at most 53 bits including the window length | C123 |
| WindowedFAME | with epsilon 0 and data on a binary grid no rounding happens until the step has been halved below 53 bits; afterwards the double estimate departs from the real one | C124 |
| LinkedList | update links the new node before it evicts and counts after: if the copy made by the evicting pop throws, the window is one larger from then on and size() wrong by one, down to 2^64 - 1 for an empty list | C125 |
| RingBuffer | update assigns into the cell of the oldest item before it is dropped: an element type whose failed assignment leaves another value corrupts the oldest item | C125 |
| IStreamingHistogram | quantile interpolates inside a bin of width 0 as if it were 1/numBins wide, whatever the unit of the data: doubling the data does not double the quantiles | C126 |
| WindowedP2Quantile, StreamingIQR | answers up to windowSize - 1 spreads outside the data; once the data are calm the IQR is a negative multiple of the spread of a block that left the window | C127 |
| WindowedP2Quantile | evaluate() within the first four observations of a later block overwrites stored observations with leftovers, changing later answers | C128 |
| StreamingMean | the mean of three times 0.1 exceeds 0.1; with a sliding window half of the average of positive data can be lost after one large observation | C129 |
| Python | default `window_size=None` always raises; one-sided IQR range ignored; partial updates on error; leaks; single precision | C62, C66-C68 |

## 5. Mutation tests

`seeded/LOG.jsonl` records one line per attempted wrong program: the definition
edited, the edit, the claim it breaks, the theorems that stopped being provable
and what was tightened. A theorem counts as failed when a lemma its proof uses
no longer goes through on the edited model.
