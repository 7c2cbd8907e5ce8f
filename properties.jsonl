{"id": "C01", "title": "RingBuffer is a bounded drop-oldest FIFO", "statement": "For a RingBuffer built with windowSize W >= 1, after any history of update/pop/reset calls the buffer behaves exactly like a queue that keeps the most recent W items: every pop returns the oldest retained item (or a value-initialised T when nothing is retained), size/empty/full report that queue's length, and no call has undefined behaviour.", "quantifier": "every W with 1 <= W < 2^64, every element type and value, every finite sequence of update, pop, reset, size, empty, full calls", "why_tests_cant": "Tests push four items into a window of two; wrap-around behaviour depends on the whole interleaving of updates, pops and resets.", "anchors": ["tools/cpp/KML/include/data_structures/RingBuffer.tcc:RingBuffer::update", "tools/cpp/KML/include/data_structures/RingBuffer.tcc:RingBuffer::pop", "tools/cpp/KML/include/data_structures/RingBuffer.tcc:RingBuffer::reset", "tools/cpp/KML/include/data_structures/RingBuffer.tcc:RingBuffer::size"]}
{"id": "C02", "title": "RingBuffer never touches memory it does not own or has not written", "statement": "For windowSize W >= 1 every array access made by any history of calls is inside the W allocated cells and pop never returns an uninitialised cell; for windowSize 0 the very first update is undefined behaviour (write past an empty array and modulo by zero).", "quantifier": "every W, every history of calls", "why_tests_cant": "An out-of-bounds or uninitialised read usually goes unnoticed in a test run and depends on the head/tail positions reached.", "anchors": ["tools/cpp/KML/include/data_structures/RingBuffer.tcc:RingBuffer::RingBuffer", "tools/cpp/KML/include/data_structures/RingBuffer.tcc:RingBuffer::update", "tools/cpp/KML/include/data_structures/RingBuffer.tcc:RingBuffer::pop"]}
{"id": "C03", "title": "RingBuffer size arithmetic is right for every 64-bit window size", "statement": "size() equals the number of retained items, never exceeds W, full() holds exactly when size() = W and empty() exactly when size() = 0, even when the intermediate windowSize + head wraps around 2^64.", "quantifier": "every W with 1 <= W < 2^64, every reachable state", "why_tests_cant": "Wrap-around of size_t needs window sizes above 2^63, which no test can allocate.", "anchors": ["tools/cpp/KML/include/data_structures/RingBuffer.tcc:RingBuffer::size", "tools/cpp/KML/include/data_structures/RingBuffer.tcc:RingBuffer::full", "tools/cpp/KML/include/data_structures/RingBuffer.tcc:RingBuffer::empty"]}
{"id": "C04", "title": "RingBuffer update/pop/reset are linearizable under any schedule", "statement": "When any number of threads call update, pop and reset on one RingBuffer (W >= 1), then for every interleaving of their individual memory accesses the values returned and the final contents are those of executing the calls one at a time in the order in which they acquired the mutex.", "quantifier": "any number of threads, any per-thread programs, every schedule of individual memory accesses", "why_tests_cant": "Stress tests sample a vanishing fraction of the interleavings.", "anchors": ["tools/cpp/KML/include/data_structures/RingBuffer.tcc:RingBuffer::update", "tools/cpp/KML/include/data_structures/RingBuffer.tcc:RingBuffer::pop", "tools/cpp/KML/include/data_structures/RingBuffer.tcc:RingBuffer::reset", "tools/cpp/KML/include/data_structures/RingBuffer.h:m_mutex"]}
{"id": "C05", "title": "RingBuffer size() and empty() are not atomic with respect to concurrent updates", "statement": "size(), empty() and full() take no lock, so they are not linearizable: for every windowSize W >= 2 there is a schedule in which size() reports 0 and empty() reports true while the buffer held W-1 items before and W items after the only concurrent update, and a schedule in which size() returns 2^64-1.", "quantifier": "every W >= 2; existence of a schedule", "why_tests_cant": "The window between two assignments is a few instructions wide; tests do not hit it.", "anchors": ["tools/cpp/KML/include/data_structures/RingBuffer.tcc:RingBuffer::size", "tools/cpp/KML/include/data_structures/RingBuffer.tcc:RingBuffer::empty", "tools/cpp/KML/include/data_structures/RingBuffer.tcc:RingBuffer::update"]}
{"id": "C06", "title": "Batch update equals one-by-one update, and histories concatenate", "statement": "update(vector) leaves every structure and statistic in the state reached by calling update on its elements in order, so splitting a stream into batches in any way never changes any later answer; if an element makes the call undefined, the later elements are irrelevant.", "quantifier": "every class with a batch update, every split of every stream", "why_tests_cant": "There are exponentially many ways to split a stream.", "anchors": ["tools/cpp/KML/include/data_structures/IDataStructure.tcc:IDataStructure::update", "tools/cpp/KML/include/IStreaming.tcc:IStreaming::update"]}
{"id": "C07", "title": "LinkedList is a bounded drop-oldest FIFO without memory errors", "statement": "For a LinkedList with windowSize W >= 1, after any history of update/pop and of reset calls made while it is non-empty, pop returns the oldest retained item (T() when empty), size() is the number retained and never exceeds W, empty() is right, display() lists the retained items oldest first, and no call dereferences a null, freed or foreign node.", "quantifier": "every W >= 1, every history of update/pop/display and non-empty reset calls, over a heap-level model of nodes", "why_tests_cant": "Use-after-free and dangling tail/previous pointers depend on the particular mix of pops, evictions and resets.", "anchors": ["tools/cpp/KML/include/data_structures/LinkedList.tcc:LinkedList::update", "tools/cpp/KML/include/data_structures/LinkedList.tcc:LinkedList::pop", "tools/cpp/KML/include/data_structures/LinkedList.tcc:LinkedList::size", "tools/cpp/KML/include/data_structures/LinkedList.tcc:LinkedList::display"]}
{"id": "C08", "title": "A LinkedList with windowSize 0 is an unbounded FIFO", "statement": "With windowSize 0 no item is ever evicted: after any history of updates and pops the list holds every item not yet popped, in order.", "quantifier": "every history of update and pop calls on a list built with windowSize 0", "why_tests_cant": "A finite test cannot distinguish unbounded from large.", "anchors": ["tools/cpp/KML/include/data_structures/LinkedList.tcc:LinkedList::update"]}
{"id": "C09", "title": "LinkedList and RingBuffer are interchangeable windows", "statement": "For the same W >= 1, a LinkedList and a RingBuffer fed the same calls return the same values for every pop, size and empty, for histories of update, pop and non-empty reset.", "quantifier": "every W >= 1, every common history", "why_tests_cant": "It relates two implementations over all histories.", "anchors": ["tools/cpp/KML/include/data_structures/LinkedList.tcc:LinkedList::update", "tools/cpp/KML/include/data_structures/RingBuffer.tcc:RingBuffer::update"]}
{"id": "C10", "title": "LinkedList reset and destruction of an empty list are undefined behaviour", "statement": "reset() on a non-empty list yields an empty list that then behaves like a new one; reset() on an empty list (never filled, or emptied by pops) and destroying an empty list dereference a null pointer.", "quantifier": "every history ending in reset or destruction", "why_tests_cant": "Emptiness can be reached by arbitrarily long histories; the tests only reset a full list and never destroy a list.", "anchors": ["tools/cpp/KML/include/data_structures/LinkedList.tcc:LinkedList::reset", "tools/cpp/KML/include/data_structures/LinkedList.tcc:LinkedList::~LinkedList"]}
{"id": "C11", "title": "LinkedList node accounting: what is leaked", "statement": "At every moment the live heap nodes are exactly the retained nodes plus all nodes that were retained at some earlier reset; evicted and popped nodes are freed exactly once; neither reset nor the destructor frees any node.", "quantifier": "every history", "why_tests_cant": "Leaks are invisible to functional tests.", "anchors": ["tools/cpp/KML/include/data_structures/LinkedList.tcc:LinkedList::pop", "tools/cpp/KML/include/data_structures/LinkedList.tcc:LinkedList::reset", "tools/cpp/KML/include/data_structures/LinkedList.tcc:LinkedList::~LinkedList"]}
{"id": "C12", "title": "LinkedList full() means non-empty", "statement": "full() returns true exactly when at least one item is retained; it does not tell whether the window is full: for every W >= 2 a list with a single item already reports full.", "quantifier": "every W, every reachable state", "why_tests_cant": "The only test asks full() when the window really is full.", "anchors": ["tools/cpp/KML/include/data_structures/LinkedList.tcc:LinkedList::full", "tools/cython/kml/data_structures/LinkedList.pyx:full"]}
{"id": "C13", "title": "LinkedList update is not safe under concurrency", "statement": "update and pop take no lock; two concurrent updates on an empty list can lose an item: there is a schedule after which size() reports 2 although only one item can be popped.", "quantifier": "existence of a schedule of individual memory accesses", "why_tests_cant": "Data races are schedule dependent.", "anchors": ["tools/cpp/KML/include/data_structures/LinkedList.tcc:LinkedList::update", "tools/cpp/KML/include/data_structures/LinkedList.h:m_mutex"]}
{"id": "C14", "title": "Tolerance comparisons are exhaustive and exclusive on all finite doubles", "statement": "For all finite doubles a and b (and any finite epsilon >= 0) exactly one of definitelyLessThan(a,b), definitelyGreaterThan(a,b), approximatelyEqual(a,b) is true, even when a-b overflows; definitelyGreaterThan(a,b) equals definitelyLessThan(b,a). With an infinite or NaN argument all three can be false.", "quantifier": "all pairs of IEEE-754 binary64 values, all finite non-negative epsilons", "why_tests_cant": "2^128 pairs of doubles.", "anchors": ["tools/cpp/KML/src/utils/Utils.cc:approximatelyEqual", "tools/cpp/KML/src/utils/Utils.cc:definitelyGreaterThan", "tools/cpp/KML/src/utils/Utils.cc:definitelyLessThan"]}
{"id": "C15", "title": "Equality predicates are reflexive, symmetric and ordered by strength", "statement": "approximatelyEqual and essentiallyEqual are symmetric in their arguments and reflexive on finite doubles for epsilon >= 0, and essentiallyEqual(a,b) implies approximatelyEqual(a,b) on finite doubles.", "quantifier": "all pairs of binary64 values", "why_tests_cant": "2^128 pairs of doubles.", "anchors": ["tools/cpp/KML/src/utils/Utils.cc:approximatelyEqual", "tools/cpp/KML/src/utils/Utils.cc:essentiallyEqual"]}
{"id": "C16", "title": "definitelyLessThan is a strict partial order compatible with <, but not a strict weak order", "statement": "On finite doubles definitelyLessThan implies <, is irreflexive, asymmetric, transitive and monotone in both arguments for 0 <= epsilon <= 1/8 (in exact arithmetic for 0 <= epsilon < 1), rounding and overflow of the intermediate results included. Being neither definitely less nor greater is not transitive, so it is not a strict weak ordering of the kind sorted containers require.", "quantifier": "all triples of finite binary64 values, all triples of reals", "why_tests_cant": "Quantifies over all triples.", "anchors": ["tools/cpp/KML/src/utils/Utils.cc:definitelyLessThan", "tools/cpp/KML/include/data_structures/histograms/IBin.tcc:IBin::operator<"]}
{"id": "C17", "title": "xlogx is total on non-negative input and rejects exactly the negatives", "statement": "xlogx throws runtime_error exactly for inputs below zero, returns 0 at zero (either sign) and x*log2(x) elsewhere; NaN is passed through.", "quantifier": "all binary64 values", "why_tests_cant": "Every double, including signed zero, infinities and NaN.", "anchors": ["tools/cpp/KML/src/utils/Utils.cc:xlogx"]}
{"id": "C18", "title": "Adding bins adds counts and takes the hull up to the tolerance", "statement": "The sum of two bins has the sum of the counts; its left (right) edge is one of the two left (right) edges, and is the minimum (maximum) of them whenever they differ by more than the 1e-6 relative tolerance; otherwise the left operand's edge is kept, so the hull of the two bins may be cut by at most that tolerance. operator+= stores exactly that sum.", "quantifier": "all pairs of bins with finite edges", "why_tests_cant": "All pairs of doubles.", "anchors": ["tools/cpp/KML/include/data_structures/histograms/IBin.tcc:IBin::operator+", "tools/cpp/KML/include/data_structures/histograms/IBin.tcc:IBin::operator+="]}
{"id": "C19", "title": "Bin equality and order look only at edges", "statement": "Bins compare equal exactly when both edges are essentially equal (counts are ignored), and a bin is less than another exactly when its left edge is definitely less.", "quantifier": "all pairs of bins", "why_tests_cant": "All pairs of doubles.", "anchors": ["tools/cpp/KML/include/data_structures/histograms/IBin.tcc:IBin::operator==", "tools/cpp/KML/include/data_structures/histograms/IBin.tcc:IBin::operator<"]}
{"id": "C20", "title": "Histogram never exceeds its number of bins", "statement": "For every numBins and every history of updates and resets, size() <= numBins as long as the calls return; an update keeps the number of bins or adds one, never fewer.", "quantifier": "every arithmetic (all doubles including NaN), every numBins, windowSize, history", "why_tests_cant": "Depends on the whole stream of insertions, decays and merges.", "anchors": ["tools/cpp/KML/include/data_structures/histograms/StreamingHistogram.tcc:StreamingHistogram::update", "tools/cpp/KML/include/data_structures/histograms/IStreamingHistogram.tcc:IStreamingHistogram::add"]}
{"id": "C21", "title": "Total count is the number of updates capped by the window", "statement": "getTotalCount() equals min(number of update calls since construction, windowSize) after every update that returns, whatever the data and whatever resets happened in between.", "quantifier": "every stream, every numBins, windowSize, every placement of resets", "why_tests_cant": "All histories.", "anchors": ["tools/cpp/KML/include/data_structures/histograms/IStreamingHistogram.tcc:IStreamingHistogram::add", "tools/cpp/KML/include/data_structures/histograms/IStreamingHistogram.tcc:IStreamingHistogram::decayCounts", "tools/cpp/KML/include/data_structures/histograms/IStreamingHistogram.tcc:IStreamingHistogram::reset"]}
{"id": "C22", "title": "Bin counts agree with the total until the window first overflows", "statement": "From construction, as long as at most windowSize items were added, the bin counts sum to getTotalCount() = number of items and binCounts() returns them without throwing; after that, without reset, the counts sum to at least getTotalCount().", "quantifier": "every stream, numBins >= 1, windowSize", "why_tests_cant": "All streams.", "anchors": ["tools/cpp/KML/include/data_structures/histograms/IStreamingHistogram.tcc:IStreamingHistogram::binCounts", "tools/cpp/KML/include/data_structures/histograms/IStreamingHistogram.tcc:IStreamingHistogram::decayCounts", "tools/cpp/KML/include/data_structures/histograms/StreamingHistogram.tcc:StreamingHistogram::merge"]}
{"id": "C23", "title": "Sliding past the window corrupts the counts", "statement": "For every windowSize W >= 1, numBins >= 2 and every k > W, the stream a, b, b, ..., b (k times b, a definitely less than b) makes binCounts() throw 'Counts are somehow out of sync', because the index window is created with W zeros and the first W expiries are charged to bin 0.", "quantifier": "every W >= 1, numBins >= 2, k > W, every real pair and every finite double pair with a definitely less than b", "why_tests_cant": "The tests slide the window exactly once and by luck expire bin 0.", "anchors": ["tools/cpp/KML/include/data_structures/histograms/IStreamingHistogram.tcc:IStreamingHistogram::IStreamingHistogram", "tools/cpp/KML/include/data_structures/histograms/IStreamingHistogram.tcc:IStreamingHistogram::decayCounts", "tools/cpp/KML/include/data_structures/histograms/IStreamingHistogram.tcc:IStreamingHistogram::binCounts"]}
{"id": "C24", "title": "Bins stay strictly sorted, well formed and made of observed values", "statement": "For windowSize >= 1 and finite observations, after any history of updates and resets every bin has left <= right, both edges are values observed since the last reset, and left edges are strictly increasing.", "quantifier": "every history of finite observations, in exact arithmetic and in doubles, every numBins, windowSize >= 1", "why_tests_cant": "All streams.", "anchors": ["tools/cpp/KML/include/data_structures/histograms/IStreamingHistogram.tcc:IStreamingHistogram::add", "tools/cpp/KML/include/data_structures/histograms/IStreamingHistogram.tcc:IStreamingHistogram::mergeBins", "tools/cpp/KML/include/data_structures/histograms/StreamingHistogram.tcc:StreamingHistogram::merge"]}
{"id": "C25", "title": "Histogram updates are safe until the window overflows, and can be undefined afterwards", "statement": "For numBins >= 1, the first windowSize updates with doubles of magnitude at most 2^1022 never throw and never have undefined behaviour. Beyond the window stale bin indices are used: there is a five-item stream for (numBins 2, windowSize 1) whose last update indexes past the bin vector. With numBins 0 and windowSize >= 1 the first update is undefined. No update ever throws: the only failure is an out-of-bounds access.", "quantifier": "every stream of at most windowSize doubles; existence of the failing stream", "why_tests_cant": "All streams; out-of-bounds reads do not fail tests reliably.", "anchors": ["tools/cpp/KML/include/data_structures/histograms/IStreamingHistogram.tcc:IStreamingHistogram::decayCounts", "tools/cpp/KML/include/data_structures/histograms/StreamingHistogram.tcc:StreamingHistogram::update", "tools/cpp/KML/include/data_structures/histograms/StreamingHistogram.tcc:StreamingHistogram::merge"]}
{"id": "C26", "title": "Histogram of separated data is the exact multiset of values", "statement": "If at most windowSize items were added, any two of them are equal or definitely different, and there are at most numBins distinct values, then report() maps [v,v] to the number of occurrences of v for exactly the values seen, and binCounts() lists those multiplicities in increasing order of v.", "quantifier": "every such stream, in exact arithmetic and in finite doubles", "why_tests_cant": "All streams.", "anchors": ["tools/cpp/KML/include/data_structures/histograms/IStreamingHistogram.tcc:IStreamingHistogram::add", "tools/cpp/KML/include/data_structures/histograms/IStreamingHistogram.tcc:IStreamingHistogram::report", "tools/cpp/KML/include/data_structures/histograms/IStreamingHistogram.tcc:IStreamingHistogram::binCounts"]}
{"id": "C27", "title": "pdf and cdf are the normalised counts and their running sums", "statement": "pdf(true,false) divides each count by getTotalCount(), pdf(false,false) returns the counts, pdf(_,true) is count/(getTotalCount()*width) whether or not normalize is set (width 1 for zero-width bins); all entries are non-negative; cdf is the running sum of pdf(normalize,false) and is non-decreasing; inside the window its last entry is 1 and the density integrates to 1 over the bin widths. In doubles the entries of pdf(_,false) are finite and non-negative, cdf is non-decreasing, and its last entry is at least 1 - 2^-21 for up to 2^32 bins and 2^53 items; densities are never negative and never NaN, but the density of a narrow bin can overflow to infinity.", "quantifier": "every histogram; exact arithmetic for the sums, doubles for sign, monotonicity and last entry", "why_tests_cant": "All reachable histograms.", "anchors": ["tools/cpp/KML/include/data_structures/histograms/IStreamingHistogram.tcc:IStreamingHistogram::pdf", "tools/cpp/KML/include/data_structures/histograms/IStreamingHistogram.tcc:IStreamingHistogram::cdf"]}
{"id": "C28", "title": "binSearch returns the insertion point", "statement": "binSearch terminates, never reads outside the bins, and for bins sorted by left edge returns the number of bins whose left edge is definitely less than the item.", "quantifier": "every histogram, every item, in exact arithmetic and in finite doubles; termination and bounds for every arithmetic", "why_tests_cant": "All sizes and contents.", "anchors": ["tools/cpp/KML/include/data_structures/histograms/IStreamingHistogram.tcc:IStreamingHistogram::binSearch"]}
{"id": "C29", "title": "merge joins the closest adjacent bins up to the comparison tolerance", "statement": "When merge returns, one adjacent pair is replaced by its sum, all other bins and the total of the counts are untouched, and the gap between the right edges of the chosen pair exceeds the smallest gap by at most the relative tolerance 1e-4; in doubles no gap is definitely less than the chosen one.", "quantifier": "every bin list in exact arithmetic, every bin list with finite gaps in doubles", "why_tests_cant": "All configurations.", "anchors": ["tools/cpp/KML/include/data_structures/histograms/StreamingHistogram.tcc:StreamingHistogram::merge", "tools/cpp/KML/include/data_structures/histograms/IStreamingHistogram.tcc:IStreamingHistogram::mergeBins"]}
{"id": "C30", "title": "quantile argument check and value", "statement": "quantile(q) throws exactly for q below 0 or above 1; otherwise, inside the window and with at least two bins, let k be the first bin if q does not exceed its share and else the last bin whose cumulated share does not exceed q: the result is the left edge of bin k if q is essentially equal to that cumulated share and else left_k + width_k * (count_{k+1}/count_k) with width 1/numBins for zero-width bins; in doubles every q passing the check, even NaN, is served without undefined behaviour for up to 2^32 bins and 2^53 items.", "quantifier": "every stream of at most windowSize items, every q; values in exact arithmetic, safety in doubles", "why_tests_cant": "All histograms and q.", "anchors": ["tools/cpp/KML/include/data_structures/histograms/IStreamingHistogram.tcc:IStreamingHistogram::quantile"]}
{"id": "C31", "title": "quantile is undefined on an empty or single-bin histogram and is not monotone", "statement": "quantile(q) on an empty histogram reads past the end of the cdf vector; a stream of one repeated value x gives, for q in [0,1], x if q is essentially equal to 1 and otherwise a read past the end; on larger histograms the estimate is not monotone in q: after 1, 2 the 0.45-quantile exceeds the 0.5-quantile.", "quantifier": "every single-valued stream of reals or finite doubles, every q; existence of a non-monotone case", "why_tests_cant": "The tests use five bins only.", "anchors": ["tools/cpp/KML/include/data_structures/histograms/IStreamingHistogram.tcc:IStreamingHistogram::quantile"]}
{"id": "C32", "title": "reset does not restore a fresh histogram", "statement": "reset() empties the bins and the index window but keeps getTotalCount(): after reset of a histogram that has filled its window W >= 1, binCounts() throws, and every later update leaves the new bin with count 0.", "quantifier": "every histogram that received at least windowSize updates without undefined behaviour", "why_tests_cant": "Depends on what happened before the reset; the tests only check size() after reset.", "anchors": ["tools/cpp/KML/include/data_structures/histograms/IStreamingHistogram.tcc:IStreamingHistogram::reset", "tools/cpp/KML/include/data_structures/histograms/IStreamingHistogram.tcc:IStreamingHistogram::decayCounts"]}
{"id": "C33", "title": "report has one entry per bin", "statement": "For windowSize >= 1 report() has exactly size() entries, one per bin, keyed by the bin's edges and holding its count; for windowSize 0 bins may repeat and report() can lose entries.", "quantifier": "every reachable histogram, in exact arithmetic and for finite doubles", "why_tests_cant": "All histories.", "anchors": ["tools/cpp/KML/include/data_structures/histograms/IStreamingHistogram.tcc:IStreamingHistogram::report"]}
{"id": "C34", "title": "Histogram bin memory accounting", "statement": "Every update allocates one bin object; it is freed only if the item falls into an existing bin. Merging, expiry, reset and the destructor free no bin, so a destroyed StreamingHistogram has leaked exactly the bins that were ever inserted.", "quantifier": "every history", "why_tests_cant": "Leaks are invisible to functional tests.", "anchors": ["tools/cpp/KML/include/data_structures/histograms/IStreamingHistogram.tcc:IStreamingHistogram::add", "tools/cpp/KML/include/data_structures/histograms/IStreamingHistogram.tcc:IStreamingHistogram::~IStreamingHistogram", "tools/cpp/KML/include/data_structures/histograms/StreamingHistogram.tcc:StreamingHistogram::~StreamingHistogram"]}
{"id": "C35", "title": "Far-apart doubles break merging", "statement": "If every gap between neighbouring right edges overflows to infinity, merge selects no pair and indexes past the bins: a histogram with numBins 1 and windowSize >= 2 fed finite doubles a then b has undefined behaviour whenever b - a overflows, for example -1.7e308 then 1.7e308.", "quantifier": "every list of bins with infinite gaps; every pair of doubles whose difference overflows", "why_tests_cant": "Extreme magnitudes are not in tests.", "anchors": ["tools/cpp/KML/include/data_structures/histograms/StreamingHistogram.tcc:StreamingHistogram::merge"]}
{"id": "C36", "title": "Windowed mean equals the arithmetic mean of the last windowSize observations", "statement": "evaluate() is 0 before any observation; afterwards, in exact arithmetic, it is the mean of the last min(n, windowSize) observations, or of all observations if windowSize is 0.", "quantifier": "every stream, every windowSize, exact (real) arithmetic", "why_tests_cant": "All streams.", "anchors": ["tools/cpp/KML/src/statistics/summary/StreamingMean.cc:StreamingMean::update", "tools/cpp/KML/src/statistics/summary/StreamingMean.cc:StreamingMean::evaluate"]}
{"id": "C37", "title": "Mean window contents and memory bound", "statement": "getWindow() holds exactly the last min(n, windowSize) observations oldest first (bit for bit, NaN included), never more than windowSize, and is null for windowSize 0; the history counter equals the number of updates.", "quantifier": "every stream of doubles, every windowSize", "why_tests_cant": "All streams.", "anchors": ["tools/cpp/KML/src/statistics/summary/StreamingMean.cc:StreamingMean::update", "tools/cpp/KML/include/IStreaming.tcc:IStreaming::IStreaming"]}
{"id": "C38", "title": "Mean in IEEE doubles: exact on integers, drifting in general", "statement": "If all observations are integers of magnitude at most B with (number of observations in the window)*B <= 2^53 (of all observations for windowSize 0), the double result is the correctly rounded quotient of the exact window sum. In general the running sum does not forget: there are finite streams whose windowed mean is wrong by a factor of two, and one infinite or NaN observation makes every later windowed result NaN.", "quantifier": "all integer-valued streams of any length; existence for the drift", "why_tests_cant": "Rounding drift needs adversarial magnitudes and unbounded length.", "anchors": ["tools/cpp/KML/src/statistics/summary/StreamingMean.cc:StreamingMean::update"]}
{"id": "C39", "title": "Windowed variance equals the population variance of the last windowSize observations", "statement": "In exact arithmetic evaluate() is the population variance of the last min(n, windowSize) observations (all for windowSize 0), hence never negative and zero exactly when the window is constant; in doubles it can be negative (three observations of 0.1).", "quantifier": "every stream, every windowSize, exact arithmetic; existence for doubles", "why_tests_cant": "All streams.", "anchors": ["tools/cpp/KML/src/statistics/summary/StreamingVariance.cc:StreamingVariance::update", "tools/cpp/KML/src/statistics/summary/StreamingVariance.cc:StreamingVariance::evaluate"]}
{"id": "C40", "title": "StreamingVariance does not maintain its public window and history counter", "statement": "getWindow() of a StreamingVariance is null (windowSize 0) or always empty, and its history counter stays 0, whatever was observed.", "quantifier": "every stream", "why_tests_cant": "Negative property over all streams.", "anchors": ["tools/cpp/KML/src/statistics/summary/StreamingVariance.cc:StreamingVariance::update"]}
{"id": "C41", "title": "P2 constructor accepts exactly the quantiles not outside (0,1)", "statement": "The constructor throws invalid_argument exactly when quantile <= 0 or quantile >= 1; in particular NaN is accepted, and evaluating such an object with at most five (non-NaN) observations is undefined (a NaN converted to int).", "quantifier": "all binary64 values", "why_tests_cant": "All doubles.", "anchors": ["tools/cpp/KML/src/statistics/summary/StreamingP2Quantile.cc:StreamingP2Quantile::StreamingP2Quantile"]}
{"id": "C42", "title": "P2 estimate is bracketed by the data, in double arithmetic", "statement": "After at least five finite observations whose pairwise differences do not overflow (for instance of magnitude at most 2^1022, or all equal; no evaluate() before the fifth), evaluate() lies between the smallest and the largest observation so far, and the five internal heights are sorted with the extreme ones equal to the exact minimum and maximum; when differences overflow an estimate of finite data can be infinite.", "quantifier": "every stream of finite doubles with non-overflowing differences, every quantile; existence for the overflow", "why_tests_cant": "All streams, rounding included.", "anchors": ["tools/cpp/KML/src/statistics/summary/StreamingP2Quantile.cc:StreamingP2Quantile::update", "tools/cpp/KML/src/statistics/summary/StreamingP2Quantile.cc:StreamingP2Quantile::adjustHeights", "tools/cpp/KML/src/statistics/summary/StreamingP2Quantile.cc:StreamingP2Quantile::linear", "tools/cpp/KML/src/statistics/summary/StreamingP2Quantile.cc:StreamingP2Quantile::findK"]}
{"id": "C43", "title": "P2 marker positions stay ordered", "statement": "Marker positions are strictly increasing integers starting at 0 and ending at n-1 after n >= 5 observations, so interpolation never divides by zero; strict order survives clear().", "quantifier": "doubles and exact arithmetic, every stream, every placement of clear and evaluate calls", "why_tests_cant": "Unbounded histories.", "anchors": ["tools/cpp/KML/src/statistics/summary/StreamingP2Quantile.cc:StreamingP2Quantile::update", "tools/cpp/KML/src/statistics/summary/StreamingP2Quantile.cc:StreamingP2Quantile::adjustHeights"]}
{"id": "C44", "title": "P2 small-sample answers", "statement": "After exactly five observations evaluate() is the order statistic of rank round(4*quantile). With n < 5 it is the element of rank round(|n-1|*quantile) of the observations padded with 5-n zeros, so a single positive observation evaluates to 0.", "quantifier": "all five-element streams, all quantiles; all shorter streams", "why_tests_cant": "All values and quantiles.", "anchors": ["tools/cpp/KML/src/statistics/summary/StreamingP2Quantile.cc:StreamingP2Quantile::evaluate"]}
{"id": "C45", "title": "P2 evaluate is an observer only from the fifth observation on", "statement": "From five observations on evaluate() never changes the object, so any number of evaluate calls can be inserted without changing later answers; before that it sorts the buffer being filled and can change the final estimate.", "quantifier": "every quantile other than NaN, every stream, every placement of evaluate calls after the fifth observation; existence before", "why_tests_cant": "All placements of reads.", "anchors": ["tools/cpp/KML/src/statistics/summary/StreamingP2Quantile.cc:StreamingP2Quantile::evaluate"]}
{"id": "C46", "title": "P2 of a constant stream is the constant", "statement": "A stream repeating one finite double c (at least five times) evaluates to exactly c, for every quantile.", "quantifier": "every finite double, every quantile, every length from 5 to 2^31", "why_tests_cant": "All doubles and lengths.", "anchors": ["tools/cpp/KML/src/statistics/summary/StreamingP2Quantile.cc:StreamingP2Quantile::update"]}
{"id": "C47", "title": "P2 positions overflow int after 2^31 observations", "statement": "A StreamingP2Quantile that is never cleared can process at most 2^31 observations without undefined behaviour: the next update overflows a signed int marker position.", "quantifier": "every stream longer than 2^31", "why_tests_cant": "Two billion updates and a sanitizer.", "anchors": ["tools/cpp/KML/src/statistics/summary/StreamingP2Quantile.cc:StreamingP2Quantile::update", "tools/cpp/KML/include/statistics/summary/StreamingP2Quantile.h:m_markerPosition"]}
{"id": "C48", "title": "WindowedP2Quantile coincides with P2 inside the first window, and its default window crashes", "statement": "While fewer than windowSize observations arrived, evaluate() equals that of a StreamingP2Quantile fed the same stream. With windowSize 0 (the default) every evaluate() is an integer division by zero, for StreamingIQR too.", "quantifier": "every stream, every windowSize", "why_tests_cant": "All streams.", "anchors": ["tools/cpp/KML/src/statistics/summary/WindowedP2Quantile.cc:WindowedP2Quantile::evaluate", "tools/cpp/KML/src/statistics/summary/WindowedP2Quantile.cc:WindowedP2Quantile::update", "tools/cpp/KML/src/statistics/summary/StreamingIQR.cc:StreamingIQR::evaluate"]}
{"id": "C49", "title": "WindowedP2Quantile extrapolates instead of interpolating", "statement": "From windowSize observations on the two weights are w2 = n mod windowSize + 1 >= 1 and w1 = 1 - w2 <= 0: they sum to one but are not convex, so the result can leave the range of the data.", "quantifier": "every n, windowSize; existence of an out-of-range result", "why_tests_cant": "All counts.", "anchors": ["tools/cpp/KML/src/statistics/summary/WindowedP2Quantile.cc:WindowedP2Quantile::evaluate"]}
{"id": "C50", "title": "WindowedP2Quantile restarts every windowSize+1 observations without resetting markers", "statement": "The inner estimator is restarted exactly at the observations whose number is a multiple of windowSize+1, saving its estimate; restarting keeps its marker positions and heights.", "quantifier": "every stream, every windowSize >= 1", "why_tests_cant": "All streams.", "anchors": ["tools/cpp/KML/src/statistics/summary/WindowedP2Quantile.cc:WindowedP2Quantile::update", "tools/cpp/KML/src/statistics/summary/StreamingP2Quantile.cc:StreamingP2Quantile::clear"]}
{"id": "C51", "title": "StreamingIQR is the difference of its two quantile estimates", "statement": "evaluate() is the high estimate minus the low estimate of two windowed estimators fed the same stream; the default quantiles are exactly 0.25 and 0.75; construction throws exactly when one of the quantiles is rejected; the result may be negative even for low < high and an un-windowed stream.", "quantifier": "every stream, every (low, high, windowSize); existence of a negative IQR", "why_tests_cant": "All streams.", "anchors": ["tools/cpp/KML/src/statistics/summary/StreamingIQR.cc:StreamingIQR::update", "tools/cpp/KML/src/statistics/summary/StreamingIQR.cc:StreamingIQR::evaluate"]}
{"id": "C52", "title": "WindowedFAME construction and first observation", "statement": "The constructor throws invalid_argument exactly when epsilon < 0 or epsilon >= 1; after the first observation x (not NaN) evaluate() is exactly x; before any it is 0.", "quantifier": "all binary64 values", "why_tests_cant": "All doubles.", "anchors": ["tools/cpp/KML/src/statistics/summary/WindowedFAME.cc:WindowedFAME::WindowedFAME", "tools/cpp/KML/src/statistics/summary/WindowedFAME.cc:WindowedFAME::update"]}
{"id": "C53", "title": "FAME moves towards the observation by one step", "statement": "Every later update changes the estimate by exactly the current step in the direction of the observation (not at all if equal); the step stays positive, is halved exactly when the new estimate is within a step of the observation and then grows by the factor 1+epsilon; with epsilon 0 it never grows.", "quantifier": "every stream, every positive initial step, exact arithmetic", "why_tests_cant": "All streams.", "anchors": ["tools/cpp/KML/src/statistics/summary/WindowedFAME.cc:WindowedFAME::update"]}
{"id": "C54", "title": "FAME estimate stays within one initial step of the data range", "statement": "With epsilon 0 and initial step s, after any stream the estimate lies between min - S and max + S where S = max(s, |x1|/2) is the step after the first observation; in doubles the same holds with the two bounds rounded.", "quantifier": "every stream, exact and binary64 arithmetic", "why_tests_cant": "All streams.", "anchors": ["tools/cpp/KML/src/statistics/summary/WindowedFAME.cc:WindowedFAME::update"]}
{"id": "C55", "title": "FAME of a constant stream is the constant", "statement": "A stream repeating one finite double evaluates to exactly that double, for every step and epsilon.", "quantifier": "every finite double, step, epsilon, length", "why_tests_cant": "All doubles and lengths.", "anchors": ["tools/cpp/KML/src/statistics/summary/WindowedFAME.cc:WindowedFAME::update"]}
{"id": "C56", "title": "StreamingMAD is non-negative in exact arithmetic, not in doubles", "statement": "In exact arithmetic evaluate() is never negative, because the error estimate is always a non-negative integer multiple of its step; in double arithmetic the stream 8,0,2,4,2,1,1,1 yields a negative deviation.", "quantifier": "every stream in exact arithmetic; existence in doubles", "why_tests_cant": "All streams.", "anchors": ["tools/cpp/KML/src/metrics/StreamingMAD.cc:StreamingMAD::update", "tools/cpp/KML/src/metrics/StreamingMAD.cc:StreamingMAD::evaluate"]}
{"id": "C57", "title": "Entropy of separated data inside the window is the Shannon entropy", "statement": "If at most windowSize observations arrived, any two are equal or definitely different, and there are at most as many distinct values as bins, then evaluate() equals -sum p log2 p over the empirical distribution of the stream (0 before any observation). Hence it lies between 0 and log2 of the number of distinct values.", "quantifier": "every such stream, every window, given or default number of bins, in exact arithmetic", "why_tests_cant": "All streams; the incremental formula must be right for every count.", "anchors": ["tools/cpp/KML/src/statistics/summary/StreamingEntropy.cc:StreamingEntropy::update", "tools/cpp/KML/src/statistics/summary/StreamingEntropy.cc:StreamingEntropy::increment"]}
{"id": "C58", "title": "Entropy breaks as soon as the bins run out", "statement": "In every reachable state, sliding or not: if the histogram is full and the next item lies past its last bin, the update does not return; in exact arithmetic and in doubles it reads past the bin vector. In particular, for B >= 1 bins and windowSize >= B, every stream of B+1 increasing, definitely different values ends in that undefined behaviour (the unit test TestUniformEntropyWithDecrement is such a stream).", "quantifier": "every reachable full state over any arithmetic; every B >= 1, windowSize >= B, every such stream, in exact arithmetic and in binary64 with any log2 (fewer than 2^64 updates)", "why_tests_cant": "The only test that does so reads a stale element behind the end of the vector and passes.", "anchors": ["tools/cpp/KML/src/statistics/summary/StreamingEntropy.cc:StreamingEntropy::update", "tools/cpp/KML/src/statistics/summary/StreamingEntropy.cc:StreamingEntropy::increment", "tools/cpp/KML/include/data_structures/histograms/IStreamingHistogram.tcc:IStreamingHistogram::getBin"]}
{"id": "C59", "title": "Entropy breaks with an empty window and goes negative when the window slides", "statement": "With windowSize 0 the first update dereferences a null window. For every windowSize W >= 1, at least 2 bins and definitely different values a < b, observing a once and then b W+1 times makes evaluate() negative.", "quantifier": "every number of bins and item for the null window; every W >= 1, bins >= 2 and every such a, b for the negative value (exact arithmetic)", "why_tests_cant": "Not in tests.", "anchors": ["tools/cpp/KML/src/statistics/summary/StreamingEntropy.cc:StreamingEntropy::update", "tools/cpp/KML/src/statistics/summary/StreamingEntropy.cc:StreamingEntropy::decrement"]}
{"id": "C60", "title": "Sturges default for the number of bins", "statement": "With numBins 0 the entropy uses k+1 bins where k is the least exponent with windowSize <= 2^k, for every windowSize >= 1; otherwise exactly numBins; for windowSize 0 the conversion is undefined. The ceiling of the correctly rounded double log2 equals k for windowSize <= 2^47, and is one too small for 2^50+1.", "quantifier": "every windowSize, numBins", "why_tests_cant": "All window sizes.", "anchors": ["tools/cpp/KML/src/statistics/summary/StreamingEntropy.cc:StreamingEntropy::StreamingEntropy"]}
{"id": "C61", "title": "History counters count observations", "statement": "After any interleaving of updates and evaluations that returns, the history counter of StreamingMean, WindowedFAME, StreamingMAD, StreamingP2Quantile, WindowedP2Quantile, StreamingIQR and StreamingEntropy is the number of updates; for RingBuffer and LinkedList it is the number of updates regardless of pop and reset; for a histogram it is the number of updates since the last reset.", "quantifier": "every class, every arithmetic, every history of calls", "why_tests_cant": "All lengths.", "anchors": ["tools/cpp/KML/include/data_structures/IDataStructure.h:IDataStructure::m_historyCount", "tools/cpp/KML/include/IStreaming.tcc:IStreaming::IStreaming"]}
{"id": "C62", "title": "Python containers return values rounded to single precision", "statement": "PyRingBuffer and PyLinkedList store C floats: for any history they answer like the drop-oldest queue fed with the items rounded to binary32 (overflowing to infinity). A popped item equals the inserted one exactly when it is NaN, infinite or a binary32 value; 0.1 does not come back.", "quantifier": "all binary64 values, all windows, all histories", "why_tests_cant": "All doubles.", "anchors": ["tools/cython/kml/data_structures/RingBuffer.pyx:PyRingBuffer", "tools/cython/kml/data_structures/LinkedList.pyx:PyLinkedList"]}
{"id": "C63", "title": "FAME freezes after a long constant run", "statement": "With epsilon 0 and any finite initial step, once a finite value c has been observed at least 2100 times in a row from the start, the step has underflowed to zero: whatever is observed afterwards, evaluate() stays equal to c.", "quantifier": "every finite c, every finite step, every run length >= 2100, every continuation (including NaN and infinities), binary64", "why_tests_cant": "All continuations of a stream of thousands of observations.", "anchors": ["tools/cpp/KML/src/statistics/summary/WindowedFAME.cc:WindowedFAME::update"]}
{"id": "C64", "title": "P2 follows the published P-square algorithm", "statement": "In exact arithmetic, after any stream of at least five observations the marker positions and heights of StreamingP2Quantile are those of the Jain-Chlamtac algorithm: extremes are the running minimum and maximum, the markers above an observation move up, each inner marker that is one or more off its ideal position (N-1)*fraction moves by one if there is room, to the height of the parabola through it and its neighbours, or of the chord when the parabola leaves their interval. The one deviation is the order of the adjustments (3,2,1) for quantiles below one half. From the sixth observation evaluate() is the height of the middle marker.", "quantifier": "every quantile in (0,1), every stream of 5 to 2^31 real observations", "why_tests_cant": "Equality with a reference algorithm on all streams.", "anchors": ["tools/cpp/KML/src/statistics/summary/StreamingP2Quantile.cc:StreamingP2Quantile::update", "tools/cpp/KML/src/statistics/summary/StreamingP2Quantile.cc:StreamingP2Quantile::parabolic", "tools/cpp/KML/src/statistics/summary/StreamingP2Quantile.cc:StreamingP2Quantile::linear"]}
{"id": "C65", "title": "StreamingMAD is FAME applied to deviations from FAME", "statement": "evaluate() equals a default FAME median estimate of the deviations |x_i - m_i|, where m_i is the default FAME median estimate of x_1..x_i (including x_i); both estimators start with step 0.1 and epsilon 0.", "quantifier": "every stream, exact or double arithmetic", "why_tests_cant": "All streams.", "anchors": ["tools/cpp/KML/src/metrics/StreamingMAD.cc:StreamingMAD::update", "tools/cpp/KML/src/metrics/StreamingMAD.cc:StreamingMAD::StreamingMAD"]}
{"id": "C66", "title": "Python update: element by element, not atomic", "statement": "Calling update with an iterable of numbers on any Python class has exactly the effect of the C++ updates with the converted elements in order. If an element does not convert (None, a nested iterable, a string, an int too large for a double) the call raises TypeError or OverflowError after the elements before it have taken effect; nothing else can happen. A float is passed unchanged; an int is rounded to the nearest double and raises OverflowError exactly when the rounded magnitude does not fit.", "quantifier": "all conversions, C++ updates, states, iterables of any length; all integers", "why_tests_cant": "Tests only pass lists of numbers; the failing position, the length and the size of integers are unbounded.", "anchors": ["tools/cython/kml/statistics/summary/StreamingMean.pyx:PyStreamingMean::update", "tools/cython/kml/data_structures/RingBuffer.pyx:PyRingBuffer::update", "tools/cython/kml/statistics/summary/StreamingIQR.pyx:PyStreamingIQR::update"]}
{"id": "C67", "title": "Python constructors", "statement": "The documented default window_size=None always raises TypeError for StreamingMean, StreamingVariance, WindowedP2Quantile, StreamingIQR, RingBuffer and LinkedList. Exactly the ints in [0, 2^64) are accepted as sizes (floats aside). StreamingIQR with only one of low and high given ignores it silently. A quantile or step size / epsilon outside the C++ domain raises ValueError and nothing else does. The defaults of the P2 quantile, FAME, MAD, entropy and histogram construct an object. An object that is constructed has exactly the quantiles, window sizes, bin counts, step size and epsilon it was given.", "quantifier": "all argument values", "why_tests_cant": "Tests construct each class with a handful of valid arguments; the domain of arguments is infinite.", "anchors": ["tools/cython/kml/statistics/summary/StreamingMean.pyx:PyStreamingMean::__cinit__", "tools/cython/kml/statistics/summary/StreamingIQR.pyx:PyStreamingIQR::__cinit__", "tools/cython/kml/statistics/summary/WindowedP2Quantile.pyx:PyWindowedP2Quantile::__cinit__"]}
{"id": "C68", "title": "Lifetime of wrapped C++ objects", "statement": "After any sequence of constructions and collections of Python objects, the number of live C++ objects of each of the eight statistics classes equals the number of live Python objects, while of StreamingHistogram, RingBuffer and LinkedList every C++ object ever constructed is still alive, because these three classes have no __dealloc__.", "quantifier": "all sequences of constructor calls (successful or raising) and collections", "why_tests_cant": "Leaks do not change any value a test compares; the sequences are unbounded.", "anchors": ["tools/cython/kml/data_structures/RingBuffer.pyx:PyRingBuffer::__cinit__", "tools/cython/kml/data_structures/LinkedList.pyx:PyLinkedList::__cinit__", "tools/cython/kml/data_structures/histograms/StreamingHistogram.pyx:PyStreamingHistogram::__cinit__", "tools/cython/kml/statistics/summary/StreamingMean.pyx:PyStreamingMean::__dealloc__"]}
{"id": "C69", "title": "Merged bins count the data between their edges", "statement": "As long as no more items than windowSize were added and any two of them are equal or definitely different, the bins of the streaming histogram are disjoint and in increasing order, their edges are observations, every observation lies in a bin, and the count of every bin is exactly the number of observations between its edges, no matter how often bins were merged and although an item falling strictly inside a merged bin is first inserted as a bin of its own. While there are fewer than numBins bins each holds a single value.", "quantifier": "all numBins, windowSize and lists of values of any length up to windowSize; real arithmetic and doubles up to 2^1022", "why_tests_cant": "Which bins are merged depends on all earlier items; the number of items and of merges is unbounded.", "anchors": ["tools/cpp/KML/include/data_structures/histograms/IStreamingHistogram.tcc:IStreamingHistogram::add", "tools/cpp/KML/include/data_structures/histograms/IStreamingHistogram.tcc:IStreamingHistogram::merge", "tools/cpp/KML/include/data_structures/histograms/IBin.tcc:IBin::operator+="]}
{"id": "C70", "title": "cdf is the empirical distribution function at the right edges", "statement": "Under the conditions of C69, entry k of cdf(true) is the number of observations up to the right edge of bin k divided by the number of observations; in doubles the cumulated counts are exactly those numbers.", "quantifier": "all numBins, windowSize, separated data, bins k", "why_tests_cant": "The claim relates every entry to all of the unbounded input.", "anchors": ["tools/cpp/KML/include/data_structures/histograms/IStreamingHistogram.tcc:IStreamingHistogram::cdf", "tools/cpp/KML/include/data_structures/histograms/IStreamingHistogram.tcc:IStreamingHistogram::add"]}
{"id": "C71", "title": "quantile against the data", "statement": "Inside the window, with at least two bins, quantile at the value of cdf entry k returns the left edge of bin k. For a rank q*n beyond the first bin and below n, there are neighbouring bins b, b' such that the observations up to the right edge of b number at most q*n and those up to the right edge of b' more than q*n, and the value returned is computed from b: its left edge, or the left edge plus b's width (1/numBins for a point) times the ratio of the numbers of observations in b' and b.", "quantifier": "all numBins, windowSize, data, bins and q in exact arithmetic", "why_tests_cant": "Tests compare a few quantiles of fixed data.", "anchors": ["tools/cpp/KML/include/data_structures/histograms/IStreamingHistogram.tcc:IStreamingHistogram::quantile"]}
{"id": "C72", "title": "quantile leaves the range of the data", "statement": "After one observation a and n observations b (b definitely greater than a), with numBins >= 2 and everything inside the window, quantile(q) is a + n/numBins for every q with 1.001/(n+1) <= q < 1, whatever b is. Hence for every such a, b, every q strictly between 0 and 1 and every bound M there is a data set made of a's and b's only whose q-quantile exceeds M.", "quantifier": "all a, b, q, numBins, n, windowSize and bounds M, exact arithmetic", "why_tests_cant": "The defect grows with the amount of data; a test sees one size.", "anchors": ["tools/cpp/KML/include/data_structures/histograms/IStreamingHistogram.tcc:IStreamingHistogram::quantile"]}
{"id": "C73", "title": "Rounding error bound of the windowed mean", "statement": "For finite doubles of magnitude at most B, n >= 1 observations (n at most 2^51) and any window size, provided (window length)*B <= 2^1000, the mean is finite and differs from the exact average of the window by at most (2n+1)*2^-52*B + 2^-1075.", "quantifier": "all window sizes, bounds B and streams of doubles", "why_tests_cant": "A worst-case error bound over all streams of all lengths.", "anchors": ["tools/cpp/KML/src/statistics/summary/StreamingMean.cc:StreamingMean::update", "tools/cpp/KML/src/statistics/summary/StreamingMean.cc:StreamingMean::evaluate"]}
{"id": "C74", "title": "The error of the windowed mean grows with the length of the stream", "statement": "There is a fixed sequence of doubles in [1/2,1) such that with a window of two observations, after k+1 of them (k up to 2^51), the mean exceeds the exact average of the window by exactly k*2^-54. So the linear growth in C73 cannot be avoided and no error bound depends on the window and the magnitude alone.", "quantifier": "all k up to 2^51", "why_tests_cant": "Needs streams of 2^51 observations to be seen in full.", "anchors": ["tools/cpp/KML/src/statistics/summary/StreamingMean.cc:StreamingMean::update", "tools/cpp/KML/src/statistics/summary/StreamingMean.cc:StreamingMean::evaluate"]}
{"id": "C75", "title": "Rounding error bound of the windowed variance", "statement": "For finite doubles of magnitude at most B (B >= 2^-500, (window length)*B^2 <= 2^999), 1 <= n <= 2^48 observations and any window size, the variance is finite, differs from the population variance of the window by at most (n+1)*2^-49*B^2 and is therefore no lower than minus that amount. Relative to the variance itself the error is not bounded: 2^30 and 2^30+1 have variance 1/4 and the result is 0.", "quantifier": "all window sizes, bounds B and streams of doubles", "why_tests_cant": "A worst-case error bound over all streams of all lengths.", "anchors": ["tools/cpp/KML/src/statistics/summary/StreamingVariance.cc:StreamingVariance::update", "tools/cpp/KML/src/statistics/summary/StreamingVariance.cc:StreamingVariance::evaluate"]}
{"id": "C76", "title": "FAME converges when the stream becomes constant", "statement": "In exact arithmetic, with a positive step size and any accepted epsilon, after any non-empty history followed by copies of c the estimate tends to c. If the distance to c is below (n+2) steps, then after n+k copies it is below 2*step*(1+epsilon)^(n+k)/2^k.", "quantifier": "all step sizes > 0, epsilons, histories, c, n, k", "why_tests_cant": "A limit over unbounded streams.", "anchors": ["tools/cpp/KML/src/statistics/summary/WindowedFAME.cc:WindowedFAME::update", "tools/cpp/KML/src/statistics/summary/WindowedFAME.cc:WindowedFAME::WindowedFAME"]}
{"id": "C77", "title": "FAME with a step size that is not positive", "statement": "The constructor does not check stepSize. For every double stepSize that is not greater than zero (NaN included) and every accepted epsilon other than NaN, if the first observation is zero the estimate is zero after every further stream of doubles, including infinities and NaN.", "quantifier": "all step sizes not > 0, epsilons and streams of doubles", "why_tests_cant": "All continuations of all lengths.", "anchors": ["tools/cpp/KML/src/statistics/summary/WindowedFAME.cc:WindowedFAME::update", "tools/cpp/KML/src/statistics/summary/WindowedFAME.cc:WindowedFAME::WindowedFAME"]}
{"id": "C78", "title": "Quantile estimates follow a change of unit", "statement": "In exact arithmetic, for any a > 0 and b and at least five observations, StreamingP2Quantile on a*x+b answers a times its answer on x plus b (same exception or undefined behaviour otherwise); the same holds for WindowedP2Quantile and, without the shift, for StreamingIQR when the window size is at least four. With fewer than five observations it fails: the initial zeros of m_heights take part.", "quantifier": "all a > 0, all b, all quantile levels, all window sizes >= 4, all streams of length >= 5", "why_tests_cant": "Metamorphic tests sample finitely many streams and units; marker adjustments branch on the data at every step, so agreement on samples says nothing about other branch sequences.", "anchors": ["tools/cpp/KML/src/statistics/summary/StreamingP2Quantile.cc:StreamingP2Quantile::update", "tools/cpp/KML/src/statistics/summary/StreamingP2Quantile.cc:StreamingP2Quantile::evaluate", "tools/cpp/KML/src/statistics/summary/WindowedP2Quantile.cc:WindowedP2Quantile::update", "tools/cpp/KML/src/statistics/summary/StreamingIQR.cc:StreamingIQR::evaluate"]}
{"id": "C79", "title": "Histogram in another unit of measurement", "statement": "In exact arithmetic and for observations of magnitude at most a quarter of the largest double (in both units), multiplying every observation by a > 0 multiplies all bin edges by a and changes nothing else: same counts, same cdf, same window, same exceptions. Quantiles scale too if every bin has a positive width; they do not when a bin holds a single value, whose width is taken to be 1/numBins. A shift can change the number of bins.", "quantifier": "all a > 0, all numbers of bins, window sizes, decay settings and streams", "why_tests_cant": "Needs equality of two runs over all streams; the branching on relative differences (bin search, choice of the merged pair) is data dependent at every update.", "anchors": ["tools/cpp/KML/include/data_structures/histograms/IStreamingHistogram.tcc:IStreamingHistogram::add", "tools/cpp/KML/include/data_structures/histograms/StreamingHistogram.tcc:StreamingHistogram::update", "tools/cpp/KML/include/data_structures/histograms/IStreamingHistogram.tcc:IStreamingHistogram::quantile", "tools/cpp/KML/src/utils/Utils.cc:definitelyLessThan"]}
{"id": "C80", "title": "Entropy does not depend on the unit", "statement": "In exact arithmetic, for observations of magnitude at most a quarter of the largest double in both units, StreamingEntropy gives the same answer (or the same exception or undefined behaviour) on a*x as on x for every a > 0, whatever function stands for std::log2.", "quantifier": "all a > 0, all window sizes, numbers of bins, streams and logarithm functions", "why_tests_cant": "A relation between two unbounded runs with data-dependent branching.", "anchors": ["tools/cpp/KML/src/statistics/summary/StreamingEntropy.cc:StreamingEntropy::update"]}
{"id": "C81", "title": "FAME follows a change of unit when its step size does", "statement": "In exact arithmetic, for every c other than 0 and every accepted epsilon, WindowedFAME with step size |c|*s on c*x estimates c times what WindowedFAME with step size s estimates on x.", "quantifier": "all c <> 0, all step sizes (also zero or negative), all epsilons in [0,1), all streams", "why_tests_cant": "A relation between two runs of unbounded length; each update branches three ways on the data.", "anchors": ["tools/cpp/KML/src/statistics/summary/WindowedFAME.cc:WindowedFAME::update"]}
{"id": "C82", "title": "StreamingMAD cannot follow the unit of the data", "statement": "In exact arithmetic the MAD estimate after n+1 observations is between 0 and n/10, whatever the data, because the error estimator starts at 0 with the fixed step 0.1. Hence it does not scale with the data (4, 10 gives 0.1, and 4000, 10000 gives at most 0.1). It is unchanged when the data is negated.", "quantifier": "all streams", "why_tests_cant": "A bound over all data and lengths.", "anchors": ["tools/cpp/KML/src/metrics/StreamingMAD.cc:StreamingMAD::update", "tools/cpp/KML/src/metrics/StreamingMAD.cc:StreamingMAD::StreamingMAD"]}
{"id": "C83", "title": "Objects are freed exactly once", "statement": "For every program that creates, updates and deletes statistics, metrics and histograms in any order, no delete expression of the library meets a pointer that is not live. If the program creates no histogram, no entropy and no IQR range with an accepted lower and a rejected upper bound, it always runs, and the live heap blocks are exactly those of the objects that still exist, also after constructors have thrown. A constructor that succeeds allocates exactly the blocks of its class.", "quantifier": "all sequences of creations (all classes, all arguments, throwing ones included), updates and deletions", "why_tests_cant": "Tests create one object at a time, never look at the heap, and do not combine throwing constructors with deletions in every order.", "anchors": ["tools/cpp/KML/include/IStreaming.tcc:IStreaming::~IStreaming", "tools/cpp/KML/src/statistics/summary/StreamingVariance.cc:StreamingVariance::~StreamingVariance", "tools/cpp/KML/src/statistics/summary/WindowedP2Quantile.cc:WindowedP2Quantile::~WindowedP2Quantile", "tools/cpp/KML/src/statistics/summary/StreamingIQR.cc:StreamingIQR::~StreamingIQR", "tools/cpp/KML/src/metrics/StreamingMAD.cc:StreamingMAD::~StreamingMAD"]}
{"id": "C84", "title": "What the library leaks, exactly", "statement": "For every program that runs, the live heap blocks are those of the existing objects plus: the WindowedP2Quantile (with its estimator and window) of every IQR range whose lower bound was accepted and whose upper bound was rejected; every bin ever inserted into a histogram; and the histogram and its index deque of every deleted StreamingEntropy. In particular k entropies created and deleted leave k histograms, and a throwing StreamingIQR constructor leaves three blocks.", "quantifier": "all sequences of creations, updates and deletions that do not run into undefined behaviour; all numbers of entropies", "why_tests_cant": "Leaks are invisible to the assertions of a unit test; the exact amount for arbitrary programs needs an accounting invariant.", "anchors": ["tools/cpp/KML/src/statistics/summary/StreamingEntropy.cc:StreamingEntropy::StreamingEntropy", "tools/cpp/KML/src/statistics/summary/StreamingIQR.cc:StreamingIQR::StreamingIQR", "tools/cpp/KML/include/data_structures/histograms/StreamingHistogram.tcc:StreamingHistogram::~StreamingHistogram", "tools/cpp/KML/include/data_structures/histograms/IStreamingHistogram.tcc:IStreamingHistogram::add"]}
{"id": "C85", "title": "The P2 markers never drift from their ideal positions", "statement": "After N observations (5 <= N <= 2^31) the middle marker of StreamingP2Quantile is at most 3 positions from q (N - 1), and the two markers next to it are at most 5 positions from q (N - 1) / 2 and (1 + q) (N - 1) / 2, at most 1 on the outer side. In doubles the same holds up to 2^-18, even if everything after the fifth observation is NaN or infinite. No bound below 3 holds for the middle marker.", "quantifier": "all quantiles, all streams of 5 to 2^31 observations", "why_tests_cant": "Tests only look at the final estimate of a few streams; a drift of the markers would show after many adversarial observations.", "anchors": ["tools/cpp/KML/src/statistics/summary/StreamingP2Quantile.cc:StreamingP2Quantile::update", "tools/cpp/KML/src/statistics/summary/StreamingP2Quantile.cc:StreamingP2Quantile::adjustHeights", "tools/cpp/KML/src/statistics/summary/StreamingP2Quantile.cc:StreamingP2Quantile::findK"]}
{"id": "C86", "title": "On data that grow at the ends the P2 estimate is an exact order statistic", "statement": "If the first five observations are an arithmetic progression in any order and every further observation continues it at its upper or lower end (ascending, descending or mixed ramps), then in exact arithmetic the estimate after N > 5 observations is exactly the item number k of the sorted data, with k an integer at most 3 from q (N - 1).", "quantifier": "all quantiles, all step sizes, all interleavings of upper and lower extensions, all N up to 2^31", "why_tests_cant": "Needs an induction over the stream with the markers on a line; a test covers one ramp.", "anchors": ["tools/cpp/KML/src/statistics/summary/StreamingP2Quantile.cc:StreamingP2Quantile::update", "tools/cpp/KML/src/statistics/summary/StreamingP2Quantile.cc:StreamingP2Quantile::parabolic", "tools/cpp/KML/src/statistics/summary/StreamingP2Quantile.cc:StreamingP2Quantile::linear", "tools/cpp/KML/src/statistics/summary/StreamingP2Quantile.cc:StreamingP2Quantile::evaluate"]}
{"id": "C87", "title": "While its step is unchanged FAME balances the observations on its two sides", "statement": "With epsilon 0 and a positive step, if feeding ys to a WindowedFAME that has seen xs leaves the step unchanged, then the estimate moves by exactly the step times (number of observations above the estimate they met minus number below). On data in [lo, hi] these two numbers therefore differ by at most (hi - lo + 2 max(step0, |x1|/2)) / step, however long ys is.", "quantifier": "all positive steps, all streams xs ++ ys of real numbers", "why_tests_cant": "The balance is over all streams of any length; a test sees one estimate.", "anchors": ["tools/cpp/KML/src/statistics/summary/WindowedFAME.cc:WindowedFAME::update", "tools/cpp/KML/src/statistics/summary/WindowedFAME.cc:WindowedFAME::evaluate"]}
{"id": "C88", "title": "FAME can miss the median of overwhelmingly constant data", "statement": "The estimate need not be near the median. With the default step 0.1, for every k and every c >= 1 there is a stream with 5*2^k observations equal to c and only k+1 others on which the estimate is 1/2: a few equal observations halve the step each time, and nothing ever increases it again.", "quantifier": "all k, all c >= 1", "why_tests_cant": "Tests use data on which the step stays in scale with the data; the failing streams get exponentially long.", "anchors": ["tools/cpp/KML/src/statistics/summary/WindowedFAME.cc:WindowedFAME::update", "tools/cpp/KML/src/statistics/summary/WindowedFAME.cc:WindowedFAME::evaluate"]}
{"id": "C89", "title": "RingBuffer: which calls can race", "statement": "Any number of threads that only call update, pop and reset never have a data race in any schedule, nor do threads that only call size, empty and full. Every data race of any program is between one of size, empty, full and one of update, pop, reset, and each of these nine pairs does race in some schedule. A data race is a reachable state in which two threads are about to access the same member or cell, one of them writing; by the C++ memory model programs without one behave sequentially consistently, which is what C04 assumes.", "quantifier": "all element types, window sizes 1 <= W < 2^64, numbers of threads, programs, schedules", "why_tests_cant": "A test runs a few schedules; absence of races is about all of them.", "anchors": ["tools/cpp/KML/include/data_structures/RingBuffer.tcc:RingBuffer::update", "tools/cpp/KML/include/data_structures/RingBuffer.tcc:RingBuffer::pop", "tools/cpp/KML/include/data_structures/RingBuffer.tcc:RingBuffer::reset", "tools/cpp/KML/include/data_structures/RingBuffer.tcc:RingBuffer::size", "tools/cpp/KML/include/data_structures/RingBuffer.tcc:RingBuffer::empty", "tools/cpp/KML/include/data_structures/RingBuffer.tcc:RingBuffer::full"]}
{"id": "C90", "title": "LinkedList: update races with everything and the mutex of reset protects nothing", "statement": "On a LinkedList an update has a data race with every other call, including another update and the locked reset. A reset running concurrently with an update or a pop can make either dereference a null pointer. Of any number of resets made by any number of threads, at most one ever returns. Without interruption the interleaved model is the sequential one for every call, reset included.", "quantifier": "all element types, window sizes, item values; for concurrent resets all list states, numbers of threads and schedules", "why_tests_cant": "The unit tests of the container are single threaded.", "anchors": ["tools/cpp/KML/include/data_structures/LinkedList.tcc:LinkedList::update", "tools/cpp/KML/include/data_structures/LinkedList.tcc:LinkedList::pop", "tools/cpp/KML/include/data_structures/LinkedList.tcc:LinkedList::reset", "tools/cpp/KML/include/data_structures/LinkedList.tcc:LinkedList::size", "tools/cpp/KML/include/data_structures/LinkedList.tcc:LinkedList::empty", "tools/cpp/KML/include/data_structures/LinkedList.tcc:LinkedList::full"]}
{"id": "C91", "title": "WindowedP2Quantile: restarting does not stop the marker positions from growing", "statement": "A WindowedP2Quantile with a window of W >= 1 that is fed numbers (no NaN) lives exactly as long as its last marker position fits in an int, and that position is 4 plus the number of observations that were not among the first five of their block of W + 1. Each full block adds W - 4, so the estimator overflows (undefined behaviour) after about 2^31 (W+1)/(W-4) observations; with W <= 4 it never does and the markers never move.", "quantifier": "all quantiles, all windows W >= 1, all streams of non-NaN doubles of any length", "why_tests_cant": "Reaching the overflow takes more than two thousand million updates.", "anchors": ["tools/cpp/KML/src/statistics/summary/WindowedP2Quantile.cc:WindowedP2Quantile::update", "tools/cpp/KML/src/statistics/summary/StreamingP2Quantile.cc:StreamingP2Quantile::clear"]}
{"id": "C92", "title": "StreamingHistogram remembers twice its window", "statement": "The deque of bin indices is created with W zeros, so after any updates that succeed it holds W + min(n, W) indices and an observation is only taken out again 2 W updates later. On separated data with at most numBins values, each new value exceeding the old ones, every value but the smallest is counted exactly over the last 2 W observations, the smallest at most that often; updates never fail; and binCounts throws as soon as the values other than the smallest occur more than min(n, W) times among the last 2 W.", "quantifier": "all window sizes W >= 1, numbers of bins and stream lengths; all finite double (and real) streams that are separated and whose new values rise; for the number of indices every stream", "why_tests_cant": "All lengths and windows; a test with a fixed stream shorter than the window sees nothing.", "anchors": ["tools/cpp/KML/include/data_structures/histograms/IStreamingHistogram.tcc:IStreamingHistogram::IStreamingHistogram", "tools/cpp/KML/include/data_structures/histograms/IStreamingHistogram.tcc:IStreamingHistogram::decayCounts", "tools/cpp/KML/include/data_structures/histograms/IStreamingHistogram.tcc:IStreamingHistogram::add", "tools/cpp/KML/include/data_structures/histograms/IStreamingHistogram.tcc:IStreamingHistogram::binCounts"]}
{"id": "C93", "title": "A reset shortens the window of StreamingHistogram for good", "statement": "reset() empties the bins and the deque of indices but keeps the total count. If n < W observations came before it, then on separated data with rising new values every count is from then on exact over the last W - n observations, the total is min(n + m, W), the masses add up to min(m, W - n) / min(n + m, W), and binCounts throws after every update unless n = 0. A reset straight after construction (n = 0) repairs the histogram: it then counts exactly the last W observations. While n + m <= W the counts add up to m and the total is n + m for any data at all.", "quantifier": "all window sizes, numbers of bins, histories of updates and resets before the reset with n < W, and stream lengths after it; all finite double (and real) streams that are separated and whose new values rise; for the last part every arithmetic and every stream", "why_tests_cant": "All histories before the reset, all streams after it of any length; the repository has no test that updates after reset.", "anchors": ["tools/cpp/KML/include/data_structures/histograms/IStreamingHistogram.tcc:IStreamingHistogram::reset", "tools/cpp/KML/include/data_structures/histograms/IStreamingHistogram.tcc:IStreamingHistogram::decayCounts", "tools/cpp/KML/include/data_structures/histograms/IStreamingHistogram.tcc:IStreamingHistogram::add", "tools/cpp/KML/include/data_structures/histograms/IStreamingHistogram.tcc:IStreamingHistogram::binCounts", "tools/cpp/KML/include/data_structures/histograms/IStreamingHistogram.tcc:IStreamingHistogram::pdf"]}
{"id": "C94", "title": "Where WindowedFAME and StreamingMAD settle", "statement": "In exact arithmetic with epsilon = 0: if the observations lie in [lo, hi] from some time on, then for every e > 0 the FAME estimate lies in [lo - e, hi + e] from some time on. With 0 < epsilon < 1 it stays within (2/epsilon + 3) d of L once the observations stay within d of L. Hence for every epsilon the constructor accepts, FAME of a convergent stream converges to its limit, StreamingMAD of a convergent stream converges to 0, and StreamingMAD of a stream that stays in [lo, hi] is at most hi - lo + e from some time on.", "quantifier": "all positive step sizes, all epsilon in [0, 1), all infinite real streams with the stated eventual behaviour and arbitrary beginnings", "why_tests_cant": "A statement about limits of infinite streams, for all streams.", "anchors": ["tools/cpp/KML/src/statistics/summary/WindowedFAME.cc:WindowedFAME::update", "tools/cpp/KML/src/metrics/StreamingMAD.cc:StreamingMAD::update"]}
{"id": "C95", "title": "Rounding error of StreamingEntropy inside the window", "statement": "In doubles, for n finite, pairwise equal or definitely different values, no more distinct ones than bins, n at most the window and 2^40, and a std::log2 that is within eta of the exact logarithm on [2^-40, 1]: no update throws, the reported entropy is finite and within (n+1)/2 * (3 eta + 2^-42) of the Shannon entropy of the data. With a correctly rounded log2 the error is at most n * 2^-41. On constant data the reported entropy is exactly 0 for any log2 that is finite on (0,1] and 0 at 1.", "quantifier": "all log2 functions of the stated accuracy, all window sizes and bin counts, all such streams of doubles", "why_tests_cant": "An error bound over all streams of doubles of all lengths and all accurate logarithms.", "anchors": ["tools/cpp/KML/src/statistics/summary/StreamingEntropy.cc:StreamingEntropy::update", "tools/cpp/KML/src/statistics/summary/StreamingEntropy.cc:StreamingEntropy::increment", "tools/cpp/KML/src/utils/Utils.cc:xlogx"]}
{"id": "C96", "title": "StreamingEntropy once its window slides", "statement": "In exact arithmetic, while distinct values are definitely different, no more than the bins, and new ones only appear above the old ones: no update throws; an update that evicts y and adds x (neither of them the least value) changes the reported entropy by exactly g(number of y among the last 2W observations) - g(number of x among the last 2W), where g(k) is what a k-th occurrence adds to the sum of p log2 p over W. So the entropy of the window is not maintained: for every W >= 2, any three definitely different values and any bound M some finite stream of these values ends with 2W equal values (true entropy of the window 0) and a reported entropy above M.", "quantifier": "all windows W >= 2 (W >= 1 for safety), bin counts, values and streams; all bounds M", "why_tests_cant": "An exact law for all streams, and growth beyond every bound needs a stream of arbitrary length.", "anchors": ["tools/cpp/KML/src/statistics/summary/StreamingEntropy.cc:StreamingEntropy::update", "tools/cpp/KML/src/statistics/summary/StreamingEntropy.cc:StreamingEntropy::decrement", "tools/cpp/KML/src/statistics/summary/StreamingEntropy.cc:StreamingEntropy::increment", "tools/cpp/KML/include/data_structures/histograms/StreamingHistogram.tcc:StreamingHistogram::update"]}
{"id": "C97", "title": "P2 follows a change of the data only logarithmically for low quantiles", "statement": "In exact arithmetic, for every quantile 0 < q <= 1/4: after -1, m zeros (q m >= 1000) and n ones, with m + n within an int, the estimate of the q-quantile lies between 0 and 3 q^2 ln((m+n)/m) + 17/(q m), although every order statistic within one rank of q(m+n) equals 1 as soon as q(m+n) >= m+1. With a hundred thousand zeros and a billion ones the estimate of the 0.1-quantile is below 1/3.", "quantifier": "all q in (0,1/4], all m and n", "why_tests_cant": "A bound for streams of every length; a test that runs a few thousand updates sees the estimate rising and takes it for convergence.", "anchors": ["tools/cpp/KML/src/statistics/summary/StreamingP2Quantile.cc:StreamingP2Quantile::update", "tools/cpp/KML/src/statistics/summary/StreamingP2Quantile.cc:StreamingP2Quantile::adjustHeights", "tools/cpp/KML/src/statistics/summary/StreamingP2Quantile.cc:StreamingP2Quantile::parabolic"]}
{"id": "C98", "title": "Rounding of the histogram's distribution function", "statement": "In doubles, inside the window, for up to 2^32 bins and 2^53 observations: entry k of cdf(true) is finite and differs from the cumulated count divided by the number of observations by at most (k+1) 2^-52 of that value; for separated data that value is the empirical distribution at the right edge of bin k. For up to 2^50 observations quantile() at entry k returns the left edge of bin k whenever the entry is at most 1. It need not be: with nine equal masses the last entry exceeds 1 and quantile() at it throws.", "quantifier": "all streams, bin counts and windows within the sizes, all entries; existence for the excess", "why_tests_cant": "A rounding bound for every reachable histogram and every bin.", "anchors": ["tools/cpp/KML/include/data_structures/histograms/IStreamingHistogram.tcc:IStreamingHistogram::cdf", "tools/cpp/KML/include/data_structures/histograms/IStreamingHistogram.tcc:IStreamingHistogram::pdf", "tools/cpp/KML/include/data_structures/histograms/IStreamingHistogram.tcc:IStreamingHistogram::quantile"]}
{"id": "C99", "title": "Reflecting the data in doubles", "statement": "In IEEE doubles, for streams x and y with y == -x elementwise (or both NaN): StreamingMean(y) == -StreamingMean(x) or both NaN, for every window size; WindowedFAME(y) == -WindowedFAME(x) or both NaN; StreamingVariance and StreamingMAD give the very same double. StreamingP2Quantile and StreamingHistogram do not have this symmetry: the P2 median of 1,2,4,...,64 is 4, of their negatives less than -9.", "quantifier": "all window sizes, step sizes, accepted epsilons and streams of doubles, NaN, infinities and zeros of both signs included; existence for the two others", "why_tests_cant": "A relation between two runs of unbounded length over all doubles.", "anchors": ["tools/cpp/KML/src/statistics/summary/StreamingMean.cc:StreamingMean::update", "tools/cpp/KML/src/statistics/summary/StreamingVariance.cc:StreamingVariance::evaluate", "tools/cpp/KML/src/statistics/summary/WindowedFAME.cc:WindowedFAME::update", "tools/cpp/KML/src/metrics/StreamingMAD.cc:StreamingMAD::update", "tools/cpp/KML/src/statistics/summary/StreamingP2Quantile.cc:StreamingP2Quantile::adjustHeights"]}
{"id": "C100", "title": "PyStreamingHistogram from Python values to Python values", "statement": "After any calls of its methods with finite numbers (window_size >= 1), report() returns a dict with exactly one entry (left, right): count per bin, no two keys comparing equal. After update with a list of separated floats that fits into the window, the dict has at most num_bins keys, disjoint and increasing intervals, each mapped to the number of list elements inside it; the values add up to the length of the list, bin_counts() is the list of the values and size() the number of keys. quantile() raises TypeError or OverflowError for an argument that does not convert, RuntimeError where C++ throws - but on a new histogram quantile(0.5) is undefined behaviour inside the interpreter.", "quantifier": "all sequences of method calls, all arguments; all lists of finite separated floats", "why_tests_cant": "All sessions and all lists; keys of a dict that compare equal would silently lose counts.", "anchors": ["tools/cython/kml/data_structures/histograms/StreamingHistogram.pyx:PyStreamingHistogram::report", "tools/cython/kml/data_structures/histograms/StreamingHistogram.pyx:PyStreamingHistogram::update", "tools/cython/kml/data_structures/histograms/StreamingHistogram.pyx:PyStreamingHistogram::bin_counts", "tools/cython/kml/data_structures/histograms/StreamingHistogram.pyx:PyStreamingHistogram::quantile", "tools/cython/kml/data_structures/histograms/StreamingHistogram.pyx:PyStreamingHistogram::size"]}
{"id": "C101", "title": "Concurrent RingBuffer calls come to an end", "statement": "However threads calling update, pop, reset, size, empty and full on one RingBuffer are scheduled, their calls together take at most a fixed number of member accesses (14, 10, 5, 7, 5 and 3 steps per call, entering and leaving included). If some threads stop for good outside locked calls and the others keep getting turns, the others complete all their calls after that many rounds and the mutex is free. size, empty and full never wait for anybody. A thread that stops inside update, pop or reset keeps every later update, pop and reset from beginning.", "quantifier": "all window sizes, programs, schedules, points of the execution and sets of stopped threads", "why_tests_cant": "Termination under every fair schedule of any number of threads.", "anchors": ["tools/cpp/KML/include/data_structures/RingBuffer.tcc:RingBuffer::update", "tools/cpp/KML/include/data_structures/RingBuffer.tcc:RingBuffer::pop", "tools/cpp/KML/include/data_structures/RingBuffer.tcc:RingBuffer::reset", "tools/cpp/KML/include/data_structures/RingBuffer.tcc:RingBuffer::size", "tools/cpp/KML/include/data_structures/RingBuffer.tcc:RingBuffer::empty", "tools/cpp/KML/include/data_structures/RingBuffer.tcc:RingBuffer::full"]}
{"id": "C102", "title": "Mean and variance after std::bad_alloc", "statement": "If some calls of update on a windowed StreamingMean or StreamingVariance fail with std::bad_alloc (push_back on the deque), the object stays usable: the window of the mean keeps the observations recorded so far, less the oldest where room was made, and evaluate() is their exact average. After windowSize successful updates the value of both is again exactly that of the last windowSize observations. In between the variance is computed from two different windows and can be negative, and with windowSize = 1 the mean in doubles is 0/0.", "quantifier": "all window sizes >= 1, all sequences of succeeding and failing updates; existence for the negative variance", "why_tests_cant": "Allocation failures at every point of unbounded executions.", "anchors": ["tools/cpp/KML/src/statistics/summary/StreamingMean.cc:StreamingMean::update", "tools/cpp/KML/src/statistics/summary/StreamingVariance.cc:StreamingVariance::update", "tools/cpp/KML/src/statistics/summary/StreamingVariance.cc:StreamingVariance::evaluate"]}
{"id": "C103", "title": "Histogram after std::bad_alloc", "statement": "If k calls of StreamingHistogram::update fail while appending to the index window, and others while allocating or storing a bin, the total count is at least k and at most windowSize + k, the number of bins at most numBins + k, and the bin counts sum to at least the total. The item of a failed append stays counted, and no later call lowers the total, so a histogram whose window was full reports more than windowSize observations for the rest of its life.", "quantifier": "every arithmetic, numBins, windowSize, all sequences of succeeding and failing updates", "why_tests_cant": "Allocation failures at every point of unbounded executions.", "anchors": ["tools/cpp/KML/include/data_structures/histograms/IStreamingHistogram.tcc:IStreamingHistogram::add", "tools/cpp/KML/include/data_structures/histograms/StreamingHistogram.tcc:StreamingHistogram::update"]}
{"id": "C104", "title": "Every Python program is one sequence of complete C++ calls", "statement": "Whatever iterators are passed to update (generators that raise, never end, pop from or update the very object they feed, or read it) and whatever other Python threads do meanwhile, the wrapped object goes through one sequence of complete C++ calls, and each call returns what it returns in that sequence. A program causes undefined behaviour or a C++ exception only through a call that does so after the calls before it. Hence the RingBuffer (windowSize >= 1) is safe and answers like the drop-oldest queue under every program, the LinkedList can go wrong only by a reset while empty, and a value read from a statistic in the middle of an update is that of the observations that arrived before.", "quantifier": "all Python programs (coinductive behaviours), thread counts, schedules and answers of the environment; all window sizes, arithmetic of the element type arbitrary", "why_tests_cant": "Arbitrary re-entrant, raising and infinite iterators under every thread schedule.", "anchors": ["tools/cython/kml/data_structures/RingBuffer.pyx:PyRingBuffer::update", "tools/cython/kml/data_structures/LinkedList.pyx:PyLinkedList::update", "tools/cython/kml/statistics/summary/StreamingMean.pyx:PyStreamingMean::update"]}
{"id": "C105", "title": "What an iterator contributes to the object it feeds", "statement": "A thread that runs obj.update(values) contributes its values in order, none twice, up to the first that is not a number, whatever all other threads do to the object meanwhile, and once its call is over it has contributed all of them. If the iterator raises, the exception comes out of update and the elements before it stay in the object. A value that is not a number ends the update without running the iterator further. With an endless iterator update never returns and feeds one element per turn. Elements fed by an update that the iterator itself makes land between its own elements. For a finite list the step-by-step behaviour ends in the state and with the exception of the one-shot description of update.", "quantifier": "all iterables, programs of the other threads, schedules, elements, objects", "why_tests_cant": "Unbounded iterators and all interleavings with arbitrary other code.", "anchors": ["tools/cython/kml/data_structures/RingBuffer.pyx:PyRingBuffer::update", "tools/cython/kml/data_structures/LinkedList.pyx:PyLinkedList::update", "tools/cython/kml/statistics/summary/StreamingMean.pyx:PyStreamingMean::update"]}
{"id": "C106", "title": "64-bit counters: no effect below 2^64 observations, and what happens at the wrap", "statement": "With m_historyCount and m_windowSize + 1 taken modulo 2^64 (size_t), StreamingMean, StreamingVariance, WindowedFAME, StreamingMAD and WindowedP2Quantile (windowSize < 2^64 - 1) behave on fewer than 2^64 observations exactly as with unbounded counters. At the wrap: the mean is reported as 0 whenever the number of observations is a multiple of 2^64, the unwindowed mean divides by the wrapped count (2^64 + 1 ones have mean 2^64 + 1), FAME takes the next observation as its first (the median jumps to it) and the MAD becomes |x - x|. A WindowedP2Quantile with windowSize = 2^64 - 1 divides by zero in its first update.", "quantifier": "all streams of any length, all window sizes, every arithmetic (for FAME and MAD: with an irreflexive <); the mean's value in exact arithmetic", "why_tests_cant": "No test can make 2^64 calls, or check all streams below that length.", "anchors": ["tools/cpp/KML/src/statistics/summary/StreamingMean.cc:StreamingMean::update", "tools/cpp/KML/src/statistics/summary/StreamingMean.cc:StreamingMean::evaluate", "tools/cpp/KML/src/statistics/summary/WindowedFAME.cc:WindowedFAME::update", "tools/cpp/KML/src/metrics/StreamingMAD.cc:StreamingMAD::update", "tools/cpp/KML/src/statistics/summary/WindowedP2Quantile.cc:WindowedP2Quantile::update"]}
{"id": "C107", "title": "Printed histograms and lists determine what they print", "statement": "operator<< of a histogram writes '(' , its bins '[left, right] -> count' in order separated by ', ', ')' and a line break, for any number of bins (none included) and any format of floating-point values; counts are written in decimal. If the format of floating-point values loses nothing and avoids the characters ',', ']' and ')', two histograms that print the same text have the same bins. LinkedList::display writes, after any calls, the items of the queue, oldest first, each followed by a space, and the text determines the items.", "quantifier": "all histogram states, all formats of floating-point values, all counts; all call histories of LinkedList with reset only on a non-empty list", "why_tests_cant": "A test compares the text of a few histograms; that no two different histograms print alike concerns all of them.", "anchors": ["tools/cpp/KML/include/data_structures/histograms/IBin.tcc:operator<<", "tools/cpp/KML/include/data_structures/histograms/IStreamingHistogram.tcc:operator<<", "tools/cpp/KML/include/data_structures/LinkedList.tcc:LinkedList::display"]}
{"id": "C108", "title": "Constructors that run out of memory", "statement": "If the heap serves n further requests and then throws std::bad_alloc, the constructor of every statistic, metric and histogram ends without undefined behaviour: with its object if n suffices (a number of requests that depends only on the class and its arguments), with bad_alloc otherwise, or with the exception of its argument check. After an exception everything the constructor allocated has been released, with one exception: StreamingVariance, StreamingIQR and StreamingMAD lose their completed first member when the second cannot be made, every time it is tried.", "quantifier": "all classes and arguments, all n, all heaps with distinct addresses; any number of attempts", "why_tests_cant": "Tests do not exhaust memory at every allocation of every constructor, and a leak has no visible result.", "anchors": ["tools/cpp/KML/src/statistics/summary/StreamingVariance.cc:StreamingVariance::StreamingVariance", "tools/cpp/KML/src/statistics/summary/StreamingIQR.cc:StreamingIQR::StreamingIQR", "tools/cpp/KML/src/metrics/StreamingMAD.cc:StreamingMAD::StreamingMAD", "tools/cpp/KML/src/statistics/summary/StreamingEntropy.cc:StreamingEntropy::StreamingEntropy", "tools/cpp/KML/include/IStreaming.tcc:IStreaming::IStreaming"]}
{"id": "C109", "title": "RingBuffer under the C++ memory model", "statement": "Memory keeps all accesses to each data member and cell; a plain read may return any write not overwritten by one that happens before the read. Every sequentially consistent execution is such an execution. update, pop and reset are linearizable in the order of acquiring the mutex in all such executions, even while other threads call size, empty or full. Programs that only make calls under the mutex, or only observe, have no data race and behave as on sequentially consistent memory. Refuted: size() called after another thread's update has returned counts that item; for every window size it may return 0.", "quantifier": "all element types, window sizes below 2^64, all programs of any number of threads, all interleavings and all choices of the writes that reads return", "why_tests_cant": "Which stale value a read returns depends on compiler and processor; a test sees one outcome on one machine.", "anchors": ["tools/cpp/KML/include/data_structures/RingBuffer.tcc:RingBuffer::update", "tools/cpp/KML/include/data_structures/RingBuffer.tcc:RingBuffer::pop", "tools/cpp/KML/include/data_structures/RingBuffer.tcc:RingBuffer::reset", "tools/cpp/KML/include/data_structures/RingBuffer.tcc:RingBuffer::size", "tools/cpp/KML/include/data_structures/RingBuffer.tcc:RingBuffer::empty", "tools/cpp/KML/include/data_structures/RingBuffer.tcc:RingBuffer::full"]}
{"id": "C110", "title": "Work per update", "statement": "Counting accesses to elements of vectors and deques: StreamingMean::update makes at most 3, StreamingVariance::update at most 6, StreamingP2Quantile::update at most 88 (or what std::sort needs for five elements, plus 6), in every state. The histogram's binary search always ends after between log2(n+1) and log2(n)+1 accesses for n bins. merge needs exactly 3n - i accesses for n bins if bin i is merged with the next. A histogram update needs at most log2 N + 5N + 4W + 15 accesses, and at most log2 N + 2N + 9 if no merge is needed; if one is, at least 2N + W + min(n+1, W) (n updates before). Refuted: the work of an update is bounded by the number of bins.", "quantifier": "all arithmetics, all states (mean, variance, P2) or all call sequences (histogram), all window sizes and numbers of bins", "why_tests_cant": "A benchmark measures some states on one machine; worst cases over all states and sizes are not measurable.", "anchors": ["tools/cpp/KML/src/statistics/summary/StreamingMean.cc:StreamingMean::update", "tools/cpp/KML/src/statistics/summary/StreamingVariance.cc:StreamingVariance::update", "tools/cpp/KML/src/statistics/summary/StreamingP2Quantile.cc:StreamingP2Quantile::update", "tools/cpp/KML/include/data_structures/histograms/StreamingHistogram.tcc:StreamingHistogram::update", "tools/cpp/KML/include/data_structures/histograms/StreamingHistogram.tcc:StreamingHistogram::merge", "tools/cpp/KML/include/data_structures/histograms/IStreamingHistogram.tcc:IStreamingHistogram::binSearch"]}
{"id": "C111", "title": "NaN observations", "statement": "Inside the window a histogram keeps a bin of its own for every NaN, so it accepts at most N of them (N-1 once a number was seen); N NaN and one further observation, in any order, make merge index out of bounds. P2: a NaN among the first five observations breaks the precondition of std::sort; a later one becomes the largest marker; once the estimate is NaN it is NaN for every continuation. FAME with epsilon 0 and StreamingMAD ignore every NaN after the first observation bit for bit; if the first observation is NaN (MAD: not finite) every estimate is NaN. Refuted: one NaN in a stream is harmless for the histogram, the P2 estimate recovers from one NaN, evaluate() of the windowed P2 estimator is defined after a restart.", "quantifier": "all double streams with NaN at any positions, all numbers of bins and window sizes, all constructor arguments", "why_tests_cant": "A NaN poisons the state silently; whether and when it shows depends on its position in the stream.", "anchors": ["tools/cpp/KML/include/data_structures/histograms/StreamingHistogram.tcc:StreamingHistogram::update", "tools/cpp/KML/include/data_structures/histograms/StreamingHistogram.tcc:StreamingHistogram::merge", "tools/cpp/KML/include/data_structures/histograms/IStreamingHistogram.tcc:IStreamingHistogram::add", "tools/cpp/KML/src/statistics/summary/StreamingP2Quantile.cc:StreamingP2Quantile::update", "tools/cpp/KML/src/statistics/summary/WindowedP2Quantile.cc:WindowedP2Quantile::evaluate", "tools/cpp/KML/src/statistics/summary/WindowedFAME.cc:WindowedFAME::update", "tools/cpp/KML/src/metrics/StreamingMAD.cc:StreamingMAD::update"]}
{"id": "C112", "title": "Assignments to public members", "statement": "m_windowSize of the containers is public and not const. RingBuffer: enlarged, W+1 updates (or W+1 pops of a full buffer) go out of bounds; reduced any number of times (not to 0) every call stays defined; reduced to w before the w-th update it is a correct queue of w from then on; set to 0, the next update divides by zero. LinkedList: under all interleavings of calls and assignments it is the queue that evicts exactly when it holds m_windowSize items, so below the current size it never evicts again. Histogram: the total becomes max(t, min(t+n, w)). StreamingMean edited through getWindow(): the difference between the old and new window sums stays in the estimate for ever; with a null window the window's sum is divided by the number of all observations; a window given to an unwindowed mean makes the next update undefined; m_historyCount matters only if 0. Refuted: a RingBuffer whose window size is reduced is a queue of the new size; changes within the allocated buffer are safe.", "quantifier": "all element types, window sizes, call sequences, assignments and streams", "why_tests_cant": "Tests use the interface as intended; the effect of an assignment depends on the private state at that moment.", "anchors": ["tools/cpp/KML/include/IStreaming.tcc:IStreaming::getWindow", "tools/cpp/KML/include/data_structures/RingBuffer.tcc:RingBuffer::update", "tools/cpp/KML/include/data_structures/RingBuffer.tcc:RingBuffer::pop", "tools/cpp/KML/include/data_structures/RingBuffer.tcc:RingBuffer::size", "tools/cpp/KML/include/data_structures/LinkedList.tcc:LinkedList::update", "tools/cpp/KML/include/data_structures/histograms/IStreamingHistogram.tcc:IStreamingHistogram::decayCounts", "tools/cpp/KML/src/statistics/summary/StreamingMean.cc:StreamingMean::update", "tools/cpp/KML/src/statistics/summary/StreamingMean.cc:StreamingMean::evaluate"]}
{"id": "C113", "title": "Contraction into fused multiply-adds", "statement": "The build flags leave the compiler free to contract x*y+z into one fused multiply-add, which GCC does by default where the instruction exists (AArch64). Whatever is contracted, in whichever call: StreamingP2Quantile's estimate stays within the range of the data and its heights ascend (in fact with any function in place of the parabolic formula), constant data is reproduced, and the desired positions of line 48 are the same bit for bit; StreamingVariance keeps the error bound of C75; WindowedP2Quantile returns the current estimate at multiples of windowSize and is unchanged before windowSize observations; StreamingEntropy keeps the error bound of C95, and one decrement changes by at most 2^-44. The variance of one observation is exactly 0 without contraction and the rounding error of its square with it. Refuted under contraction: the P2 estimate is the same (seven small integers give a difference above 1); the variance of one observation is nonnegative (it can be -1); constant data has entropy exactly 0.", "quantifier": "all streams of finite doubles within the stated magnitudes, all choices of contracted expressions per call, all quantiles, window sizes and logarithms of the stated accuracy", "why_tests_cant": "Tests run on one machine with one compiler; the choices of another compiler cannot be enumerated by them.", "anchors": ["tools/cpp/KML/src/statistics/summary/StreamingP2Quantile.cc:StreamingP2Quantile::update", "tools/cpp/KML/src/statistics/summary/StreamingP2Quantile.cc:StreamingP2Quantile::parabolic", "tools/cpp/KML/src/statistics/summary/StreamingP2Quantile.cc:StreamingP2Quantile::adjustHeights", "tools/cpp/KML/src/statistics/summary/WindowedP2Quantile.cc:WindowedP2Quantile::evaluate", "tools/cpp/KML/src/statistics/summary/StreamingVariance.cc:StreamingVariance::evaluate", "tools/cpp/KML/src/statistics/summary/StreamingEntropy.cc:StreamingEntropy::increment", "tools/cpp/KML/src/statistics/summary/StreamingEntropy.cc:StreamingEntropy::decrement"]}
{"id": "C114", "title": "Infinite observations", "statement": "A histogram with decay inside its window counts plus infinity in its lowest bin; minus infinity as the first observation makes one bin that takes everything after it, later it gets a bin in front which also takes every number no other bin lies below; with one bin, [x, -inf] and [+inf, x] index out of bounds. After a non-finite observation the mean is never finite again, for every window size; the variance likewise already when the square overflows, and it is NaN once the window has moved past it. A P2 estimate that is not finite stays so for every continuation. In FAME a non-finite first observation spoils every estimate, a later infinity leaves bit for bit the state any far enough number on that side leaves; the same for StreamingMAD. Refuted: P2 recovers from one infinity (median of 1..6, inf, 7 is infinity and never finite again; three more observations and it is NaN for good).", "quantifier": "all NaN-free streams, bin counts, window sizes, continuations, step sizes and epsilons; all finite doubles in place of x", "why_tests_cant": "The tests contain no infinities, and 'never again' ranges over all continuations.", "anchors": ["tools/cpp/KML/include/data_structures/histograms/StreamingHistogram.tcc:StreamingHistogram::update", "tools/cpp/KML/src/utils/Utils.cc:definitelyLessThan", "tools/cpp/KML/src/statistics/summary/StreamingMean.cc:StreamingMean::update", "tools/cpp/KML/src/statistics/summary/StreamingVariance.cc:StreamingVariance::evaluate", "tools/cpp/KML/src/statistics/summary/StreamingP2Quantile.cc:StreamingP2Quantile::adjustHeights", "tools/cpp/KML/src/statistics/summary/WindowedFAME.cc:WindowedFAME::update", "tools/cpp/KML/src/metrics/StreamingMAD.cc:StreamingMAD::update"]}
{"id": "C115", "title": "StreamingEntropy after std::bad_alloc", "statement": "If only push_back on the own window fails, failing calls leave no trace. While the window has room for all calls that got past push_back and the histogram could record its indices, entropy, bins and counts are those of a run without failures over the observations kept, in exact arithmetic (separated values, enough bins) their Shannon entropy. A call whose index the histogram cannot record leaves out the change of the entropy; that error is scaled by n/(n+1) with every later success; refuted: the result is the entropy of all observations or of the successful ones (2, failing 1, 2 gives log2 3 - 4/3). In doubles, an observation followed by failing bin allocations that fill the window and another observation make the result NaN for every continuation; and if the first failing observation was greater and the last equals the first, the next call reads past the end of m_bins, whatever it is.", "quantifier": "all window sizes, bin counts, event lists (which allocation fails in which call), observations, continuations, log2 functions with log2 1 = 0", "why_tests_cant": "Tests cannot make chosen allocations fail, and 'whatever follows' ranges over all continuations.", "anchors": ["tools/cpp/KML/src/statistics/summary/StreamingEntropy.cc:StreamingEntropy::update", "tools/cpp/KML/src/statistics/summary/StreamingEntropy.cc:StreamingEntropy::decrement", "tools/cpp/KML/src/statistics/summary/StreamingEntropy.cc:StreamingEntropy::increment", "tools/cpp/KML/include/data_structures/histograms/IStreamingHistogram.tcc:IStreamingHistogram::add"]}
{"id": "C116", "title": "A change of unit by a power of two is exact in doubles", "statement": "If every observation is zero or stays between 2^-e and 2^e in magnitude before and after multiplication by 2^k (e = 800 for histogram, entropy and mean, 300 for the variance, 500 and positive for P2), running on the scaled data gives: the same histogram with its edges scaled (same counts, pdf, cdf, report, search results, same exceptions); the same entropy bit for bit, whatever log2 returns; the mean times 2^k; the variance times 2^2k; the P2 answer times 2^k, with the same exceptions and undefined behaviour. Refuted for other factors: 0.9999 and 1 fall in one bin, 1000 times those in two; the mean of 0.1 and 0.2 times 10 is not the mean of 1 and 2.", "quantifier": "all exponents k, window sizes, bin counts, quantiles, log2 functions and lists of doubles in range", "why_tests_cant": "Bit-for-bit equality over all data and all exponents concerns every rounding of every operation; a test samples a few.", "anchors": ["tools/cpp/KML/include/data_structures/histograms/StreamingHistogram.tcc:StreamingHistogram::update", "tools/cpp/KML/include/data_structures/histograms/IBin.tcc:IBin::operator<", "tools/cpp/KML/src/statistics/summary/StreamingEntropy.cc:StreamingEntropy::update", "tools/cpp/KML/src/statistics/summary/StreamingMean.cc:StreamingMean::update", "tools/cpp/KML/src/statistics/summary/StreamingVariance.cc:StreamingVariance::evaluate", "tools/cpp/KML/src/statistics/summary/StreamingP2Quantile.cc:StreamingP2Quantile::update", "tools/cpp/KML/src/statistics/summary/StreamingP2Quantile.cc:StreamingP2Quantile::adjustHeights"]}
{"id": "C117", "title": "Which results depend on the order of the observations", "statement": "In exact arithmetic the mean and the variance depend only on the window's contents, not their order; in doubles the mean does so for integers whose window sums stay within 2^53. Inside the window, with definitely different values and enough bins, the histogram's report and counts and the entropy are the same for any order. The first five observations of P2 (streaming or windowed) may come in any order: the state after any continuation is identical, bit for bit when no observation is minus zero. Refuted elsewhere: the mean of 0.1, 0.2, 0.3 in doubles; the histogram of 10000, 10001, 10002 (bins chain or not depending on order) or of 1, 5, 8, 12 in two bins (counts 1,3 or 3,1); P2 from the sixth observation on; FAME from the second.", "quantifier": "all lists of observations and all their permutations, window sizes, bin counts, quantiles and continuations", "why_tests_cant": "There are factorially many orders of each of infinitely many inputs.", "anchors": ["tools/cpp/KML/include/data_structures/histograms/StreamingHistogram.tcc:StreamingHistogram::update", "tools/cpp/KML/src/statistics/summary/StreamingMean.cc:StreamingMean::update", "tools/cpp/KML/src/statistics/summary/StreamingVariance.cc:StreamingVariance::evaluate", "tools/cpp/KML/src/statistics/summary/StreamingEntropy.cc:StreamingEntropy::update", "tools/cpp/KML/src/statistics/summary/StreamingP2Quantile.cc:StreamingP2Quantile::update", "tools/cpp/KML/src/statistics/summary/WindowedP2Quantile.cc:WindowedP2Quantile::update", "tools/cpp/KML/src/statistics/summary/WindowedFAME.cc:WindowedFAME::update"]}
{"id": "C118", "title": "Well separated groups get one bin each", "statement": "Inside the window, if the data fall into at most numBins groups that are definitely different from each other and further apart than any group is wide (with the margin of the comparison tolerance; in doubles twice as far apart), then no bin ever straddles two groups, the bins come in the order of the groups, and the counts of each group's bins add up to its number of members; once every one of numBins groups has been seen there is exactly one bin per group and binCounts returns the group sizes, whatever the order of arrival. Consequence: with two bins and one outlier at a million, all data between -1 and 1 share a single bin. Refuted without the margin: 1, 5, 12, 8 in two bins counts 3, 1.", "quantifier": "all lists of observations, groupings, bin counts, window sizes and orders of arrival; reals and doubles", "why_tests_cant": "It quantifies over every data set with such a grouping and every order, so over every interleaving of insertions and merges.", "anchors": ["tools/cpp/KML/include/data_structures/histograms/StreamingHistogram.tcc:StreamingHistogram::update", "tools/cpp/KML/include/data_structures/histograms/StreamingHistogram.tcc:StreamingHistogram::merge", "tools/cpp/KML/include/data_structures/histograms/IStreamingHistogram.tcc:IStreamingHistogram::binCounts"]}
{"id": "C119", "title": "Increasing data whose gaps do not shrink end up in the first bin", "statement": "Inside the window, when n >= numBins observations arrive in increasing order, definitely different, each difference at least as large as the one before, the histogram is exactly: one bin from the first observation to the numBins-th last, holding all but the last numBins-1 observations, followed by a bin for each of those. So a bin can be as wide as the range of the data up to the last numBins-1 gaps, whatever the number of bins; counting 1..n gives counts n-numBins+1, 1, .. 1. Refuted for the opposite order: 8..1 in three bins counts 2, 2, 4 while 1..8 counts 6, 1, 1.", "quantifier": "all bin counts, window sizes, lengths and sequences with non-shrinking gaps; reals and doubles", "why_tests_cant": "The closed form holds at every length for every such sequence; tests see single lengths.", "anchors": ["tools/cpp/KML/include/data_structures/histograms/StreamingHistogram.tcc:StreamingHistogram::update", "tools/cpp/KML/include/data_structures/histograms/StreamingHistogram.tcc:StreamingHistogram::merge", "tools/cpp/KML/include/data_structures/histograms/IBin.tcc:IBin::operator+"]}
{"id": "C120", "title": "A single outlier moves the P2 median estimate by any amount and for good", "statement": "In exact arithmetic, once the P2 estimate is strictly above a lower bound of the data (strictly below an upper bound), it stays so whatever data within the bound follow. Hence for every number b >= 3 of later observations there is a positive fraction r such that the median estimate of c, c, c, c, M followed by b times c is c + r (M - c): with all observations but one equal to c the estimate exceeds any given K for a large enough M. So the claim that the P2 median is robust against one outlier is refuted at every length; in doubles, 104 zeros and one 10^6 give an estimate above 300.", "quantifier": "all quantiles, all bounds and all later data for the first part; all lengths, values and outliers for the second; one run in doubles", "why_tests_cant": "It is a statement about every length and every size of the outlier, and in exact arithmetic.", "anchors": ["tools/cpp/KML/src/statistics/summary/StreamingP2Quantile.cc:StreamingP2Quantile::update", "tools/cpp/KML/src/statistics/summary/StreamingP2Quantile.cc:StreamingP2Quantile::evaluate"]}
{"id": "C121", "title": "Of a far observation WindowedFAME and StreamingMAD see only the side", "statement": "With epsilon 0, let S be the step after the first observation and let the data lie in [lo, hi] except for k far ones, each more than (k+3) S outside. Then replacing every far observation by any other on the same side gives the same complete state of WindowedFAME, and the estimate stays within (k+1) S of [lo, hi] however large the far ones are. The same holds in doubles with the thresholds replaced by k+2 rounded additions of S, and there a far observation may be infinite. StreamingMAD (exact arithmetic) has the same property with a larger threshold, and its estimate is bounded by hi - lo + (k+1)(S + 1/10). Refuted for the first observation, whose size sets the step.", "quantifier": "all step sizes, ranges, numbers, positions and sizes of far observations, all streams; reals and doubles", "why_tests_cant": "Bit-identical states for every size of the outliers, including infinity, cannot be enumerated.", "anchors": ["tools/cpp/KML/src/statistics/summary/WindowedFAME.cc:WindowedFAME::update", "tools/cpp/KML/src/metrics/StreamingMAD.cc:StreamingMAD::update"]}
{"id": "C122", "title": "Larger observations and larger estimates", "statement": "Raising observations never lowers StreamingMean in exact arithmetic, for every windowSize. In doubles this holds for finite data until the first observation leaves the window (for ever with windowSize 0): no NaN appears and the order survives rounding and overflow. Refuted in doubles once the window slides. Raising some of at most five observations never lowers the StreamingP2Quantile estimate, in exact arithmetic and in doubles including infinities. Refuted for P2 with seven observations (raising one observation from 2 to 4 lowers the median estimate by more than 2) and for WindowedFAME with two.", "quantifier": "all pairs of streams ordered observation by observation, all window sizes, all quantiles; reals and doubles", "why_tests_cant": "A statement about all pairs of streams, with rounding and overflow at every addition.", "anchors": ["tools/cpp/KML/src/statistics/summary/StreamingMean.cc:StreamingMean::update", "tools/cpp/KML/src/statistics/summary/StreamingMean.cc:StreamingMean::evaluate", "tools/cpp/KML/src/statistics/summary/StreamingP2Quantile.cc:StreamingP2Quantile::update", "tools/cpp/KML/src/statistics/summary/StreamingP2Quantile.cc:StreamingP2Quantile::evaluate", "tools/cpp/KML/src/statistics/summary/WindowedFAME.cc:WindowedFAME::update"]}
{"id": "C123", "title": "On a grid mean and variance are free of drift in doubles", "statement": "If the observations are multiples of 2^e by integers of magnitude at most B and B times the window (all observations for windowSize 0) is at most 2^53, then for streams of any length the double mean is the exact average of the window rounded once. Hence it lies within the range of the window, is the constant for a constant window, and raising observations never lowers it. With B^2 in place of B the double variance depends on the window alone (four roundings of exact quantities) and is 0 for a constant window; if the window holds 2^k observations and B^2 4^k <= 2^52 it is the population variance without any error. Refuted off the grid: the mean of three observations 0.1 exceeds 0.1.", "quantifier": "all streams, all grids within the exponent range, all window sizes; doubles", "why_tests_cant": "The claim is about every stream of every length and all grids, including subnormal ones.", "anchors": ["tools/cpp/KML/src/statistics/summary/StreamingMean.cc:StreamingMean::update", "tools/cpp/KML/src/statistics/summary/StreamingMean.cc:StreamingMean::evaluate", "tools/cpp/KML/src/statistics/summary/StreamingVariance.cc:StreamingVariance::update", "tools/cpp/KML/src/statistics/summary/StreamingVariance.cc:StreamingVariance::evaluate"]}
{"id": "C124", "title": "On a grid WindowedFAME in doubles is WindowedFAME in real arithmetic", "statement": "Epsilon 0. If the observations are multiples of 2^g by integers of at most B, the step after the first observation is a multiple by at most C, 2B+2C <= 2^53, and the step with which the real-arithmetic run ends is still a multiple of 2^g, then the median and step in doubles are finite and equal those of the real-arithmetic run. For n observations after the first it suffices that (2B+2C) 2^n <= 2^53; so any 31 integers of magnitude up to 2^20 with an integer step are processed without error. Refuted beyond: 63 integers between 2 and 4 give exactly 3 in doubles and more than 3 in real arithmetic.", "quantifier": "all grids within the exponent range, all streams; doubles", "why_tests_cant": "An equality with a run over the reals, for all streams and all exponents.", "anchors": ["tools/cpp/KML/src/statistics/summary/WindowedFAME.cc:WindowedFAME::update", "tools/cpp/KML/src/statistics/summary/WindowedFAME.cc:WindowedFAME::evaluate", "tools/cpp/KML/src/statistics/summary/WindowedFAME.cc:WindowedFAME::WindowedFAME"]}
{"id": "C125", "title": "Element types whose copies throw", "statement": "RingBuffer and LinkedList with any element type, any history of calls of which each may end with an exception thrown by the element type (or by the allocation of a node). RingBuffer answers like a queue in which a failed copy changes nothing; with assignments that leave their target alone when they throw and results handed out without throwing, a throwing call is as if it had not been made. Refuted for assignments with only the basic guarantee: a failed update of a full buffer changes the oldest stored item. LinkedList: exceptions before the new node is linked and while a client's pop copies leave no trace; refuted for the eviction inside update: if copying the evicted item throws, the item of the failed update stays in the list uncounted, and after k such failures since the last reset the list is exactly a queue of capacity W + k whose size() is k too small modulo 2^64 (2^64 - 1 for an emptied list after one failure).", "quantifier": "all element types, windows >= 1, all histories with exceptions at any of the places where the element type is copied", "why_tests_cant": "All histories with all combinations of exceptions; the capacity of the list depends on the number of earlier failures.", "anchors": ["tools/cython/kml/data_structures/RingBuffer.pyx:PyRingBuffer::update", "tools/cpp/KML/include/data_structures/RingBuffer.tcc:RingBuffer::pop", "tools/cython/kml/data_structures/LinkedList.pyx:PyLinkedList::update", "tools/cpp/KML/include/data_structures/LinkedList.tcc:LinkedList::pop", "tools/cpp/KML/include/data_structures/LinkedList.tcc:LinkedList::size"]}
{"id": "C126", "title": "A change of unit by a power of two: FAME, windowed P2 and IQR follow exactly, histogram quantiles do not", "statement": "In doubles, for observations that stay between 2^-e and 2^e in magnitude before and after multiplication by 2^k: WindowedFAME with its step size in the new unit has estimate and step times 2^k bit for bit, for n observations with e + n <= 700, or for any number as long as estimate and step themselves stay in range; refuted for ever (after 1100 zeros the step is 0 in one unit only). On positive data (e = 500) and window sizes up to 2^32 the answers of WindowedP2Quantile and StreamingIQR are multiplied by 2^k, with the same exceptions and undefined behaviour, for any number of observations. Refuted for the quantiles of a histogram: the median of 2, 4, 8 is not twice that of 1, 2, 4.", "quantifier": "all exponents, step sizes, epsilons, quantiles, window sizes up to 2^32 and lists of doubles in range", "why_tests_cant": "Bit-for-bit equality over all data and all exponents concerns every rounding of every operation; a test samples a few.", "anchors": ["tools/cpp/KML/src/statistics/summary/WindowedFAME.cc:WindowedFAME::update", "tools/cpp/KML/src/statistics/summary/WindowedP2Quantile.cc:WindowedP2Quantile::update", "tools/cpp/KML/src/statistics/summary/WindowedP2Quantile.cc:WindowedP2Quantile::evaluate", "tools/cpp/KML/src/statistics/summary/StreamingIQR.cc:StreamingIQR::evaluate", "tools/cpp/KML/include/data_structures/histograms/IStreamingHistogram.tcc:IStreamingHistogram::quantile"]}
{"id": "C127", "title": "How far WindowedP2Quantile and StreamingIQR can leave the range of the data", "statement": "In exact arithmetic, for data between lo and hi, windowSize W >= 4 and n >= 5 observations (n <= 2^31): while n < W the answer of WindowedP2Quantile lies in [lo, hi], afterwards at most (n mod W) times (hi - lo) outside it, and for every W >= 7 this is reached on either side with a factor W - 1 by W + 1 equal observations followed by W - 2 others. Exactly: after any block of W + 1 observations and m equal ones (5 <= m <= W - 2) of value c the answer is c - (m + 1)(e - c), where e is the estimate of StreamingP2Quantile on the block. |StreamingIQR| is at most (2 (n mod W) + 1)(hi - lo), and hi - lo before the window is full. Refuted that it measures a spread: after such a calm period it is -(m + 1) times the spread of the old block; in doubles with the default quartiles 1..8 followed by five 9s give less than -12.", "quantifier": "all quantiles in (0,1), window sizes, bounds and lists of reals; all first blocks and calm values", "why_tests_cant": "The bound concerns every stream and every window size, and reaching it needs a particular relation between the length of the stream and the window.", "anchors": ["tools/cpp/KML/src/statistics/summary/WindowedP2Quantile.cc:WindowedP2Quantile::update", "tools/cpp/KML/src/statistics/summary/WindowedP2Quantile.cc:WindowedP2Quantile::evaluate", "tools/cpp/KML/src/statistics/summary/StreamingIQR.cc:StreamingIQR::evaluate"]}
{"id": "C128", "title": "When asking WindowedP2Quantile or StreamingIQR in between changes later answers", "statement": "With windowSize W >= 4 a new block of observations starts after every W + 1. Calls of evaluate() made only before the first or after the fifth observation of a block leave every later answer (asked at such a moment) exactly as it would have been without them: for WindowedP2Quantile and StreamingIQR, in exact arithmetic with quantiles in (0,1) and at most 2^31 observations (where all calls return), and in doubles whenever the calls return. Refuted for other moments: in doubles with W = 5 six zeros followed by 1 to 5 give 2 when asked after each of 1 to 4 and 6 otherwise.", "quantifier": "all quantiles, window sizes from 4, and interleavings of observations and evaluate() calls", "why_tests_cant": "The evaluate() calls reorder stored heights, and whether that matters depends on the position of each call within a block of any length.", "anchors": ["tools/cpp/KML/src/statistics/summary/WindowedP2Quantile.cc:WindowedP2Quantile::update", "tools/cpp/KML/src/statistics/summary/WindowedP2Quantile.cc:WindowedP2Quantile::evaluate", "tools/cpp/KML/src/statistics/summary/StreamingIQR.cc:StreamingIQR::evaluate", "tools/cpp/KML/src/statistics/summary/StreamingP2Quantile.cc:StreamingP2Quantile::evaluate"]}
{"id": "C129", "title": "Until the window slides the errors of mean and variance are relative to the average observation", "statement": "For 1 <= n <= 2^51 finite doubles with magnitudes summing to at most 2^1000, as long as nothing has left the window (n <= windowSize, or windowSize 0), the double mean is finite and differs from the exact average by at most (n+1)*2^-52 times the average magnitude plus 2^-1075; for data that are not negative this is a relative error. Likewise (n <= 2^48, squares summing to at most 2^999, mean square at least 2^-1000) the double variance differs from the population variance by at most (n+1)*2^-49 times the mean square of the observations. Constant data are not reproduced: the mean of three times 0.1 is above 0.1, outside the range of the data. Refuted once the window slides: with windowSize 2 the mean after 2^53, 1, 1 is 1/2 instead of 1.", "quantifier": "all window sizes and all streams of finite doubles that fit the window", "why_tests_cant": "The bound holds for every stream and measures the error by the average instead of the largest observation; a test sees single streams.", "anchors": ["tools/cython/kml/statistics/summary/StreamingMean.pyx:PyStreamingMean::update", "tools/cpp/KML/src/statistics/summary/StreamingMean.cc:StreamingMean::evaluate", "tools/cpp/KML/src/statistics/summary/StreamingVariance.cc:StreamingVariance::evaluate"]}
