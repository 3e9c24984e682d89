{"id": "C01", "title": "Calendar date round trip", "statement": "Building a date from (year, month, day) and reading back year, month, day returns the same triple for every real Gregorian calendar day in the supported range; reading year/month/day of any stored date and rebuilding gives the same date; Excel serials round-trip; the formatted string yyyy-mm-dd parses back to the same date. The year/month/day reported are those of the proleptic Gregorian calendar, counted day by day from 1970-01-01.", "quantifier": "every date the 16-bit date type can hold, and every valid (y,m,d) triple whose date is in range", "why_tests_cant": "a unit test samples a few dates; leap-year and century boundaries and double-precision truncation in the conversion can go wrong on any of the 65535 dates", "anchors": ["dal/time/date.cpp: ExcelDateToYMD, ExcelDateFromYMD, SerialFromYMD", "dal/time/date.cpp: Date::Year, Date::Month, Date::Day, Date::FromExcel, Date::ToExcel, Date::ToString", "dal/time/dateutils.cpp: Date::FromString"]}
{"id": "C02", "title": "Day arithmetic, order and weekday", "statement": "Adding n days then subtracting gives back n; adding days composes; comparison of dates agrees with lexicographic comparison of (year, month, day); the day of week advances by one each day and 1970-01-01 is a Thursday. Outside the representable range the result is reported (finding: it silently wraps).", "quantifier": "every date and every day count that stays in range; every pair of dates", "why_tests_cant": "the claim is about all pairs of dates, including the wrap-around edge of the 16-bit serial", "anchors": ["dal/time/date.hpp: Date_::AddDays, operator-, operator<, operator++", "dal/time/date.cpp: Date::DayOfWeek, Date::IsWeekEnd, Date::Minimum, Date::Maximum"]}
{"id": "C03", "title": "Month arithmetic and end of month", "statement": "The number of days reported for a month is the Gregorian one; the end-of-month of a date is the last day of its month; adding n months lands in the month exactly n months later, keeps the day of month when it exists there, otherwise clamps to that month's last day, and with the end-of-month flag an end-of-month date goes to an end-of-month date.", "quantifier": "every date, every number of months (either sign) whose target month lies in range, both flag values", "why_tests_cant": "interaction of clamping, sign of n, and leap years over all dates", "anchors": ["dal/time/date.cpp: Date::DaysInMonth, Date::EndOfMonth, Date::AddMonths"]}
{"id": "C04", "title": "Business-day adjustment finds the nearest business day", "statement": "Adjusting forward (Following) returns the first business day on or after the date, adjusting backward returns the last business day on or before it; both leave business days unchanged, are idempotent and monotone. A business day is a date that is not a holiday of any named centre and is either a weekday or a declared working weekend.", "quantifier": "every holiday calendar (any lists of holidays and working weekends, any combination of centres), every date from which a business day is reachable in range", "why_tests_cant": "quantifies over all calendars and dates; tests use one or two centres", "anchors": ["dal/time/holidays.cpp: Holidays_::IsHoliday, Holidays_::IsWorkWeekends, Holidays::NextBus, Holidays::PrevBus"]}
{"id": "C05", "title": "Business-day counting equals enumeration", "statement": "Counting business days between begin and end returns exactly the number of business days d with begin <= d < end, for any combination of holiday centres, even when the centres' lists overlap.", "quantifier": "every pair begin <= end and every set of registered calendars", "why_tests_cant": "the implementation counts weeks and corrects with binary searches; any off-by-one shows only on particular weekday/holiday alignments", "anchors": ["dal/time/holidays.cpp: CountBusDays_::CountBusDays_, CountBusDays_::operator()"]}
{"id": "C06", "title": "Business-day increments", "statement": "Moving n business days forward returns the n-th business day strictly after the date, moving backward the n-th strictly before; moving n forward and then n backward from a business day returns to it (fixing date to spot date and back).", "quantifier": "every calendar, every date, every n >= 0 within range", "why_tests_cant": "holds for every calendar and every n; off-by-one errors only show on particular holiday patterns", "anchors": ["dal/time/dateincrement.cpp: Date::NBusDays", "dal/protocol/conventions.cpp: Libor::StartFromFix, FixDateFromStart"]}
{"id": "C07", "title": "Day-count fractions", "statement": "For the bases ACT/360, ACT/365F and ACT/ACT the year fraction of a period is additive over a split (f(a,c) = f(a,b) + f(b,c) for a <= b <= c), is zero for an empty period, non-negative for a forward period, and equals the published formula; the 30/360 bond basis follows the 30/360 rule.", "quantifier": "every triple of dates a <= b <= c in range", "why_tests_cant": "additivity must hold for every split point, in particular across year ends", "anchors": ["dal/time/daybasis.cpp: ActActISDA, BondDCF, DayBasis_::operator()"]}
{"id": "C08", "title": "Schedule generation", "statement": "A generated schedule starts at the start date and ends at the maturity (adjusted to a business day when the Following rule is requested), is strictly increasing, all its dates lie between them, the unadjusted inner dates are obtained by stepping the tenor from the anchor end, and generation terminates.", "quantifier": "every start < maturity, every tenor, both generation directions, every calendar", "why_tests_cant": "quantifies over all dates, tenors and calendars, including those where stub periods or duplicate adjusted dates arise", "anchors": ["dal/time/schedules.cpp: DateGenerate, MakeSchedule"]}
{"id": "C09", "title": "IMM and CDS roll dates", "statement": "The IMM day of a month is its third Wednesday; rolling forward or backward by a special increment returns the nearest admissible date strictly after (before) the start.", "quantifier": "every start date and every special increment kind", "why_tests_cant": "the weekday arithmetic must hold for every month; the roll rule for every day of the year", "anchors": ["dal/time/dateincrement.cpp: ToIMM, IMMDay, ToCDS, MonthInRange"]}
{"id": "C10", "title": "Holiday centre registry", "statement": "A calendar can be registered once per name and only with strictly increasing, weekday holidays and weekend working days; after any sequence of registrations every accepted centre is retrievable with exactly its lists, rejected registrations change nothing, and indices never change.", "quantifier": "every sequence of registrations, valid and invalid, in any order", "why_tests_cant": "it is an invariant over every history of registrations", "anchors": ["dal/time/holidaydata.cpp: Holidays::AddCenter, HolidayData_::IsValid"]}
{"id": "C11", "title": "Script parser: what you write is what runs", "statement": "Every script statement printed in the documented syntax parses back to exactly the syntax tree it denotes: precedence, left associativity, comparison operators, nested IF/THEN/ELSE and function calls included; whatever layout (redundant parentheses, keyword case) is used does not change the tree.", "quantifier": "every expression, condition and statement tree, of any size and nesting depth", "why_tests_cant": "the grammar is recursive; no finite test set covers all nestings", "anchors": ["dal/script/parser.cpp: Parser_::ParseExpr, ParseExprL2, ParseExprL3, ParseExprL4, ParseVarConstFunc, ParseCond, ParseCondL2, ParseCondElem, ParseIf, ParseStatement"]}
{"id": "C12", "title": "Script parser never runs away", "statement": "Parsing any token sequence terminates, with a tree or a reported error, consuming each token at most a bounded number of times and never reading past the end of the token list.", "quantifier": "every finite token sequence", "why_tests_cant": "must hold for arbitrary malformed input", "anchors": ["dal/script/parser.cpp: Parser_::Parse, ParseCondOptionals, ParseFuncArg, FindMatch"]}
{"id": "C13", "title": "Variable indexing", "statement": "After indexing, every occurrence of a variable name has the same index, different names have different indices, indices are exactly 0..n-1 in order of first occurrence, and the reported list of variable names at position i is the name with index i.", "quantifier": "every product (any list of events and statements)", "why_tests_cant": "a bijection claim over all products", "anchors": ["dal/script/visitor/varindexer.hpp: VarIndexer_", "dal/script/event.cpp: ScriptProduct_::IndexVariables"]}
{"id": "C14", "title": "Compiled scripts behave like interpreted scripts", "statement": "Evaluating a compiled script leaves exactly the same variable values (and so the same payoff) as interpreting the syntax tree, for every market path.", "quantifier": "every well-formed script (any nesting), every initial variable state, every scenario value, every number semantics", "why_tests_cant": "a compiler-correctness statement over all programs", "anchors": ["dal/script/visitor/compiler.hpp: Compiler_, EvalCompiled", "dal/script/visitor/evaluator.hpp: Evaluator_"]}
{"id": "C15", "title": "Constant folding preserves meaning", "statement": "Marking expressions and variables as constants before compilation never changes what a script computes: whenever an expression is marked constant with value v, evaluating it on any path at that point yields v.", "quantifier": "every script, every path", "why_tests_cant": "soundness of a static analysis over all programs", "anchors": ["dal/script/visitor/constprocessor.hpp: ConstProcessor_"]}
{"id": "C16", "title": "Dead-branch elimination preserves meaning", "statement": "Replacing conditions proved always true/false by the domain analysis and dropping the dead branches does not change the value of any variable on any path.", "quantifier": "every script and every path whose inputs lie in the domains assumed by the analysis", "why_tests_cant": "soundness of interval analysis over all programs and all real inputs", "anchors": ["dal/script/visitor/domainproc.hpp: DomainProcessor_", "dal/script/visitor/constcondprocessor.hpp: ConstCondProcessor_", "dal/script/visitor/domain.hpp: Domain_, Interval_"]}
{"id": "C17", "title": "IF pre-processing finds every affected variable", "statement": "The list of affected variables attached to an IF statement contains exactly the variables assigned in one of its branches, sorted without duplicates; executing either branch changes no other variable.", "quantifier": "every IF statement with any nesting", "why_tests_cant": "a frame property over all programs and states", "anchors": ["dal/script/visitor/ifprocessor.hpp: IFProcessor_"]}
{"id": "C18", "title": "Fuzzy evaluation agrees with exact evaluation away from the smoothing zone", "statement": "When every condition is evaluated at a distance of at least eps/2 from its switching point, fuzzy evaluation gives exactly the values of ordinary evaluation; inside the zone the result is a convex combination of the two branches.", "quantifier": "every script, every path, every eps > 0", "why_tests_cant": "must hold for all programs including nested IFs", "anchors": ["dal/script/visitor/fuzzy.hpp: FuzzyEvaluator_"]}
{"id": "C19", "title": "Paths are independent", "statement": "The value of a script on a path depends only on that path: re-initialising the evaluator before each path removes every trace of previously simulated paths, so the result does not depend on the order in which paths are simulated or on how many came before.", "quantifier": "every script, every sequence of paths", "why_tests_cant": "non-interference over every history", "anchors": ["dal/script/visitor/evaluator.hpp: Evaluator_::Init", "dal/script/simulation.hpp: MCSimulation"]}
{"id": "C20", "title": "Event timeline", "statement": "The events of a product are processed in date order with one entry per distinct date, events on the same date run in the order written, dates before the evaluation date are treated as past and all others as future, and each macro is replaced everywhere.", "quantifier": "every list of (date or macro, text) rows", "why_tests_cant": "sorting/merging over every input list", "anchors": ["dal/script/event.cpp: ScriptProduct_::ParseEvents"]}
{"id": "C21", "title": "Monte Carlo batches partition the paths", "statement": "The parallel simulation simulates each path number 0..n-1 exactly once whatever the number of threads, the per-thread work areas are indexed in range, and the total is the same multiset of path contributions as a sequential run.", "quantifier": "every path count and every thread count", "why_tests_cant": "partition property over all n and thread counts", "anchors": ["dal/script/simulation.hpp: MCSimulation", "dal/concurrency/threadpool.cpp: ThreadPool_::Start"]}
{"id": "C22", "title": "Random generator skip-ahead", "statement": "Skipping the MRG32k3a generator ahead by n paths puts it in exactly the state reached by generating those paths one after the other, and skips compose; so parallel batches continue the sequential stream.", "quantifier": "every seed, every n, every dimension", "why_tests_cant": "an equality for every n (matrix powers versus iteration)", "anchors": ["dal/math/random/pseudorandom.cpp: MRG32k32a_::SkipTo, MRG32k32a_::NextUniform"]}
{"id": "C23", "title": "Uniform deviates lie strictly between 0 and 1", "statement": "Every uniform deviate produced by either pseudo-random generator is strictly between 0 and 1, for every seed and forever, so the inverse normal transform is always finite; generator state stays in its specified ranges.", "quantifier": "every seed and every number of draws", "why_tests_cant": "an invariant over unbounded runs", "anchors": ["dal/math/random/pseudorandom.cpp: ShuffledIRN_::NextUniform, MRG32k32a_::NextUniform"]}
{"id": "C24", "title": "Brownian bridge", "statement": "The Brownian bridge transforms independent normals into a path with exactly the increments of a Brownian motion: each time step is constructed once, from already-constructed neighbours, and the linear map it applies preserves covariance (increments are uncorrelated with variance equal to the time step).", "quantifier": "every number of steps", "why_tests_cant": "holds for every size; tests look at a few sizes statistically", "anchors": ["dal/math/random/brownianbridge.cpp: BrownianBridge_::Initialize, BrownianBridge_::FillNormal"]}
{"id": "C25", "title": "Object repository behaves like a named map", "statement": "An object added to the repository is found under the returned tag until it is erased; adding with replace-by-name removes exactly the older objects of the same type and name; erasing removes exactly the matching objects and reports their number; unrelated objects are untouched.", "quantifier": "every sequence of add, erase, find operations", "why_tests_cant": "a refinement over all operation histories", "anchors": ["dal/storage/_repository.cpp: ObjectAccess_::AddBase, EraseByStart, Erase, Fetch"]}
{"id": "C26", "title": "Global settings: last write wins, overrides are undone", "statement": "Reading a global value returns the most recently stored value of that name; a scoped override restores the previous value when it goes out of scope, in any nesting.", "quantifier": "every history of stores and nested overrides", "why_tests_cant": "over all histories", "anchors": ["dal/storage/globals.cpp", "dal/storage/_repository.cpp: RepoStore_", "dal/storage/globals.hpp: ScopedOverride_"]}
{"id": "C27", "title": "Fixing history is merged, not lost", "statement": "Storing fixings for an index adds to or overwrites the stored history by time, keeps all other times, keeps the history in chronological order, and reading a fixing returns the latest value stored for that time.", "quantifier": "every sequence of fixing stores", "why_tests_cant": "refinement to a finite map over all histories", "anchors": ["dal/storage/globals.cpp: XGLOBAL::StoreFixings", "dal/indice/fixings.cpp: FixHistory_::Find", "dal/indice/index.cpp: Index::PastFixing"]}
{"id": "C28", "title": "Spreadsheet archive round trip", "statement": "Writing an object tree to the rectangular archive and reading it back yields the same tree: every named child, scalar, vector, matrix and shared object reference is recovered.", "quantifier": "every object tree", "why_tests_cant": "structural induction over all trees", "anchors": ["dal/storage/splat.cpp: XSplat_, Splat, UnSplat"]}
{"id": "C29", "title": "Configuration dictionary round trip", "statement": "Writing a dictionary to text and reading it back gives the same entries; keys that differ only in case, spaces or underscores are the same key and inserting both is rejected.", "quantifier": "every dictionary", "why_tests_cant": "over all dictionaries and cell values", "anchors": ["dal/utilities/dictionary.cpp: Dictionary::ToString, Dictionary::FromString, Dictionary_::Insert"]}
{"id": "C30", "title": "String utilities", "statement": "Joining non-empty, separator-free pieces and splitting gives the pieces back; case-insensitive comparison is a total order whose equality is equality up to case; condensing is idempotent and two strings are condensed-equal iff they agree up to case, spaces and underscores.", "quantifier": "every string", "why_tests_cant": "over all strings", "anchors": ["dal/string/strings.cpp: String::Split, String::Condensed, String::Equivalent", "dal/string/strings.hpp: ci_traits"]}
{"id": "C31", "title": "Generated names are fresh", "statement": "Repeatedly asking for the next name never yields a name seen before, starting from any name.", "quantifier": "every start string and every number of iterations", "why_tests_cant": "freshness over an infinite sequence", "anchors": ["dal/string/strings.cpp: String::NextName"]}
{"id": "C32", "title": "Adjoint differentiation gives the true gradient", "statement": "Propagating adjoints through the tape from a result gives, for every input, exactly the derivative of the result with respect to the input (sum over all dependency paths of products of local derivatives), whatever the computation recorded.", "quantifier": "every computation (any DAG of operations), every input", "why_tests_cant": "correctness for every computation graph, not for sampled functions", "anchors": ["dal/math/aad/expr.hpp: Number_", "dal/math/aad/tape.hpp: Tape_", "dal/math/aad/node.hpp: TapNode_::PropagateOne", "dal/math/aad/expr.hpp"]}
{"id": "C33", "title": "Tape memory: mark and rewind", "statement": "The tape's block list enumerates exactly the nodes recorded since the last clear, in order; rewinding to the mark keeps exactly the nodes recorded before the mark; pointers to kept nodes remain valid.", "quantifier": "every sequence of record, mark, rewind, clear", "why_tests_cant": "data-structure refinement over all histories and block sizes", "anchors": ["dal/math/aad/blocklist.hpp: BlockList_"]}
{"id": "C34", "title": "Work queue delivers every task exactly once, in order", "statement": "Tasks pushed to the concurrent queue by any number of threads are popped exactly once each and in push order; pop returns without a task only after interruption.", "quantifier": "every interleaving of pushes, pops and interrupts", "why_tests_cant": "interleavings cannot be enumerated by tests", "anchors": ["dal/concurrency/concurrentqueue.hpp: ConcurrentQueue_"]}
{"id": "C35", "title": "Waiting for a task cannot deadlock", "statement": "A thread that waits for a task by helping (active wait) always eventually makes progress: in every reachable state in which some task is unfinished, some thread can take a step, including when all waiting threads are inside tasks; every thread number is below the number of threads.", "quantifier": "every schedule of any number of threads and tasks", "why_tests_cant": "schedules cannot be enumerated by tests", "anchors": ["dal/concurrency/threadpool.cpp: ThreadPool_::ActiveWait, ThreadFunc"]}
{"id": "C36", "title": "Environment stack is scoped", "statement": "Entries pushed on an environment are visible only while in scope, the most recent entry of a kind is found first, and leaving a scope restores exactly the previous environment.", "quantifier": "every nesting of scopes", "why_tests_cant": "over all nestings", "anchors": ["dal/utilities/environment.hpp"]}
{"id": "C37", "title": "Linear interpolation", "statement": "The interpolator reproduces the given values at the knots, is constant beyond the ends, lies between the neighbouring values in between, and is monotone if the data are; the two-dimensional interpolator has the same properties in each direction.", "quantifier": "every knot table and every argument", "why_tests_cant": "for all tables and all real arguments", "anchors": ["dal/math/interp/interp.hpp: InterpLinearImplX", "dal/math/interp/interp2d.hpp: Interp2DLinearImplX"]}
{"id": "C38", "title": "Cubic spline", "statement": "The spline passes through the given points, its second derivative is continuous and its first derivative is continuous at each inner knot, and the requested boundary conditions (first, second or third derivative) hold at both ends.", "quantifier": "every strictly increasing knot table (3 or more points), every data, every boundary kind", "why_tests_cant": "an identity in the data for every size", "anchors": ["dal/math/interp/interpcubic.cpp: Cubic1_"]}
{"id": "C39", "title": "Tridiagonal linear algebra", "statement": "Solving with a tridiagonal matrix inverts multiplication with it (left and right), whenever the decomposition succeeds; a PDE time step solves the implicit system exactly.", "quantifier": "every size and all coefficients", "why_tests_cant": "an identity for every size", "anchors": ["dal/math/matrix/banded.cpp: TriMultiply, TridagBetaInverse, TriSolve", "dal/math/pde/fd1d.cpp: FD1D_::RollBwd"]}
{"id": "C40", "title": "Root finding keeps its bracket", "statement": "From a bracketing interval the root finder always proposes points inside the current interval, the interval always brackets a sign change, and its width never increases.", "quantifier": "every function (sequence of reported values) and every starting interval", "why_tests_cant": "invariant over unbounded iterations and all functions", "anchors": ["dal/math/rootfind.cpp: BracketedBrent_::NextX, BracketedBrent_::PutY, Brent_::PutY"]}
{"id": "C41", "title": "Discount curves are arbitrage-consistent", "statement": "The integral of a piecewise-constant or piecewise-linear curve between two dates is additive and equals the integral of the curve's values; hence discount factors compose, DF(a,c) = DF(a,b) DF(b,c) and DF(a,a) = 1.", "quantifier": "every knot table, every three dates", "why_tests_cant": "for all tables and dates, including dates on and outside the knots", "anchors": ["dal/curve/piecewiseconstant.cpp", "dal/curve/piecewiselinear.cpp", "dal/curve/ycimp.cpp: DiscountPWLF_"]}
{"id": "C42", "title": "Multi-dimensional tables address cells uniquely", "statement": "In risk reports and n-dimensional arrays two different in-range addresses never share a cell, every cell has an address, growing the first axis keeps the existing values, and resizing keeps the values common to both shapes.", "quantifier": "every number of axes and every size", "why_tests_cant": "bijection for every shape", "anchors": ["dal/risk/report.cpp: Report_", "dal/math/ndarray.cpp: ArrayN::Strides, ArrayN::Moves", "dal/math/ndarray.hpp: ArrayN_::Resize"]}
{"id": "C43", "title": "Matrix storage", "statement": "A matrix resize keeps every entry whose row and column exist in both shapes; transposing twice is the identity; conversion to and from a list of rows is lossless.", "quantifier": "every shape and contents", "why_tests_cant": "for all shapes", "anchors": ["dal/math/matrix/matrixs.hpp: Matrix_::Resize", "dal/math/matrix/matrixutils.hpp: MakeTranspose, FromVectors, ToVectors"]}
{"id": "C44", "title": "Table formatting language", "statement": "Formatting tables with a layout string places every input cell exactly where the layout says: transpose, invert, flatten, horizontal and vertical stacking with justification; all writes stay inside the output.", "quantifier": "every format tree and all argument tables", "why_tests_cant": "recursive language over all shapes", "anchors": ["dal/math/matrix/matrixutils.cpp: Matrix::Format, WriterView_, Writer_"]}
{"id": "C45", "title": "Historical index paths give probabilities", "statement": "Range probabilities computed from fixings are between 0 and 1, equal 1 inside the range and 0 outside range plus ramp, are continuous in between; collared expectations stay within the collar.", "quantifier": "every fixing history, range and ramp width", "why_tests_cant": "for all real inputs", "anchors": ["dal/indice/indexpath.cpp: IndexPathHistorical_"]}
{"id": "C46", "title": "Underlying aggregation", "statement": "Combining the underlyings of several trades takes, for each currency, index and credit name, the latest date needed: the result does not depend on the order or grouping of trades and merging a trade twice changes nothing.", "quantifier": "every list of trades", "why_tests_cant": "algebraic law over all inputs", "anchors": ["dal/protocol/underlying.cpp: Underlying_::operator+=, Underlying_::Include"]}
{"id": "C47", "title": "Index names identify indices", "statement": "The name of an equity index parses back to the same index; the FX index fixing falls back to the reciprocal of the inverted pair.", "quantifier": "every equity name without brackets, every delivery date or delay", "why_tests_cant": "over all names", "anchors": ["dal/indice/index/equity.cpp", "dal/indice/parser/equity.cpp", "dal/indice/index/fx.cpp", "dal/indice/parser/fx.cpp"]}
{"id": "C48", "title": "Option pricing identities", "statement": "Call minus put equals forward minus strike and straddle equals call plus put, for the Black and Bachelier formulas and for payoffs; zero volatility gives the intrinsic value. The forward delta grows with the forward at a positive rate, the gamma, and with the time to maturity the Black price grows at half the squared volatility times the squared forward times the gamma. The reported delta of a call is between 0 and 1 and that of a put between -1 and 0, they differ by one, the vegas of calls and puts are equal and those of a straddle the sum; none is negative for a positive forward. A call is a put with forward and strike exchanged, and a price in another unit of money is the same amount while forward times strike stays above the tolerance. A Bachelier price depends on forward and strike only through their distance while both products of forward and strike stay above the tolerance.", "quantifier": "every forward, strike, volatility and option type, for any symmetric distribution function", "why_tests_cant": "identities over all reals", "anchors": ["dal/math/distribution/black.hpp: BlackOpt, BachelierOpt", "dal/protocol/optiontype.hpp: OptionType_::Payout"]}
{"id": "C49", "title": "Finite-difference operators", "statement": "The first- and second-difference operators on any non-uniform grid are exact for polynomials up to degree two, and constants are preserved by a rollback step without discounting.", "quantifier": "every grid with increasing points", "why_tests_cant": "identity for every grid", "anchors": ["dal/math/pde/finitedifference.cpp: Dx, Dxx", "dal/math/pde/fd1d.cpp: FD1D_::CalcAx"]}
{"id": "C50", "title": "Calibration search returns only solutions", "statement": "The underdetermined search returns only points at which every residual is within its tolerance, and never evaluates the function more often than the configured budget; otherwise it reports failure.", "quantifier": "every function, start point, tolerance and control setting", "why_tests_cant": "holds for every function and every search trajectory", "anchors": ["dal/math/optimization/underdetermined.cpp: Underdetermined::Find"]}
{"id": "C51", "title": "Time grids", "statement": "Filling a time or spot grid keeps every required point, keeps the grid strictly increasing, and leaves no gap larger than the requested maximum.", "quantifier": "every increasing list of required points and every maximum step > 0", "why_tests_cant": "for all lists", "anchors": ["dal/model/utilities.hpp: FillData"]}
{"id": "C52", "title": "Scenario generation is adapted to the product's timeline", "statement": "Whatever the product's event dates, the Black-Scholes path generator fills exactly one sample per product date, in order, with the numeraire of that date, uses each Gaussian number exactly once and never indexes outside its tables.", "quantifier": "every product timeline with or without an event today", "why_tests_cant": "index alignment for every timeline", "anchors": ["dal/model/blackscholes.hpp: BlackScholes_::Allocate, Init, GeneratePath"]}
{"id": "C53", "title": "Time of day survives reading back", "statement": "A time built from hours, minutes and seconds, or from a number of milliseconds, is read back (parts, text, milliseconds) as the same time; adding a positive length of time moves by exactly that much; order agrees with differences.", "quantifier": "every supported date and every time of day", "why_tests_cant": "86400 seconds and 86.4 million milliseconds per day, each subject to rounding", "anchors": ["dal/time/datetime.cpp: DateTime_, DateTime::Hour, DateTime::Minute, DateTime::TimeString, DateTime::MSec", "dal/time/datetimeutils.cpp: DateTime::FromString, DateTime::IsDateTimeString"]}
{"id": "C54", "title": "Spatial grids", "statement": "A uniform or concentrating mesh starts and ends at the requested bounds, is strictly increasing, stores the distances between neighbours, and contains the concentration point when that is required.", "quantifier": "every interval, size, concentration point and density", "why_tests_cant": "for all real parameters and sizes", "anchors": ["dal/math/pde/meshers/uniform1dmesher.hpp: Uniform1DMesher_", "dal/math/pde/meshers/concentrating1dmesher.cpp: Concentrating1dMesher_"]}
{"id": "C55", "title": "Dense products, squares and correlations", "statement": "Multiplying matrices and vectors of fitting shapes gives the algebraic product of what the operands held before the call, also when the result is written over an operand, and leaves everything else; shapes that do not fit are refused; adding the square of a Jacobian to an upper triangle and the volatilities and correlations of a covariance matrix are as in the textbook.", "quantifier": "every shape, all entries, every way of sharing operands and result", "why_tests_cant": "all sizes, block boundaries and aliasing patterns", "anchors": ["dal/math/matrix/matrixarithmetic.cpp: Matrix::Multiply, Matrix::WeightedInnerProduct, Matrix::AddJSquaredToUpper, Matrix::Vols"]}
{"id": "C56", "title": "Decompositions of dense matrices solve, multiply and correlate", "statement": "The Cholesky decomposition of a symmetric strictly diagonally dominant matrix succeeds for any regularization factor other than zero and at most one, and its Multiply, Solve and MakeCorrelated are exactly those of one matrix that differs from the given one by at most 3 reg^2 D^2 / m in each entry, D bounding the diagonal and m its excess over the rest of the row; the same holds for any symmetric matrix whose pivots are positive, and for CholeskySolve, which works in place of the matrix and of the right-hand sides. Without a positive regularization the decomposition is rejected. Diagonal and lower triangular decompositions solve their systems exactly when no diagonal entry is below the tolerance. A quadratic form computed with a correct solver has as entries the products of the rows with the solutions.", "quantifier": "all sizes, all matrices and right-hand sides with the stated shape, all regularization factors in range, for exact arithmetic; dense quadratic forms and perfect correlation in binary64 are refuted", "why_tests_cant": "the claim is about all matrices of all sizes and the size of the perturbation caused by the regularization", "anchors": ["dal/math/matrix/cholesky.cpp: CholeskyDecomposition, CholeskySolve", "dal/math/matrix/decompositionsmisc.cpp: DiagonalAsDecomposition, LowerTriangularAsDecomposition", "dal/math/matrix/sparse.cpp: Sparse::SymmetricDecomposition_::QForm"]}
{"id": "C57", "title": "Conjugate gradients return only solutions within tolerance and find them", "statement": "Whatever CGSolve or BCGSolve returns satisfies |b - A x| <= tol_rel |b| + tol_abs, for any matrix, preconditioner and starting point. For a symmetric positive definite matrix and preconditioner, CGSolve returns such a solution whenever at least n iterations are allowed, without dividing by zero, from any start other than the solution itself. On symmetric input BCGSolve does exactly what CGSolve does. The two-sided solver, given a matrix and its transpose, leaves after every turn each residual orthogonal to the direction of the other side, as long as it divides by no zero.", "quantifier": "all sizes, matrices, preconditioners, right-hand sides, starts, tolerances and iteration limits, in exact arithmetic whatever a division by zero gives; equality of the two solvers in any arithmetic", "why_tests_cant": "the guarantee is about every linear system and every number of iterations; tests solve a few systems", "anchors": ["dal/math/matrix/bcg.cpp: Sparse::CGSolve, Sparse::BCGSolve"]}
{"id": "C58", "title": "General band matrices store, multiply and solve what was written to them", "statement": "For every matrix made by Sparse::NewBandDiagonal with more than one diagonal on a side and every sequence of Set and Add calls: an element reads back what the calls described, elements outside the band are zero and writing there throws, MultiplyLeft and MultiplyRight give the products with the matrix and with its transpose, the lower band solve gives the solution (also in place) or throws if a diagonal element counts as zero, and Decompose of a symmetric positive definite matrix gives a decomposition. LowerBandAccumulator_ keeps the triangular factor of the rows added and solves with it and with its transpose.", "quantifier": "every size, every number of diagonals above and below, every sequence of writes, every vector (exact real arithmetic)", "why_tests_cant": "The loop bounds depend on size and both band widths together; a matrix of one width and size exercises one combination, and nothing in the tests reads next to the end of the store.", "anchors": ["dal/math/matrix/banded.cpp: BandElements_, BandedMultiply, BandedLSolve, BandedLTransposeSolve, BandedCholesky_, Banded_, LowerBandAccumulator_", "dal/math/matrix/banded.hpp: Sparse::NewBandDiagonal, LowerBandAccumulator_"]}
{"id": "C59", "title": "The growing stack is a stack, and Debug prints every product unambiguously", "statement": "For every program that constructs, copies, assigns, moves, pushes, pops, resets and clears any number of growing stacks, each stack shows, last in first out, exactly the items it should, across every reallocation; TopAndPop returns the top. ScriptProduct_::Debug prints, for every product however deep or long, the functional form of each statement in order, and two statements that print alike are the same tree of operations, variables and printed numbers.", "quantifier": "every history of operations on any number of stacks of any element type and initial capacity; every script product", "why_tests_cant": "Growth happens at particular depths only and aliasing between stacks depends on the history; ambiguity of a printed form is a statement about all pairs of products.", "anchors": ["dal/math/stacks.hpp: Stack_", "dal/script/visitor/debugger.hpp: Debugger_", "dal/script/event.cpp: ScriptProduct_::Debug"]}
{"id": "C60", "title": "Smoothed values minimize misfit plus penalty", "statement": "For ascending abscissas, as many values, positive weights (one for each value or none) and a smoothing parameter of at least zero, SmoothedVals gives the vector that minimizes the weighted squared misfit to the values plus lambda times the sum over neighbours of the squared difference divided by their distance (at least 1e-9); the weighted total is kept and every smoothed value lies within the range of the data; anything else is rejected.", "quantifier": "every number of points at least two, every abscissas, values, weights and lambda (exact real arithmetic)", "why_tests_cant": "Minimality compares the result with every other vector; an index shifted by one passes a test that checks plausibility.", "anchors": ["dal/math/smooth.cpp: SmoothedVals"]}
{"id": "C61", "title": "Vector statistics", "statement": "Vector::Covariance returns the textbook covariance E[xy] - E[x]E[y] of two vectors of equal size, so it is symmetric, linear in each argument, blind to adding constants, and non-negative for a vector with itself (zero exactly for constant vectors). Vector::Correlation lies between -1 and 1, is symmetric, blind to adding constants and to the units of the data, and is 1 for a vector with itself. Vectors of different sizes are refused. Centralized vectors sum to zero and keep all differences; normalized vectors have norm 1.", "quantifier": "all pairs of vectors of any length, in exact arithmetic (the empty case also in doubles)", "why_tests_cant": "a handful of sample vectors says nothing about all lengths and magnitudes; the padding by 1e-14 is invisible at ordinary magnitudes", "anchors": ["dal/utilities/numerics.hpp: Accumulate, InnerProduct, Vector::L1Normalized, L2Normalized, Centralized, Covariance, Correlation"]}
{"id": "C62", "title": "Whole numbers out of doubles", "statement": "AsInt(double) drops the fraction but forgives an error just below a whole number (about 1e-9), keeps the sign, and returns whole numbers unchanged; NearestInt returns the nearest whole number with halves away from zero. Numbers outside the int range, infinities and NaN are refused with an exception, never undefined. AsInt(ptrdiff_t) returns the number if it is an int and throws otherwise.", "quantifier": "every double and every 64-bit integer", "why_tests_cant": "2^64 doubles; the exceptional inputs are single values", "anchors": ["dal/utilities/numerics.cpp: AsInt, NearestInt"]}
{"id": "C63", "title": "Notes in error messages", "statement": "The text of every Dal exception consists of the place and message of the throw followed by one line for each NOTE or NOTICE whose scope encloses the throw, outermost first, with the value the noticed variable has at that moment. Leaving a scope, normally or by an exception, removes its notes and no others, so later messages are not polluted; composing a message is never undefined and leaves nothing allocated.", "quantifier": "all programs made of nested scopes, notes, assignments, throws and handlers, of any size", "why_tests_cant": "the stack of notes is global state changed by constructors and destructors; a test sees a few nestings, not all exits", "anchors": ["dal/utilities/exceptions.hpp: StackRegister_, XStackInfo_, NOTE, NOTICE, THROW", "dal/utilities/exceptions.cpp: XTheStack, PushStack, PopStack, MsgWithStack", "dal/risk/report.cpp: AddHeaderRow"]}
{"id": "C64", "title": "Header tables of a report", "statement": "A report made with axes of distinct names (case ignored), positive sizes after the first axis and a list of labels per axis keeps, for every axis, a table with these labels: after any sequence of added header rows of the right width, asking for the header under the axis name in any case gives the labels, as many rows as the axis or the farthest row added needs, each row as last added or blank, and the values of the report untouched; an unknown axis throws. Stored and read again, the labels, tables and values come back, tables padded with blank rows up to the size of the axis.", "quantifier": "all axis names, sizes, labels, sequences of header rows and of values written", "why_tests_cant": "rows are added in any order and beyond the end, the first axis grows with values but not its table, and reading replays the rows through the same function", "anchors": ["dal/risk/report.cpp:AddHeaderRow", "dal/risk/report.cpp:Header", "dal/risk/report.cpp:Write", "dal/risk/report.cpp:Build", "dal/risk/report.hpp:Report_"]}
{"id": "C65", "title": "Calibrated local volatilities", "statement": "Calibrating a Dupire surface from implied volatilities gives increasing grids of spots and times that contain the points asked for without steps longer than asked, and for every pair the local volatility at the grid point itself when it lies within two and a half deviations of the spot, otherwise at the nearest grid point that does. The local volatility is Dupire's formula with every derivative taken within one part in ten thousand of the strike or the maturity; on a flat surface without rates it is the flat volatility within half a percent (deviations of 5 to 200 percent, strikes up to three deviations). An empty risk view or one without spreads changes nothing, and a bump moves one knot only.", "quantifier": "all surfaces, grids, maturities, risk views, strikes and maturities", "why_tests_cant": "the result is a function of a whole implied volatility surface and of the position of every grid point against a band that depends on the maturity", "anchors": ["dal/model/dupire.hpp:DupireCalib", "dal/model/dupire.hpp:DupireCalibMaturity", "dal/model/ivs.hpp:IVS_", "dal/model/ivs.hpp:RiskView_"]}
{"id": "C66", "title": "Jump-diffusion price", "statement": "The Merton price is the sum over up to nine jumps of the Poisson probability times the Black call with the forward and volatility after these jumps; without jumps it is the Black-Scholes price; it lies between zero and the spot and does not fall when the volatility rises. Each term is the expectation of the payout given the number of jumps. The series over all numbers of jumps has a sum between the payoff of the spot and the spot, and the price given is below it by at most the spot times the probability of ten or more jumps at the intensity that counts jumps with the spot as unit.", "quantifier": "all spots, strikes, volatilities, maturities, intensities and jump sizes", "why_tests_cant": "the truncated series, the compensated forward and the powers and factorials carried by the loop matter for every parameter", "anchors": ["dal/math/analytics/vanilla.hpp:Merton", "dal/math/analytics/vanilla.hpp:BlackScholes", "dal/math/analytics/vanilla.cpp:BlackScholesIVol", "dal/model/ivs.cpp:MertonIVS_::ImpliedVol"]}
{"id": "C67", "title": "Normal distribution function and its inverse", "statement": "Both versions of the normal distribution function are symmetric about zero; the fast one is a continuous strictly increasing distribution function through its table, with a smooth join to its tail that follows the normal law. The inverse refuses what is not a probability, gives a number for every probability, is antisymmetric about one half and strictly increasing, and polishing squares the error of the approximation.", "quantifier": "all arguments, both precisions, polished or not, every error function of the C library with the reflection law", "why_tests_cant": "the spline, the tail, the rational approximations and their joints are a handful of regions with infinitely many arguments in each; order and symmetry compare pairs of arguments", "anchors": ["dal/math/specialfunctions.cpp:NCDF", "dal/math/specialfunctions.cpp:NcdfBySpline", "dal/math/specialfunctions.cpp:InverseNCDF"]}
{"id": "C68", "title": "Valuing a script by simulation gives the mean of its payoff over the paths", "statement": "For every script with past and future events and every way of generating paths, ValueByMonteCarlo without sensitivities returns the mean over all paths of the final value of the payoff variable - the last variable to appear in the script - obtained by reading the script as written: past events first (payments not counted, spot 30), then each future event with the market of its date, payments divided by the numeraire, variables known by name whatever the case. Indexing the variables, evaluating the past once, marking IFs, removing dead branches, splitting the paths into tasks and running these on any threads in any order change nothing. Without the removal of dead branches the total of a simulation is, in any arithmetic, the same sum batch by batch whatever the schedule; compiling changes nothing where the compiled evaluator is right (C14).", "quantifier": "every script, past, path generator that can be moved to a given path, number of paths and threads, order of the tasks and assignment of tasks to threads", "why_tests_cant": "The value passes through six stages (indexing, past evaluation, marking, domain analysis, elimination, batching) whose errors can compensate or show only for some script, schedule or number of threads; tests compare a few numbers within a Monte Carlo tolerance.", "anchors": ["public/src/value.cpp:ValueByMonteCarlo", "dal/script/event.cpp:ScriptProduct_::PreProcess", "dal/script/event.cpp:ScriptProduct_::IndexVariables", "dal/script/event.cpp:ScriptProduct_::Compile", "dal/script/event.hpp:ScriptProduct_::Evaluate", "dal/script/simulation.hpp:MCSimulation"]}
{"id": "C69", "title": "Archive files are read back", "statement": "An object saved to a file and loaded from it is a copy of the object, with the same types, members and sharing: every text that a comma-separated file can hold and that does not look like something else, every whole number the reader can parse, every truth value and every date comes back, and a sheet comes back with the same rows and cells.", "quantifier": "all object graphs, sheets and cell values whose texts survive and whose lines fit the reading buffer; all parsers and printers of numbers and times", "why_tests_cant": "The text of a cell decides what it is read as, so the round trip depends on every character of every cell, on the width of the widest line, and on trailing empty cells; the failing cases (long lines, look-alike texts) need particular data.", "anchors": ["dal/storage/splat.cpp: SplatFile, UnSplatFile, FileTable, SplitLine, AsCell", "dal/math/cellutils.cpp: ToStringLines", "dal/utilities/file.cpp: File::Read, File::Write"]}
{"id": "C70", "title": "Reported sensitivities are derivatives of the value", "statement": "For every script, path generator, split into tasks and schedule, the sensitivity a simulation with algorithmic differentiation reports for a model parameter or a constant variable is the exact derivative, with respect to it, of the average over the paths of the payoff as the fuzzy evaluator computes it, provided no operation is at a point without a derivative, no comparison that decides the evaluation is a tie, and no adjoint was dropped as negligible. Where the names of parameters and constants differ, each sensitivity is reported under its own name. Compiled scripts give the same sensitivities.", "quantifier": "every script, model path, number of paths and threads, order of tasks and assignment to threads, and all inputs", "why_tests_cant": "A wrong derivative is a plausible number; finite differences agree only to Monte Carlo noise, and tasks, marks and thread accumulators interact only for particular numbers of paths and threads.", "anchors": ["dal/script/simulation.hpp:MCSimulation<Number_>", "dal/script/simulation.hpp:InitModel4ParallelAAD", "dal/script/simulation.hpp:SimResults_", "public/src/value.cpp:ValueByMonteCarlo", "dal/script/visitor/fuzzy.hpp", "dal/script/visitor/compiler.hpp"]}
{"id": "C71", "title": "Objects archived as JSON come back as the same objects", "statement": "Writing an object that refers to other objects (without cycles) as JSON text never fails, and reading the text builds a copy of it: one copy of each object however often it is referred to, different copies of different objects, each with its type, the members its class asks for (required, optional and numbered ones) and every value as its text says: finite numbers as their printed decimals, texts without quotes, backslashes or control characters, dates, times, flags in vectors, cells, and matrices with at least one column. A text that is not a JSON object, or lacks a required member, is reported.", "quantifier": "all object graphs without cycles, all classes given by the members they read, all storable values; number and time printing are arbitrary", "why_tests_cant": "tests archive a few objects with round numbers; the format must be undone by an independent parser for every nesting, sharing pattern, length and character", "anchors": ["dal/storage/json.cpp: JSON::WriteString, JSON::ReadString, JSON::WriteFile, JSON::ReadFile", "dal/storage/archive.hpp: Archive::Utils::Set, SetOptional, SetMultiple, Get, GetOptional, GetMultiple", "dal/storage/archive.cpp: Archive::Extract", "dal/auto: MG_*_Write.inc, MG_*_Read.inc", "dal/string/strings.cpp: String::FromDouble"]}
{"id": "C72", "title": "Start-up, shipped calendars and currency conventions", "statement": "Starting the library registers exactly the two calendars it ships and the currency conventions, once, whatever was registered or written before. The shipped calendars are well formed, no market in them is closed for more than eleven days, and the bond market is open whenever the stock exchange is. A convention of a currency is the last value written for it, or else the last default. After the start-up every currency has a Libor start date: the given number of business days after the fixing.", "quantifier": "every history of registrations, writes and repeated start-ups; every currency; every date", "why_tests_cant": "depends on the order of everything done before the start-up, and on a table of 514 dates", "anchors": ["dal/platform/initall.cpp: RegisterAll_", "dal/time/calendars/init.cpp: Calendars_::Init", "dal/time/calendars/china.hpp: HOLIDAYS, WORK_WEEKENDS", "dal/currency/init.cpp: CcyFacts_::Init", "dal/currency/currencydata.cpp: OneFactImp_", "dal/protocol/conventions.cpp: Libor::StartFromFix, Libor::FixFromStart"]}
{"id": "C73", "title": "Traded rates, nominal maturities and interest-rate indices", "statement": "The texts of traded rates, period lengths and clearing houses read back. The rate found for a period length and a clearing house has both, and every rate is found from its own. A nominal maturity is the same day of the month one period later, or that month's last day. The start and the maturity of an index stand for the fixing date, a number of days after it, a given date or a described move; a Libor or swap rate without a given date starts by the convention of its currency. Two indices have the same name exactly when they are the same index, and a name reads back as its index.", "quantifier": "every rate, period length, currency, start, maturity, tenor text, fixing date and history of the process", "why_tests_cant": "the names are built from free texts, and the dates depend on the calendars and conventions registered", "anchors": ["dal/protocol/couponrate.cpp: TradedRate_::Period, TradedRate_::Clearer, FindRate", "dal/time/periodlength.cpp: PeriodLength_::Months, Date::NominalMaturity", "dal/indice/index/ir.cpp: IRForward_::StartDate, Libor_::Name, Swap_::Name, DF_::Name, DF_::StartDate, DF_::Maturity", "dal/indice/index/ir.hpp: DF_"]}
{"id": "C74", "title": "Coordinate maps of the finite-difference grids", "statement": "A coordinate map and its inverse undo one another, the two derivatives it returns are its derivatives, it takes 0 to 0 with slope 1, is symmetric and increasing, and within the width asked for its slope lies between 1 and the range asked for, which it reaches at the width. A width that is not positive or a range below 1 is refused.", "quantifier": "every width, range of slopes and coordinate (real numbers)", "why_tests_cant": "an identity between functions and limits, at every point", "anchors": ["dal/math/pde/pde.cpp: NewSinhMap, SinhMap_, IdentityMap_", "dal/math/pde/pde.hpp: CoordinateMap_, NewIdentityMap"]}
{"id": "C75", "title": "Auditors and the bag", "statement": "An auditor placed in the environment remembers what it is shown under each key, in order of time, or only the latest when it reads exclusively; upper and lower case are the same in keys. Showing an object returns when every auditor of the environment is reading and otherwise throws at the first that is not. Asking for a key gives the one object of the wanted type that the showing auditors hold, leaves the destination empty when there is none, and throws when they differ; it changes nothing that is held. A bag written and built again is the same bag.", "quantifier": "every history of creating auditors, setting modes, showing objects and asking for them, with any environments, keys, objects and wanted types; every list of keys and objects for the bag", "why_tests_cant": "an invariant over unbounded histories of several auditors with case-insensitive keys and equal keys in order", "anchors": ["dal/storage/audit.hpp: AuditorImp_, Environment::Audit, Environment::Recall", "dal/storage/audit.cpp: AuditorImp_::Notice, AuditorImp_::Find, Environment::AuditBase", "dal/storage/bag.cpp: Bag_::Write, Bag::Reader_::Build", "dal/utilities/maps.hpp: ZipToMultimap"]}
{"id": "C76", "title": "Tables exchanged with the spreadsheet", "statement": "The results of a function make one table: the scalars in a column, then a column for each vector, then the matrices side by side; the places left over are missing values. Every block of memory allocated for the table is freed once when the spreadsheet hands it back. Of a range passed in, the part read is the smallest block at its top left with blanks or the edge of the range beyond it. A matrix of cells written and read whole comes back, dates and times as their numbers and empty texts as empty cells; a vector comes back up to its first empty cell; numbers, flags, dates and texts come back. A dictionary is read row by row up to a blank row, without the rows that have no value.", "quantifier": "every list of results, every range of cells of any size, every reader of cells", "why_tests_cant": "the layout, the reading block and the freeing depend on the sizes and blanks of arbitrary tables", "anchors": ["public/excel/_excel.cpp: Retval_::ToXloper, NonblankSize, ToMatrix, ReadVector, ToDictionary, ToCell, ToDate, ToString, xlAutoFree12", "public/excel/_excel.hpp: Retval_"]}
{"id": "C77", "title": "Flags and whole numbers in text; conversions of cells", "statement": "A text is true when it says TRUE, T, Y or 1 in any case, false when it says FALSE, F, N or 0, and is refused otherwise. A vector of flags of any length stored in a cell comes back; a list of flags set apart by commas is read flag by flag. A whole number written as text is read back. A cell gives back the value it was made from, refuses to be what it is not (a flag also stands for 1 or 0), and an empty cell or empty text stands for the default provided.", "quantifier": "every text, every vector of flags, every 32-bit whole number, every cell", "why_tests_cant": "the inputs are arbitrary texts and vectors", "anchors": ["dal/string/stringutils.cpp: String::ToBool, String::ToBoolVector", "dal/math/cell.cpp: Cell::FromBoolVector, Cell::ToBoolVector, Cell::ToString, Cell::ToInt, Cell::ToDouble", "dal/math/cell.hpp", "dal/string/strings.cpp: String::ToInt, String::FromInt"]}
{"id": "C78", "title": "Interpolators made and used from the spreadsheet", "statement": "A function that makes an interpolator replies with a handle; from then on, whatever other functions are called, the handle names that interpolator until it is erased or another of the same type and name is made. Asking it for values gives, point by point, the broken line through the points (linear), through the smoothed values (smoothed), the cubic spline with the ends asked for (cubic; points outside are refused), or the surface over the table. Points that do not ascend and numbers of values that do not match are refused. A call that fails changes nothing. Asking for values, listing and counting do not change what is held; listing gives the handle of each matching object once. A text that is no handle, such as an error text, names nothing.", "quantifier": "every sequence of spreadsheet calls, every table of points, every name and every point asked for", "why_tests_cant": "the state is shared by all calls of a session; the histories are unbounded", "anchors": ["public/excel/__interp.cpp: Interp1_New_Linear, Interp1_New_Linear_Smoothed, Interp1_New_Cubic, Interp1_Get, Interp2_New_Linear, Interp2_Get", "public/excel/__repository.cpp: Repository_Find, Repository_Erase, Repository_Size", "public/src/repository.cpp: EraseRepository", "public/excel/_excel.cpp: LoadBase, ToHandleBase, XError", "public/auto: MG_Interp1_Get_public.inc, MG_Interp1_New_Cubic_public.inc"]}
{"id": "C79", "title": "Random sequence generators kept in the repository do not disturb one another", "statement": "However a spreadsheet session mixes the making, drawing from and dropping of pseudo-random sequence generators, the numbers drawn through one generator's handle are exactly those the same draws would give from that generator alone. A generator that could be made never fails: each draw gives as many rows as asked for, of its dimension, uniforms strictly between 0 and 1 and normals that are inverses of such uniforms; n rows followed by k rows are the n + k rows; every second row of uniforms of a new generator mirrors the row before; for MRG32 the rows are those of the recurrence with seeds seed and seed + 1. Exactly the documented names can be used, and what is stored of a new generator makes the same generator again.", "quantifier": "all sessions of making, drawing and dropping (fresh addresses for new objects), all names, seeds, dimensions, row counts and histories of draws", "why_tests_cant": "interleavings of calls on several handles and histories of draws are unbounded; a test can only replay a few", "anchors": ["dal/math/random/pseudorandom.hpp PseudoRSG_", "dal/math/random/pseudorandom.cpp New", "public/src/random.hpp NewPseudoRSG GetPseudoRSGUniform GetPseudoRSGNormal", "public/excel/__random.cpp PseudoRSG_New PseudoRSG_Get_Uniform PseudoRSG_Get_Normal", "dal/auto/MG_RNGType_enum.inc", "dal/auto/MG_PseudoRSG_v1_Read.inc"]}
{"id": "C80", "title": "A product made in the spreadsheet keeps its events whatever the day, and its table of values has one correct row per parameter", "statement": "A date entered as the spreadsheet's number makes the same product as the date itself and a fraction is refused. As the evaluation date moves the product has the same events in the same order, those before the date in the past and the others to come. Printing it gives, for each event to come, its date and number and each statement in functional form, line by line. The table of values has the value under PV and under d_name the sensitivity to the parameter of that name (ignoring letter case), in order of the headings and nothing else, and it has a row for every parameter exactly if all parameter names differ; the local volatility for a spot and time is named after them, and these names differ if the texts of the spots and those of the times do.", "quantifier": "all lists of dates (as dates, numbers or texts) and events, all pairs of evaluation dates, all parameter names and risks, all grids of spots and times", "why_tests_cant": "the property quantifies over all products, days and grids; a test sees a few dates and a small grid whose labels happen to differ", "anchors": ["public/excel/__script.cpp Product_New Product_Debug", "public/src/script.hpp NewScriptProduct DebugScriptProduct", "public/excel/__value.cpp MonteCarlo_Value", "public/src/value.cpp ValueByMonteCarlo", "dal/script/event.hpp ScriptProductData_ ParseEvents", "dal/script/event.cpp Debug", "dal/model/dupire.hpp parameterLabels_", "dal/model/blackscholes.hpp ParameterLabels"]}
{"id": "C81", "title": "A model is its named parameters: copies are independent, and what is set is what is simulated", "statement": "However models are made from descriptions, copied, changed through the addresses of their parameters and destroyed, each model behaves as a list of named numbers of its own: what is written to a parameter is what that model simulates with, a copy starts with the parameters of the original, and changing or destroying a copy (or any other model) leaves the original as it was. Each parameter has one name. A description that is stored and read back is the same description, and a renamed copy of a description makes the same model. Only using a model that is not there or a parameter it does not have is undefined.", "quantifier": "all finite sessions of making, copying, changing and destroying models, of all sizes and numbers of models; all descriptions", "why_tests_cant": "the parameters are raw addresses into the object that hold after copying only because every copy recomputes them; a forgotten address shows only in sessions that change a copy and then look at the other, in some order of destruction", "anchors": ["dal/model/base.hpp ModelData_ MutantModel", "dal/model/blackscholes.hpp BlackScholes_ Clone Parameters BSModelData_", "dal/model/blackscholes.cpp", "dal/model/dupire.hpp Dupire_ Clone SetParameterPointers DupireModelData_", "dal/model/dupire.cpp", "dal/model/factory.hpp CreateModel", "public/src/models.hpp", "public/excel/__models.cpp", "dal/auto/MG_BSModelData_v1_Write.inc", "dal/auto/MG_DupireModelData_v1_Write.inc"]}
{"id": "C82", "title": "Several results can be differentiated in one pass", "statement": "With the tape set for up to n results before any number is made, any computation can be differentiated for several of its results at once: after one backward pass, adjoint j of each input is the derivative of result j with respect to that input, the same as taking the results one at a time. After the adjoints are reset, further results can be taken from the same tape, as often as wanted.", "quantifier": "all programs, all inputs at which the program is smooth, all lists of results, all block sizes and numbers of results a block can hold, all sequences of resets and passes", "why_tests_cant": "each number's adjoints are a stretch of a block list that neighbouring numbers and block boundaries can overlap, and an adjoint row is skipped only when all of it is small; a wrong offset shows only for some sizes, results and orders", "anchors": ["dal/math/aad/node.hpp PropagateAll", "dal/math/aad/tape.hpp RecordNode", "dal/math/aad/tape.cpp ResetAdjoints", "dal/math/aad/expr.hpp PropagateAdjointsMulti PushAdjoint", "dal/math/aad/aad.hpp SetNumResultsForAAD", "dal/math/aad/blocklist.hpp EmplaceBackMulti Memset"]}
{"id": "C83", "title": "What is put in the Excel report stays there", "statement": "A chart made by the Excel driver shows its inputs and outputs under their labels, with the title and axis labels given; a table is on the sheet of its name at the place asked for, with its row and column labels and nothing else; printed texts are one under the other on a sheet of their own. This remains so whatever calls are made before and after, whether they end or throw, and no two sheets or charts ever have the same name. A chart or table is made whenever there are enough labels, its name is legal and new, and the sheet has room.", "quantifier": "all sessions of calls before and after, all inputs, outputs, matrices, labels, titles, names and offsets, all sheet sizes and all rules for names", "why_tests_cant": "charts share one data sheet and refer to it by position, so a chart is spoiled by a later one only for some sizes and some histories of failed calls", "anchors": ["dal/excel/exceldriverlite.hpp ExcelDriver_", "dal/excel/exceldriverlite.cpp CreateChart AddMatrix AddVector PrintStringInExcel ToSheetHorizontal ToSheetVertical"]}
{"id": "C84", "title": "Curves on bases: polling, copying and exchanging a base", "statement": "The discount factor of a curve built on a base, itself perhaps on a base and so on, is the product of the factors of all curves of the line. Polling a curve lists exactly the curves of its line, each once, and gives a handle for every base. A copy made with a table of new bases has the same forward rates and the new base in place of the old; without changes it gives the same discount factors. Existing curves never change. A base at any depth can be exchanged by copying the curves above it, from the nearest on.", "quantifier": "all collections of curves that can be made by construction and copying, all lines of bases of any length, all tables of changes, all dates", "why_tests_cant": "lines of any depth with bases shared between curves, and tables of changes naming any of them", "anchors": ["dal/curve/yccomponent.hpp YCComponent_ CurveWithBase_ NewBase Poll", "dal/curve/ycimp.cpp DiscountPWLF_ Clone operator()", "dal/platform/platform.hpp handle_cast"]}
{"id": "C85", "title": "The numbers of a simulation do not depend on the threads' timing", "statement": "A simulation asked for the sobol or the mrg32 generator, with or without the Brownian bridge, gives every path the same random numbers on every run: they do not depend on which thread runs which batch of paths, nor on the order in which the batches are run. With sobol, path n has the n-th vector of the sequence whatever the number of threads. The names of generators are taken in upper and lower case; other names are refused.", "quantifier": "all numbers of paths below 2^31, all dimensions, all sizes of the thread pool, all orders of the batches and all assignments of batches to threads", "why_tests_cant": "the timing of threads cannot be steered from a test, and a generator that carries its state from one batch to the next often gives the same numbers by chance", "anchors": ["dal/script/simulation.cpp CreateRNG", "dal/script/simulation.hpp MCSimulation rngVector SkipTo FillNormal", "dal/math/random/pseudorandom.cpp MRG32k32a_ SkipTo ShuffledIRN_ SkipTo", "dal/math/random/brownianbridge.hpp BrownianBridge_ SkipTo"]}
{"id": "C86", "title": "Records read from a range of the spreadsheet", "statement": "Every row of the block at the top left of a range makes one record, in order; each field of a record is the cell of that row in the column asked for, read as the type asked for. A blank cell, or a column beyond the range, gives the default when there is one and fails when there is none. A table written to the spreadsheet whose first row and first column have no blanks is read back as one record for each row. Nothing, or a blank value, gives no records if that is allowed; a single value is refused.", "quantifier": "all ranges of any size and contents, all lists of fields with any columns and defaults, all tables written", "why_tests_cant": "ranges of any shape with blanks anywhere, and fields with defaults in any columns", "anchors": ["public/excel/_excel.hpp RowReader_ ToRecordVector", "public/excel/_excel.cpp RowReader_ ReaderExtract ReaderExtractOrDefault NonblankSize", "dal/storage/_reader.hpp UIRow_ ExtractString ExtractEnum ExtractHandle"]}
{"id": "C87", "title": "The price of a script, from the generator to the value", "statement": "A simulation gives the same total for every order in which its tasks are run and every choice of the threads that run them, although each thread goes on with the generator, the path and the evaluator its last task left behind: with mrg32 the sum, batch by batch, of the payoff of each path, and with Sobol numbers the sum over the numbers of the paths. Run compiled it gives the same. With the Black-Scholes model the value is the mean, over the paths, of the payoff read off the script as written on spots that follow the Brownian motion the draws make and numeraires that grow at the rate; with Sobol numbers it does not depend on the number of threads. Another name of a method is refused.", "quantifier": "all valid scripts with past and future events, all models that make a path from a vector, all numbers of paths and threads, all orders of the tasks and assignments to threads, all spots, volatilities, rates and dates in order, with and without the bridge", "why_tests_cant": "timings of threads over unboundedly many paths; state carried from task to task in three objects per thread", "anchors": ["dal/script/simulation.hpp MCSimulation", "dal/script/simulation.cpp CreateRNG", "public/src/value.cpp ValueByMonteCarlo", "dal/model/blackscholes.hpp BlackScholes_", "dal/math/aad/sample.hpp InitializePath"]}
{"id": "C88", "title": "Option formulas are expectations", "statement": "The Black price is the expectation of the payout on a lognormal number whose mean is the forward, and the Bachelier price the expectation of the payout on a normal number whose mean is the forward, for calls, puts and straddles. The expectation, over a normal draw, of what the script pay PAYS MAX(SPOT() - K, 0) (or MAX(K - SPOT(), 0)) pays on the path that the Black-Scholes model makes of the draw is the discounted Black price of the forward: the closed formula is what the simulation's mean estimates.", "quantifier": "all positive forwards, strikes and volatilities above the code's thresholds, all option types, spots, rates, dividends and maturities; every normal law", "why_tests_cant": "integrals over the whole line and every parameter: a simulation only approaches the number, and a table only samples it", "anchors": ["dal/math/distribution/black.hpp BlackOpt", "dal/math/distribution/black.hpp BachelierOpt", "dal/protocol/optiontype.hpp OptionType_::Payout", "dal/model/blackscholes.hpp BlackScholes_", "dal/script/simulation.hpp MCSimulation"]}
{"id": "C89", "title": "A simulation is unbiased and converges", "statement": "Over independent normal draws, the expectation of the average a simulation gives is the expectation of what the script pays on one path, whatever the number of paths, and the expectation of the squared distance between them is the variance on one path divided by the number of paths. On the paths of the Black-Scholes model the spot, in units of the numeraire and with dividends put back, has today's spot for its mean at every date, so a forward contract costs the same whatever the volatility and the other dates. The simulated price of a European option has Black's discounted price for its mean, and a mean square error inversely proportional to the number of paths. What ValueByMonteCarlo returns for such an option is that average, over as many vectors of the generator as there are paths.", "quantifier": "all numbers of draws a path, paths, scripts with a mean (and a variance); all timelines, spots, rates, dividends, volatilities, strikes", "why_tests_cant": "statements about expectations over independent draws for every number of paths; a run is one sample", "anchors": ["dal/script/simulation.hpp MCSimulation", "dal/model/blackscholes.hpp BlackScholes_", "public/src/value.cpp ValueByMonteCarlo", "dal/math/distribution/black.hpp BlackOpt"]}
{"id": "C90", "title": "Values rolled back on a grid converge to the solution of the equation", "statement": "Whatever the number of time steps, their lengths and thetas, rolling values back with the finite-difference solver returns, gives higher values for higher payoffs and does not let errors grow, as long as the rates are not negative, the diffusion outweighs the drift on the grid and the explicit part of a step is not too long. So the rolled-back values differ from a smooth solution of the pricing equation, with the same values at the start and constant values at the ends, by at most the time passed multiplied by a bound that falls with the longest time step and the widest spacing of the grid.", "quantifier": "all grids of increasing points, coefficients, thetas between zero and one, histories of steps, payoffs and smooth solutions", "why_tests_cant": "convergence is a statement about all grids and numbers of steps; a comparison on a few grids only shows a trend", "anchors": ["dal/math/pde/fd1d.cpp FD1D_::RollBwd", "dal/math/pde/fd1d.cpp FD1D_::Init", "dal/math/pde/finitedifference.cpp Dx, Dxx", "examples/european_fd/european_fd.cpp main"]}
{"id": "C91", "title": "Local volatility paths have the forward for their mean", "statement": "Whatever the local volatility surface, the longest step allowed and the product dates, the spot that the local volatility model simulates for a date has, given the draws up to an earlier product date, the spot of that date grown at the rate less the dividend yield for its mean; seen from today its mean is the forward, and so is that of the average over any number of independent paths. Hence the expected payout of a call, where it exists, lies between the forward less the strike (or zero) and the forward, and put-call parity holds without error. A flat surface gives exactly the Black-Scholes path over the simulated times.", "quantifier": "all surfaces, timelines, numbers of inserted steps, histories of the model object, product dates and numbers of paths", "why_tests_cant": "a mean is over all draws: a test run shows a sampled average with noise, for one surface", "anchors": ["dal/model/dupire.hpp Dupire_::Allocate, Init, GeneratePath, FillScenario", "dal/script/simulation.hpp MCSimulation"]}
{"id": "C92", "title": "Sensitivities along the paths average to the formula's", "statement": "The forward delta and the vega reported for an option are the expectations, over a normal draw, of the slopes of its payout in the forward and in the volatility, both for the lognormal and for the normal formula. For a call or put simulated in the Black-Scholes model, the derivative of the simulated value at fixed draws with respect to the model's spot, and with respect to its volatility, is an average over the paths whose expectation is the formula's discounted delta per unit of spot and vega per unit of annual volatility, whatever the number of paths.", "quantifier": "all forwards, volatilities, strikes, option types; all spots, rates, dividends, dates; all numbers of paths and all draws but those at the kink of the payout", "why_tests_cant": "statements about expectations and derivatives for every parameter; a finite difference on one seed is one sample with two errors", "anchors": ["dal/math/distribution/black.cpp BlackGreeks BachelierGreeks", "dal/protocol/optiontype.hpp Payout", "dal/model/blackscholes.hpp BlackScholes_", "public/src/value.cpp ValueByMonteCarlo"]}
{"id": "C93", "title": "As many independent paths as asked for", "statement": "A simulation asked for n paths with pseudo-random numbers averages over n different stretches of the generator's stream, so that, were the stream made of independent normal draws, the average would be unbiased and its mean square error the variance of one path divided by n, whatever the batches the paths are shared out in.", "quantifier": "all scripts, models, dimensions, numbers of paths and threads", "why_tests_cant": "a statement about all paths of every simulation; a test of one price sees a value within its error either way", "anchors": ["dal/script/simulation.hpp MCSimulation", "dal/math/random/pseudorandom.cpp MRG32k32a_::SkipTo PseudoRandom_::FillNormal", "public/src/value.cpp ValueByMonteCarlo"]}
{"id": "C94", "title": "Prices of options with different strikes leave no arbitrage", "statement": "At one forward and volatility the price of a call falls with the strike, by no more than the strike rises, that of a put rises by no more than the strike does, a straddle moves by no more than the strike, and an option with a strike between two others costs no more than the mixture of these with the same mean strike. This holds for the lognormal and the normal formula, for the jump-diffusion price of a call and, with the strikes discounted, for the values simulated for calls and puts with the same random numbers, whatever the number of paths and threads.", "quantifier": "all forwards, volatilities, strikes and mixtures; all models, dates, numbers of paths, threads and generators sobol and mrg32", "why_tests_cant": "inequalities between prices at all pairs and triples of strikes", "anchors": ["dal/math/distribution/black.hpp BlackOpt BachelierOpt", "dal/math/analytics/vanilla.hpp Merton", "dal/protocol/optiontype.hpp Payout", "public/src/value.cpp ValueByMonteCarlo", "dal/script/simulation.hpp MCSimulation"]}
