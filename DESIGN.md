# Formal model of Derivatives-Algorithms-Lib: design

## Method
Every modelled C++ function becomes a small total Gallina function in a `*Model.v` file, with a comment citing
file and lines in /repo. Undefined behaviour, exceptions and non-termination are explicit outcomes of the model
(the type `outcome` of `Base.v`: `Ok`, `Throw`, `UB`, `OutOfFuel`), never silently totalised. Specifications are
separate short definitions (`*Spec.v`, or the first lines of a `*Props.v`). Proofs live in the other files
(`*Proofs.v` and the like). Property theorems live in `*Props.v` files, each followed by `Print Assumptions` and
accompanied by examples that show concrete cases meeting the hypotheses. Theorem names begin with the id of
the property; a name ending in `_refuted` states that the property, or a natural extension of it, is false of the
modelled code, with a witness; `_partial` marks a theorem that proves only part of its property.

Numbers: integers are `Z`; where wrap-around matters (16-bit date serial, 32-bit words of the generators) the wrap is
written into the model. `double` values are modelled, per file, in one of three ways:
 1. an arbitrary type with arbitrary operations (script compiler and evaluators, dictionaries, archives, tape
    bookkeeping, calibration search): the theorem then holds for IEEE doubles as well;
 2. exact field arithmetic over `R` (linear algebra, interpolation, derivatives, curves, option formulas, paths of
    the models, domain analysis): rounding is not modelled;
 3. exact binary64 semantics (`SpecFloat`, related to the reals through Flocq in `FloatReal.v`) where rounding decides
    the result (calendar conversion, uniform deviates, times of day, parts of C45, C50, C51).

Concurrency (C10, C25, C34, C35) is modelled by inductive step relations over all interleavings, with one step per
lock, unlock, wait, notify or shared access.

External calls (regular expressions, printing and reading doubles, the normal distribution function, user functions of
the optimiser, the clock, the allocator) are section variables that become universally quantified in the closed
theorems; what a theorem needs of them is among its hypotheses.

## Trusted base
 - Coq 8.16.1's kernel (including `vm_compute`, used for finite sweeps and examples).
 - The axioms of the standard library listed below under "Assumptions per theorem"; no axiom is declared here, and no
   kernel check is switched off. The libraries Flocq and Coquelicot are used (as proved theorems); they bring in no
   axioms besides those of the standard library.
 - The reading of the C++ sources: that each definition of a `*Model.v` file says what the cited lines do. This was
   done by hand. The mutation log in `seeded/LOG.jsonl` tests the other direction, that the theorems notice when the
   model is changed.
 - The specifications (`*Spec.v` and the statements in `*Props.v`).


## Properties: what is modelled and proved

The plan each proof followed is in the last section. "Findings" are statements that are false of the code, or inputs on which it misbehaves. Most are proved as theorems `…_refuted` with a concrete witness; the rest are outcomes the theorem statements exclude by a hypothesis, noticed while modelling.

### C01 Calendar date round trip
Status: partial. Theorems in `DateProps.v`. The full round trip is false of the code (date.cpp:33, days 2034-03-01..2100-02-28): refuted, with the exact set of days for which it holds proved; reading, Excel and text forms proved on the whole domain.
Findings: date.cpp:33 multiplies by 3 before dividing by 100, so every date built from year, month, day between 2034-03-01 and 2100-02-28 is one day early.

### C02 Day arithmetic, order and weekday
Status: proved. Theorems in `DateProps.v`. In range, as stated; the silent wrap outside the range is exhibited.
Findings: AddDays wraps the 16-bit serial silently at both ends of the range.

### C03 Month arithmetic and end of month
Status: partial. Theorems in `DateProps.v`. Proved outside the months damaged by the construction defect of C01 and outside June 2149; refuted inside.
Findings: DaysInMonth, EndOfMonth and AddMonths inherit the construction defect of C01.

### C04 Business-day adjustment finds the nearest business day
Status: proved. Theorems in `HolidayProps.v`. For every calendar with a business day in the search direction; termination characterised exactly; the 16-bit wrap at the end of the range is refuted as a finding.
Findings: NextBus wraps around the 16-bit serial at the end of the range; the search never ends exactly when the calendar has no business day.

### C05 Business-day counting equals enumeration
Status: proved. Theorems in `HolidayProps.v`. For every interval, calendar text and reachable registry/cache state.

### C06 Business-day increments
Status: proved. Theorems in `HolidayProps.v`, `IncrementProps.v`. From business days; the round trip from a holiday is shown false.
Findings: Going n business days forward from a holiday and back does not return to it.

### C07 Day-count fractions
Status: partial. Theorems in `DayCountProps.v`. Fixed-denominator bases, ACT/365L with non-annual coupons outside the exceptional years and ACT/ACT (ISDA) inside an era proved; non-termination of ACT/ACT across year ends ending in 2035 or later, ACT/365L hangs and the 30/360 month-end clauses are refuted.
Findings: ACT/ACT never returns for periods that cross a year end with start year <= 2099 and end year >= 2035, or that end after 2149-01-01; in 2034 its denominator is 364. ACT/365L with annual coupons hangs when the first end of February inside is not a leap one, and does not count a leap day at the end. The month-end clauses of BOND 30/360 are wrong.

### C08 Schedule generation
Status: partial. Theorems in `ScheduleProps.v`. Forward and backward generation proved for every strictly moving tenor, with day, week, month and year tenors shown to be such; following and unadjusted adjustment proved; text form of increments proved. Zero, empty-compound and EOM tenors and the end of the date range are refuted.
Findings: A zero tenor, an empty compound "&", EOM from a month end and maturity 65535 never end; backward generation can wrap to a date out of range; ModifiedFollowing always throws.

### C09 IMM and CDS roll dates
Status: partial. Theorems in `HolidayProps.v`. Monthly IMM proved; quarterly IMM/CDS proved from quarterly months or past the target day, refuted otherwise; EOM backward proved, EOM forward not strict (refuted).
Findings: Quarterly ToIMM/ToCDS stay in a non-quarterly month; EOM forward is not strict; the IMM day of 2050-09 is the second Wednesday.

### C10 Holiday centre registry
Status: partial. Theorems in `HolidayProps.v`. Sequential registry proved in full; concurrent registration refuted (lost update).
Findings: Two threads adding centres at once can lose one of them.

### C11 Script parser: what you write is what runs
Status: proved. Theorems in `ParserProps.v`. Every text of an independent grammar is parsed to its tree, whatever the blanks and the case of keywords; every source tree is printed with the fewest brackets and parsed back. Exceptions found and proved: a comparison that begins with a bracket is refused, junk inside brackets and unknown characters are dropped, a caret is taken for a variable, stray commas accepted.
Findings: Junk inside parentheses is dropped (x = (1 2) gives 1); a comparison that starts with "(" is refused; unknown characters are dropped (x = 5%); x = ^ is accepted; MAX(1,2,) and repeated commas in DCF are accepted.

### C12 Script parser never runs away
Status: partial. Theorems in `ParserProps.v`. Termination proved for all token lists. Reading past the end proved impossible for guarded token lists (no function name last, END last if there is an IF, complete DCF arguments) and refuted without the guards (x = SPOT, IF x > 1, DCF(ACT365)). How often each token is read is not counted.
Findings: Reading past the last token (undefined): x = SPOT, IF x > 1, x = DCF(ACT365).

### C13 Variable indexing
Status: proved. Theorems in `ScriptProps.v`. For every list of events; payoff lookup and constant table included.

### C14 Compiled scripts behave like interpreted scripts
Status: partial. Theorems in `ScriptProps.v`. Proved for every product, scenario and evaluator history when the arithmetic satisfies the listed laws and no condition is tested with the truth-value stack below its start; an IF with ELSE followed by another IF, MAX/MIN with NaN and the tolerance of constant >= tests are refuted.
Findings: An IF with ELSE inside another resets the shared stacks and then pops from them (undefined); constants compared with >= use x > -EPSILON; MAX and MIN with a constant on the left swap operands, which shows with NaN.

### C15 Constant folding preserves meaning
Status: proved. Theorems in `ScriptProps.v`. Marks right on every execution of any scenario; only marks change; the processor never fails on indexed trees.

### C16 Dead-branch elimination preserves meaning
Status: proved. Theorems in `DomainProps.v`. proved for the analysis with exact comparisons on the reals and any script; for the comparisons of the code (tolerance 2e-14, 1e29 for infinity) on scripts whose bounds stay on a grid away from them; refuted with witnesses outside: LOG range, MAX/MIN with more than two arguments, numbers within the tolerance or beyond 1e29, a second analysis, constant division by zero
Findings: LOG is given the range [0, inf), so IF LOG(SPOT()) >= 0 is dropped; MAX and MIN with more than two arguments are judged on all and evaluated on two; numbers within 2e-14 of zero are judged zero; 1e29 is taken for infinity (MAX(SPOT(),1e30) throws); a second analysis reads the verdict stack at -1 (undefined); constant division by zero in a branch never taken throws.

### C17 IF pre-processing finds every affected variable
Status: proved. Theorems in `FuzzyProps.v`. Every product nested at most 128 deep (the limit is shown to be exact); lists, nesting and the absence of other effects.
Findings: 129 nested IFs overflow the stack of sets (undefined).

### C18 Fuzzy evaluation agrees with exact evaluation away from the smoothing zone
Status: partial. Theorems in `FuzzyProps.v`. Refinement to degree-weighted meaning for every negation-free product and any sequence of paths; equality with ordinary evaluation away from the switching points; weighted average in exact arithmetic. Negated conditions and zero smoothing width are refuted.
Findings: visitNot has the wrong name, so NOT and != in fuzzy mode read the stack at -1 (undefined); smoothing width 0 gives 0/0.

### C19 Paths are independent
Status: proved. Theorems in `ScriptProps.v`. Tree evaluator on any sequence of paths; past evaluation proved up to the stack limit, and the leak of past payments refuted beyond it.
Findings: Each PAYS in the past leaves one element on the evaluation stack: after 128 the stack overflows (undefined).

### C20 Event timeline
Status: proved. Theorems in `EventProps.v`. Tokenizer and statement parser are abstract functions of the event text; macro values are taken without further macros. The position of FIXING in a schedule, substitution inside longer names and truncated schedule texts are refuted.
Findings: FIXING in a schedule is accepted only in the last position; macros are replaced inside longer names; ":" as description, a truncated START and a missing FREQ are undefined behaviour.

### C21 Monte Carlo batches partition the paths
Status: proved. Theorems in `SimProps.v`. Task list, reserved capacity and per-thread areas for every path count below 2^31-1 and every pool; any order and assignment of tasks. Reuse of random numbers by later batches, INT_MAX and larger path counts are refuted separately.
Findings: Path 1024 of 1025 on two threads reuses the numbers of path 512; INT_MAX paths on one thread overflow; 2^31 or more paths simulate fewer.

### C22 Random generator skip-ahead
Status: partial. Theorems in `RandomProps.v`. MRG32k3a: the numbers after any SkipTo are the recurrence from place n*dim/2; equality with the sequential stream for batches of uniforms starting at an even path. Odd starts, normals (used by the simulation) and the other generator are refuted.
Findings: SkipTo skips floor(n*d/2) draws and does not reset the antithetic flag or the cache; normals drawn in batches reuse numbers; SkipTo of the other generator does nothing.

### C23 Uniform deviates lie strictly between 0 and 1
Status: proved. Theorems in `RandomProps.v`. Both pseudo-random generators, every seed, dimension and sequence of fills and skips, in exact binary64 arithmetic. Vectors shorter than the dimension are refuted. Sobol sequences are not in the repository sources and not modelled.
Findings: Vectors shorter than the dimension give the value 1.0.

### C24 Brownian bridge
Status: proved. Theorems in `BridgeProps.v`. Index search and linear map for every dimension >= 1, weights in exact reals (rounding of doubles not modelled); dimension 0 refuted.
Findings: Dimension 0 is undefined behaviour.

### C25 Object repository behaves like a named map
Status: proved. Theorems in `RepoProps.v`. Types and names without a tilde, addresses printing distinctly; names with a tilde and two racing additions are refuted. The regular expression engine is an arbitrary function.
Findings: Names with "~" confuse prefixes; AddBase locks twice, so two racing replacements leave two objects of the same name.

### C26 Global settings: last write wins, overrides are undone
Status: proved. Theorems in `GlobalProps.v`. For values that are not empty and names without a tilde; move-assigning an override, replacement by type and empty values are refuted. Today is taken as fixed.
Findings: Move-assigning an override forgets the first saved value; adding any Box in TYPE mode erases the global dates; an empty value can be stored and then not read.

### C27 Fixing history is merged, not lost
Status: proved. Theorems in `GlobalProps.v`. For any store keeping what it is given (the repository is shown to be one); storing an empty history is refuted. The library itself installs no fixings store, so without one installed every call dereferences a null pointer.
Findings: Storing an empty history makes the index unreadable. The library installs no fixings store, so every call dereferences a null pointer until one is installed.

### C28 Spreadsheet archive round trip
Status: proved. Theorems in `SplatProps.v`. Trees of tables, objects and tags written to the rectangular sheet are read back member by member; graphs with shared objects are rebuilt with the same sharing. The file of comma-separated values under the sheet is C69. Refuted: objects without members, empty vectors, blank text entries, objects with 28 or more members.
Findings: Column counts double with each child: 28 scalar members overflow int (undefined); an object without members throws; empty vectors are lost or undefined; an empty text truncates a vector of texts; MatrixStop reads one column too far.

### C29 Configuration dictionary round trip
Status: proved. Theorems in `DictProps.v`. Lookup by any spelling of a key, duplicates refused, text round trip for every dictionary whose keys and values have a text form (text, 32-bit whole numbers, dates outside the bad window). double and DateTime_ printing/reading are parameters. C29_values_refuted and C29_six_decimals_refuted list the cells that do not survive.
Findings: A bool comes back as text; an empty cell or key cannot be read; numeric-looking text becomes a number; values with ; or = cannot be read; numbers of 2147483647 and above cannot be written; other numbers keep six decimals.

### C30 String utilities
Status: partial. Theorems in `StringProps.v`. Case-insensitive order, split/join, Condensed and Equivalent proved; the trailing empty piece and non-ASCII bytes are refuted.
Findings: A trailing empty piece is lost by Split; characters outside ASCII are undefined behaviour in the comparison.

### C31 Generated names are fresh
Status: proved. Theorems in `StringProps.v`. 

### C32 Adjoint differentiation gives the true gradient
Status: proved. Theorems in `AadProps.v`. Any recorded program of the operations of expr.hpp over the reals: adjoints are derivatives, provided no adjoint was dropped for being <= 2e-14 (C32_tiny_refuted shows the code drops them) and every operation is at a point where it is differentiable; also the mark/rewind path loop. Single-result mode; double rounding not modelled here.
Findings: Adjoints of size <= 2e-14 are dropped, so y = x*1e20, z = y*1e-20 has dz/dx = 0; a result recorded before the mark is undefined; derivatives at ties of MAX/MIN, pow at 0 and fabs at 0 are not derivatives.

### C33 Tape memory: mark and rewind
Status: proved. Theorems in `BlockProps.v`. Block list against the list specification for all operation sequences, addresses stable, runs of slots disjoint. Refuted: forward iteration when the last block is exactly full; a mark ahead of the end.
Findings: With an exact multiple of the block size, forward iteration walks off the list (undefined); Clear leaves the mark dangling.

### C34 Work queue delivers every task exactly once, in order
Status: proved. Theorems in `QueueProps.v`. Every interleaving of any number of threads with separate lock, critical-section, wait and notify steps and spurious wake-ups. ResetInterrupt and Clear (no lock, only used by Stop) are not modelled.

### C35 Waiting for a task cannot deadlock
Status: proved. Theorems in `PoolProps.v`. Any number of threads, every schedule, tasks that wait for tasks they spawned; waiting for a task of another task is refuted.
Findings: Waiting for a task that was not spawned by the waiting task can deadlock.

### C36 Environment stack is scoped
Status: proved. Theorems in `EnvProps.v`. Every nesting of ENV_ADD, ENV_SEED, calls and lookups.

### C37 Linear interpolation
Status: proved. Theorems in `InterpProps.v`. over the real numbers; table with strictly increasing abscissae and at least one point; repeated knots and the empty table are refuted separately
Findings: Repeated knots are accepted and the second value is never returned; an empty table is accepted and then undefined.

### C38 Cubic spline
Status: proved. Theorems in `CubicProps.v`. over the real numbers: rounding is not modelled

### C39 Tridiagonal linear algebra
Status: proved. Theorems in `BandProps.v`, `PdeProps.v`. over the real numbers; multiplying in place with the matrix object is refuted separately
Findings: Multiplying a vector in place with the matrix object is wrong.

### C40 Root finding keeps its bracket
Status: proved. Theorems in `BrentProps.v`. Real numbers stand for doubles. For every sequence of reported values; hunt shown to terminate for strictly monotone functions; two refutations (zeros at both ends give NaN; PutY before NextX).
Findings: If both end values are zero NextX returns NaN; PutY before NextX reads an uninitialised number.

### C41 Discount curves are arbitrage-consistent
Status: proved. Theorems in `CurveProps.v`. Real numbers stand for doubles, dates are integers. Integral of the curve stated as the sum over days, on each of which the curve is linear. Refutations: repeated knots of a constant curve; empty linear curve.
Findings: With a repeated knot a piecewise constant curve and its integral disagree; an empty piecewise linear curve is accepted and then undefined.

### C42 Multi-dimensional tables address cells uniquely
Status: partial. Theorems in `NdProps.v`. Addresses, growth, SetAll and storing are proved for every number of axes. Resizing an n-dimensional array keeps the common values only when no axis grows and not at the origin (code defects, refuted); header tables are C64.
Findings: Out-of-range addresses of a report alias other cells; one with a small first coordinate shrinks the table before throwing; duplicate axis names make a coordinate unusable; ArrayN Resize always loses the entry at the origin and is undefined or too small when an axis grows.

### C43 Matrix storage
Status: proved. Theorems in `MatrixProps.v`. Elements of any type; whether growing moves the storage is quantified over. Refutations: first new row not default, narrow append refused, quiet long rows overrun, empty shapes are UB.
Findings: Growing with the same width exposes the hidden padding row; appending a narrower matrix throws; longer rows in the quiet mode of FromVectors overrun; shapes without rows are undefined.

### C44 Table formatting language
Status: proved. Theorems in `FormatProps.v`. Any cells, any nesting; argument tables any made matrix; integers unbounded. Format text with each part in parentheses is read back exactly. Refutation: an empty part is undefined behaviour.
Findings: An empty part of a format is undefined behaviour.

### C45 Historical index paths give probabilities
Status: proved. Theorems in `PathProps.v`. Exact real arithmetic for the bounds, the ramp, continuity and the product over monitoring times. In binary64: slightly negative probabilities, hourly fixings missed by the monitoring grid, endless loops for tiny intervals or at the last date are refuted; Extremum is not an extremum.
Findings: Probabilities can be slightly negative in binary64; hourly monitoring misses the 05:00 fixing; an interval of 1e-17 never ends; Extremum returns a bound of the collar.

### C46 Underlying aggregation
Status: proved. Theorems in `UnderlyingProps.v`. For every way of collecting needs (Include and += in any grouping). The spelling kept for a name and the parent handle are those met first (refuted as order-independent).
Findings: The spelling of a name and the parent handle are those met first.

### C47 Index names identify indices
Status: proved. Theorems in `IndexProps.v`. Equity names without a closing bracket, any delay text, any delivery date outside the misread years 2034-2100 (refuted there, see C01); names identify the index. FX names read back once their parser is registered (the library does not register it: refuted). Fixings over real numbers; without a fixings store FX fixing is UB (refuted).
Findings: "]" in an equity name truncates it; FX names have no registered parser; names without ":" or "[" give a null pointer; delivery dates in the window of C01 come back a day early; FX fixing without a store dereferences null.

### C48 Option pricing identities
Status: proved. Theorems in `BlackProps.v`, `GammaProps.v`, `GreekProps.v`. parity and straddle for payoffs, Black and Bachelier; zero volatility; greeks are derivatives; bounds; monotone in volatility; implied volatility; gamma and the lognormal equation; bounds and parity of the greeks; exchange of forward and strike; units; refuted: zero or negative forwards, own parameter names, units in which the tolerance decides
Findings: Bachelier prices with forward times strike <= 2e-14 are intrinsic whatever the volatility; Black with negative forward and strike is negative; ParameterDerivatives(ParameterNames()) throws; with negative forward and strike the Black vega is negative; the tolerance is absolute, so amounts in a large enough unit of money lose their time value.

### C49 Finite-difference operators
Status: proved. Theorems in `PdeProps.v`. over the real numbers

### C50 Calibration search returns only solutions
Status: proved. Theorems in `UnderProps.v`. evaluation and gradient budgets, termination, returned points solve within tolerance (exact and binary64), Approximate within budget; refuted: NaN residual accepted, guess not tested, shortening factor not the minimiser
Findings: A NaN residual is accepted as solved unless it is the first; a guess that is a root is not tested; the shortening factor is not the minimiser.

### C51 Time grids
Status: proved. Theorems in `FillProps.v`. Over the reals, for every increasing set of required points, every set of added points further apart than the smallest step and a smallest step of at most half the longest: strictly increasing, all required points kept, an added point merged only into one within the smallest step, no step longer than max/(1-2e-14), gaps divided evenly by the smallest number of steps; points kept for every kind of number including binary64. Refuted outside those hypotheses: two added points near one required point break the order; a smallest step above half the longest leaves a step half as long again; steps exceed the maximum by a hair; binary64 leaves points 1.1e-16 apart with the default smallest step and never ends when the step is absorbed; empty input or maximum 0 undefined.
Findings: Two added points within the smallest step of one original point break the order; a smallest step above half the longest leaves too long steps; an empty grid is undefined.

### C52 Scenario generation is adapted to the product's timeline
Status: proved. Theorems in `BsProps.v`, `DupireProps.v`. Black-Scholes and local volatility, over the reals, whatever the model was used for before: no access out of range, one sample per product date in order with its own spot, numeraire, forwards and discounts, one draw per simulated step, Brownian covariance of the weights; local volatility steps follow the surface at their beginning. Refuted outside increasing dates from today on: a past date or today given twice shifts the samples and leaves the last one unwritten; no dates is undefined; a first date within half a day of today replaces today and gets no drift or draw; a local volatility sample without forwards is undefined.
Findings: A past date, or today given twice, shifts the samples; no dates is undefined; a first date within half a day of today gets no drift and no draw in the local volatility model.

### C53 Time of day survives reading back
Status: proved. Theorems in `ClockProps.v`. Over binary64: the hour read back is always right, the minute and second at most one unit low (and whole quarter hours exact); text round trip within that; milliseconds come back or one less. Order and addition over the reals. The exact round trip is refuted (00:33:00 prints 00:33:59, 11 s prints 10 s, 31 ms gives 30 ms).
Findings: 83 whole minutes print a wrong minute; 00:33:00 prints 00:33:59; 11 s prints 10 s; 31 ms comes back as 30 ms.

### C54 Spatial grids
Status: proved. Theorems in `MesherProps.v`. Over the reals, for every size from 2 to INT_MAX: bounds, strict order, distances, required point on the grid (from 3 points), denser towards the concentration point. Refuted for two points with a required point and for fewer than two points.
Findings: With two points the required point is left out; one point is not at the start; no points is undefined.

### C55 Dense products, squares and correlations
Status: proved. Theorems in `LinProps.v`. Over the reals, for every shape and every aliasing of operands and result; correlations for volatilities of at least 2e-14 (below, the diagonal is not 1: refuted).
Findings: A volatility below 2e-14 (a variance below 4e-28) gives a correlation diagonal other than 1.

### C56 Decompositions of dense matrices solve, multiply and correlate
Status: proved. Theorems in `CholProps.v`. Over the reals: error bound, in-place solves, rejection, diagonal and triangular systems, quadratic forms for a correct solver. Refuted with witnesses: MultiplyLeft of a lower triangular matrix leaves the diagonal out; the default quadratic form of a dense Cholesky decomposition is undefined behaviour; in binary64 perfectly correlated factors give an infinite number; MakeCorrelated does not return the next unused number.
Findings: LowerTriangular MultiplyLeft leaves the diagonal out of the product; the default QForm of a dense Cholesky decomposition writes through an empty vector (undefined behaviour for every non-empty matrix); in binary64 a perfect correlation gives infinite correlated numbers; MakeCorrelated of the dense decomposition returns the start of its output, not the next unused number as the diagonal one does.

### C57 Conjugate gradients return only solutions within tolerance and find them
Status: proved. Theorems in `BcgProps.v`, `CgProps.v`. Exact arithmetic, division by zero arbitrary. Refuted in binary64: started from the exact solution CGSolve divides zero by zero and throws after any number of iterations.
Findings: Started from the exact solution, CGSolve computes 0/0 and runs out of iterations (in binary64; proved for every iteration limit).

### C58 General band matrices store, multiply and solve what was written to them
Status: partial. Theorems in `WideProps.v`. Storage, both products and the lower solve proved for every size and band width. The rest is false of the code and refuted: IsSymmetric reads past the last row and is never true, Decompose never succeeds, the factorization throws for every matrix of two or more rows, the transposed solve reads out of range, the accumulator keeps the wrong norm, SolveRight solves the untransposed system.
Findings: IsSymmetric of a general band matrix uses max where min is meant: with a diagonal below the main one it reads past the last row (undefined behaviour) and is never true, so Decompose never succeeds; the Cholesky constructor swaps the band widths and throws for every matrix of two or more rows; BandedLTransposeSolve reads out of range; LowerBandAccumulator_::Add saves the wrong variable, so the norm is kept only when both numbers are equal; SolveRight is SolveLeft.

### C59 The growing stack is a stack, and Debug prints every product unambiguously
Status: partial. Theorems in `StackProps.v`. Proved for all histories of proper use and all products. TopAndPop is refuted: it reads the cell above the top. Pushing on a stack that was cleared or moved from is undefined behaviour.
Findings: Stack_::TopAndPop returns data_[sp_--], the cell above the top (unwritten or popped earlier); Push after Clear or on a moved-from stack writes through a null pointer. (Stack_ is also used with one template argument in debugger.hpp although its second parameter has no default.)

### C60 Smoothed values minimize misfit plus penalty
Status: partial. Theorems in `SmoothProps.v`. Proved: the result minimizes the sum with the penalties shifted by one place (the first pair is not joined and each later pair gets the distance of the pair before), keeps the weighted total and the range, and bad input is rejected. The minimality as stated is refuted: the first value is never smoothed and with two values nothing is.
Findings: SmoothedVals fills coupling[i] with the distance from x[i-1] to x[i] and zeroes the last element, but uses it for the pair i, i+1: the first pair is never joined (the first value is returned unchanged, and two values are not smoothed at all) and every other pair uses the distance of its predecessor.

### C61 Vector statistics
Status: partial. Theorems in `StatProps.v`. Proved in exact arithmetic: covariance formula, symmetry, bilinearity, shift invariance, variance, range and value of the correlation, centralizing, norms. Refuted: unit self-correlation and independence of units (the 1e-14 added to each norm decides the result for small data), and empty vectors, which give NaN instead of being refused.
Findings: Correlation of a vector with itself is below 1, and for data of size 1e-14 below 1/2, because L2Normalized divides by norm + 1e-14: the result depends on the units (C61_self_refuted, C61_scale_refuted). Covariance of two empty vectors is 0/0 (C61_empty_refuted).

### C62 Whole numbers out of doubles
Status: partial. Theorems in `RoundProps.v`. Proved for every double (via Flocq): the value of AsInt, NearestInt for all doubles but two, the refusals, and the 64-bit version except its least argument. Refuted: NearestInt(0.49999999999999994) is 1 and AsInt of the least 64-bit number is undefined; the extreme ints are refused.
Findings: NearestInt(0.49999999999999994) returns 1 (and -1 for its negative): adding 0.5 rounds up to 1.0 before truncation (C62_nearest_refuted). AsInt(ptrdiff_t) applied to the least 64-bit number is undefined (std::abs overflow) and refuses INT_MAX, INT_MIN and -INT_MAX (C62_wide_refuted).

### C63 Notes in error messages
Status: partial. Theorems in `NoteProps.v`. Proved by refinement for every program whose notices are about variables in scope: the run with the global stack agrees with a reading in which each throw sees the notes around it; balanced, and never undefined. Refuted: a NOTICE of a temporary (report.cpp:134) is read after its death, and an error raised with no notes leaves the stack object allocated.
Findings: report.cpp:134 NOTICE(static_cast<int>(n_labels)) stores a pointer to a temporary; if the following REQUIRE fails, building its message reads a dead object (C63_temporary_refuted). An exception built when there are no notes allocates the thread's stack and nothing frees it until a later note is popped (C63_leak_refuted).

### C64 Header tables of a report
Status: partial. Theorems in `HeaderProps.v`. Refused rows: a row of the wrong width or at a negative offset is undefined, not refused (C64_refused_refuted: the check reads memory of a dead temporary or none at all). A table shorter than its grown axis comes back with blank rows (C64_same_refuted).
Findings: AddHeaderRow with a negative offset writes before the table, and one with the wrong number of values builds an error message from a dead temporary (C64_refused_refuted). Values written beyond the first axis do not grow its header table; reading the stored report does (C64_same_refuted).

### C65 Calibrated local volatilities
Status: partial. Theorems in `CalibProps.v`. Over the real numbers. A grid without a point in the band is not refused: the volatilities are zeros or the behaviour is undefined (C65_gap_refuted, C65_outside_refuted). With rates the formula is applied to undiscounted prices (C65_rates_refuted).
Findings: DupireCalibMaturity on a grid with no point in the band copies the zeros of the new matrix into every volatility (C65_gap_refuted) or reads outside the row (C65_outside_refuted). IVS_::LocalVol uses r and q in Dupire's formula but IVS_::Call prices without them, so that equal rates raise every local volatility (C65_rates_refuted).

### C66 Jump-diffusion price
Status: partial. Theorems in `MertonProps.v`, `MertonSeriesProps.v`. Over the real numbers. The weights of ten and more jumps are left out, so that jumps of size zero lower the price (C66_zero_size_refuted) and calls with a low strike fall under their payoff and have no implied volatility (C66_implied_refuted).
Findings: Merton leaves out ten or more jumps without normalising: jumps of size zero lower the price (C66_zero_size_refuted), and for every intensity the implied volatility of MertonIVS_ throws for all strikes below some positive one (C66_implied_refuted).

### C67 Normal distribution function and its inverse
Status: partial. Theorems in `NormalProps.v`. C67_fast (symmetric, strictly increasing, continuous, inside (0,1), vanishing at minus infinity, through the table), C67_symmetric, C67_domain, C67_inverse_symmetric, C67_increasing (unpolished, across the joints at 0.02425 and 0.97575) and C67_polish (one step squares the error for approximations within four deviations) are proved over the real numbers. Refuted: the join and tail of the fast version (C67_kink_refuted, C67_tail_refuted) and a number at 0 and 1 (C67_ends_refuted). Missing: the distance of the spline and of the rational approximation from the normal law, order of the polished inverse, rounding.
Findings: `NCDF(z, false)` below -3.734582185 falls like exp(-1.118 z^2) where the normal law falls like exp(-z^2/2): the ratio to the true probability goes to zero, and the slope jumps from 7.9e-4 to 3.7e-4 at the join (C67_tail_refuted, C67_kink_refuted). `InverseNCDF` accepts 0 and 1 and returns not-a-number there (C67_ends_refuted).

### C68 Valuing a script by simulation gives the mean of its payoff over the paths
Status: proved. Theorems in `ValueProps.v`. On real numbers with the elimination (exact comparisons, or the code's comparisons for scripts away from its tolerances), when the analysis succeeds and the paths are safe; in any arithmetic without the elimination. The generator must really be able to skip to a path (Sobol: C22; MRG does not: C21_numbers_reused_refuted). The models that make the paths are C52.
Findings: C68: a script in which no variable appears (e.g. IF SPOT() > 0 THEN END) is accepted, its payoff index is -1 as a size_t, and the simulation reads the payoff beyond the end of an empty vector (event.cpp:99-100, simulation.hpp:143). PreProcess appends to the time line without clearing it, so a product preprocessed twice has every date twice (event.cpp:148-156). With sensitivities the sums are kept per thread, so in binary64 the reported value depends on which thread ran which task; without, it depends on the number of threads through the batch size.

### C69 Archive files are read back
Status: partial. Theorems in `SplatFileProps.v`, `SplatTextProps.v`. Proved for every sheet, tree and object graph whose cells survive and whose lines have at most 2047 characters; the texts that survive are characterised exactly. The unrestricted statement is refuted: a line of more than 2047 characters silently ends the reading (a vector of 1100 numbers is enough) and the object is then built from an empty table, which reads outside it; so does a missing or empty file; texts that look like numbers, truth values or =text=, and texts with commas or quotes, come back as something else; numbers that are not whole keep six decimals.
Findings: Archive files: File::Read stops at the first line longer than 2047 characters without an error, so a member vector of about a thousand numbers makes the loaded table lose that row and every row after it; loading a missing or empty file reads cell (0,0) of an empty matrix; texts with commas, quotes or that look like numbers, true/false or =...= are not restored; doubles keep six decimals.

### C70 Reported sensitivities are derivatives of the value
Status: partial. Theorems in `RiskProps.v`. Proved for interpreted scripts through symbolic traces: any tape that records the numbers the evaluation computes. Refuted: compiled scripts have no sensitivity to constant variables, a payoff that is a constant variable leaves the tape, and a constant named like a parameter takes its place in the report. The recording itself is a hypothesis (which number is recorded where), met in the example.
Findings: Compiled scripts use the values of constant variables, not the numbers on the tape, so sensitivities to constants are lost in compiled mode (compiler.hpp:301-305, 478-482); a payoff that is just a constant variable or a parameter lies before the mark, and propagation to the mark runs off the tape (simulation.hpp:216, 237); a constant variable with the same name as a model parameter takes over its reported sensitivity.

### C71 Objects archived as JSON come back as the same objects
Status: partial. Theorems in `JsonProps.v`. C71_copy proves the round trip for the storable values; C71_exact_values says when the values are exactly the same. Refuted of the code: six decimals only (C71_precision_refuted), whole numbers and single flags cannot be read back (C71_whole_numbers_refuted, with a generator and a report as cases), empty cells and texts like dates change (C71_cells_refuted), quotes and backslashes (C71_quote_refuted, C71_backslash_refuted), matrices without columns (C71_empty_matrix_refuted), numbers that are not finite (C71_infinite_refuted); bad texts are undefined, not reported (C71_not_an_object, C71_missing_member). RapidJSON is modelled from its documentation, without the \u escapes.
Findings: JSON archives: doubles are written with six decimals, so small numbers become 0 (C71_precision_refuted); whole numbers and single flags are written as decimals and can never be read back, so PseudoRSG and Report objects cannot be restored (C71_whole_numbers_refuted, C71_flag_refuted, C71_sizes_refuted); texts are not escaped, so a quote makes the text unreadable and a backslash changes it (C71_quote_refuted, C71_backslash_refuted); empty cells become empty texts and texts like dates become dates (C71_cells_refuted); an empty matrix cannot be read (C71_empty_matrix_refuted); a text that is not a JSON object or lacks a required member makes RapidJSON assert instead of giving an error (C71_not_an_object, C71_missing_member).

### C72 Start-up, shipped calendars and currency conventions
Status: partial. Theorems in `SetupProps.v`. Refuted parts: with a shipped name already registered the start-up fails for ever; every currency but CNY has no fixing calendar, so no Libor start date; a reference to a convention dangles once the value is replaced.
Findings: If a program registers a centre called CN.SSE or CN.IB (in any case) before starting the library, the start-up throws, and so does every later attempt; when only CN.IB is taken the failed attempt leaves CN.SSE registered. CcyFacts_::Init sets fixing holidays for CNY only and no default, so Libor::StartFromFix and FixFromStart throw for the other seven currencies, although these do get a number of fixing days. A fact is handed out as a reference into an object that the next write destroys.

### C73 Traded rates, nominal maturities and interest-rate indices
Status: partial. Theorems in `RateProps.v`. Refuted of the code: the future is found as the cleared rate, a start with a time of day is moved by the convention, the collateral of a discount factor is dropped, names with commas or tenors like a rate's are shared, offsets in days have no name, and no interest-rate name is read back. The rest is proved; names are proved to tell indices apart when no part can be mistaken for another.
Findings: FindRate for the period and clearing house of LIBOR_3M_FUT gives LIBOR_3M_CME. A start given as a date with a time is treated as a fixing date and moved by the convention, while a plain date is not. DF_ drops the collateral given to its constructor. Swap and Libor names are ambiguous when a tenor contains a comma or is the text of a rate. A start in days has no name (Name throws), and no parser is registered for IR names.

### C74 Coordinate maps of the finite-difference grids
Status: proved. Theorems in `CoordProps.v`. Over the real numbers, with the library's sinh, cosh and asinh taken as the real functions. A range whose square is within 2e-14 of 1 gives the identity, so it is reached up to 2e-14.

### C75 Auditors and the bag
Status: partial. Theorems in `AuditProps.v`. Proved for auditors that have been given a mode, once a question has reached an auditor or the first auditor asked holds something. Refuted otherwise: an auditor without a mode (C75_unset_refuted), the first question put to an empty auditor (C75_first_refuted), and a passive auditor, which throws instead of ignoring (C75_passive_refuted).
Findings: C75: AuditorImp_ does not initialise its mode, so showing or asking before the mode is set is undefined; Find initialises a static from the first entry of the bag, so the first question of a process put to an auditor with an empty bag is undefined (C75_unset_refuted, C75_first_refuted). A passive auditor makes Environment::Audit throw, and the auditors behind it are shown nothing (C75_passive_refuted). When recollections conflict the destination is left set to the first (C75_ask).

### C76 Tables exchanged with the spreadsheet
Status: partial. Theorems in `ExcelProps.v`. Proved except where it is false of the code. Refuted: a result without rows (such as one empty vector) is said to have a row it does not have, and reading or freeing it goes beyond the array; whole numbers of the spreadsheet's integer type are read through the wrong member of a union; an optional value given as one blank cell in a range is refused; a text with a zero character or longer than 65535 comes back cut; a vector of texts with an empty one among them comes back short.
Findings: Results without rows: ToXloper sets rows to max(nRows, 1) but allocates nRows * nCols cells, so an empty vector or matrix result is an array whose one row is beyond its memory (C76_no_rows_refuted). ToDouble, ToInt, ToBool and ToCell read val.num of an xltypeInt value, which has val.w (C76_integer_refuted). The optional flag is dropped for a range of one cell (C76_optional_refuted). Texts are cut at a zero character and at 65535 (C76_text_refuted). ReadVector ends at an empty text written by the same code (C76_gap_refuted). Characters of code 128 and more are shown as other characters, since char is sign-extended to wchar_t (C76_high_characters_refuted).

### C77 Flags and whole numbers in text; conversions of cells
Status: partial. Theorems in `FlagProps.v`. Proved except where it is false of the code. Refuted: an empty flag after the last comma is not noticed; a text of four or five characters outside ASCII is undefined instead of refused; a whole number read from text may be followed by anything.
Findings: An empty flag after a last comma is accepted (C77_trailing_refuted). TestTrue and TestFalse pass negative chars to toupper (C77_signed_refuted). String::ToInt ignores what follows the digits, so 3.9 reads as 3 (C77_junk_refuted).

### C78 Interpolators made and used from the spreadsheet
Status: proved. Theorems in `SheetProps.v`. The whole of the property, for sessions in which names have no tilde and a new object does not live where a held one lives (C78_sensible shows that such calls are plentiful). Proved: C78_held (what is held after a call), C78_kept, C78_linear, C78_smoothed, C78_cubic, C78_surface, C78_failed, C78_find, C78_replaced, C78_error_text, C78_refused. Refuted of the code: the answer to a search that matches nothing can be read and freed (C78_find_nothing_refuted); an error text passed on as a handle is shown as it was (C78_knock_on_refuted).
Findings: Repository_Find with no match returns an array with one row and no cells (C78_find_nothing_refuted). XError looks for messages beginning 'Can't find object', but Fetch raises 'Repository object not found' behind the file, line and function, so knock-on errors are never shortened (C78_knock_on_refuted).

### C79 Random sequence generators kept in the repository do not disturb one another
Status: partial. Theorems in `RsgProps.v`. Proved for every session: isolation of generators, no failure after making, splitting of draws, mirrored pairs, MRG32 numbers, names, storing of new generators. Refuted of the code: storing after draws (restarts), a name of one's own, two generators of one kind at once, the last int as an MRG32 seed.
Findings: Random sequence generators (C79): the name given to PseudoRSG_New is also read as the kind of generator (pseudorandom.hpp:59-62), so a generator cannot be named freely and a second generator of the same kind, whatever its seed, replaces the first in the repository and invalidates its handle. A stored generator keeps only name, seed and dimension, so storing and restoring one that has been drawn from starts it again. MRG32 computes seed + 1 in an int (pseudorandom.cpp New), which overflows for the last int.

### C80 A product made in the spreadsheet keeps its events whatever the day, and its table of values has one correct row per parameter
Status: partial. Theorems in `DealProps.v`. Proved: dates, fractions, sizes, rolling of the evaluation date, printing, table of values, parameter names. Refuted of the code: whole numbers that are no dates are accepted as an event that is always past; a product whose events are all past cannot be printed; spots (or times) that agree to two decimals share a row, which shows only the last one's risk.
Findings: Products in the spreadsheet (C80): Date::FromExcel turns a number outside the supported range into the invalid date 0, which Product_New accepts, so a mistyped date makes an event that is silently past (__script.cpp:48-54, date.cpp). Product_Debug throws for a product whose events are all past. Local volatility parameters are named with two decimals (dupire.hpp:71-78), so spots or times that agree to two decimals share a name and the table of values (value.cpp:32-45) shows one row for them, with the risk of the last.

### C81 A model is its named parameters: copies are independent, and what is set is what is simulated
Status: partial. Theorems in `MarketProps.v`. Proved: independence, copies, names, storage, renaming. Refuted of the code: a copy of a description with a slide reads its name through a null pointer; volatilities with more rows than spots or more columns than times are accepted and making the model is undefined; the description of a local volatility model names no parameters although the model has at least three.
Findings: Models (C81): MutantModel with slides calls MutantModel(nullptr, slide) for each slide, and both descriptions dereference the name (base.hpp:51-58, blackscholes.cpp:17-18, dupire.cpp:17-18), so any slide is undefined behaviour. DupireModelData_New does not compare the shape of the volatilities with the spots and times, and Dupire_'s constructor then reads past their ends (dupire.hpp:68-80). DupireModelData_ leaves its parameter labels empty, unlike BSModelData_.

### C82 Several results can be differentiated in one pass
Status: partial. Theorems in `MultiProps.v`. Proved: one pass gives every derivative, further passes after a reset, agreement with one result at a time; as in C32 for passes in which no row of adjoints was left out as too small. Refuted of the code: numbers made before the setting is switched on (propagation reads a null pointer); more results than a block holds; PropagateToStart while the setting is on, which leaves Adjoint() of the inputs at zero.
Findings: Several results (C82): nodes recorded before SetNumResultsForAAD(true, n) have no adjoints array, and PropagateAll of a node that depends on one writes through a null pointer. With n above ADJ_SIZE the first recorded number overruns its block. While the setting is on, the addresses stored for a node's arguments are their adjoint arrays, so PropagateOne (PropagateToStart and the others) moves nothing to Adjoint().

### C83 What is put in the Excel report stays there
Status: partial. Theorems in `DriverProps.v`. Proved: charts whose outputs are as long as their inputs, labelled and plain tables and texts, for all sessions; names; when a call ends well. Refuted of the code: outputs longer than the inputs lose their end in the chart; too few row labels for a table's rows is read past the end; a call that throws because its name is taken leaves a sheet, or numbers and a chart without a name, behind. Excel itself is modelled as sheets of cells and a list of charts.
Findings: Excel driver (C83): CreateChart takes its range from x.size(), so the end of a longer output is written to the sheet but not shown. Neither CreateChart nor AddMatrix compares the number of labels with the number of outputs or rows; both dereference the end iterator when there are too few. A call that fails on its name has already changed the workbook: AddMatrix leaves an extra sheet, and CreateChart its numbers and a chart with Excel's default name. AddMatrix has no try block, so its _com_error leaves untranslated, against the comment in the header that COM exceptions are re-thrown as strings.

### C84 Curves on bases: polling, copying and exchanging a base
Status: partial. Theorems in `YieldProps.v`. Proved: polling, product, copies, unchanged copies, exchange at any depth by repeated copying. Refuted of the code: one copy sees only changes of the direct base, not of bases further down; a change to an empty handle or to a component that is no discount curve silently leaves the copy without a base. Over the real numbers; the interest of a single curve is C41.
Findings: Curves on bases (C84): Clone looks up only the direct base in the table of changes (yccomponent.hpp:31-34) and keeps that base as it is when it is not named, so a change named for a base further down has no effect. When the table gives an empty handle, or a handle to a component of another kind, handle_cast gives an empty handle and the copy silently has no base.

### C85 The numbers of a simulation do not depend on the threads' timing
Status: partial. Theorems in `DrawProps.v`. Proved for sobol (the generator itself is not in the repository: it is assumed to keep to one sequence, with SkipTo going to a place of it) and for mrg32, exactly in binary64 with the code's seeds; irn with a single batch. Refuted for irn with several batches: SkipTo does nothing there, so the numbers of a path depend on which thread ran which batch before. The bridge is a function of the vector filled (C24).
Findings: Simulation with the generator irn (C85): ShuffledIRN_::SkipTo does nothing (pseudorandom.cpp:86), but every batch relies on it to move the generator of its thread (simulation.hpp:127). With several batches the result of a valuation therefore depends on the timing of the threads, and batches run by different threads use the same numbers.

### C86 Records read from a range of the spreadsheet
Status: partial. Theorems in `RecordProps.v`. Proved: records of a range, of a table written, of nothing; existence of a field. Refuted of the code: a blank range of one row counts as a record; a row whose values are to the right of the block ends the records although it has values; a negative column reads the row before, or outside the range. A record is the list of the fields its constructor asks for, without conditions between fields.
Findings: Records from the spreadsheet (C86): for a range of one row NonblankSize gives one row whatever its cells, so required records with optional fields are found in a blank row. A row that is blank inside the block but has a value further right ends the records, and the rows after it are silently dropped (_excel.cpp:998-1002 with 1083). ReaderExtract checks the column from above only (_excel.cpp:1095): a negative column reads the row before.

### C87 The price of a script, from the generator to the value
Status: proved. Theorems in `PriceProps.v`. The Sobol generator is not in the repository: it is a parameter asked to keep to one sequence (C85); the inverse normal distribution and the bridge are parameters too (C67, C24). The arithmetic is any for the totals and exact for the Black-Scholes value, with the draws taken as the real numbers they are. irn is left out: its draws do depend on the schedule (C85_irn_refuted).

### C88 Option formulas are expectations
Status: partial. Theorems in `ExpectProps.v`. Exact arithmetic, with the normal law the one C67 constructs. Bachelier's formula holds where forward times strike reaches the threshold; below it, also for negative products, the code gives the payout whatever the volatility (C88_bachelier_zero_refuted). The simulated mean converges to it in mean square (C89).
Findings: At a forward of zero (or a forward and strike of opposite signs) BachelierOpt returns the payout whatever the volatility, because the guard tests forward times strike as for the lognormal formula; the expectation it should return is positive (C88_bachelier_zero_refuted).

### C89 A simulation is unbiased and converges
Status: proved. Theorems in `MomentProps.v`, `MomentValueProps.v`. The draws are ideal: independent and normal. That the generator's are as good as that is not claimed. Independent draws are iterated integrals. The average is that of C87 and C68 with exact arithmetic.

### C90 Values rolled back on a grid converge to the solution of the equation
Status: proved. Theorems in `RollProps.v`. Exact arithmetic. The time step's error is bounded to first order for every theta (the higher order of theta one half is not claimed), and the second difference's to first order in the spacing, as on an uneven grid. The ends keep their values, as RollBwd leaves them: a caller who overwrites them between steps, as the example does, changes them only for the next step.

### C91 Local volatility paths have the forward for their mean
Status: proved. Theorems in `DriftProps.v`. Exact arithmetic, with the product dates C52 covers (the first one today or more than half a day away; C52_half_day_refuted says what happens otherwise). Expectations are iterated one-dimensional ones over the draws as in C89. That the expectation of a call exists is not shown for a general surface.

### C92 Sensitivities along the paths average to the formula's
Status: proved. Theorems in `SlopeProps.v`. Exact arithmetic and ideal draws: independent and normal, as in C88 and C89. That the sensitivities a simulation reports are derivatives of its value at the draws it took is C70, for the fuzzy evaluator; here the evaluation is the ordinary one. A vega is per unit of volatility (C48).

### C93 As many independent paths as asked for
Status: partial. Theorems in `RepeatProps.v`. True of one batch of paths only. C93_error_any gives the error of an average for any choice of rows and C93_independent says that it is that of independent paths exactly when no row is used twice. C93_rows and C93_value_partial say which rows of the stream the value averages over, C93_error_partial that the average is unbiased and what its error is: for b full batches of an even size, (2 - 1/b) times that of as many independent paths. C93_twice_refuted and C93_error_refuted refute the property for two batches or more. Batches of odd size overlap too (C22_normals_repeat_refuted) but not row on row, and are left out of the statement about the error. The rows are taken for ideal draws, as in C89.
Findings: Paths used twice (C93): MRG32k32a_::SkipTo goes to half of the points skipped (pseudorandom.cpp:143-150), as suits antithetic uniforms, but MCSimulation fills its paths with FillNormal, which is not antithetic (pseudorandom.cpp:39), so the second half of every batch has the numbers of the first half of the next one. Of n paths in b full batches of even size only n (b + 1) / (2 b) are different, and the mean square error is 2 - 1/b times the one n paths should give.

### C94 Prices of options with different strikes leave no arbitrage
Status: partial. Theorems in `StrikeProps.v`. Exact arithmetic. Proved for the formulas where forward times strike reaches the threshold under which the code gives the payout (for the jump-diffusion price after every number of jumps), and for the simulation without restriction. Across the threshold it is refuted: the call with the lower strike is the cheaper one (C94_threshold_refuted).
Findings: Strikes near zero (C94): when forward times strike is below the tolerance the formulas give the payout on the forward instead of the price (black.hpp), so at that strike the price of a call jumps up as the strike rises; a surface of prices that reaches down to such strikes has a (small) arbitrage in it.

## Assumptions per theorem

`Print Assumptions` follows every theorem in the `*Props.v` files. Theorems not listed below are closed under the global context (no axioms). The letters are the axioms of the standard library:
D = `ClassicalDedekindReals.sig_forall_dec`, N = `ClassicalDedekindReals.sig_not_dec`, C = `Classical_Prop.classic`, F = `FunctionalExtensionality.functional_extensionality_dep`.

- C, D, F, N (131 theorems): `C16_log_refuted`, `C21_numbers_reused_refuted`, `C22_even_batches`, `C22_normals_repeat_refuted`, `C22_numbers`, `C22_skip_is_generation`, `C23_irn_in_open_interval`, `C23_mrg_in_open_interval`, `C32_gradient`, `C32_paths`, `C32_tiny_refuted`, `C40_hunt`, `C41_discount_decreasing`, `C48_black_greeks`, `C48_black_negative_refuted`, `C48_bounds`, `C48_equation`, `C48_exchange`, `C48_greek_bounds`, `C48_implied`, `C48_implied_round_trip`, `C48_negative_vega_refuted`, `C48_parity`, `C48_unit`, `C48_unit_refuted`, `C48_vol_increasing`, `C48_zero_vol`, `C50_root_binary64`, `C52_half_day_refuted`, `C52_local_vol`, `C52_no_forwards_refuted`, `C52_past_date_refuted`, `C52_path`, `C52_today_twice_refuted`, `C53_clock`, `C53_hour`, `C53_msec`, `C53_text`, `C54_concentrates`, `C54_concentrating`, `C54_refused`, `C54_required`, `C54_two_points_refuted`, `C62_as_int`, `C62_nearest`, `C62_refused`, `C65_dupire`, `C65_flat`, `C65_flat_close`, `C65_gap_refuted`, `C65_maturity`, `C65_outside_refuted`, `C65_rates_refuted`, `C65_surface`, `C65_view`, `C66_all_jumps`, `C66_bounds`, `C66_expectation`, `C66_implied_refuted`, `C66_no_jumps`, `C66_series`, `C66_vol_increasing`, `C66_zero_size_refuted`, `C67_domain`, `C67_ends_refuted`, `C67_fast`, `C67_increasing`, `C67_inverse_symmetric`, `C67_polish`, `C67_symmetric`, `C67_tail_refuted`, `C70_compiled_constants_refuted`, `C70_constant_payoff_refuted`, `C70_no_ties`, `C70_risks`, `C70_traces`, `C74_identity`, `C74_inverse`, `C74_range`, `C74_shape`, `C79_irn_numbers`, `C79_never_fails`, `C79_numbers`, `C79_pairs`, `C79_restart_refuted`, `C82_again`, `C82_jacobian`, `C82_one_by_one`, `C85_irn_first_refuted`, `C85_irn_one_task`, `C85_irn_refuted`, `C85_mrg32`, `C87_bs_mrg32`, `C87_bs_mrg32_code`, `C87_bs_sobol`, `C87_bs_sobol_code`, `C87_compiled`, `C87_mrg32`, `C88_bachelier`, `C88_bachelier_zero_refuted`, `C88_black`, `C88_european`, `C89_error`, `C89_european`, `C89_forward`, `C89_martingale`, `C89_unbiased`, `C89_unique`, `C89_value_mrg32`, `C89_value_sobol`, `C90_converges`, `C91_bounds`, `C91_flat`, `C91_forward`, `C91_martingale`, `C92_average`, `C92_bachelier`, `C92_black`, `C92_european`, `C92_simulated`, `C93_error_any`, `C93_error_partial`, `C93_error_refuted`, `C93_independent`, `C93_value_partial`, `C94_bachelier`, `C94_black`, `C94_merton`, `C94_threshold_refuted`, `C94_value_mrg32`, `C94_value_sobol`.
- D (1 theorems): `C48_names_refuted`.
- D, F (95 theorems): `C16_dead_branches`, `C16_dead_branches_code`, `C16_verdicts`, `C37_2d_between`, `C37_2d_knots`, `C37_2d_monotone`, `C37_2d_range`, `C37_between`, `C37_empty_refuted`, `C37_flat`, `C37_knots`, `C37_monotone`, `C37_repeated_knot_refuted`, `C37_total`, `C38_refused`, `C38_spline`, `C39_decompose`, `C39_in_place_refuted`, `C39_multiply`, `C39_pde_steps`, `C39_solve`, `C39_solve_inverts`, `C40_both_zero_refuted`, `C40_bracket`, `C40_refused`, `C40_report_first_refuted`, `C41_apply_dx`, `C41_constant_integral`, `C41_constant_value`, `C41_empty_refuted`, `C41_linear_integral`, `C41_linear_value`, `C41_repeated_knot_refuted`, `C45_all_in_range`, `C45_continuous`, `C45_expectation`, `C45_interval`, `C45_range_prob`, `C45_wrap_refuted`, `C46_algebra`, `C46_latest`, `C46_once`, `C46_order`, `C46_parent_refuted`, `C46_spelling_refuted`, `C47_equity_fixing`, `C47_fx_fixing`, `C47_fx_reciprocal`, `C47_no_store_refuted`, `C48_bachelier_negative_refuted`, `C48_bachelier_shift`, `C48_payoff`, `C49_constants`, `C49_exact`, `C49_maximum`, `C49_returns`, `C50_k_min_refuted`, `C50_root`, `C51_even`, `C51_fill`, `C51_min_dx_refuted`, `C51_short`, `C51_tolerance_refuted`, `C53_order`, `C53_plus`, `C54_one_point_refuted`, `C54_uniform`, `C54_uniform_refused`, `C60_first_refuted`, `C60_minimizes_partial`, `C60_minimizes_refuted`, `C60_range`, `C60_rejects`, `C60_succeeds`, `C62_nearest_refuted`, `C65_bump`, `C68_unknown_model`, `C68_value`, `C68_value_code`, `C78_cubic`, `C78_error_text`, `C78_failed`, `C78_find`, `C78_find_nothing_refuted`, `C78_held`, `C78_kept`, `C78_linear`, `C78_refused`, `C78_replaced`, `C78_sensible`, `C78_smoothed`, `C78_surface`, `C90_error`, `C90_monotone`, `C90_returns`.
- D, F, N (61 theorems): `C24_orthogonal`, `C40_converged`, `C40_root`, `C40_search`, `C41_discount_composes`, `C41_discount_rates`, `C48_bachelier_exchange`, `C48_bachelier_greeks`, `C48_bachelier_iv_refuted`, `C48_bachelier_shift_refuted`, `C52_covariance`, `C55_matrix_matrix`, `C55_matrix_vector`, `C55_small_vol_refuted`, `C55_square_upper`, `C55_vector_matrix`, `C55_vols`, `C55_weighted`, `C56_decomposition`, `C56_diagonal`, `C56_multiply_left`, `C56_multiply_left_refuted`, `C56_pivots`, `C56_quadratic_form`, `C56_rejected`, `C56_solve_in_place`, `C56_triangular`, `C57_biorthogonal`, `C57_finds`, `C57_two_sided`, `C57_within_tolerance`, `C58_accumulator_refuted`, `C58_decompose_refuted`, `C58_factor_refuted`, `C58_lower_solve`, `C58_multiply`, `C58_read_back`, `C58_symmetric_refuted`, `C58_transpose_solve_refuted`, `C58_writes`, `C61_bilinear`, `C61_centralized`, `C61_correlation_range`, `C61_correlation_value`, `C61_covariance`, `C61_l1`, `C61_l2`, `C61_rejects`, `C61_scale_refuted`, `C61_self_refuted`, `C61_shift`, `C61_symmetric`, `C61_variance`, `C67_kink_refuted`, `C74_derivatives`, `C74_made`, `C84_product`, `C84_same`, `C88_can_price`, `C88_unique`, `C92_unique`.
- none (487 theorems).

## Coverage of the sources
Modelled (see the citations in the files): `time/` date, dateutils, datetime, datetimeutils, daybasis, dateincrement,
holidays, holidaydata, schedules, calendars; `currency/` currencydata, init; `platform/` initall (calendars and conventions); `protocol/` conventions, underlying, optiontype, couponrate, clearer; `time/` periodlength; `indice/index` ir; `string/` strings, stringutils; `script/` parser,
event, event/schedule, node, simulation (batches, values, sensitivities), visitors varindexer, constprocessor, ifprocessor, domain, domainproc,
constcondprocessor, evaluator, pastevaluator, fuzzy, compiler; `math/random` pseudorandom, brownianbridge; `storage/`
_repository, globals, archive, splat, box, json, audit, bag; `utilities/` dictionary, environment, algorithms (the parts used);
`indice/` fixings, index, indexparse, indexpath, equity, fx; `concurrency/` concurrentqueue, threadpool; `math/aad`
blocklist, tape, node, expr (both modes); `math/interp`; `math/matrix` matrixs, matrixutils, matrixarithmetic, cholesky,
decompositionsmisc, sparse (quadratic form), bcg, banded; `math/stacks`; `math/smooth`; `script/visitor/debugger`; `math/pde` finitedifference, fd1d, meshers, pde (coordinate maps); `math/` rootfind, ndarray, cell, cellutils, distribution/black,
optimization/underdetermined (control flow); `curve/` piecewise functions and discount curves; `risk/` report (values and headers);
`model/` blackscholes, dupire (simulation and calibration), ivs, utilities; `math/analytics`, specialfunctions; `public/excel` (the conversion of values and tables, the product, model, valuation, interpolation, random sequence and repository functions).

Not modelled: the Sobol generator (`NewSobol` is declared but its source file is not in the repository), the rest of the Excel layer (registration, formats, the COM driver) and the
SWIG layer, generated code under `dal/auto` except where cited, wall-clock functions, file systems (a file is its text),
the source of RapidJSON (its documented behaviour is modelled), floating-point rounding except where stated above, the C++ memory model below the level of
locks, and template instantiation.


## Plan per property
| id | model | proof |
|----|-------|-------|
| C01 | calendar conversion over Z and over binary64 (`SpecFloat`), 16-bit serial | finite sweep over all 65536 serials lifted by `forallb_forall`; independent day-by-day Gregorian calendar as spec |
| C02 | AddDays/diff/compare/DayOfWeek with uint16 wrap | arithmetic; sweep for the (y,m,d) order; wrap recorded as finding |
| C03 | DaysInMonth, EndOfMonth, AddMonths | general proof against the calendar spec |
| C04 | IsHoliday/IsWorkWeekends over lists, NextBus/PrevBus loops with fuel | induction; least/greatest characterisation |
| C05 | CountBusDays_ with lower_bound counts | counting argument against filter-and-length spec |
| C06 | NBusDays, StartFromFix, FixDateFromStart | induction on n |
| C07 | day count formulas in Q | algebra and recursion on year splitting |
| C08 | DateGenerate/MakeSchedule with fuel | induction; termination by strict progress; non-terminating inputs refuted |
| C09 | IMMDay, ToIMM, ToCDS | sweep over all dates; refuted quarterly claim |
| C10 | AddCenter over registry state | invariant by induction over registrations |
| C11 | recursive-descent parser over tokens, printer | structural induction with fuel monotonicity |
| C12 | same parser, `UB` outcome for reading at end | fuel bound linear in tokens; refuted for two truncated inputs |
| C13 | VarIndexer over all statements | induction |
| C14 | compiler to node stream, EvalCompiled machine, tree evaluator, abstract numbers | simulation proof; the stack-pointer defect refuted on the concrete machine |
| C15 | ConstProcessor over AST | abstract interpretation soundness |
| C16 | Domain/Interval operations over R, DomainProcessor, ConstCondProcessor | soundness; LOG and tiny-value cases refuted |
| C17 | IFProcessor | induction |
| C18 | FuzzyEvaluator over R/Q | induction; `!=` refuted |
| C19 | Evaluator Init + event loop | non-interference |
| C20 | ParseEvents row processing | sortedness and permutation |
| C21 | batch loop | partition by arithmetic |
| C22 | MRG state step and SkipTo over Z | matrix powers over Z mod m; parity findings refuted |
| C23 | both generators | range invariants |
| C24 | bridge construction and map over a field | permutation invariant; orthogonality |
| C25 | repository map with case-insensitive keys | refinement |
| C26 | global store and scoped override | histories |
| C27 | StoreFixings/Find | finite map refinement |
| C28 | Splat/UnSplat grid | structural induction |
| C29 | Dictionary text form | round trip on strings |
| C30 | Split/Join/Condensed/ci compare on ascii strings | induction |
| C31 | NextName | strictly increasing measure |
| C32 | tape of nodes, reverse sweep over a commutative ring | equality with forward path sum |
| C33 | BlockList_ | refinement to a list; exact-multiple defect refuted |
| C34 | queue as labelled transition system | linearisation to a FIFO |
| C35 | thread pool transition system | invariant on start times; progress |
| C36 | environment chain | stack refinement |
| C37 | linear interpolation over Q/R | order reasoning |
| C38 | spline coefficients over a field | recurrence algebra |
| C39 | Thomas algorithm over a field | recurrence algebra |
| C40 | Brent state machine over R/Q | invariant |
| C41 | curve integrals over Q | telescoping |
| C42 | strides and addressing | mixed radix bijection; ArrayN resize refuted |
| C43 | flat matrix storage | indexing lemmas |
| C44 | writers and affine views | denotational refinement |
| C45 | IndexPathHistorical_ over Q | arithmetic |
| C46 | MergeMax over maps | semilattice laws |
| C47 | Name/parse on strings | round trip |
| C48 | option formulas over R with abstract NCDF | algebra |
| C49 | Dx/Dxx over a field | algebra |
| C50 | Find control skeleton with oracle steps | invariant |
| C51 | FillData over Q | induction |
| C52 | BlackScholes_ timeline indexing | induction |
| C53 | time of day in binary64, text form, milliseconds | sweep over the 86400 seconds by blocks of lemmas; order over the reals |
| C54 | uniform and concentrating meshes over R | monotonicity of sinh, list induction |
| C55 | dense products with operands and result in a store, blocks of rows, weighted products, correlations | loop invariants over the store, sums |
| C56 | regularised Cholesky factor in or out of place, its products and solves, diagonal and triangular matrices | row invariant of the factor, exact formula of the error, dominance of what is left after each column |
| C57 | CGSolve and BCGSolve over any linear map and preconditioner | residual invariant; conjugacy of the directions by induction, n + 1 vectors of size n are dependent |
| C58 | general band matrices: storage, products, lower solve, symmetry test, factorization, accumulator | invariant of the store over any writes; loops as sums over the band; forward substitution invariant; refutations for all sizes |
| C59 | Stack_ over a heap array with capacity, the debugger over arbitrary trees and over script statements | representation invariant over any history; stack machine equals the recursive printer; prefix-freeness of the printed form |
| C60 | SmoothedVals | the elimination as recursive functions, normal equations, summation by parts, a maximum principle through the recursion |
| C61 | numerics.hpp statistics over an abstract number type (StatModel.v) | algebra of dot products over lists, Cauchy-Schwarz by induction; binary64 for the empty case |
| C62 | numerics.cpp in binary64 (RoundModel.v) | rounding lemmas of Flocq: nearest representable neighbour, exactness of adding a half within a binade |
| C63 | exceptions.hpp/.cpp: programs of scopes, notes, throws and handlers run against a global stack (NoteModel.v) | refinement to a reading without a stack, by induction over programs |
| C64 | report header tables: add, look up, store, read | per-axis list of rows with a last-write specification; induction over the added rows; reading replays them over a blank table |
| C65 | calibration over the reals with an abstract implied volatility surface | loops over the row by induction; mean value theorem for the differences; derivatives of the Black formula; bound on the ratio of gammas |
| C66 | Merton series over the reals | loop invariant with power and factorial; partial sums of the exponential; bounds and monotonicity from C48 |
| C67 | `dal/math/specialfunctions.cpp` over the reals on top of the cubic spline of C38 | the 16 second derivatives enclosed by linear arithmetic, positivity of derivatives in Bernstein form, Taylor bounds of exp at the joint, mean value theorem for the polishing step |
| C68 | ScriptProduct_::PreProcess and Compile, both MCSimulation sums and ValueByMonteCarlo (ValueModel.v), composed from the models of C13-C17, C20, C21 | a by-name reading of the script (ValueSpec.v), agreement of environments by index and by name, invariance of all predicates under indices and marks, then C13, C14, C16, C17, C21 in sequence |
| C69 | the text file: joining, writing, reading through the 2048-character buffer, splitting, recognising cells | each cell and line inverted by induction on characters; the loaded sheet related to the saved one cell by cell; composed with C28 for trees and object graphs |
| C70 | Tasks, adjoints per thread, totals and the report by name; the fuzzy evaluator over symbolic traces | The evaluators commute with maps of numbers that respect comparisons, so the evaluation over traces denotes the real evaluation; near inputs without ties the trace is constant, and C32 gives its derivative; sums over tasks and threads are permutations. |
| C71 | JsonModel: RapidJSON's parser, the writer of members with tags, the readers of values and the building of objects | JsonText: every text written parses to its document, by induction over nesting; JsonProofs: writing and reading run side by side with an invariant on tags and handles |
| C72 | Histories of start-ups, registrations and writes over the state of the process; the shipped dates as data; facts as addresses of objects. | Invariant over histories; the closure bound by one pass over the sorted list; references by an invariant on addresses. |
| C73 | The enumerations, FindRate, NominalMaturity, the dates and the names of the interest-rate indices, over the conventions of C72 | Cases for the rates; equality with AddMonths for the maturity; names split at commas, up to case; witnesses for the findings |
| C74 | NewSinhMap and the two maps over the reals | Calculus: the derivatives of sinh and cosh, monotonicity by the mean value theorem |
| C75 | the auditor, its modes and its multimap, the environment as a list of entries, the static of Find, histories of events; the bag's write and build | refinement by induction over the history: the sorted multimap holds, key by key, what a page written in order of time holds; the answer to a question is then computed from the pages |
| C76 | spreadsheet values as trees with numbered blocks of memory; the readers, NonblankSize, ToMatrix, ReadVector, ToDictionary, ToXloper and xlAutoFree | writes at distinct places by injectivity of the index; blocks as a permutation; the growing block stays within every fenced block; readers by induction |
| C77 | the text routines over lists of bytes, cells as a sum type, numbers abstract | case analysis on the byte, induction over the text, the split-join law of C30, decimal numerals of the standard library |
| C78 | the entry points as functions on the arguments of the spreadsheet, the repository of C25, the interpolators of C37, C38 and C60 | an invariant of the repository kept by every call; induction over the calls that follow; then C37, C38 and C60 for the values |
| C79 | PseudoRSG_ objects in the repository, with the state of each by address; the functions that make, draw and drop; what is stored | invariant of sessions (the repository invariant of C78, the state of a handle's generator changes only by draws on that handle), then induction over calls; the generator lemmas of C23 for single draws |
| C80 | Product_New, ScriptProductData_, Product_Debug and the map of values of MonteCarlo_Value; the parameter names of the two models | ordered-map lemmas for the table (last assignment wins), arithmetic of the row-major grid for the names, sortedness of the timeline for the rolling of the date, splitting of a text of whole lines for the printing |
| C81 | model descriptions, their storage and copies, the two models with their parameter addresses, Clone and CreateModel, as a heap of objects | refinement of the heap to a list of named numbers, by induction over the session, with the invariant that each object's addresses are its own fields in order |
| C82 | the tape with multi_ set: the adjoint block list, RecordNode, PropagateAll, PropagateAdjointsMulti, ResetAdjoints | refinement of the blocks to a list of weights and rows of adjoints; each column of a row evolves as the adjoints of one result (C32) |
| C83 | the driver's calls over a book of sheets and charts; Excel's limits and its rule for names are parameters | every loop is a run of writes; an invariant of sessions (the data sheet is first, names differ) and a relation between earlier and later books (columns below the current one are left alone) |
| C84 | curves in a heap with base handles; Poll, NewBase, Clone, operator() | bases come before the curves on them; induction along the line |
| C85 | CreateRNG; one generator per thread, moved by SkipTo at the start of a batch; a schedule is an order of batches with a thread for each | a generator stands at a place of a sequence whatever it did before; induction over the schedule |
| C86 | the row reader with its extractors, defaults, enumerations and handles; the loop of ToRecordVector | place arithmetic; induction over fields and rows; C76 for the block and for tables written |
| C87 | the loop of MCSimulation with generator, path and evaluator of each thread; ValueByMonteCarlo with the Black-Scholes model from preprocessing to the mean | the loop equals the simulation of C68 on the draws of C85 by induction over tasks and paths; C52 for the model's paths, C16 for dead branches |
| C88 | BlackOpt, BachelierOpt, Payout (C48), the Black-Scholes path of one draw (C52, C87) and the value of a script (C68) | integrals with Coquelicot: completing the square and a change of variable for the call, parity for the put and the straddle, one-step path by computation |
| C89 | the average of C87's value over ideal draws, paths of the Black-Scholes model (C52), the script's payoff (C68) | iterated integrals by induction over draws and paths; second moments of lognormal payouts by completing the square |
| C90 | the solver of C39 and the difference operators of C49 over histories of calls | a discrete maximum principle at the largest value, linearity for differences, Taylor's theorem with three derivatives for the defect of a smooth solution |
| C91 | the local volatility simulation of C52 and the expectations of C88 and C89 | each step is a lognormal number of mean one given the past; induction over the draws, first draw outermost |
| C92 | payouts of C48, paths of the Black-Scholes model (C52), expectations of C88 and averages of C89 | slope of a maximum away from its kink; primitives of the slopes times the density; chain rule from spot and volatility to forward and deviation |
| C93 | the rows of the mrg32 stream the tasks of a simulation draw (C85, C87) | the places SkipTo goes to are multiples of the dimension; count how often each row is used; the error of a weighted sum of independent draws |
| C94 | payouts and formulas of C48, expectations of C88, the series of C66 and the averages of C89 | expectations and averages are linear and monotone, payouts are convex, monotone and Lipschitz in the strike |
