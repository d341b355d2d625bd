# QuantMath in Rocq: design

The source tree in `/repo` (Rust) is modelled by hand, function by function, in `rocq/theories`.
Every model definition carries a comment naming the file and lines it models, and says where it simplifies.

## Layout

| Prefix | Contents |
|--------|----------|
| `Prelude.v`, `Num.v` | result type with panics, string maps, the number interface and its two instances |
| `M_*.v` | model: total computable functions, no proofs |
| `S_*.v` | specification: independent definitions used to state the properties (never defined through the model) |
| `L_*.v` | lemmas and proofs |
| `P_*.v` | property theorems only, each closed by `exact lemma.` followed by `Print Assumptions`, and `Example`s showing that the hypotheses are satisfiable |
| `X_*.v` | conformance: unit tests of the repository replayed on the model (tests, not proofs) |

## How Rust is represented

* **Panics and errors.** `res A = Ok a | Err msg | Panic msg`. Every `assert!`, `expect`, out-of-bounds index and
  explicit `panic!` that the modelled code can reach is a `Panic`; `Result::Err` is `Err`.
* **Mutation.** `&mut self` functions return the new value. Loops are structural recursion, or recursion on fuel which
  returns `Panic "fuel"`; the theorems exclude that case.
* **Dates** are `Z` (`Date(i32)`). Rust's truncating `/` and `%` are `Z.quot` and `Z.rem`.  i32 overflow is
  part of the model of text and of the `_checked` conversions; property C02 proves that those cannot overflow on valid dates, and C76
  that calendar steps give the same dates in 32-bit integers, with or without overflow checks (`M_Machine.v`).
* **Numbers.** The code's `f64` expressions are written once, over a class `Num T` of operations
  (`Num.v`), and instantiated twice:
  * `R` (standard library reals): exact arithmetic; used for the algebraic theorems. Rounding is not modelled there.
  * `F64` = `spec_float` with the standard library's `SpecFloat` operations at precision 53, emax 1024:
    bit-exact IEEE-754 double arithmetic including NaN and infinities; it computes, so it is used for the counterexamples
    which depend on NaN, and for replaying the repository's unit tests.
  `exp` and `ln` are in a separate class with an instance for `R` only; theorems on doubles quantify over every instance for `F64`, assuming
  of it what they need (`S_BlackDouble.v`).

  A theorem whose truth does not depend on what the operations do is stated `forall T (N : Num T) …`: it holds for any
  interpretation of the arithmetic whatever, rounded doubles included. These are all the theorems about which value is
  looked up, updated, cached, cleared, copied, written or read back, about dates, about errors and panics, and those that name the
  sequence of operations which gives a result (for example the price of a basket is its components' prices times their
  weights, added from zero in the order of the basket).
* **NaN** under the `R` instance: where the code itself writes `NAN` (extrapolation policy, initial values in the root finder,
  remaining cash dividends, replaced vol) the model uses `option` or an explicit parameter.
* **HashMap<String, A>** is an association list `smap A` with lookup `get` and in-place-or-append insertion `put`.
  Iteration order in Rust is unspecified; in the model it is list order. No theorem depends on a particular order.
* **External functions** are `Section` variables, universally quantified in the closed theorems: the normal cdf (`statrs`), random numbers,
  and, in the report theorems, the pricing function.
* **slice::binary_search_by** is modelled by an actual bisection, proved to meet the documented contract on sorted lists.

## Property by property

| Property | Modelled | Proof |
|----------|----------|-------|
| C01, C02 | `truncated_julian_from_ymd`, `ymd_from_truncated_julian` over Z | analytic: the quotients of the conversion are bounded and inverted with div/mod equations; the Gregorian spec is the successor function on triples with the leap rule |
| C03 | `is_valid`, `day_of_week` | `lia` with div/mod equations |
| C04, C05 | `Display`, `FromStr` over `string`: split on `-`, `parse::<i32>` | print/parse inverse lemmas for digits, then C01; counterexample strings by computation |
| C06 | the three calendars' `count_business_days` | week arithmetic versus day-by-day sum by induction on the interval length |
| C07, C08 | the three calendars' `step`, slip loops, the correction loop with `extra` | loop invariant: business days still owed = extra + holidays not yet passed; laws as corollaries of the iterated spec |
| C09, C10 | `VolatilityCalendar` | algebra over the day-weight sum; loop invariant on remaining steps; computed counterexample |
| C11 | `rules.rs` | from C07 plus month arithmetic of C01 |
| C12, C13, C14 | `interpolation.rs` linear part, `validate_abscissae`, binary search | list induction over R; counterexamples |
| C15, C16 | `nr_spline`, `nr_splint`, `CubicSpline` | forward elimination invariant, back substitution solves the tridiagonal system; counterexample for the clamped case |
| C17, C18 | `zbrent` over `Num` with an arbitrary function `T -> res T` and an evaluation trace | loop invariant `f(b) f(c) <= 0`; computed counterexample on doubles; the search ends: the width, d and e halve in phases (`bounded`, L_BrentEnds) |
| C19 | `Black76` over R with any normal cdf (one is constructed by integration, so the hypothesis is met) | `field`/`lra`; monotonicity and convexity by derivatives and the mean value theorem |
| C20-C22 | `curves.rs` | properties of exp/ln |
| C23 | `fixings.rs` | induction over insert lists |
| C24-C26 | `divstream.rs` | bootstrap invariant over the dividend list; the NaN of C25 on doubles with arbitrary exp and ln |
| C27 | `forward.rs` | algebra of exp |
| C28-C30 | `volsurface.rs`, `volsmile.rs`, `voldecorators.rs`, `bumpvol.rs`, `bumpspotdate.rs` dynamics; surfaces as one inductive type with decorators as constructors | pointwise lemmas over any number type, then algebra over R; pillar lookup through the bisection contract; exact characterisation of the forward variance and a two-year witness |
| C31 | bump `opposite` | field arithmetic |
| C32-C36 | instruments as an inductive type with nested members and underlyings; `fix`, `fix_all`, `prices` against an arbitrary pricing context | structural induction with nested lists; final worth as an inductive valuation which fixing preserves; parity over any symmetric cdf |
| C37, C38 | `dependencies`, `DependencyCollector`; contexts that agree on what was declared | requests are flattened to single asks, the collector is shown to fold over them; induction over ask lists |
| C39-C43 | `MarketData`, `SavedData`, `PricingContextPrefetch` | frame lemmas over maps, cache-coherence invariant over bump lists |
| C44-C46 | report generators over an abstract pricer with bump/restore/price | state-machine induction |
| C47 | `BumpTime` | filter/window lemmas |
| C48-C50 | `BlackDiffusion`, `MonteCarloPricer`: timelines, substepping, paths, flows, bump, restore and time bumps, for arbitrary draws and hash map order | invariant over bump histories relating paths to the current market; sums over path lists; restore by induction over histories |
| C51 | `ImpliedVol::solve` over any pricer (P_Solver) | the search over the pricer follows a search over the price as a function of volatility (simulation); then C17, so also that it succeeds; pricers shown to forget a replaced volatility; worked call |
| C52, C53 | serialised types as a schema (M_Schema), object trees and JSON trees, `Drc` writing and reading over the two thread-local `Dedup` states (M_Serde), typed objects to and from trees (M_Objects) | one induction over object trees relating the writer's state to the reader's (L_Serde); typed objects shown to conform and to convert back (L_Objects, L_Market, L_RoundTrip); WriteOnce by induction over the mentions in the JSON (L_Once); computed counterexamples with a panic, with clashing ids, with a nil date |
| C54 | the fifteen functions of the C interface over a heap of handles and strings, with undefined behaviour as a value, for any facade and any allocator (M_Handles); the facade itself (M_Facade) | ownership ledger kept outside the model (S_Handles); one lemma per function that the ledger and the heap agree, induction over histories (L_Handles); a whole session computed over the real facade (L_HandlesCases) |
| C55 | tag tables of the nine traits with the fields of every type (M_Schema) | case analysis over the whole (closed) table; general lemmas on reading an unknown tag |
| C56 | the reader for arbitrary JSON values, for the seven types that the facade reads (M_Serde, M_Schema, M_Objects, M_Facade); histories of reads and the texts that panic (S_Read) | induction over the JSON value and the schema that reading gives a value that conforms, an error or a panicking text (L_Read); conforming values become objects that can be stored (L_ReadObjects, L_ReadMarket); together with the round trips an exact characterisation (L_ReadTop); computed witnesses for what reading lets through and panics on (L_ReadCases, L_InterpNan) |
| C57 | the facade's calculation over both pricers (M_Facade), the C interface (M_Handles) | generators leave the pricer and the save area as they were (C45), so induction over the list of generators; reading does not depend on the state of the thread (L_Stateless); round trips of C52 through the answers of C54 (L_EndToEnd); an option and a bond reported (L_EndToEndCases) |
| C58 | `Linear::new`, `interpolate`, `lerp` on doubles | the model's double operations are shown equal to those of Flocq's `BinarySingleNaN`; search lemmas for any ordered abscissae; the points a search looks at, for the panic on NaN (L_InterpNan); forward error analysis with `(1 + e)` factors; computed counterexamples |
| C59 | `zbrent` on doubles | the bracketing invariant in any arithmetic in which nothing is on both sides of zero; error analysis of the stopping test |
| C60 | `count_business_days`, `step_partial`, `forward_variances` on doubles | the counts on doubles and on reals go through the same dates; error analysis by induction on the nesting of calendars; loop invariant of `step_partial` with a measured remainder; witnesses by computation |
| C61 | `rt`, `df` on doubles, `exp` any function with a relative error of at most eps | error of the interpolated rate from C58, of bumps by induction on them, then of the product, the difference and the exponential; such an exponential exists: the real one rounded by Flocq's `round` |
| C62 | `call_price`, `put_price`, `fix_instrument` and `price` on doubles, `ln` any function of the right sign, the distribution function any one with values in [0, 1] and symmetric up to eps | error of each operation with Flocq, the quotient of two different doubles never rounds to one; such functions exist (`C62_assumptions_hold`) |
| C63 | `parse`, `process_file`, `main`, the classes `Handle` and `Str` of the C++ program, as a client of the interface of C54: an input-output monad over `run`, destructors where the scopes end | every part keeps the ledger of C54 (`sound`), scopes free what they hold; induction over lines and files; file contents are lists of lines, opening is given |
| C64 | the Monte-Carlo model of C48-C50 over the reals; draws are a list dealt to the paths in order, and an expected value is an iterated improper integral against the normal density (`S_Expectation.v`, stated by primitives and limits) | the walk of the code and the lognormal walk on the same draws: exact mean-square distance, Cauchy-Schwarz, the lognormal expectation by the semigroup property of Black's formula; existence of the expected payoff by induction over the draws; independence of paths by iterated expectation |
| C65 | `displacement` of the surfaces of C28-C30 and the option pricer of C36, with `S_Displacement.v` naming the calibrated smiles under the decorators and the forward they were last moved to | induction over the decorators; strict monotonicity of Black's price in the strike (C19); NaN of the remaining dividends (C25) carried through the option price on doubles |
| C66 | the surfaces of C28-C30 on `F64`, with `S_VolDouble.v` giving the points in time and the rounding allowed | counts of C60, their monotonicity in the end date when no fraction is taken off (rounding is monotone), the signs of products from Flocq; witnesses by computation, for every exp and ln |
| C67 | the pricing of C33-C35 and the forwards of C23 on `F64`; exp, ln and the distribution function are any that are right up to `eps` (`S_BlackDouble.v`), compared with the independent `blacks_price` of `S_Expectation.v` on the reals | errors are carried through the logarithm, the arguments, the distribution function (Lipschitz), the square root and the discount factor; Lipschitz bounds of Black's price in forward and deviation; functions rounding to nearest show that the assumptions can be met; a one-year option as example |
| C68 | `zbrent` and `solve` on `F64` with the pricers of C39; `vols_tried` (`S_SolverDouble.v`) is the list of volatilities priced | the loop keeps an end of the other sign, every point tried is a double (closure of the operations), the test for the end bounds the distance; a NaN end is never given up, no interpolation is accepted there, and each halving towards zero is exact; the at-the-money option is priced symbolically for any exp with exp 0 = 1 and any ln of the right sign |
| C69 | the constructors of options and `time_to_day_fraction`, for any arithmetic, then the reals and `F64`; `S_Options.v` says what has a volatility and what the time of day is worth | inversion of the constructors in both directions; comparisons with zero by cases on the double |
| C70 | `act365_new` on top of the curves and the linear interpolator, on the reals and on `F64` | the interpolator's theorems (C11, C12, C58) carried to dates; the search of a list of quotes does not see their rates, so it finds the same place among bumped ones |
| C71 | the delta-gamma generator on the self pricer, its prefetched context, the equity forward and Black's formula, composed | the bumped pricer is the pricer of the bumped data (C41), so each sample is Black's formula at the forward of its spot; induction along the dividends for the forward being affine; mean value theorem and convexity of Black's formula |
| C72 | the vega-volga generator on the same composition, parallel bumps of a surface at its start | as C71, with the derivative of Black's formula in the volatility; the volga is violated: exact form of what is reported, and the at-the-money call as witness |
| C73 | the time-bumped generator on the same composition, both spot dynamics | as C71: the bumped market is today's on the later date with the moved spot; forwards from the moved spot by the closed form of the dividend sums; Black's price increases in the standard deviation; the yield counted twice is an exact factor with a witness |
| C74 | option pricing in any context, at several strikes and expiries | C36's closed form, C19's monotonicity and convexity, forward variances that do not depend on the strike; a quoted smile accepted with arbitrage as witness |
| C75 | the self pricer, its delta-gamma and time-bumped reports for one forward-starting option | the forward is proportional to the spot without cash dividends, Black's formula homogeneous; forward variance of a flat surface unchanged by the constant-expiry evolution; a surface of flat smiles as witness on doubles |
| C76 | date parsing, conversion and calendar steps with every i32 operation passed through a parameter that says what overflow does | the range of every intermediate result; a valid final date bounds them all, so that no operation can have overflowed |
| C77 | the implied-volatility solver on the self pricer holding one European option on a share | the replaced surface reaches the cached context; Black's formula is increasing in the standard deviation, within min(f,k) sd of its floor and tends to its cap; intermediate value theorem; C51's search theorems, for prices that rise or fall |
| C78 | portfolios and larger ones, on the self pricer with its cache | the bootstrap loop stops at the high-water mark, and what it built before is a prefix of what it builds for a later mark; so lookups agree; induction on instruments; cached contexts are those of fresh pricers (C41); reports are linear in the prices they are made from |
| C79 | delta and gamma reports on the Monte-Carlo pricer, over any draws | the model keeps its draws across bumps of the spot, so each sample's price is the mean payoff at the marks of the bumped market; payoffs are convex and 1-Lipschitz in the end point, which is affine in the forward; expected values are linear, and each sample's is near Black's price (C64) |
| C80 | comparison of reports, on doubles with Flocq | the comparison of tables and lists is generic in when two numbers are near; a rounded difference less than a double is an exact difference less than it, because rounding is monotone and leaves doubles alone |
| C81 | sums and averages on doubles with Flocq | a sum of n terms in order is within (1+u)^n - 1 of the exact sum, relative to the sum of the sizes, by induction on the terms with the partial sum generalised; products and the average add one rounding each |
| C82 | the paths and the option price of the Monte-Carlo pricer on doubles with Flocq | along a path, the invariant that the rounded product after k steps is within (1 + 9u)^k - 1 of the exact one, relative to the product with every draw replaced by its size, by induction on the steps and the observations; the payoff is 1-Lipschitz, so the error of the price is the mean error of the paths and C81's |
| C83 | the bootstrap of dividends and the forward of a share on doubles with Flocq | the bootstrap on doubles and over the reals run side by side, the invariant being that each sum is within (1 + theta)^k - 1 of the exact one, relative to the gross sum, with k nine more after each dividend; the search for a date depends on the dates only; the exponent is fixed by the roundings of the forward |
| C84 | the whole of the pricing of a European option on a share with dividends on doubles, with Flocq | C83 for the forward at the option's expiry, put into the bound of C67 for the price from a forward within a given distance of an exact one |
| C85 | the reports of deltas and gammas, of vegas and volgas and of thetas on doubles, with Flocq | the exact form of an entry (C45, in any arithmetic) as a quotient of sums of three prices; relative errors of each operation, none of which underflows for bumps of ordinary size |

Properties marked "(violated)" in `properties.jsonl` are false of the code as it stands. For those a theorem
`..._refuted` exhibits the failing input, and a positive theorem says what does hold.

## Trusted base

* The Coq 8.16.1 kernel (including `vm_compute`).
* The hand transcription from Rust to Gallina (each definition cites its source), and the simplifications named in the comments.
  It has been tested by running it, see below.
* Standard-library axioms used by theorems over `R` (see `Print Assumptions` in each `P_*.v` file):
  `ClassicalDedekindReals.sig_forall_dec`, `ClassicalDedekindReals.sig_not_dec`,
  `FunctionalExtensionality.functional_extensionality_dep`, and where a library lemma uses it `Classical_Prop.classic`.
* The theorems about rounding (C58-C62, C65-C68, C70, C75, C80-C85) use lemmas of the Flocq library, which has no axioms of its own; the operations they are
  about are still the standard library's `SpecFloat`, and `L_Double.v` proves the two equal. No other library is used.
  Theorems about dates, maps, dedup and handles are closed under the global context.
* No axioms of our own.

## Checking the transcription by running it

The model was extracted to OCaml, outside this repository (OCaml files have no place in the build), every definition of every `M_`
file, and the unit tests of `/repo` replayed on it with OCaml's double precision floats as the numbers. Five suites cover the tests
of `dates/*`, `math/*`, `data/*`, `instruments/*`, `risk/*`, `pricers/*`, `solvers/*` and `facade/mod.rs`, including the JSON
literals and the recorded prices and greeks, which the model reproduces to the tests' own tolerance of 1e-12 or so.
All checks pass. Two deviate from the Rust tests: the root finder's rope example is compared to 1e-4, since the last digits of the C
library's `acos` decide the answer, and the Monte-Carlo tests use 20000 paths of our own random numbers and compare with the
analytic prices as the Rust tests do. Not replayed: the generic tests of `core/*`, whose sample types are not modelled.
This is testing, not proof, and no theorem depends on it.

## Not modelled

* Floating-point rounding in the theorems over `R`.
* JSON text: characters, escapes, number digits, duplicate keys being told apart by position, trailing
  input, the parser's limit on nesting (about 127 levels). Objects are trees, numbers
  are kept exactly or become `null` when not finite. The array form serde accepts for a struct is read for plain structs only, and
  among several faults in one JSON value the one reported may differ where a struct has flattened parts.
* `erased_serde`, `Arc` reference counts, memory layout, the C ABI (null pointers, lengths that do not match the arrays passed), concurrent
  calls, a panic while dropping an object. The thread of each call may be in any state.
* The numerical accuracy of `statrs`' normal distribution and the quality of the random numbers.
