{"id": "C01", "title": "Date <-> (year, month, day) is a bijection with the Gregorian calendar", "statement": "Date::ymd followed by Date::from_ymd gives back the same date, and Date::from_ymd followed by Date::ymd gives back the same triple for every triple that exists in the Gregorian calendar; ymd(588) is 1970-01-01 and ymd of the next day is the Gregorian successor of ymd of the day.", "quantifier": "every day number from -2440000 (the start of the Julian day count) upwards, every existing Gregorian triple in that range", "why_tests_cant": "The unit test only sweeps 150 years of day numbers in one direction and never checks the triples against the leap year rules.", "anchors": ["src/dates/mod.rs: Date::ymd, Date::from_ymd, truncated_julian_from_ymd, ymd_from_truncated_julian"]}
{"id": "C02", "title": "Date arithmetic agrees with calendar order and never overflows on valid dates", "statement": "For dates in range, d1 < d2 exactly when the (y,m,d) triple of d1 is lexicographically before that of d2, and no intermediate result of the i32 arithmetic in ymd/from_ymd leaves the i32 range for any valid date.", "quantifier": "all pairs of day numbers in range; every valid date", "why_tests_cant": "Ordering and overflow are statements about pairs / all intermediate values.", "anchors": ["src/dates/mod.rs: truncated_julian_from_ymd, ymd_from_truncated_julian, Date: Ord"]}
{"id": "C03", "title": "Weekday numbering", "statement": "Date::day_of_week panics exactly on invalid dates; on valid dates it is 0..6, advances by one each day modulo 7, and 1970-01-01 is a Thursday (3).", "quantifier": "every day number", "why_tests_cant": "A test samples some dates; the cyclic law is about all of them.", "anchors": ["src/dates/mod.rs: Date::day_of_week, Date::is_valid"]}
{"id": "C04", "title": "ISO text round trip for dates", "statement": "Formatting any valid date with Display and parsing the text with FromStr gives back exactly that date.", "quantifier": "every valid date", "why_tests_cant": "Requires the formatter, the splitter and the integer parser to agree on all dates.", "anchors": ["src/dates/mod.rs: impl Display for Date, impl FromStr for Date"]}
{"id": "C05", "title": "Parsing a date never accepts an impossible date and never panics (violated)", "statement": "A user of Date::from_str / date deserialisation relies on malformed text being reported as Err. Exact behaviour: text with fewer than three '-' separated fields whose present fields are all integers panics; out-of-range months and days are accepted and silently normalised (2018-02-31 reads as 2018-03-03); text with surplus fields is accepted. A parse that succeeds always yields a valid date.", "quantifier": "every string", "why_tests_cant": "Robustness to every malformed input cannot be enumerated.", "anchors": ["src/dates/mod.rs: impl FromStr for Date"]}
{"id": "C06", "title": "Business-day count equals the day-by-day weight sum", "statement": "For the every-day, weekday and weekday-and-holiday calendars, count_business_days(from, from_frac, to, to_frac) equals the sum of the weights (1 on business days, 0 otherwise) of all days from..=to, minus weight(from)*from_frac and weight(to)*(1-to_frac), and equals 0 when from is after to.", "quantifier": "all valid from/to dates, all day fractions, all sorted duplicate-free weekend-free holiday lists", "why_tests_cant": "The closed-form week arithmetic must match for all alignments of the interval and all holiday lists.", "anchors": ["src/dates/calendar.rs: Calendar::count_business_days for EveryDayCalendar, WeekdayCalendar, WeekdayAndHolidayCalendar"]}
{"id": "C07", "title": "Stepping lands on a business day and equals repeated single steps", "statement": "Calendar::step(from, n, slip_forward) equals first slipping to a business day in the slip direction and then moving |n| single business days in the direction of n's sign; the result is always a business day.", "quantifier": "all valid dates for which no intermediate date leaves the valid range, all integers n, both slip directions, all sorted duplicate-free weekend-free holiday lists", "why_tests_cant": "The week arithmetic plus the holiday correction loop must match one-at-a-time stepping for every n and every holiday list.", "anchors": ["src/dates/calendar.rs: Calendar::step for EveryDayCalendar, WeekdayCalendar, WeekdayAndHolidayCalendar, slip_to_next_weekday, slip_to_next_business_day"]}
{"id": "C08", "title": "Steps compose and invert", "statement": "Steps in the same direction add up, step(step(d,a),b) = step(d,a+b); stepping back n business days undoes stepping forward n business days from a business day; step is monotone in the date; and the business-day count between a business day and its n-step successor is n.", "quantifier": "all dates, counts and holiday lists as above", "why_tests_cant": "Algebraic laws over all arguments.", "anchors": ["src/dates/calendar.rs: Calendar::step, Calendar::count_business_days"]}
{"id": "C09", "title": "Volatility calendar counts weighted time", "statement": "VolatilityCalendar's count is business*(1-w) + all*w, hence the sum of day weights (1 for business days, w for holidays) between the two fractional points; it is additive over a split of the interval, non-negative and monotone in both end points, for w in [0,1].", "quantifier": "all valid dates, fractions in [0,1), weights in [0,1], any of the underlying calendars", "why_tests_cant": "Quantifies over weights, splits and calendars.", "anchors": ["src/dates/calendar.rs: VolatilityCalendar::count_business_days, day_weight"]}
{"id": "C10", "title": "Volatility calendar stepping lands on the nearest point, but not always on a business day (trait promise violated)", "statement": "VolatilityCalendar::step_partial returns a date whose weighted distance from the start is as close as possible to the requested step (its error is at most that of the neighbouring day nearer to the start); but step(from, 0, _) with positive holiday weight returns a holiday unchanged, contrary to the Calendar::step promise that the result is always a business day. Every other calendar takes a whole number of steps, the one nearest to the step asked for (halves away from zero), although the documentation of step_partial says that the step is truncated towards zero.", "quantifier": "all start dates, steps and weights", "why_tests_cant": "The loop's termination and optimality hold for every weight and step or not at all.", "anchors": ["src/dates/calendar.rs: VolatilityCalendar::step, step_partial", "src/dates/calendar.rs: Calendar::step_partial (default)"]}
{"id": "C11", "title": "Date rules", "statement": "NullRule is the identity; a zero-step BusinessDays rule is idempotent and returns the nearest business day in its direction; ModifiedFollowing always returns a business day, is the next business day if that falls in the same month and otherwise the previous one, stays in the month when the month has a business day (and fewer than 300 days are closed in a row), and is idempotent.", "quantifier": "all dates, rules and holiday lists in range", "why_tests_cant": "Month ends, holidays and weekends interact in unboundedly many ways.", "anchors": ["src/dates/rules.rs: NullRule, BusinessDays, ModifiedFollowing"]}
{"id": "C12", "title": "Linear interpolation honours its pillars", "statement": "Linear::interpolate returns exactly the given ordinate at each pillar; between two neighbouring pillars it is on the straight line between them and lies between their ordinates; the binary search it uses finds the unique interval; affine data is reproduced exactly.", "quantifier": "all strictly increasing pillar lists and all abscissae inside the range", "why_tests_cant": "Quantifies over all curves and points.", "anchors": ["src/math/interpolation.rs: lerp, linear_interpolate, linear_interpolate_extrapolate, Linear::interpolate"]}
{"id": "C13", "title": "Extrapolation policies (right-hand policy violated)", "statement": "Left of the first pillar the left policy applies (flat, zero, natural, throw). Right of the last pillar the right policy applies whenever both or neither of the two policies are Natural; when exactly one is Natural the code consults the left policy: left Natural/right Flat extrapolates linearly on the right, and left Flat/right Natural is an error.", "quantifier": "all pillar lists, abscissae outside the range, policy pairs", "why_tests_cant": "Policy pairs times all curves.", "anchors": ["src/math/interpolation.rs: linear_interpolate_extrapolate, CubicSpline::interpolate, Extrap::extrapolate"]}
{"id": "C14", "title": "Curve abscissae validation", "statement": "Linear::new / CubicSpline::new accept a list of points exactly when it is non-empty and consecutive abscissae increase by at least the tolerance, so an accepted curve never divides by zero or misses an interval; but on IEEE doubles a single NaN abscissa is accepted, and a single point makes CubicSpline::new panic.", "quantifier": "all point lists", "why_tests_cant": "All lists, including degenerate ones.", "anchors": ["src/math/interpolation.rs: validate_abscissae, Linear::new, CubicSpline::new"]}
{"id": "C15", "title": "Natural cubic spline is the natural cubic spline", "statement": "With a Natural left policy, the spline built by CubicSpline::new passes through every pillar, its piecewise cubics match in first and second derivative at every interior pillar, and its second derivative vanishes at the left end (and at a natural right end; at a non-natural right end the first derivative vanishes instead).", "quantifier": "all pillar lists with at least two points", "why_tests_cant": "A solution of a tridiagonal system of arbitrary size.", "anchors": ["src/math/interpolation.rs: nr_spline, nr_splint, CubicSpline"]}
{"id": "C16", "title": "Clamped cubic spline is clamped (violated)", "statement": "With a non-Natural left policy the spline should have zero slope at the first pillar and a continuous first derivative at the second. It has neither in general: the back substitution skips index 0.", "quantifier": "all pillar lists", "why_tests_cant": "Needs the system's equations, not sample values.", "anchors": ["src/math/interpolation.rs: nr_spline back-substitution"]}
{"id": "C17", "title": "Root finder brackets a sign change", "statement": "If zbrent returns Ok(x) then either f(x) = 0 or there is a point x' at distance at most 2*(tolerance + rounding term) from x, both visited by the search, at which f has the opposite sign; an unbracketed or zero-length start is an error; f is evaluated at most max_iter+2 times; an error of f is passed on unchanged. A bracketed root is found, as documented, once enough iterations are allowed: (j+1)^2 are enough when halving the bracket j times brings it below half the tolerance, whatever the function, provided it is defined up to three widths of the bracket outside it.", "quantifier": "all functions, brackets, tolerances and iteration limits", "why_tests_cant": "For all functions.", "anchors": ["src/math/brent.rs: zbrent"]}
{"id": "C18", "title": "Root finder stays inside its bracket (violated)", "statement": "A user relies on f being evaluated only between x1 and x2 (implied vol picks bounds so the pricer works there). A transcription slip in the interpolation acceptance test lets the search leave the bracket. What does hold: the search never goes further than three widths outside the bracket, and every trial moves from the best point towards the opposite end, by at least the tolerance.", "quantifier": "all functions", "why_tests_cant": "The counterexample needs an adversarial function.", "anchors": ["src/math/brent.rs: zbrent (min1)"]}
{"id": "C19", "title": "Black-76: put-call parity and static bounds", "statement": "For the Black-76 formulas, call - put = df*(forward - strike) for every variance, and prices scale linearly in (forward, strike) and in the discount factor; with any cumulative normal function that is symmetric and between 0 and 1, call <= df*forward and put <= df*strike.", "quantifier": "all forwards, strikes, variances, discount factors; every symmetric cdf", "why_tests_cant": "Real-valued identity over four parameters.", "anchors": ["src/math/optionpricing.rs: Black76::call_price, put_price"]}
{"id": "C20", "title": "Discount factors compose", "statement": "df(a,b)*df(b,c) = df(a,c), df(a,a) = 1 and df(a,b)*df(b,a) = 1 for every rate curve and date convention; df is positive.", "quantifier": "all curves, all dates", "why_tests_cant": "Algebraic law over all curves and dates.", "anchors": ["src/data/curves.rs: RateCurve::df"]}
{"id": "C21", "title": "df(from, to) is the discount factor from `to` to `from` (documentation violated)", "statement": "The documentation says df(from,to) = exp(-r2 t2)/exp(-r1 t1). The code returns the reciprocal: df(from,to) times the documented value is 1, so with a positive rate df(base, later) > 1. Zero coupon prices compensate by swapping the arguments, so a positive rate gives a price below 1.", "quantifier": "all curves and dates", "why_tests_cant": "Sign convention over all curves.", "anchors": ["src/data/curves.rs: RateCurve::df", "src/instruments/bonds.rs: ZeroCoupon::price"]}
{"id": "C22", "title": "Yield-curve bumps do what their names say (relative bump violated)", "statement": "A flat continuously compounded bump adds bump*t to r*t; a flat annualised bump adds bump to the annualised growth factor; bumping by zero changes nothing. The relative bump multiplies by `bump` rather than 1+bump, so a zero relative bump sets the curve to zero.", "quantifier": "all curves, bump sizes and dates", "why_tests_cant": "All curves and sizes.", "anchors": ["src/data/curves.rs: AnnualisedFlatBump, ContinuouslyCompoundedFlatBump, RelativeBump", "src/data/bumpyield.rs"]}
{"id": "C23", "title": "Fixing tables: lookups and duplicates", "statement": "A fixing table built successfully returns for each id and date-time exactly the value supplied; an absent fixing is an error if dated before the fixings-known-until point and None otherwise; construction fails exactly when some id or some date within an id occurs twice.", "quantifier": "all fixing lists", "why_tests_cant": "All tables and queries.", "anchors": ["src/data/fixings.rs: FixingTable::new, from_iter_known_until, from_fixings, get, get_optional, Fixings::new"]}
{"id": "C24", "title": "Dividend accumulation equals the sum of the dividends", "statement": "For dividends sorted by ex-date and none on the base date, the undiscounted dividend sum between two dates up to the high-water mark is the sum of the cash amounts going ex in (from, to], with relative dividends valued as their fraction of the forward just before the ex-date; dates past the high-water mark are an error rather than a wrong sum.", "quantifier": "all dividend streams, base and query dates", "why_tests_cant": "A bootstrap over an arbitrary list.", "anchors": ["src/data/divstream.rs: DividendBootstrap::new, undiscounted_sum_from_base, undiscounted_sum, discounted_sum_from_base"]}
{"id": "C25", "title": "Dividends on the base date and remaining cash dividends (violated)", "statement": "The documentation excludes dividends going ex on the base date, and promises the net present value of the cash dividends after a date. A dividend on the base date is counted exactly when some later dividend exists within the bootstrap; and discounted_cash_divs_after returns NaN before the last dividend of a non-empty bootstrap.", "quantifier": "all dividend streams", "why_tests_cant": "Depends on interaction between list elements.", "anchors": ["src/data/divstream.rs: DividendBootstrap::new, discounted_cash_divs_after"]}
{"id": "C26", "title": "Bumping dividends scales every dividend", "statement": "new_bump_all scales every cash and relative dividend by 1+bump and keeps dates and order. It scales the dividend yield by bump instead of 1+bump; and when dividends extend past the yield's base date, bumping a stream with zero dividend yield makes forward construction fail.", "quantifier": "all dividend streams and bump sizes", "why_tests_cant": "All streams.", "anchors": ["src/data/divstream.rs: DividendStream::new_bump_all, Dividend::bump_all_relative", "src/data/curves.rs: RelativeBump::new"]}
{"id": "C27", "title": "Equity forward starts at spot and drops by each dividend", "statement": "The equity forward on its base date equals the spot price when no dividend goes ex that day; with no dividends it grows with rate minus borrow (plus dividend yield, sign as coded) between settlement dates; it scales linearly in spot when all dividends are relative; and on an ex-date it falls by the dividend.", "quantifier": "all spots, curves, settlement rules, dividend streams", "why_tests_cant": "Quantifies over curves and streams.", "anchors": ["src/data/forward.rs: EquityForward::new, forward, InterpolatedForward, DriftlessForward"]}
{"id": "C28", "title": "Variances are non-negative and consistent with volatilities", "statement": "variance = vol^2 * time with time clamped below, volatility^2 * time = variance; a parallel vol bump shifts every volatility by the bump floored at zero; constant-expiry and rolling-expiry time decorators keep volatility and shift time, never producing negative variance; a flat surface's forward variance is vol^2 times the weighted time between the dates.", "quantifier": "all strikes, dates, bumps and base surfaces", "why_tests_cant": "All strikes, dates and decorator stacks.", "anchors": ["src/data/volsurface.rs: VolSurface::variances, forward_variances, FlatVolSurface", "src/data/voldecorators.rs"]}
{"id": "C29", "title": "Forward variance reflects the whole interval (violated)", "statement": "forward_variance(from, to, K) should be the variance accumulated between from and to. For surfaces with a smile the at-the-money part uses `from` for both ends, so on a surface without smile and with driftless forward the forward variance is exactly zero for every from after the base date. Asking for several strikes at once gives, strike by strike, exactly the answers of asking for each alone, and fails whenever one of them would.", "quantifier": "all from/to pairs", "why_tests_cant": "A relation between two dates and a surface.", "anchors": ["src/data/volsurface.rs: VolSurface::forward_variances"]}
{"id": "C30", "title": "Probability-space vol surface interpolates its smiles", "statement": "VolByProbability reproduces each smile at its pillar date, interpolates variance linearly in vol time at the money between pillars, its construction rejects decreasing at-the-money variance, and strike <-> normalised strike conversions are inverse.", "quantifier": "all smiles, dates and strikes", "why_tests_cant": "All surfaces and strikes.", "anchors": ["src/data/volsurface.rs: VolByProbability"]}
{"id": "C31", "title": "Bump opposites (additive vol bump violated)", "statement": "In delta/gamma reports the second (opposite) bump takes the already bumped-up value to original*(1-b), so both samples are symmetric. Vol bumps use the same multiplicative formula for additive bumps, so the down-sample is at vol + b - 2b/(1+b) instead of vol - b, and the vega of a price linear in vol is off by a computable factor.", "quantifier": "all bump sizes and values", "why_tests_cant": "All sizes.", "anchors": ["src/risk/deltagamma.rs: generate", "src/data/bumpvol.rs: BumpVol::opposite, apply", "src/risk/vegavolga.rs"]}
{"id": "C32", "title": "Fixing a European option settles its exact payoff", "statement": "Fixing a spot-starting European on a table that knows the expiry fixing gives a decomposition worth exactly max(sign*(fixing-strike),0) at payment, for cash and for physical settlement alike (valuing delivered underlying at the fixing); without that fixing it is unchanged; a past missing fixing is an error; fixing is idempotent.", "quantifier": "all options, strikes, fixings", "why_tests_cant": "All strikes and fixing tables.", "anchors": ["src/instruments/options.rs: SpotStartingEuropean::fix, ForwardStartingEuropean::fix"]}
{"id": "C33", "title": "Forward-starting options become spot-starting options", "statement": "Fixing a forward-starting European once the strike date is known equals (fixing) the spot-starting European with strike = fraction * fixing and otherwise the same terms.", "quantifier": "all options and fixing tables", "why_tests_cant": "All tables.", "anchors": ["src/instruments/options.rs: ForwardStartingEuropean::fix"]}
{"id": "C34", "title": "Fixing a portfolio preserves order, weights and value", "statement": "fix_all replaces each affected holding by its decomposition with weights multiplied, in place and in order, leaves unaffected holdings alone, reports None exactly when nothing changed, and stops at the first error; a basket's fix does the same to its members, at any nesting depth. A pricer made from an instrument and a table of fixings holds what the instrument becomes.", "quantifier": "all portfolios and nesting depths", "why_tests_cant": "Induction over portfolio and nesting.", "anchors": ["src/instruments/mod.rs: fix_all", "src/instruments/basket.rs: Basket::fix"]}
{"id": "C35", "title": "Prices are linear in holdings", "statement": "A basket's price at each date is the weighted sum of its members' prices, at any nesting depth, and a self-pricer's price is the weighted sum of its instruments' prices; concatenating portfolios adds prices.", "quantifier": "all baskets and portfolios", "why_tests_cant": "Induction over structure.", "anchors": ["src/instruments/basket.rs: Basket::prices", "src/pricers/selfpricer.rs: SelfPricer::price"]}
{"id": "C36", "title": "Zero coupon, currency and expired options", "statement": "A zero coupon is worth df from payment to settlement before its ex-date and nothing on or after it; a currency is worth one; a vanilla option is worth nothing after expiry; European put-call parity holds at the level of whole instruments under the same context.", "quantifier": "all instruments, contexts and dates", "why_tests_cant": "All dates and contexts.", "anchors": ["src/instruments/bonds.rs: ZeroCoupon::prices", "src/instruments/assets.rs: Currency::price", "src/instruments/options.rs: VanillaOption::prices"]}
{"id": "C37", "title": "Pricing asks only for declared dependencies (violated by options)", "statement": "Everything an instrument requests from its pricing context during pricing has been declared by dependencies() with a high-water mark at least as late. Currencies, zero coupons, equities at their spot date and baskets of them obey this; a vanilla option discounts with its underlying's credit curve to the payment date but declares its own credit id.", "quantifier": "all instruments", "why_tests_cant": "A relation between two functions over all instruments.", "anchors": ["src/instruments/mod.rs: Instrument::dependencies", "src/instruments/options.rs: VanillaOption::prices, dependencies"]}
{"id": "C38", "title": "Dependency collection keeps the maximum high-water mark", "statement": "After any sequence of requests, the collector lists each requested yield curve, forward and vol surface once with the latest requested date, every spot exactly once, and the fixings exactly as requested.", "quantifier": "all request sequences", "why_tests_cant": "Invariant over histories.", "anchors": ["src/risk/dependencies.rs: DependencyCollector"]}
{"id": "C39", "title": "A market data bump changes only its target", "statement": "Bumping spot, dividends, borrow, yield or volatility of an id changes that datum as the bump says and nothing else; bumping an unknown id reports Ok(false) and changes nothing.", "quantifier": "all market data states, ids, bump kinds and sizes", "why_tests_cant": "Frame condition over all states.", "anchors": ["src/risk/marketdata.rs: Bumpable::bump, apply_bump", "src/data/bumpspot.rs", "src/data/bumpdivs.rs", "src/data/bumpyield.rs", "src/data/bumpvol.rs"]}
{"id": "C40", "title": "Restoring after a saved bump undoes everything", "statement": "Bumping with a save area, then applying any number of unsaved bumps to the same datum, then restoring from the save area, gives back exactly the original market data; this also holds for saved bumps of several different data. It does not hold for spot-date bumps (never saved) nor for two saved bumps of the same datum. Clearing a save area makes it as good as new.", "quantifier": "all market data, all bump sequences", "why_tests_cant": "Invariant over histories.", "anchors": ["src/risk/marketdata.rs: bump, restore, copy_from_saved, SavedData"]}
{"id": "C41", "title": "Cached market data never goes stale", "statement": "After any sequence of successful bumps through the prefetching context, every cached forward and vol surface equals the one recomputed from the bumped market data.", "quantifier": "all portfolios, market data and bump histories", "why_tests_cant": "Cache coherence is an invariant over histories.", "anchors": ["src/risk/cache.rs: PricingContextPrefetch::new, bump, refetch"]}
{"id": "C42", "title": "Restoring the prefetching context (violated for shared underlyings)", "statement": "Bump with save then restore brings the prefetching context back to its original cached forwards and vols, for spot, dividend, borrow and vol bumps, and for yield bumps when no forward is registered twice under the credit id. When two instruments share an underlying, a saved yield bump followed by restore leaves the bumped forward in the cache.", "quantifier": "all portfolios and bumps", "why_tests_cant": "Depends on sharing patterns between instruments.", "anchors": ["src/risk/cache.rs: bump, refetch, restore", "src/risk/dependencies.rs: forward_curve"]}
{"id": "C43", "title": "Failed bumps through the cache are not atomic (finding)", "statement": "A bump of the spot of an instrument that has a spot but no forward (an equity inside a basket) is reported as an error after the market data has already been changed, so delta reports on such portfolios fail and leave the pricer bumped.", "quantifier": "all such portfolios", "why_tests_cant": "Error-path state.", "anchors": ["src/risk/cache.rs: bump"]}
{"id": "C44", "title": "Risk reports leave the pricer as they found it", "statement": "After a successful delta/gamma, vega/volga or time-bumped report the pricer prices exactly as before, and a list of reports computed in one go equals the reports computed separately, in any order.", "quantifier": "all pricers whose restore undoes their bumps, all report lists", "why_tests_cant": "Histories of bumps across all instruments in all reports.", "anchors": ["src/risk/deltagamma.rs: generate", "src/risk/vegavolga.rs: generate", "src/risk/timebumped.rs: generate", "src/facade/mod.rs: calculate"]}
{"id": "C45", "title": "Delta and gamma are exact on quadratics", "statement": "If the price as a function of spot is a quadratic polynomial then the reported delta is its derivative and gamma its second derivative (in the report's units) at the unbumped spot for every non-zero bump size; the theta-style time-bumped report is the price difference.", "quantifier": "all quadratic price functions, spots and bump sizes", "why_tests_cant": "All coefficients and sizes.", "anchors": ["src/risk/deltagamma.rs: generate"]}
{"id": "C46", "title": "Report comparison is sound (bump size ignored)", "statement": "If comparing two delta/gamma, vega/volga or price reports yields no differences then they have the same keys and all values agree within the stated tolerances; the comparison is symmetric when both reports have the same bump size; reports with different bump sizes can compare equal, and a report with negative bump size never equals itself.", "quantifier": "all reports and tolerances", "why_tests_cant": "All reports.", "anchors": ["src/risk/mod.rs: Report::validate", "src/risk/deltagamma.rs", "src/risk/vegavolga.rs", "src/facade/mod.rs: assert_approx_eq_reports"]}
{"id": "C47", "title": "Time bumps fix what has passed (duplicates violated)", "statement": "Moving the spot date forward fixes exactly those fixings dated in [old date, new date) at the spot price and replaces the affected instruments; nothing happens when no fixing falls in the window. If two instruments in the portfolio watch the same fixing the time bump fails with a duplicate-fixing error.", "quantifier": "all portfolios and date moves", "why_tests_cant": "Windows and sharing patterns.", "anchors": ["src/risk/bumptime.rs: BumpTime::apply, update_instruments"]}
{"id": "C48", "title": "Monte-Carlo averaging (discounting violated)", "statement": "The Monte-Carlo price of an option is its weight times the mean of max(sign*(S-K),0) over the paths times the price of a unit paid at expiry, before and after bumps; it is non-negative; call minus put on the same draws is weight*(mean S - K)*discount; with zero draws it is what the option pays on the forwards; flows are evaluated linearly. The Monte-Carlo and closed-form prices are expected to discount alike, but one uses the option's credit and the other its underlying's.", "quantifier": "all options, markets, draws, path counts and bump histories", "why_tests_cant": "All path counts and values.", "anchors": ["src/models/blackdiffusion.rs: evaluate_flows", "src/instruments/options.rs: mc_price, mc_dependencies, prices", "src/pricers/montecarlo.rs: price"]}
{"id": "C49", "title": "Black diffusion paths (positivity and stepping violated)", "statement": "At any time a path's value at an observation is displacement + (forward - displacement) * product of (1 + draw * deviation) over its steps, with forwards and variances of the current market and the draws and steps the pricer was made with: so zero draws give the forwards, sign-balanced draws have the forward as mean, and a bump of the spot rescales the excess over the displacement. Steps per observation are at least one and keep the variance per step within the limit. Values may go negative, and the limit may be broken after a vol bump.", "quantifier": "all portfolios, markets, draws and bump histories", "why_tests_cant": "All paths.", "anchors": ["src/models/blackdiffusion.rs: fetch_path, calculate_substepping"]}
{"id": "C50", "title": "Monte-Carlo pricing of portfolios (violated)", "statement": "A user expects to price any portfolio of Monte-Carlo-priceable instruments, at any date. A pricer can only be made for options on one underlying; with two or more of them asking for the price panics; an option whose expiry is in the fixings cannot be priced, and time cannot pass the expiry of one.", "quantifier": "all portfolios, fixing tables and time bumps", "why_tests_cant": "All portfolios.", "anchors": ["src/pricers/montecarlo.rs: new, price, bump_time", "src/models/blackdiffusion.rs: evaluate_flows, fetch_correlated_gaussians", "src/instruments/options.rs: mc_price"]}
{"id": "C51", "title": "Implied volatility (violated: the pricer is left bumped)", "statement": "Solving for an implied vol when the price depends on no volatility surface, or on more than one, is an error and changes nothing. On success the answer is where the price crosses the target, within the tolerance, as a function of a flat volatility put in place of the one surface; if the price increases with volatility, the volatility that gives the target is within the tolerance of the answer. It is not true that the pricer is left at the answer, nor that it is put back after an error: it is left with the last volatility tried. With a target between the prices at the two bounds and enough iterations the search succeeds, provided the pricer works up to three widths outside the bounds.", "quantifier": "all pricers, targets and bounds", "why_tests_cant": "All price functions and all searches.", "anchors": ["src/solvers/impliedvol.rs: solve"]}
{"id": "C52", "title": "Deduplicating serialisation round trips", "statement": "Writing an object graph under WriteOnce, Inline or ErrorIfMissing and reading it back under the same control gives the same graph, provided equal ids mean equal objects (WriteOnce), or the ids are in the supplied map (ErrorIfMissing); under WriteOnce each shared object is written in full once, at its first occurrence.", "quantifier": "all object graphs and sharing patterns", "why_tests_cant": "Induction over graphs with shared state.", "anchors": ["src/core/dedup.rs: serialize_with_dedup, deserialize_with_dedup, Dedup"]}
{"id": "C53", "title": "Deserialisation state does not leak between calls (violated on panic)", "statement": "Dedup::with restores the thread-local state after the closure returns, whether Ok or Err, for any nesting. A panic inside the closure (for example a date string '1970') caught by the C interface leaves the inner state installed, so a later unrelated call sees the previous call's object map.", "quantifier": "all call histories", "why_tests_cant": "Histories with a crash point.", "anchors": ["src/core/dedup.rs: Dedup::with", "src/facade/c_interface.rs"]}
{"id": "C54", "title": "C handles are used exactly once", "statement": "In the C interface every operation consumes or borrows its handles as documented: after any history of operations respecting ownership, every live handle is valid, freed handles are never touched, errors propagate through every operation as error handles, and a handle of the wrong kind gives an error instead of misinterpreting memory. Passing the same report handle twice to the comparison function frees it twice.", "quantifier": "all call histories", "why_tests_cant": "State-machine invariant.", "anchors": ["src/facade/handle.rs", "src/facade/c_interface.rs"]}
{"id": "C55", "title": "Tagged serialisation knows every type it writes (violated)", "statement": "Each dynamically typed object is written with a tag that the reading registry knows. The flat-smile probability surface is writable but not readable, and a probability surface that has been read cannot be written again.", "quantifier": "all registered types", "why_tests_cant": "Closure of one table under another.", "anchors": ["src/core/factories.rs: Registry", "src/data/volsurface.rs: registry, get_type_id"]}
{"id": "C56", "title": "Arbitrary JSON is read as an object that can be stored, an error, or a known panic", "statement": "Reading any JSON text with finite numbers on a thread with any history of reads gives, for each of the seven kinds of object that the facade reads, either an object that can be written again, or the reader's error, or a panic. The panics come only from texts that the date parser panics on, and for market data also from probability surfaces with fewer than two points in a smile, with calendars that cannot count their days, or with a forward curve that gives NaN at the date of a smile (it ends before it, with the policy NotANumber). The objects that can be read are exactly the objects that can be written and read back. Reading does not check what the constructors check: unsorted points and holidays, day fractions of one and more, duplicate fixings and wrong last dividend dates are all accepted.", "quantifier": "all JSON values, all histories of reads on a thread, all finiteness predicates", "why_tests_cant": "All inputs to the public reading functions, including hostile ones, after any history.", "anchors": ["src/facade/c_interface.rs", "src/core/dedup.rs: Dedup, Drc", "src/core/factories.rs: TypedFactory", "src/math/interpolation.rs: Deserialize", "src/dates/calendar.rs: Deserialize", "src/data/volsurface.rs: VolByProbability"]}
{"id": "C57", "title": "A calculation from end to end", "statement": "A calculation through the facade that succeeds gives one report for each generator, in order, of the kind and with the bump sizes asked for. Each report is the one that would be given if it were the only one asked for, so the order of the generators makes no difference, with either kind of pricer. Finite results can be written and read and are then found to agree with themselves within any positive tolerances. A client of the C interface that reads storable objects written elsewhere is given handles to the same objects, whatever was read or calculated before, and has the results that calculating with the objects themselves gives.", "quantifier": "all instruments, fixings, market data, pricer factories and lists of generators; all histories of the C interface; all number types", "why_tests_cant": "The reports share one pricer and one save area, and the client shares a thread with everything before: independence is about all combinations.", "anchors": ["src/facade/mod.rs: calculate, write_results, parse_*", "src/facade/c_interface.rs: calculate, *_from_json", "src/risk/*: Report, ReportGenerator"]}
{"id": "C58", "title": "Linear interpolation on IEEE doubles, rounding included", "statement": "On 64-bit floating point numbers, Linear::interpolate returns exactly the given ordinate at each pillar (number or date) and obeys the extrapolation policies as in C13; dates are accepted exactly when they increase; between two pillars the value is finite, differs from the straight line by at most 2^-49 times the larger ordinate (plus 2^-1073), and is not negative (positive) between ordinates that are not.  CubicSpline::interpolate is exact at its pillars too and obeys the same policies. Both panic when asked about NaN, and on no other number. But rounding breaks two things a user might rely on: the value is not always between the two ordinates (a flat curve of 3.0 gives more than 3.0), and the interpolant of increasing data is not always increasing.  lerp meets its documented guarantee to equal its end points exactly for finite ordinates, not when the other end is infinite.", "quantifier": "all lists of double or date pillars, all abscissae, all finite ordinates up to 2^1000", "why_tests_cant": "Rounding errors depend on every bit of the inputs; a test with a tolerance neither bounds them nor finds the exact violations.", "anchors": ["src/math/interpolation.rs: Linear::new, Linear::interpolate, linear_interpolate, lerp, CubicSpline::new, CubicSpline::interpolate"]}
{"id": "C59", "title": "Root finding on IEEE doubles (NaN is taken for a root)", "statement": "On 64-bit floating point numbers, if the function never returns NaN and zbrent returns Ok(b) then f(b) = 0, or the search evaluated a point c at which f has the other sign (or is zero) and |c - b| <= (2^-50 |b| + |tol|)(1 + 2^-49) + 2^-1072. But a function that is NaN at the second end of the bracket makes zbrent return that end as a root at once, whatever the function elsewhere.", "quantifier": "all functions on doubles, brackets, tolerances, iteration limits", "why_tests_cant": "For all functions, with rounding; NaN fails every comparison, so no test with ordinary values meets it.", "anchors": ["src/math/brent.rs: zbrent"]}
{"id": "C60", "title": "Business-day arithmetic on IEEE doubles (rounding makes forward variances panic)", "statement": "On 64-bit floating point numbers count_business_days differs from the weighted time between the two moments by at most (3 + 9n) 2^-53 times the number of days, n being the depth of nested volatility calendars, and is exact for whole days on calendars without holiday weight. A step by a volatility calendar that returns ends as near to the step asked for as any day, up to (20 + 36n) 2^-53 times the number of days and the step. But it panics (`steps_needed >= -1.0`) for some steps that are within rounding of the distance of a day, and only for such: among them are times returned by count_business_days of the same calendar, so forward_variances of a volatility surface with a forward panics for some ordinary pairs of dates, and so does a surface moved to a later date with rolling expiries.", "quantifier": "all calendars, dates, day fractions between 0 and 1, finite weights, steps up to 2^20 days", "why_tests_cant": "The error bound is for all inputs; the panic needs a coincidence of the last bits of two sums.", "anchors": ["src/dates/calendar.rs: count_business_days, VolatilityCalendar::step_partial", "src/data/volsurface.rs: VolSurface::forward_variances, find_smile_date", "src/data/voldecorators.rs: RollingExpiryTimeEvolution::volatilities"]}
{"id": "C61", "title": "Discount factors on IEEE doubles", "statement": "On 64-bit floating point numbers, with an exponential that is right up to the fraction eps: the discount factor between two dates of a curve of finite rates, with any number n of continuously compounded bumps, is that of the curve of the real numbers its rates stand for, up to the factor (1 + eps) exp((22 + 2n) 2^-53 M (t1 + t2)), M bounding the rates and t1, t2 being the times from the base of the curve to the two dates. Between a date and itself it is exactly one. On every curve, whatever bumps it carries, factors are positive, the product of the factors over two periods is the factor over both, and the factor backwards the reciprocal, up to the fraction 4 eps + 2^-40, as long as rate times time is between -300 and 300.", "quantifier": "all curves, dates, rates up to 2^900, up to 1000 bumps, all implementations of exp that are accurate to eps", "why_tests_cant": "Composition of discount factors is exact only for real numbers; how far the rounded ones are off must be bounded for every curve, date and bump.", "anchors": ["src/data/curves.rs: RateCurve::rt, df, RateCurveAct365, ContinuouslyCompoundedFlatBump", "src/math/interpolation.rs: Linear"]}
{"id": "C62", "title": "Options on IEEE doubles (at the money on the expiry day the price is NaN)", "statement": "On 64-bit floating point numbers: Black prices of a call and a put with the same positive strike, discount factor, forward and volatility are finite, the call is at most the discounted forward and the put at most the discounted strike, and they differ by the discounted difference of forward and strike, up to (7 * 2^-53 + eps) times the discounted sum of forward and strike, eps being the asymmetry of the distribution function. With no variance left the prices are the discounted intrinsic values, rounded, except where forward and strike are equal: there they are NaN instead of zero, so that an option struck at the forward and priced at its expiry has the price NaN. Fixing an option on a double exercises it exactly when the fixing is beyond the strike, pays the difference rounded once, or exchanges exactly the strike.", "quantifier": "all finite discount factors, forwards, strikes and volatilities up to 2^400; all logarithms of the right sign; all distribution functions with values from 0 to 1; all fixings and strikes up to 2^1000", "why_tests_cant": "Parity on doubles is not exact and its error must be bounded for all inputs; the NaN appears on one line (forward equal to strike, no variance) that random tests miss.", "anchors": ["src/math/optionpricing.rs: Black76::call_price, put_price, d_plus_minus", "src/instruments/options.rs: SpotStartingEuropean::fix, VanillaPricer"]}
{"id": "C63", "title": "The command line program frees what it is given, but for the reports, and exits with zero when a calculation fails", "statement": "The C++ program that drives the library through its C interface reads the files named under six headings, each under its own heading and in order. It reports success for a file only if everything named there was read, there were exactly one market, fixing table and pricer, and the last instrument was valued, with exactly one line on standard output; on failure nothing is printed there and every handle and string it was given has been freed. It stops at the first file that fails, and its exit status is zero exactly if none failed. Violations: the handle to the reports is never freed, one per file; a calculation that fails counts as success, its message printed in place of the reports; a file name before the first heading goes through a null pointer; without instruments it takes the last of an empty list; copying an empty handle dereferences null.", "quantifier": "all lists of files and contents of them, all behaviours of the library behind the interface, all allocators, all states a client of the interface can be in", "why_tests_cant": "Leaks and double frees must be excluded on every path, including each place where reading can fail; the one run in the repository is of a file without mistakes.", "anchors": ["src/cpp-test/quantmath_runner.cpp: process_file, main, handle_error, class Handle, class Str", "src/facade/c_interface.rs"]}
{"id": "C64", "title": "Monte-Carlo prices are expected to be Black's but for an error that vanishes with the step size, and come together as paths are added", "statement": "Over independent standard normal draws, the expected Monte-Carlo price of an option is the discounted expected payoff of one path, whatever the number of paths, and its mean-square error about that is the variance of one path's payoff divided by the number of paths. The mean over the paths is expected to be the forward at every observation date, for any portfolio. The expected undiscounted price of a spot-starting option is within (F-d) sqrt(exp(V) m V / 2) of Black's price, where m is the limit on the variance of one step, V the variance to expiry, F the forward and d the displacement; and for a forward-starting option a similar bound holds. It is so near the closed form price when nothing is displaced, the volatility has no smile, and the option has the credit of its underlying. Violation: at any fixed step size the price is biased; with one step it is Bachelier's price, strictly above Black's for an option struck at the forward, however many paths there are.", "quantifier": "all market data, options, weights, step limits, numbers of paths; all values of the draws, weighted by the normal distribution", "why_tests_cant": "A test sees one price from one set of random draws; the tests in the repository allow for several percent. That the expectation is right, and how fast the error vanishes, is a statement about all draws at once.", "anchors": ["src/models/blackdiffusion.rs: fetch_path, calculate_substepping, evaluate_flows", "src/pricers/montecarlo.rs: MonteCarloPricer::price", "src/instruments/options.rs: mc_price, mc_dependencies", "src/math/optionpricing.rs: Black76"]}
{"id": "C65", "title": "Vol surfaces calibrated with cash dividends (strikes moved the wrong way, NaN under sticky delta)", "statement": "However a volatility surface has been bumped, evolved in time or moved with the forward, the shift of the lognormal it reports is zero if it was calibrated without cash dividends or as independent lognormals, an error if dividends jump, and otherwise the fixed dividends given at calibration, or those after the date of the forward it was last moved to. Bumps of the volatilities and the passing of time do not alter it; replacing the volatilities removes it. Violations: a European option is priced with the shift added to the strike instead of subtracted, so calls are worth less and puts more than the displaced lognormal (and Monte-Carlo in the limit) makes them, by up to twice the discounted shift; and on doubles, once the surface has followed a forward with a dividend after expiry, the price is NaN.", "quantifier": "all surfaces under any stack of decorators, all dates, options, valuation dates and contexts, both puts and calls", "why_tests_cant": "The repository has no test with a displaced surface, and the price it gives looks like a price; that it lies strictly on the wrong side for every forward, strike and variance needs the monotonicity of Black's formula.", "anchors": ["src/data/volsurface.rs: displacement, DivAssumptions", "src/data/voldecorators.rs: StickyDeltaBumpVol::displacement", "src/data/forward.rs: fixed_divs_after", "src/instruments/options.rs: VanillaOption::prices (k = strike + displacement)"]}
{"id": "C66", "title": "Volatility surfaces on IEEE doubles (negative forward variance over a weekend, NaN between pillars, NaN bumped to zero)", "statement": "On doubles the variance of a flat surface is its squared volatility times the weighted time, up to a stated rounding error, and so is its forward variance, which is never negative. If the surface is based at the start of a day, or every day counts, the forward variance can always be had. A surface evolved in time never has a variance below zero, whatever its volatilities. Parallel bumps give volatilities that are never NaN and never below zero. Violations: a flat surface based within a day can refuse a forward variance over a weekend as negative, because of rounding; a surface of smiles that was accepted can refuse volatilities between two pillars, since the test at construction and the test at use multiply in a different order; between pillars that are no time apart, such as a Saturday and the Monday after it, the volatility is NaN although both smiles are the same; and a bump turns a volatility that is NaN into zero.", "quantifier": "all doubles as volatility and bump, all calendars of any nesting up to 1000, all dates within 2^40 days of the base, all day fractions and strikes, whatever exp and ln are", "why_tests_cant": "Rounding errors show up at particular day fractions only, and that they never add up to more than the bound, or never make a forward variance negative, is a statement about all doubles.", "anchors": ["src/data/volsurface.rs: FlatVolSurface, forward_variances, VolByProbability::new, interpolate", "src/data/voldecorators.rs: ParallelBumpVol, ConstantExpiryTimeEvolution, RollingExpiryTimeEvolution", "src/dates/calendar.rs: count_business_days, year_fraction, standard_basis"]}
{"id": "C67", "title": "Option prices on IEEE doubles are Black's up to a stated error", "statement": "A European option priced on doubles off a flat volatility surface is worth Black's formula, at its forward, its strike, the squared volatility times the weighted time, discounted from pay date to settlement date, up to an error that is stated in terms of the accuracy of the mathematical library, the moneyness, the standard deviation, the rates and the rounding of the variance. The forward of a share without cash dividends is spot grown at the rate less the borrow cost with the dividend yield as the code takes it, up to a few roundings. So from the spot to the price of the option, with rates within 50%, dates within forty years, forwards and strikes between 1 and 10^6, volatilities from 1% to 200% and at least about a day to go, the price is right to a part in 10^9 of the discounted forward and strike.", "quantifier": "all options, contexts, curves, calendars of any nesting, volatilities, dates and doubles within the stated sizes; all exp, ln and normal distribution functions that are accurate to the stated fraction", "why_tests_cant": "Tests compare a few prices with a tolerance; that rounding errors never cancel badly enough to leave the stated bound, at any moneyness or maturity, is a statement about all doubles.", "anchors": ["src/instruments/options.rs: VanillaOption::prices", "src/math/optionpricing.rs: Black76", "src/data/forward.rs: EquityForward", "src/data/curves.rs: rt, df", "src/data/volsurface.rs: FlatVolSurface"]}
{"id": "C68", "title": "Roots and implied volatilities on IEEE doubles", "statement": "If none of the prices met on the way is NaN, an implied volatility found on doubles prices to the target, or another volatility within the tolerance prices to the other side of it; nothing is asked of the size of the points tried. But if the price at the lower bound is NaN, the search answers with an exact solution or with the lower bound, up to the tolerance; and a call struck at its forward has the price NaN at volatility zero, so a search from zero always succeeds and answers with next to no volatility, whatever the price.", "quantifier": "all functions, brackets, tolerances, iteration limits and pricers on doubles; all exp, ln and distribution functions that are right where it matters", "why_tests_cant": "The tests solve for one option away from its forward; that every answer is near a change of sign, and that an option at its forward is never solved from zero, are statements about all searches on doubles, NaN included.", "anchors": ["src/math/brent.rs: zbrent", "src/solvers/impliedvol.rs: ImpliedVol::solve, price_given_vol", "src/math/optionpricing.rs: Black76"]}
{"id": "C69", "title": "Which options can be made", "statement": "A European option is made exactly when its underlying is a share or a basket, its settlement rule gives a day for its expiry, and its strike is not negative (its strike fraction is positive, if it starts later); it then pays on that day, and its expiry and strike date count from the open, or four fifths of a day later at the close. On doubles a strike that is NaN is taken as well; and the strike date need not be before the expiry, in which case the option expires without a payment.", "quantifier": "all terms of all options, on the reals, on doubles and for the order of dates in any arithmetic", "why_tests_cant": "A test makes a few sensible options; that nothing else is refused or let through is about all of them.", "anchors": ["src/instruments/options.rs: VanillaOption::new, SpotStartingEuropean::new, ForwardStartingEuropean::new", "src/instruments/assets.rs: time_to_day_fraction", "src/instruments/basket.rs: time_to_day_fraction"]}
{"id": "C70", "title": "A rate curve says what it was quoted", "statement": "A rate curve is made from quoted rates exactly when there is a quote and the dates of the quotes increase. At a quoted date it answers the quote and the discount factor the quote compounds to (for the date it starts at, though, it answers the rate zero whatever was quoted); between quotes the rate is on the straight line between them, and outside them it is what the curve was told: the nearest quote, zero, NaN or an error. A bump of continuously compounded rates is the curve made from bumped quotes, at every date, unless the curve is zero outside its quotes; a bump of annualised rates adds to the annual growth at every quote, but is not the curve made from quotes so bumped. On doubles the same quotes are taken, whatever their rates, and the rate at a quoted date is the quote to the last bit.", "quantifier": "all lists of quotes, all ways to extrapolate, all dates and bumps, on the reals and on doubles", "why_tests_cant": "A test asks a curve of a few quotes at a few dates; that a bump is the same as quoting anew is about every date between and outside them.", "anchors": ["src/data/curves.rs: RateCurveAct365::new, r_and_t, rt, df", "src/data/bumpyield.rs: BumpYield", "src/data/curves.rs: ContinuouslyCompoundedFlatBump, AnnualisedFlatBump", "src/math/interpolation.rs: Linear"]}
{"id": "C71", "title": "The delta and gamma reported for a European option are those of Black's formula", "statement": "The forward of a share is affine in its spot, whatever its dividends. For a holding of a European option on a share before it expires, the delta in a delta-gamma report is the hedge ratio of Black's formula (N(d1) for a call, N(d1)-1 for a put) at some forward between those at the two bumped spots, times the discount factor and the slope of the forward in the spot; how far that is from the hedge ratio at the forward itself is bounded by a multiple of the bump. The delta of a call held is positive and less than the discounted slope, that of a put negative and above minus that, and the gamma has the sign of the holding. Without dividends the slope is the forward over the spot.", "quantifier": "all options on shares, strikes, put or call, market data (rates, borrow, dividends, vol surfaces), holdings, spots and bump sizes, on the reals", "why_tests_cant": "A test compares a delta with a number; that the report is a hedge ratio within a known error, with gamma of one sign, is about every market and every bump.", "anchors": ["src/risk/deltagamma.rs: DeltaGammaReportGenerator", "src/pricers/selfpricer.rs: SelfPricer", "src/risk/cache.rs: PricingContextPrefetch", "src/instruments/options.rs: SpotStartingEuropean, Black76", "src/data/forward.rs: EquityForward"]}
{"id": "C72", "title": "The vega and volga reported for a European option", "statement": "For a holding of a European option on a share, off a vol surface that starts on the spot date, a report that adds b to the volatilities gives as vega that of Black's formula at a volatility between the two bumped ones, divided by 1 + b, so it has the sign of the holding. The volga is not the second derivative: it is the vega at a higher volatility less (1-b)/(1+b) times that at a lower one, over b, so it exceeds the second derivative by about twice the vega. In particular at the money forward the price is concave in the volatility and the volga reported is positive.", "quantifier": "all options on shares, strikes, put or call, market data and surfaces starting on the spot date, holdings, volatilities and bump sizes, on the reals", "why_tests_cant": "A test compares the reported numbers with themselves; that the two samples are not symmetric shows only when the report is related to the derivatives of the pricing formula, for every market.", "anchors": ["src/risk/vegavolga.rs: VegaVolgaReportGenerator", "src/data/bumpvol.rs: BumpVol::opposite, apply", "src/pricers/selfpricer.rs: SelfPricer", "src/data/volsurface.rs: ParallelBumpVol", "src/instruments/options.rs: Black76"]}
{"id": "C73", "title": "The theta reported for a European option", "statement": "For a holding of a European option on a share, off a vol surface that starts on the spot date, a report on a later day before expiry gives Black's price for that day, with the volatility over the remaining time and the discounting from that day, and its difference from today's value. The spot it uses is today's, or the forward to the day if forwards are to be kept. In the second case the forward to any later date is indeed kept, whatever the dividends between, unless there is a dividend yield: that is counted once in the moved spot and again in the forward from it. Where the forward is kept, an option held gains less than the interest on its value, and it loses value if there is no interest.", "quantifier": "all options on shares, strikes, put or call, market data and surfaces starting on the spot date, holdings, days before expiry and both dynamics; all dividend streams in order with none on the two days; on the reals", "why_tests_cant": "A test fixes one market, usually without a dividend yield, and compares the report with recorded numbers; that the forward is kept or grows by the yield, and that an option decays, are claims about every curve, stream and day.", "anchors": ["src/risk/timebumped.rs: TimeBumpedReportGenerator", "src/risk/bumptime.rs: BumpTime::apply", "src/data/bumpspotdate.rs: SpotDynamics", "src/pricers/selfpricer.rs: SelfPricer", "src/data/forward.rs: EquityForward", "src/data/voldecorators.rs: ConstantExpiryTimeEvolution", "src/instruments/options.rs: Black76"]}
{"id": "C74", "title": "No arbitrage between European options off a surface without a smile (quoted smiles are not checked)", "statement": "An option with variance left is worth more than its discounted intrinsic value and less than the discounted forward or strike. Off a surface without a smile, whatever bumps and time have been applied to it, call prices fall and put prices rise with the strike, by less than the discounted difference of the strikes, and prices are convex in the strike. Of two options with the same forward and discounting, the one with more variance is dearer. With a smile none of this is guaranteed: a surface is checked at the forward only, so quotes are accepted under which the higher strike and the earlier expiry are the dearer calls.", "quantifier": "all European options, strikes, valuation times up to expiry and markets that price them; for the refutation, one accepted set of quotes; on the reals with any normal distribution function", "why_tests_cant": "Tests price a few strikes; monotonicity and convexity range over all triples of strikes, surfaces and bumps, and the missing check shows only for quotes that no test contains.", "anchors": ["src/instruments/options.rs: SpotStartingEuropean, Black76 pricing", "src/math/optionpricing.rs: Black76", "src/data/volsurface.rs: VolByProbability::new", "src/data/voldecorators.rs"]}
{"id": "C75", "title": "Delta, gamma and theta of an option whose strike is yet to be set (and its price off a surface of smiles)", "statement": "Before its strike is set, an option struck at a fraction of the spot on a later date behaves as a fraction of the share. Where dividends are fractions of the spot and volatility does not depend on the strike, the delta reported is the value divided by the spot and the gamma is zero, for every bump size. Off a flat surface a report on a day before the strike is set shows no time decay: the variance is still that from the strike date to expiry, and the value changes only by the ratios of discount factors and forwards. If forwards are kept and there is no dividend yield, theta is the interest on the value. Off a surface of smiles that is 20% everywhere none of this is to be had: the surface gives no variance between its dates, and such an option is priced, in doubles, as not a number.", "quantifier": "all forward-starting options on shares, fractions, strike dates and expiries, put or call, holdings, market data, bump sizes, days before the strike date and both dynamics, on the reals; for the refutation, puts and calls on doubles with any logarithm and distribution function that meet their specification", "why_tests_cant": "A test compares the report of one option in one market with recorded numbers; that delta is exactly value over spot and that there is no decay are identities over all markets, and the tests price no forward-starting option off a surface of smiles.", "anchors": ["src/instruments/options.rs: ForwardStartingEuropean", "src/risk/deltagamma.rs: DeltaGammaReportGenerator", "src/risk/timebumped.rs: TimeBumpedReportGenerator", "src/data/forward.rs: EquityForward", "src/data/volsurface.rs: forward_variances, VolByProbability", "src/pricers/selfpricer.rs: SelfPricer"]}
{"id": "C76", "title": "Dates in 32-bit integers: overflow with and without checks (violated for late years)", "statement": "Steps of any i32 number of days by the weekday and holiday calendars return the date of exact arithmetic or panic, whether or not the build checks for overflow, and so does the every-day calendar when the result is a valid date. Any text on which a checked build does not overflow is read alike by every build; for days of real months that is so up to the year 1465072. Beyond, a checked build panics, and an unchecked one may accept the text as a date of this century (2941824-01-01 reads as 2018-09-26). A rule made from an unsigned number of days of 2^31 or more steps the other way. The two infinite dates that the documentation reserves cannot be displayed without overflow.", "quantifier": "all strings, all i32 steps, all dates and holiday lists shorter than 2^31 - 3648, and every overflow behaviour that is right when the result fits and otherwise panics or is off by a multiple of 2^32", "why_tests_cant": "Tests are run in one build and on realistic dates; overflow appears only for inputs nobody writes in a test, and that a wrapped result is never taken for a valid date is a claim about all steps.", "anchors": ["src/dates/mod.rs: Date::from_str, truncated_julian_from_ymd, ymd_from_truncated_julian", "src/dates/calendar.rs: step", "src/dates/rules.rs: BusinessDays::new_step, new_back"]}
{"id": "C77", "title": "The implied volatility of any European option on a share", "statement": "With the volatility of its share replaced by a flat one, a European option is worth what Black's formula says, without displacement, and the same for the volatility with its sign changed. Every value strictly between the option's discounted intrinsic value and its discounted forward (or strike, for a put) comes from exactly one positive volatility, and ImpliedVol::solve finds it to within its tolerance, up to sign and unless the answer is near zero, given bounds around it and enough iterations, for options held and sold. The price off a surface without displacement gives back that surface's volatility. A target not between the prices at the bounds, and so any target that would be an arbitrage, is an error.", "quantifier": "all puts and calls, holdings, strikes, spots, dividend streams, curves, calendars, vol surfaces that start on the spot date, targets, bounds, tolerances and iteration counts", "why_tests_cant": "Tests solve for a few targets; existence and uniqueness of the answer are claims about every price, and that the search reaches it about every sequence of trial volatilities.", "anchors": ["src/solvers/impliedvol.rs: ImpliedVol::solve, price_given_vol", "src/risk/mod.rs: Pricer, BumpVol", "src/data/bumpvol.rs: BumpVol::Replace", "src/instruments/options.rs: SpotStartingEuropean"]}
{"id": "C78", "title": "What a holding is worth does not depend on the rest of the portfolio, unless a dividend goes ex today", "statement": "A pricer for a larger portfolio gives every price that a pricer for a part of it gives, to the last bit. So the value of two portfolios together is the sum of their values, also after any bumps of the market data other than of the date, and delta, gamma, vega and volga of the whole are, share by share, the sums over the parts. This holds if no dividend goes ex today, or if one goes ex after today within the reach of each curve the part needs. Otherwise it fails: a dividend going ex today is left out of a forward curve with no later dividend within its high-water mark, and that mark is the latest expiry in the portfolio, so adding a longer option changes the price of a shorter one. A share held on its own has no delta report, and has one beside an option on it.", "quantifier": "all portfolios and parts of them, instruments, dates, market data, dividend streams in order, and sequences of bumps; forwards and prices in any arithmetic", "why_tests_cant": "Tests price one portfolio at a time; the claim compares every portfolio with every larger one, and fails only for a dividend on the very day.", "anchors": ["src/data/divstream.rs: DividendBootstrap::new", "src/data/forward.rs: EquityForward", "src/risk/cache.rs: PricingContextPrefetch", "src/risk/dependencies.rs: DependencyCollector", "src/pricers/selfpricer.rs: SelfPricer", "src/risk/deltagamma.rs: DeltaGammaReportGenerator", "src/risk/vegavolga.rs: VegaVolgaReportGenerator"]}
{"id": "C79", "title": "Delta and gamma reported by Monte Carlo", "statement": "The delta and gamma that a report gives for a European option priced by Monte Carlo are central differences of the mean payoff on paths made from the same draws, in the same number of steps, with the spot bumped down, left alone and bumped up, discounted as before. So without a smile gamma has the sign of the holding, whatever was drawn, and the delta of a call held lies between zero and the discounted move of the forward times the mean growth of the paths. The delta of a put held is not positive if no path has crossed the displacement; if one has, as paths in coarse steps can, a put held can be reported to gain when the spot rises. Over independent normal draws the expected delta and gamma differ from the central differences of Black's prices by an error that vanishes with the limit on the variance of a step.", "quantifier": "all European options on a share, holdings, strikes, spots, dividend streams, curves, vol surfaces, bump sizes below the spot, numbers of paths and steps, and draws", "why_tests_cant": "Tests compare one report, from one set of draws, with a number; signs that hold whatever is drawn and expected values over all draws cannot be seen from any sample.", "anchors": ["src/risk/deltagamma.rs: DeltaGammaReportGenerator", "src/pricers/montecarlo.rs: MonteCarloPricer", "src/models/blackdiffusion.rs: BlackDiffusion, bump, fetch_path", "src/instruments/options.rs: SpotStartingEuropean, MonteCarloPriceable"]}
{"id": "C80", "title": "Comparing reports of IEEE doubles", "statement": "If no difference is found between two lists of reports then they have the same kinds and ids, every price and derivative on both sides is finite, and each pair is nearer than its tolerance in exact arithmetic, although the comparison rounds; numbers nearer than the tolerance are found to be so unless their difference rounds up to it. The comparison is exactly that of rounded differences with rounded tolerances. A report of finite numbers agrees with itself unless a tolerance has been rounded to zero; one with a value that is not a number never does. With a bump size of zero the tolerances are infinite, and any two finite reports on the same ids agree (unless a difference overflows).", "quantifier": "all reports, nested to any depth, tolerances and bump sizes, infinities, NaN and subnormal numbers included; the characterisation in any arithmetic", "why_tests_cant": "Rounding, overflow and NaN make a difference only for particular pairs of doubles, which tests do not enumerate.", "anchors": ["src/math/numerics.rs: approx_eq", "src/risk/deltagamma.rs: validate", "src/risk/vegavolga.rs: validate", "src/risk/timebumped.rs: validate", "src/facade/mod.rs: assert_approx_eq_reports"]}
{"id": "C81", "title": "Sums of doubles over portfolios, baskets and paths", "statement": "On IEEE doubles the price of a portfolio or of a basket differs from the exact sum of the holdings times their prices by at most one part in 2^52 of the gross value for each holding, and one more, and does not overflow on the way unless the gross value is beyond 2^1000. Reordering the holdings changes it by at most twice that, and can change it: it is not exactly the same. A price by Monte Carlo differs from the holding times the exact mean of the payoffs along the paths times the value of a unit paid by at most one part in 2^52 for each path, and three more.", "quantifier": "all portfolios and baskets of up to 2^50 holdings and all numbers of paths up to 2^50, finite weights and prices, whatever the signs", "why_tests_cant": "a test compares a few sums with a tolerance; how the error grows with the number of holdings or paths, and that no partial sum overflows, is a statement about every sum", "anchors": ["src/instruments/basket.rs:Basket::price, prices", "src/pricers/selfpricer.rs:SelfPricer::price", "src/pricers/montecarlo.rs:MonteCarloPricer::price", "src/models/blackdiffusion.rs:evaluate_flows", "src/instruments/options.rs:SpotStartingEuropean::mc_price"]}
{"id": "C82", "title": "Monte-Carlo paths and prices on IEEE doubles", "statement": "On IEEE doubles every path is at every observation within nine parts in 2^52 of the exact path with the same draws, for every step so far and two more, relative to how far the draws could have taken the forward had they all been of one sign; the forwards, variances and displacements being those the market data gives, the standard deviation of each step, its growth and the running product all being rounded on the way, and nothing overflowing unless the draws are extreme. So the price of a European option by Monte Carlo differs from the holding times the value of a unit paid times the exact mean of what is paid at the exact ends of the paths by at most the mean of those errors, one part in 2^52 for each path, and three more.", "quantifier": "all market data with numbers below 2^400 whose variances do not grow minutely, observation dates, numbers of steps up to 2^40 and of paths up to 2^50, finite draws, options, strikes and holdings", "why_tests_cant": "a test compares the prices from a few draws with Black's formula, within the statistical error, which hides the rounding error; how rounding accumulates over steps and paths is a statement about all draws", "anchors": ["src/models/blackdiffusion.rs:fetch_path, calculate_substepping, fetch_correlated_gaussians", "src/pricers/montecarlo.rs:MonteCarloPricer::price", "src/instruments/options.rs:SpotStartingEuropean::mc_price"]}
{"id": "C83", "title": "Forwards of shares that pay dividends, on IEEE doubles", "statement": "On IEEE doubles the forward of a share with any number of cash and proportional dividends, a dividend yield, rates and a borrow cost is within a stated fraction of the forward in exact arithmetic from the same data, relative to what the spot and all dividends, taken with one sign, would come to at that date. The fraction grows with the number of dividends, with the rates times the years and with the error of the exponential: with up to forty dividends, rates times years of up to two and an exponential right to eight units in the last place, it is below 5 in 10^11.", "quantifier": "all spots and curves of ordinary size, with any bumps of the continuously compounded kind, all lists of dividends of either sign, settlement rules, dates, high-water marks and exponentials of stated accuracy", "why_tests_cant": "a test checks a forward or two to a tolerance; proportional dividends are fractions of what earlier rounded sums leave, so that errors could compound from one dividend to the next, and only a proof bounds them for all lists of dividends", "anchors": ["src/data/divstream.rs:DividendBootstrap::new, discounted_sum_from_base", "src/data/forward.rs:EquityForward::new, EquityForward::forward, discount_with_borrow"]}
{"id": "C84", "title": "Options on shares that pay dividends, on IEEE doubles", "statement": "On IEEE doubles the price of a European option on a share with any number of cash and proportional dividends, from spot, curves and a flat volatility, is finite and is the discounted Black price on the forward of the same share in exact arithmetic, up to a stated fraction of the discounted forward and strike plus the discounted error of the forward, which is a stated fraction of what the spot and all dividends, taken with one sign, would come to.", "quantifier": "all spots, strikes and curves of ordinary size, all lists of dividends of either sign that leave a positive forward, calendars, settlement rules, dates, puts and calls, and library functions of stated accuracy", "why_tests_cant": "the price goes through a bootstrap of dividends, two curves, a volatility in weighted time, a logarithm and two normal probabilities, each of which rounds; a test checks a price or two, and only a proof shows how far the errors of all stages can add up for all markets", "anchors": ["src/data/divstream.rs:DividendBootstrap::new", "src/data/forward.rs:EquityForward::forward", "src/instruments/options.rs:VanillaOption::prices", "src/math/optionpricing.rs:Black76"]}
{"id": "C85", "title": "Deltas, gammas, vegas, volgas and thetas on IEEE doubles", "statement": "On IEEE doubles the spots at which a delta and gamma report prices a portfolio are the spot bumped up and down by the relative bump, up to one part in 2^51 and in 2^47. If the three prices are within some error of true prices, then the delta and the gamma reported are finite and are the central differences of the true prices, up to that error over the size of the bump (over its square, four times, for the gamma) and a stated multiple of the rounding of the prices over the same. The same holds of the vegas and volgas of a report of any pricer, with the size of the volatility bump as the divisor and the prices after the bump and after the bump and its opposite. A theta is within twice the error of the prices, and one rounding, of the difference of the true prices.", "quantifier": "all portfolios, markets and underlyings, all bumps from 2^-100 to a half of the spot and spots from 2^-100 to 2^100 of either sign, all prices up to 2^500, all true prices and errors", "why_tests_cant": "a difference of nearly equal prices over a small bump magnifies every rounding, so that a test on one portfolio and bump says nothing about others; only a proof bounds what is left for all", "anchors": ["src/risk/deltagamma.rs:DeltaGammaReportGenerator::generate", "src/risk/mod.rs:BumpablePricingContext", "src/data/bumpspot.rs:BumpSpot", "src/risk/vegavolga.rs:VegaVolgaReportGenerator::generate", "src/risk/timebumped.rs:TimeBumpedReportGenerator::generate"]}
