{"id": "C01", "title": "Elementwise operators act bar by bar and keep the longest warm-up", "statement": "For lines a and b over the same bars, `a op b` (arithmetic, comparison, also with a scalar on either side) has as many bars as the operands, delivers `a[i] op b[i]` with the operands in the written order from the first bar at which both operands deliver, and (for numeric results) NaN on every earlier bar.", "quantifier": "every pair of lines of every length, every warm-up length, every scalar, every numeric value including NaN and infinities", "why_tests_cant": "Tests compare a handful of indicator outputs on one 255 bar data set; operand order, warm-up alignment and NaN padding must hold for every combination of lengths and warm-ups.", "anchors": ["btalib/meta/lines.py:binary_op", "btalib/meta/linesops.py:_BINOPS"]}
{"id": "C02", "title": "Look-back operators shift by exactly the requested number of bars", "statement": "`line(-p)`, `shift(periods=p)`, `diff(periods=p)` and `pct_change(periods=p)` deliver at bar i a value computed from bars i and i-p only, start delivering exactly p bars later than the operand, and are NaN before.", "quantifier": "every line, every length, every p >= 0", "why_tests_cant": "An off-by-one in the look-back only shows on particular alignments of data, warm-up and period.", "anchors": ["btalib/meta/lines.py:standard_op", "btalib/meta/lines.py:Line.__call__"]}
{"id": "C03", "title": "Rolling window operators use exactly the last `window` bars", "statement": "`line.rolling(window=w).f()` delivers at bar i the function f of the w values of bars i-w+1..i, starts delivering exactly w-1 bars after the operand, is NaN before, and has the operand's number of bars.", "quantifier": "every line, every length (also shorter than the window), every w >= 1, every window function", "why_tests_cant": "Window placement must be right for every window size and every warm-up of the operand.", "anchors": ["btalib/meta/lines.py:multifunc_op", "btalib/meta/lines.py:_MultiFunc_Op.__getattr__"]}
{"id": "C04", "title": "No repainting for anything composed of the causal line operators", "statement": "For any indicator written by composing arithmetic, comparisons, look-backs, rolling windows, exponential smoothing, cumulative sums and clips, appending further bars to the inputs never changes a value (or NaN) already delivered for an earlier bar, and never changes the declared minimum period.", "quantifier": "every expression over the causal operators (unbounded depth), every input history, every extension of it", "why_tests_cant": "A test can only compare two particular lengths of one data set; look-ahead bugs hide in other lengths and compositions.", "anchors": ["btalib/meta/lines.py:binary_op", "btalib/meta/lines.py:standard_op", "btalib/meta/lines.py:multifunc_op"]}
{"id": "C05", "title": "Minimum period is exact and compositional", "statement": "For any composition of causal operators the declared minimum period of the result is the minimum period obtained by adding look-backs along each path and taking the maximum over operands; all bars before it are NaN.", "quantifier": "every expression over the causal operators, every input warm-up", "why_tests_cant": "The tests pin the minimum period of one parameterisation per indicator.", "anchors": ["btalib/meta/lines.py:Line._minperiodize", "btalib/meta/lines.py:Line._clone"]}
{"id": "C06", "title": "A rolling object can be reused", "statement": "Calling two window functions on the same `line.rolling(window=w)` object gives the same results (values and minimum period) as building two objects.", "quantifier": "every line, window and pair of window functions", "why_tests_cant": "The second use is only wrong in the bookkeeping of the minimum period, which no test inspects for reused objects.", "anchors": ["btalib/meta/lines.py:_MultiFunc_Op.__getattr__"]}
{"id": "C07", "title": "Positional and keyword spellings of a look-back are equivalent", "statement": "`line.diff(p)` means the same as `line.diff(periods=p)` and `line.rolling(w)` the same as `line.rolling(window=w)`.", "quantifier": "every line and period", "why_tests_cant": "Tests and library code only ever use the keyword spelling.", "anchors": ["btalib/meta/lines.py:standard_op", "btalib/meta/lines.py:multifunc_op"]}
{"id": "C08", "title": "Forward shifts do not break later operations", "statement": "After `line(k)` with k > 0 (values from the future) further operations still apply to all delivered bars.", "quantifier": "every line and k > 0", "why_tests_cant": "No test uses a forward shift.", "anchors": ["btalib/meta/lines.py:Line.__call__", "btalib/meta/lines.py:standard_op"]}
{"id": "C09", "title": "The two implementations of the recursive filter agree", "statement": "The scipy based and the pure Python implementation of the recursive smoothing used by smoothed accumulation return the same values.", "quantifier": "every data vector, every alpha different from 0 and every beta", "why_tests_cant": "A given test environment either has scipy or not, so it exercises one branch only.", "anchors": ["btalib/meta/lines.py:_MultiFunc_Op._mean_exp", "btalib/meta/lines.py:_MultiFunc_Op._lfilter"]}
{"id": "C10", "title": "DataFrame columns are assigned to inputs one to one", "statement": "When a multi-input indicator is called with a DataFrame that has at least as many columns as the indicator has inputs (and no string remapping is configured), every input gets a column and no column feeds two inputs.", "quantifier": "every list of column names, every list of input names, every integer index configuration, both settings of `set_use_ohlc_indices_first`", "why_tests_cant": "Tests use one column layout; the fallback chain (name, index, next free column) has a state that depends on all earlier inputs.", "anchors": ["btalib/meta/inputs.py:_from_arg_dataframe", "btalib/config.py"]}
{"id": "C11", "title": "Columns that carry the names of the inputs are used for them", "statement": "With default settings, if every input name of the indicator occurs (case-insensitively) among the column names, each input gets the first column with its name, wherever the columns are and whatever else the DataFrame contains.", "quantifier": "every list of columns and inputs with distinct input names", "why_tests_cant": "Must hold for every permutation and every set of extra columns.", "anchors": ["btalib/meta/inputs.py:_from_arg_dataframe"]}
{"id": "C12", "title": "A named column is never given to another input", "statement": "If an input's name is a column name, that input gets that column even when other inputs of the indicator are missing from the DataFrame.", "quantifier": "every list of columns and inputs", "why_tests_cant": "Only a DataFrame with a missing input and a particular column order shows the theft of a column by the index fallback.", "anchors": ["btalib/meta/inputs.py:_from_arg_dataframe"]}
{"id": "C13", "title": "Too narrow DataFrames are rejected and never half-mapped", "statement": "A DataFrame with fewer columns than inputs always raises InputsError at the top level; inside another indicator a DataFrame for a multi-input indicator always raises InputsError.", "quantifier": "every DataFrame shape, every indicator, every call depth", "why_tests_cant": "Tests do not exercise the error paths.", "anchors": ["btalib/meta/inputs.py:_from_arg_dataframe", "btalib/errors.py"]}
{"id": "C14", "title": "Single-input lookup in a DataFrame", "statement": "A single-input indicator called with a DataFrame uses the first column whose lower-cased name is the input name, else the configured integer index if it is inside the DataFrame, else column 0; a configured column name (string) is not supported there and raises.", "quantifier": "every list of columns, every configuration", "why_tests_cant": "Configuration and column layouts are unbounded.", "anchors": ["btalib/meta/lines.py:MetaLine._line_from_dataframe"]}
{"id": "C15", "title": "An indicator used as multi-dimensional input is checked for enough outputs", "statement": "Passing an indicator with fewer outputs than the called indicator has inputs raises InputsError.", "quantifier": "every pair of indicators and every number of bars", "why_tests_cant": "The check compares the number of bars, which is large in every test.", "anchors": ["btalib/meta/inputs.py:_from_arg_linesholder", "btalib/meta/lines.py:Lines.size"]}
{"id": "C16", "title": "Keyword arguments are split exactly into parameters and the rest", "statement": "For any indicator class and keyword arguments, each declared parameter takes the value given by the caller or else the class default, no other parameter exists, and exactly the undeclared keyword arguments are handed on unchanged.", "quantifier": "every class definition and every keyword dictionary", "why_tests_cant": "Holds for arbitrary dictionaries, not for sampled ones.", "anchors": ["btalib/meta/params.py:_from_kwargs"]}
{"id": "C17", "title": "Parameter defaults are inherited", "statement": "A subclass sees for each parameter the default declared by itself if it redeclares it, otherwise the one of the last base class declaring it (for defaults that are not tuples).", "quantifier": "every class hierarchy and every set of declarations in list, tuple or dict form", "why_tests_cant": "Hierarchies are unbounded.", "anchors": ["btalib/meta/params.py:_generate"]}
{"id": "C18", "title": "Inheriting a tuple valued parameter keeps its default", "statement": "A subclass that does not redeclare a parameter whose default is a tuple has the same default as its base class.", "quantifier": "every tuple default", "why_tests_cant": "No library indicator has a tuple default.", "anchors": ["btalib/meta/params.py:_generate"]}
{"id": "C19", "title": "Inheriting a parameter keeps its documentation", "statement": "A subclass that inherits a parameter still reports the documentation and the required flag declared by the base class.", "quantifier": "every declaration", "why_tests_cant": "Documentation metadata is not tested.", "anchors": ["btalib/meta/params.py:_generate"]}
{"id": "C20", "title": "Declared lines of a class", "statement": "The inputs/outputs of a class are its own declaration if it has one, otherwise those of its bases followed by the `_extend` declaration, without duplicates (last occurrence kept) and without names that were remapped.", "quantifier": "every declaration in string, tuple, dict or pair form and every list of bases", "why_tests_cant": "Unbounded declarations.", "anchors": ["btalib/meta/lines.py:_generate"]}
{"id": "C21", "title": "A remapped base output refers to the new output", "statement": "When a subclass renames one or more outputs of its base class, each old name refers to the new output declared for it.", "quantifier": "every set of renamings", "why_tests_cant": "All library classes rename at most one output, for which the closure bug is invisible.", "anchors": ["btalib/meta/lines.py:_generate"]}
{"id": "C22", "title": "Every initialiser runs exactly once, base first", "statement": "Creating an indicator runs each distinct `__init__` of its first-base inheritance chain exactly once, and a base's initialiser always before those of classes derived from it.", "quantifier": "every inheritance chain, with initialisers overridden or inherited at any level", "why_tests_cant": "Chains are unbounded.", "anchors": ["btalib/indicator.py:MetaIndicator.__call__"]}
{"id": "C23", "title": "Call depth is restored after a successful call", "statement": "After any indicator call (with any nesting of indicators inside) that returns normally, the library is in the same call-depth state as before.", "quantifier": "every tree of nested indicator calls in which no call raises", "why_tests_cant": "Nesting is unbounded.", "anchors": ["btalib/indicator.py:MetaIndicator.__call__"]}
{"id": "C24", "title": "A failing call does not affect later calls", "statement": "After an indicator call that raised an exception, a later top-level call with a DataFrame behaves as if the failing call had never been made.", "quantifier": "every history of calls containing a failing one", "why_tests_cant": "Needs a failing call followed by a good one in the same process; test suites isolate failures.", "anchors": ["btalib/indicator.py:MetaIndicator.__call__", "btalib/meta/inputs.py:_from_arg_dataframe"]}
{"id": "C25", "title": "DataFrame return only at the top level", "statement": "A call returns a DataFrame if and only if it is outermost and the return type is configured as 'df' or 'dataframe'; nested calls always return the indicator object.", "quantifier": "every nesting, every configuration value", "why_tests_cant": "Unbounded nesting and configuration histories.", "anchors": ["btalib/indicator.py:MetaIndicator.__call__", "btalib/config.py:get_return_dataframe"]}
{"id": "C26", "title": "Indicators can be computed from any thread", "statement": "An indicator call from any thread behaves like one from the thread that imported the library.", "quantifier": "every schedule of calls over threads", "why_tests_cant": "Tests run in the importing thread.", "anchors": ["btalib/meta/metadata.py", "btalib/indicator.py", "btalib/meta/lines.py:Lines.__init__"]}
{"id": "C27", "title": "Results do not depend on earlier calls with one input", "statement": "Calling a two-input indicator that tolerates one input (ht_*, mama) with high and low gives the same result whether or not it was called before with a single input.", "quantifier": "every history of calls", "why_tests_cant": "Each test calls each indicator once per process.", "anchors": ["btalib/meta/inputs.py:_from_args"]}
{"id": "C28", "title": "Results do not depend on earlier ta-lib mode calls", "statement": "Calling stochrsi without `_talib` works the same whether or not it was called before with `_talib=True`.", "quantifier": "every history of calls", "why_tests_cant": "The history matters, single calls do not show it.", "anchors": ["btalib/indicators/stochrsi.py:stochrsi._talib"]}
{"id": "C29", "title": "User arguments beat ta-lib defaults", "statement": "In ta-lib compatible mode a keyword argument given by the caller is never replaced by a ta-lib default of any class in the chain, and where the caller gave none the base-most ta-lib default wins.", "quantifier": "every chain of ta-lib default declarations and every keyword dictionary", "why_tests_cant": "Unbounded chains and dictionaries.", "anchors": ["btalib/indicator.py:MetaIndicator.__call__"]}
{"id": "C30", "title": "Configuration getters return what was set last", "statement": "For any sequence of configuration calls the getters return the value of the last corresponding setter (or the documented default); input indices are updated key by key.", "quantifier": "every sequence of configuration calls", "why_tests_cant": "Histories are unbounded.", "anchors": ["btalib/config.py"]}
{"id": "C31", "title": "Public names of aliases", "statement": "Every alias declared by an indicator is, in the public namespace, the indicator that declares it.", "quantifier": "every alias declared in the package", "why_tests_cant": "Collisions between modules only show when the alias is resolved through the package namespace.", "anchors": ["btalib/meta/aliases.py:_generate", "btalib/indicators/__init__.py", "btalib/indicators/price.py:medprice", "btalib/indicators/sarext.py:sarext"]}
{"id": "C32", "title": "Registry listing", "statement": "get_ind_names is sorted and lists exactly the registered non-private indicator names, each once; get_indicators lists the corresponding classes in the same order.", "quantifier": "every sequence of class registrations", "why_tests_cant": "Unbounded registration histories.", "anchors": ["btalib/indicator.py:get_ind_names", "btalib/indicator.py:get_indicators"]}
{"id": "C33", "title": "sma is the arithmetic mean of the last period bars", "statement": "sma delivers at every bar from its minimum period on the arithmetic mean of the last `period` input values, and nothing earlier.", "quantifier": "every finite series, every period >= 1, every input warm-up", "why_tests_cant": "All periods and all data.", "anchors": ["btalib/indicators/sma.py:sma"]}
{"id": "C34", "title": "wma is a convex, linearly weighted mean of the last period bars", "statement": "wma delivers sum(w*x)/sum(w) over the last `period` values with weights 1..period (newest heaviest); it therefore lies between the smallest and the largest of them.", "quantifier": "every finite series, every period >= 1", "why_tests_cant": "All periods and all data.", "anchors": ["btalib/indicators/wma.py:wma"]}
{"id": "C35", "title": "ema recurrence, seed and bounds", "statement": "ema starts with the mean of the first `period` values and then satisfies ema[i] = (1-a) ema[i-1] + a x[i] with a = 2/(period+1); every value lies between the minimum and maximum of the inputs seen so far.", "quantifier": "every finite series at least as long as the warm-up, every period >= 1", "why_tests_cant": "The recurrence has unbounded depth.", "anchors": ["btalib/indicators/ema.py:ema", "btalib/meta/lines.py:multifunc_op"]}
{"id": "C36", "title": "smma is Wilder's smoothing", "statement": "smma starts with the mean of the first `period` values and then satisfies smma[i] = (smma[i-1]*(period-1) + x[i])/period; values stay between the minimum and maximum of the inputs seen so far.", "quantifier": "every finite series, every period >= 1", "why_tests_cant": "Unbounded recurrence.", "anchors": ["btalib/indicators/smma.py:smma"]}
{"id": "C37", "title": "Composite moving averages follow their formulas", "statement": "dema = 2e1-e2, tema = 3e1-3e2+e3, gdema, t3 (coefficients summing to 1), trix, trima (a convex average of exactly the last `period` bars) of their component averages, with the corresponding minimum periods; each of the averages reproduces a constant series.", "quantifier": "every finite series, every period, every volume factor", "why_tests_cant": "All periods and all data.", "anchors": ["btalib/indicators/dema.py", "btalib/indicators/tema.py", "btalib/indicators/t3.py", "btalib/indicators/trix.py", "btalib/indicators/trima.py"]}
{"id": "C38", "title": "Short histories: no value, no exception", "statement": "Called on fewer bars than its minimum period, a moving average returns all NaN instead of raising.", "quantifier": "every period and every shorter history", "why_tests_cant": "Tests always have enough data.", "anchors": ["btalib/meta/lines.py:multifunc_op", "btalib/indicators/ema.py", "btalib/indicators/sma.py"]}
{"id": "C39", "title": "Kaufman's average adapts between its limits", "statement": "kama's efficiency ratio lies in [0,1], its smoothing factor between the squares of the slow and fast factors, and kama itself between the extremes of the inputs seen so far.", "quantifier": "every finite series with volatility, every period, fast <= slow", "why_tests_cant": "Unbounded recurrence over arbitrary data.", "anchors": ["btalib/indicators/kama.py:kama", "btalib/meta/lines.py:_MultiFunc_Op._mean"]}
{"id": "C40", "title": "kama of an indicator", "statement": "kama can be computed over the output of another indicator.", "quantifier": "every input line with a warm-up", "why_tests_cant": "Tests only use raw data (warm-up 1).", "anchors": ["btalib/indicators/kama.py:kama", "btalib/meta/lines.py:multifunc_op"]}
{"id": "C41", "title": "mavp picks the right average", "statement": "mavp delivers at bar i the moving average whose period is periods[i] clipped to [minperiod, maxperiod], evaluated at bar i.", "quantifier": "every series and every series of periods", "why_tests_cant": "All combinations of periods.", "anchors": ["btalib/indicators/mavp.py:mavp"]}
{"id": "C42", "title": "mavp does not repaint", "statement": "Appending bars never changes values mavp delivered before.", "quantifier": "every history and every extension", "why_tests_cant": "Requires comparing histories with different period sets.", "anchors": ["btalib/indicators/mavp.py:mavp"]}
{"id": "C43", "title": "Variance and standard deviation", "statement": "var is the mean squared deviation over the window (divided by period-ddof), is never negative, is 0 exactly for constant windows, and stddev is its non-negative square root; the sample variant is period/(period-1) times the population variant.", "quantifier": "every finite series, period and ddof < period", "why_tests_cant": "All data.", "anchors": ["btalib/indicators/var.py", "btalib/indicators/stddev.py"]}
{"id": "C44", "title": "Bollinger bands are ordered and symmetric", "statement": "bot <= mid <= top at every delivered bar for devs >= 0, with top-mid = mid-bot = devs times the population standard deviation of the window.", "quantifier": "every finite series, period, devs >= 0", "why_tests_cant": "All data.", "anchors": ["btalib/indicators/bbands.py:bbands"]}
{"id": "C45", "title": "Linear regression is the least squares fit", "statement": "linearreg, linearreg_slope, linearreg_intercept and tsf report the fitted end value, slope, intercept and one-step extrapolation of the unique line minimising the sum of squared residuals over the window.", "quantifier": "every finite series, every period >= 2, every competing line", "why_tests_cant": "Optimality quantifies over all lines.", "anchors": ["btalib/indicators/linreg.py"]}
{"id": "C46", "title": "Correlation is bounded", "statement": "correl lies in [-1, 1] whenever both windows are non-constant, is symmetric in its inputs and is 1 (-1) for positively (negatively) affinely related inputs.", "quantifier": "every pair of finite series, every period", "why_tests_cant": "Cauchy-Schwarz for all data.", "anchors": ["btalib/indicators/correl.py:correl"]}
{"id": "C47", "title": "beta measures the asset against the market", "statement": "beta is the slope of the regression of the asset's returns on the market's returns.", "quantifier": "every pair of series", "why_tests_cant": "The expected values in the tests were produced by the reference implementation, not by the definition.", "anchors": ["btalib/indicators/beta.py:beta"]}
{"id": "C48", "title": "RSI stays in [0, 100]", "statement": "rsi delivers only values in [0,100], 100 when there were no down moves in its memory, and NaN exactly when there was no movement at all.", "quantifier": "every finite series, every period and lookback", "why_tests_cant": "Bounds over all data, including the division by zero cases.", "anchors": ["btalib/indicators/rsi.py:rsi"]}
{"id": "C49", "title": "Stochastics and Williams %R bounds and duality", "statement": "With low <= close <= high and a non-degenerate range, stochf k (and its averages) lie in [0,100], williamsr in [-100,0], and williamsr = k - 100.", "quantifier": "every OHLC history, every period", "why_tests_cant": "All data.", "anchors": ["btalib/indicators/stochastic.py", "btalib/indicators/williamsr.py"]}
{"id": "C50", "title": "Aroon measures the distance to the most recent extreme", "statement": "aroonup = 100*(period - d)/period where d is the distance to the most recent highest high in the last period+1 bars (likewise aroondn); both lie in [0,100], and aroonosc in [-100,100].", "quantifier": "every finite series, every period >= 1", "why_tests_cant": "All data, ties included.", "anchors": ["btalib/indicators/aroon.py"]}
{"id": "C51", "title": "CMO and MFI bounds", "statement": "cmo lies in [-100,100] and mfi in [0,100] whenever they are delivered as numbers (non-negative prices and volumes for mfi).", "quantifier": "every finite history", "why_tests_cant": "All data.", "anchors": ["btalib/indicators/cmo.py", "btalib/indicators/mfi.py"]}
{"id": "C52", "title": "True range and ATR", "statement": "truerange is max(high-low, |high-prev close|, |prev close-low|); atr is its Wilder average and never negative; natr is 100*atr/close.", "quantifier": "every OHLC history with low <= high, every period", "why_tests_cant": "All data.", "anchors": ["btalib/indicators/atr.py"]}
{"id": "C53", "title": "truehigh can be computed", "statement": "truehigh delivers max(high, previous close).", "quantifier": "every history", "why_tests_cant": "The only test of truehigh is skipped (tested through truerange).", "anchors": ["btalib/indicators/atr.py:truehigh"]}
{"id": "C54", "title": "Directional movement system", "statement": "At each bar at most one of the one-bar +dm and -dm is positive; +di, -di, dx, adx and adxr lie in [0,100] whenever they are numbers.", "quantifier": "every OHLC history with low <= close <= high, every period and look-back", "why_tests_cant": "All data.", "anchors": ["btalib/indicators/directionalmove.py"]}
{"id": "C55", "title": "Directional indicators deliver as soon as they can", "statement": "Without ta-lib compatibility, +di and -di are delivered from the first bar at which the smoothed directional movement and the smoothed true range are both available.", "quantifier": "every OHLC history and period", "why_tests_cant": "The tests only check the ta-lib mode warm-up.", "anchors": ["btalib/indicators/directionalmove.py:_di", "btalib/meta/linesholder.py:LinesHolder._period"]}
{"id": "C56", "title": "Smoothed accumulation with early seed", "statement": "smacc with `_pearly` seeds with the sum of the first period-1 values.", "quantifier": "every series and period", "why_tests_cant": "The library only uses it on inputs with a warm-up of one bar.", "anchors": ["btalib/indicators/directionalmove.py:smacc", "btalib/meta/lines.py:multifunc_op"]}
{"id": "C57", "title": "MACD family identities", "statement": "histogram = macd - signal, apo equals the macd line for the same averages, ppo = 100*(fast/slow - 1); minimum periods are those of the slow average (plus the signal average).", "quantifier": "every finite series and all periods", "why_tests_cant": "All data.", "anchors": ["btalib/indicators/macd.py", "btalib/indicators/ppo.py"]}
{"id": "C58", "title": "ppofast follows its documented formula", "statement": "ppofast delivers 100*(1 - slow/fast).", "quantifier": "every series with non-zero averages", "why_tests_cant": "ppofast has no test against an independent reference.", "anchors": ["btalib/indicators/ppo.py:ppofast"]}
{"id": "C59", "title": "Rate of change family", "statement": "mom = x - x(-p), roc = 100*rocp, rocr = rocp + 1, rocr100 = 100*rocr, all delivered exactly `period` bars after the input.", "quantifier": "every finite series with non-zero history, every period", "why_tests_cant": "All data.", "anchors": ["btalib/indicators/roc.py", "btalib/indicators/mom.py"]}
{"id": "C60", "title": "Cross detection", "statement": "crossup signals 1.0 exactly at bars where the crosser is above the crossed line and was below it at the last earlier bar at which they differed (strict: at the previous bar); crossdown is the mirror image; both never signal at once.", "quantifier": "every pair of finite series", "why_tests_cant": "Runs of equal values have unbounded length.", "anchors": ["btalib/indicators/crossover.py"]}
{"id": "C61", "title": "crossover combines both signals", "statement": "crossover delivers crossup minus crossdown.", "quantifier": "every pair of series", "why_tests_cant": "crossover has no test.", "anchors": ["btalib/indicators/crossover.py:crossover"]}
{"id": "C62", "title": "Parabolic SAR stays on its side of the market", "statement": "At every bar the delivered sar is below (or at) the low while the trend is long and not reversing, above (or at) the high while short and not reversing; at a reversal it is the extreme point of the finished trend; the acceleration factor stays in [af, afmax].", "quantifier": "every history with low <= high, 0 < af <= afmax", "why_tests_cant": "Unbounded state machine.", "anchors": ["btalib/indicators/sar.py:sar"]}
{"id": "C63", "title": "sarext generalises sar", "statement": "With default arguments sarext has the same magnitude as sar at every bar, positive in long and negative in short trends.", "quantifier": "every history", "why_tests_cant": "Unbounded state machine.", "anchors": ["btalib/indicators/sarext.py:sarext", "btalib/indicators/sar.py:sar"]}
{"id": "C64", "title": "Volume accumulators", "statement": "obv changes at each bar by +volume, -volume or 0 according to the sign of the close change; ad changes by mfm*volume with |mfm| <= 1 for low <= close <= high; a bar with high = low yields NaN for that bar only and does not poison later bars.", "quantifier": "every history", "why_tests_cant": "All data.", "anchors": ["btalib/indicators/obv.py", "btalib/indicators/ad.py"]}
{"id": "C65", "title": "Ultimate oscillator and balance of power bounds", "statement": "ultimateoscillator lies in [0,100] and bop in [-1,1] for histories with low <= open,close <= high (non-degenerate ranges, non-negative factors).", "quantifier": "every history, all periods and factors", "why_tests_cant": "All data.", "anchors": ["btalib/indicators/ultimateoscillator.py", "btalib/indicators/bop.py"]}
{"id": "C66", "title": "Window extremes and their positions", "statement": "max/min/minmax deliver the largest/smallest of the last period values (a value that occurs in the window and dominates it), midpoint/midprice their middle, maxindex/minindex the position of the first extreme in the window.", "quantifier": "every finite series, every period >= 1", "why_tests_cant": "All data, ties included.", "anchors": ["btalib/indicators/mathop.py", "btalib/indicators/midpoint.py"]}
{"id": "C67", "title": "Absolute index of the extreme", "statement": "maxindex with `_absidx` delivers the position of the extreme in the whole series.", "quantifier": "every input line, also one with a warm-up", "why_tests_cant": "Tests only use raw data.", "anchors": ["btalib/indicators/mathop.py:maxindex"]}
{"id": "C68", "title": "Parameters have an effect", "statement": "The documented parameters `_stdev` of bbands, `_dev` of cci, `_ma` of trima/mad/t3 and `_rets` of correl select the calculation used.", "quantifier": "every value of those parameters", "why_tests_cant": "Tests use the defaults only.", "anchors": ["btalib/indicators/bbands.py", "btalib/indicators/cci.py", "btalib/indicators/trima.py", "btalib/indicators/madev.py", "btalib/indicators/t3.py", "btalib/indicators/correl.py"]}
{"id": "C69", "title": "Hilbert transform cycle period is bounded", "statement": "ht_dcperiod delivers values in (0, 50] for every input, so the divisions by the period never fail.", "quantifier": "every finite price history", "why_tests_cant": "Unbounded recurrence over arbitrary data.", "anchors": ["btalib/indicators/ht_dcperiod.py"]}
{"id": "C70", "title": "Price transforms and pointwise math", "statement": "avgprice, typprice, wclprice, medprice and the two-input math operators deliver exactly their formula at each bar; the price transforms lie between low and high for low <= open, close <= high.", "quantifier": "every history", "why_tests_cant": "All data.", "anchors": ["btalib/indicators/price.py", "btalib/indicators/mathop.py"]}
{"id": "C71", "title": "Positional inputs are taken in order", "statement": "With at least as many positional arguments as the class has inputs, input k is made from argument k alone, and the arguments after the inputs are handed on to the indicator in order.", "quantifier": "every class, every argument list, every kind of argument", "why_tests_cant": "All arities and kinds of argument.", "anchors": ["btalib/meta/inputs.py:_from_args"]}
{"id": "C72", "title": "Old output names stay usable in all descendants", "statement": "If a class renames an output of its base class, the old name remains usable on every class derived from it, however often the output is renamed again.", "quantifier": "every chain of renamings", "why_tests_cant": "Depth of the chain is unbounded.", "anchors": ["btalib/meta/lines.py:_generate", "btalib/indicators/atr.py"]}
{"id": "C73", "title": "Every public indicator is listed in a group", "statement": "get_ind_by_group lists each public indicator of the package under at least one group, and lists exactly the classes registered with that group.", "quantifier": "every sequence of class registrations; every class of the package", "why_tests_cant": "Tests do not look at groups.", "anchors": ["btalib/indicator.py:get_ind_by_group", "btalib/meta/groups.py"]}
{"id": "C74", "title": "Mean deviation and CCI", "statement": "mad is the mean absolute deviation from the window's mean, never negative and 0 exactly for constant windows; cci is the deviation of the typical price from its average divided by factor times that, and NaN exactly on windows with constant typical price.", "quantifier": "every finite price history, every period, every non-zero factor", "why_tests_cant": "All data; division by zero on flat windows.", "anchors": ["btalib/indicators/madev.py:mad", "btalib/indicators/cci.py:cci"]}
{"id": "C75", "title": "Stochastic RSI stays in [0, scale]", "statement": "stochrsi delivers only missing values or numbers in [0, scale], and so does the averaged second output of the ta-lib mode, for every look-back of the extremes.", "quantifier": "every finite series, all periods, every scale >= 0, every average that keeps the range of its inputs", "why_tests_cant": "The rsi underneath may be missing at any bar (no movement at all), so the extremes are taken over windows with gaps.", "anchors": ["btalib/indicators/stochrsi.py:stochrsi", "btalib/indicators/rsi.py:rsi"]}
{"id": "C76", "title": "Phasor components follow the cycle equations", "statement": "ht_phasor delivers the in-phase and quadrature components defined by the Hilbert transform equations from the 33rd usable bar on, and these equations determine the components uniquely.", "quantifier": "every finite price history, given as one line or as high and low", "why_tests_cant": "Recursive filter over arbitrary data.", "anchors": ["btalib/indicators/ht_phasor.py"]}
{"id": "C77", "title": "Cycle phase is an angle and the sine waves are its sines", "statement": "ht_dcphase delivers angles in (-45, 315] degrees; ht_sine delivers the sine of that very angle and of the angle plus 45 degrees, always in [-1, 1].", "quantifier": "every finite price history", "why_tests_cant": "Depends on an unbounded recursion, on divisions and on a transform over a window whose length changes at each bar.", "anchors": ["btalib/indicators/ht_dcphase.py", "btalib/indicators/ht_sine.py"]}
{"id": "C78", "title": "Instantaneous trend line stays within the recent price range", "statement": "ht_trendline delivers a value between the lowest and the highest of the last 53 prices, for every measured cycle length.", "quantifier": "every finite price history", "why_tests_cant": "Window length depends on the data.", "anchors": ["btalib/indicators/ht_trendline.py"]}
{"id": "C79", "title": "Trend mode is a flag with Ehlers' rules", "statement": "ht_trendmode delivers 0 or 1, and 1 exactly when the smoothed price is at least 1.5 percent off the trend line, or when the sine waves have not crossed for half a cycle and the phase does not advance at the pace of the cycle.", "quantifier": "every finite price history", "why_tests_cant": "Counter with unbounded history.", "anchors": ["btalib/indicators/ht_trendmode.py"]}
{"id": "C80", "title": "Hilbert transform indicators do not look ahead", "statement": "Two price histories which agree up to a bar give the same values of all six Hilbert transform indicators up to that bar, whatever follows and however long the histories are.", "quantifier": "every pair of finite price histories with a common prefix", "why_tests_cant": "All continuations.", "anchors": ["btalib/indicators/ht_dcperiod.py", "btalib/indicators/ht_phasor.py", "btalib/indicators/ht_dcphase.py", "btalib/indicators/ht_sine.py", "btalib/indicators/ht_trendline.py", "btalib/indicators/ht_trendmode.py"]}
{"id": "C81", "title": "Which column an input takes", "statement": "When an indicator takes several inputs from one DataFrame, each input, in the declared order, takes: the column configured for it if configured indices go first and that column is still free; else the first column that carries its name if free; else, if no column carries its name, the configured column if free; else the leftmost free column.", "quantifier": "all tables (any names, repeated or not), all input declarations, all configurations of set_input_indices and set_use_ohlc_indices_first", "why_tests_cant": "Tests use one table with the usual six columns in the usual order.", "anchors": ["btalib/meta/inputs.py:_from_arg_dataframe", "btalib/config.py:set_input_indices", "btalib/config.py:set_use_ohlc_indices_first"]}
{"id": "C82", "title": "ewma is the exponentially weighted mean of the history", "statement": "ewma(adjust=False) starts with the first usable value and then moves by 2/(period+1) of the distance to each new value; with adjust=True it is the mean of all usable values weighted with powers of 1-2/(period+1) of their age. Both stay in the range of the prices, and both already hold values during the bars that the reported minimum period declares as warm-up.", "quantifier": "all price series, periods, warm-ups of the input", "why_tests_cant": "Unbounded history and arbitrary values.", "anchors": ["btalib/indicators/ewma.py", "btalib/meta/lines.py:multifunc_op"]}
{"id": "C83", "title": "Old prices fade from the exponential averages", "statement": "If two price histories agree from some bar on, the difference of their ema (smma) is multiplied by exactly 1-2/(period+1) (1-1/period) with each further bar, so dropping old history changes later values by at most that power times the price range.", "quantifier": "all pairs of histories with a common tail, of any lengths, all periods", "why_tests_cant": "Concerns all pairs of histories.", "anchors": ["btalib/indicators/ema.py", "btalib/indicators/smma.py"]}
{"id": "C84", "title": "mama adapts to the phase rate between its limits", "statement": "mama and fama follow Ehlers' equations: the weight of a new price is the fast limit divided by the fall of the phasor angle (at least 1 degree), never below the slow nor above the fast limit; fama follows mama with half that weight; no value depends on later prices; histories of at least 12 bars never raise and the values are delivered from bar 33 on.", "quantifier": "all price histories (one input, or high and low) of any length, all limits", "why_tests_cant": "The recursion feeds back a state of some fifteen variables over an unbounded history.", "anchors": ["btalib/indicators/mama.py", "btalib/meta/lines.py:multifunc_op"]}
{"id": "C85", "title": "mama of an indicator", "statement": "mama accepts the output of another indicator as input, like every other moving average.", "quantifier": "all inputs with a warm-up", "why_tests_cant": "Depends on the warm-up of the input.", "anchors": ["btalib/indicators/mama.py", "btalib/meta/lines.py:multifunc_op"]}
{"id": "C86", "title": "mama stays within the price range", "statement": "Delivered values of mama and fama lie between the lowest and the highest price seen so far.", "quantifier": "all price histories and limits with 0 <= slow <= fast <= 1", "why_tests_cant": "Concerns all histories; the effect of the start value only fades.", "anchors": ["btalib/indicators/mama.py"]}
{"id": "C87", "title": "All ways to an output agree", "statement": "For a finished indicator ind, ind[k], ind[k-n], ind['name'], ind.o.name, the k-th element when iterating and the k-th key all refer to the same line, the one assigned last to that output, in the declared order; positions outside the range raise IndexError, unknown names ValueError, slices TypeError.", "quantifier": "all indicator classes, including renamed outputs and repeated assignments in the indicator's code", "why_tests_cant": "Ranges over all class declarations and all sequences of assignments.", "anchors": ["btalib/meta/lines.py:Lines", "btalib/meta/linesholder.py:LinesHolder", "btalib/indicator.py:MetaIndicator.__call__"]}
{"id": "C88", "title": "Outputs are attributes of the indicator", "statement": "ind.name is the output called name; any other name gives the operation of the first output, or AttributeError.", "quantifier": "all indicator classes; for the package, all indicators and outputs", "why_tests_cant": "Depends on which of several name spaces defines the name, for all names.", "anchors": ["btalib/meta/linesholder.py:LinesHolder.__getattr__", "btalib/meta/linesops.py", "btalib/indicator.py:MetaIndicator.__call__"]}
{"id": "C89", "title": "The data frame shows the outputs", "statement": "ind.df has exactly the outputs as columns, named and ordered as declared, each with the values of the output.", "quantifier": "all indicator classes and assignments", "why_tests_cant": "Ranges over all class declarations and assignments.", "anchors": ["btalib/meta/linesholder.py:LinesHolder.df", "btalib/meta/linesholder.py:SeriesFetcher"]}
{"id": "C90", "title": "Every output must be given a value", "statement": "Building an indicator whose code leaves an output unassigned (for instance by misspelling it) raises AttributeError; the misspelt name never becomes an output, item or column; a class without outputs cannot be built.", "quantifier": "all indicator classes and all sequences of assignments", "why_tests_cant": "Ranges over all user-written indicators.", "anchors": ["btalib/meta/lines.py:Lines._update_minperiod", "btalib/indicator.py:MetaIndicator.__call__"]}
{"id": "C91", "title": "The minimum period of an indicator covers all its outputs", "statement": "ind._minperiod is the largest of the minimum periods of the outputs and ind._minperiods lists them in order.", "quantifier": "all indicator classes and assignments", "why_tests_cant": "Ranges over all class declarations and assignments.", "anchors": ["btalib/meta/lines.py:Lines._update_minperiod", "btalib/indicator.py:MetaIndicator.__call__"]}
{"id": "C92", "title": "Short names of the inputs inside and after construction", "statement": "In the indicator's code input k is self.ik, self.inputk, self.dk and self.datak; afterwards only ik and inputk (and the strings i_k, input_k) remain, besides what the code itself has set, and removing one of the temporary names makes the construction fail with AttributeError.", "quantifier": "all numbers of inputs, all attribute actions of the indicator's code", "why_tests_cant": "Ranges over all numbers of inputs and all bodies.", "anchors": ["btalib/indicator.py:MetaIndicator.__call__"]}
{"id": "C93", "title": "Membership test for outputs", "statement": "name in ind is true exactly for the outputs.", "quantifier": "all indicator classes and all names", "why_tests_cant": "Ranges over all names.", "anchors": ["btalib/meta/linesholder.py:LinesHolder.__contains__", "btalib/meta/lines.py:Lines"]}
{"id": "C94", "title": "The caller's data is never modified", "statement": "Computing any indicator of the library, any number of times, on Series or on outputs of other indicators, and reading the results, in any order and also when a call raises, leaves the values and the names of the caller's Series and the lines made before unchanged.", "quantifier": "all sequences of calls and readings, all data, every numerical content of the bodies", "why_tests_cant": "Ranges over all histories of calls and over what is shared between objects; a test sees one call.", "anchors": ["btalib/meta/lines.py:Line._apply", "btalib/meta/lines.py:Line._period", "btalib/meta/lines.py:Line.series", "btalib/indicators"]}
{"id": "C95", "title": "Results do not change after they were computed", "statement": "An output of an indicator keeps its values, minimum period and name whatever is computed from it or read later; reading it again gives an equal Series, and a Series that was read keeps its name and values; a call that does not raise has every declared output under its name.", "quantifier": "all sequences of calls and readings", "why_tests_cant": "Ranges over all histories.", "anchors": ["btalib/meta/lines.py:Line", "btalib/meta/lines.py:Line._period", "btalib/meta/linesholder.py:SeriesFetcher"]}
{"id": "C96", "title": "In-place changes inside an indicator have no side effects on its other lines", "statement": "The bodies change lines in place and let functions write into buffers, yet every output is what the same steps give when carried out on independent values, with the same exceptions.", "quantifier": "all bodies of the library, all inputs (also the same object passed for several inputs)", "why_tests_cant": "Ranges over all inputs and all ways in which they share storage.", "anchors": ["btalib/meta/lines.py:Line._apply", "btalib/meta/lines.py:Line._applymulti", "btalib/meta/lines.py:Line._period", "btalib/indicators/obv.py", "btalib/indicators/mavp.py", "btalib/indicators/mama.py"]}
{"id": "C97", "title": "Reductions see exactly the delivered bars", "statement": "line.sum(), mean(), max(), min(), count(), all(), any(), dot(other), equals(other) give the value of that function over the bars from the minimum period on (of both lines, for two), whatever the line holds before.", "quantifier": "all lines, all values, all minimum periods", "why_tests_cant": "Ranges over all series and over what the undelivered bars hold.", "anchors": ["btalib/meta/lines.py:reduction_op", "btalib/meta/lines.py:Line.mpseries", "btalib/meta/linesops.py:_REDOPS"]}
{"id": "C98", "title": "Methods that change the number of bars", "statement": "head, tail, dropna, drop_duplicates, append, nlargest, nsmallest of a line give the selected bars.", "quantifier": "all lines and all arguments", "why_tests_cant": "Ranges over all series, including the one for which nothing is dropped, which is what tests tend to use.", "anchors": ["btalib/meta/lines.py:standard_op", "btalib/meta/linesops.py:_STDOPS"]}
{"id": "C99", "title": "Expanding windows", "statement": "line.expanding(min_periods=m).f() delivers, from the minimum period plus m-1 on, f of all bars since the operand's first delivered one.", "quantifier": "all lines, all m, all functions f, keyword, positional and default argument", "why_tests_cant": "Ranges over all series, m and ways to give the argument.", "anchors": ["btalib/meta/lines.py:multifunc_op"]}
{"id": "C100", "title": "Seeding methods change exactly the named bars", "statement": "_setval(i0, i1, val) changes the i1 bars starting i0 after the first delivered one (or all up to i1 from the end when negative); _period(p, val=v) moves the minimum period by p and changes exactly the bars it moved over; all other bars keep their values.", "quantifier": "all lines, offsets, counts and values", "why_tests_cant": "Ranges over all lines and offsets.", "anchors": ["btalib/meta/lines.py:Line._setval", "btalib/meta/lines.py:Line._period"]}
{"id": "C101", "title": "Slicing a line", "statement": "line[i:j] is the line restricted to bars i to j: reducing it gives the function of these bars.", "quantifier": "all lines and all bounds", "why_tests_cant": "Ranges over all lines and all bounds.", "anchors": ["btalib/meta/lines.py:Line.__getitem__"]}
{"id": "C102", "title": "Histories shorter than the minimum period", "statement": "With fewer bars than the minimum period an expression of operators and windows gives a line of NaN only; it never fails for lack of data.", "quantifier": "all expressions, all numbers of bars", "why_tests_cant": "Ranges over all expressions and all lengths.", "anchors": ["btalib/meta/lines.py:standard_op", "btalib/meta/lines.py:binary_op", "btalib/meta/lines.py:multifunc_op"]}
{"id": "C103", "title": "No indicator repaints, alone or chained", "statement": "Appending bars to the inputs never changes a value (or NaN) an indicator has delivered for an earlier bar, nor its minimum period; this holds for every indicator of the library with every moving average it can be given, and for every chain in which indicators are calculated on outputs of others.", "quantifier": "all programs of indicator calls of any length, all parameters with periods of at least 1, all moving averages passed as _ma (nested without bound), all histories and all extensions", "why_tests_cant": "The tests run each indicator once with default parameters on one history; a dependency on the length of the history shows only when two histories are compared.", "anchors": ["btalib/meta/lines.py:multifunc_op", "btalib/indicators/sma.py:sma", "btalib/indicators/macd.py:macd", "btalib/indicators/directionalmove.py:smacc", "btalib/indicators/kama.py:kama", "btalib/indicators/sar.py:sar"]}
{"id": "C104", "title": "The minimum period of every indicator is a function of its parameters", "statement": "The minimum periods of the outputs of every indicator, and of every chain of indicators, are given by a fixed table from the parameters and the minimum periods of the inputs, never by the data; every output has as many bars as the inputs.", "quantifier": "all programs of indicator calls, all parameters, all data", "why_tests_cant": "The tests pin one entry per indicator.", "anchors": ["btalib/meta/lines.py:multifunc_op", "btalib/meta/lines.py:standard_op", "btalib/meta/lines.py:binary_op", "btalib/meta/lines.py:Line._period"]}
{"id": "C105", "title": "No indicator delivers before its minimum period", "statement": "Every output of every indicator, also of chains, is NaN on all bars before its minimum period.", "quantifier": "all programs of indicator calls, all parameters, all data, inputs with any content before their own minimum period", "why_tests_cant": "Tests compare values from the minimum period on.", "anchors": ["btalib/meta/lines.py:multifunc_op", "btalib/meta/lines.py:standard_op", "btalib/indicators/ewma.py:ewma"]}
{"id": "C106", "title": "Structure theorems hold in float64", "statement": "With float64 numbers, every operation rounded, chains of indicators still never repaint, have minimum periods given by the table and are NaN before them.", "quantifier": "all programs of indicator calls, all float64 inputs including NaN, infinities and subnormals, any rounding-dependent branches", "why_tests_cant": "Ranges over all programs and all doubles.", "anchors": ["btalib/meta/lines.py:multifunc_op", "btalib/meta/lines.py:standard_op", "btalib/meta/lines.py:binary_op"]}
{"id": "C107", "title": "Relative strength in float64 stays between 0 and 100", "statement": "In float64, the rsi of any input with any of the non-adaptive averages, and the mfi of non-negative prices and volumes, is NaN or within 0 and 100; the stochastic rsi is NaN or within 0 and its scale.", "quantifier": "all float64 series including NaN, infinities and subnormals, all periods, all averages that keep non-negative values non-negative", "why_tests_cant": "Rounding at the ends of a range shows for particular last bits only; there are 2^64 values per bar.", "anchors": ["btalib/indicators/rsi.py:rsi", "btalib/indicators/mfi.py:mfi", "btalib/indicators/stochrsi.py:stochrsi"]}
{"id": "C108", "title": "Stochastic and Williams' %R in float64 stay in their range", "statement": "For bars with low <= close <= high, the float64 stochastic %K is within 0 and 100 and Williams' %R within -100 and 0, NaN exactly when all prices of the window are equal.", "quantifier": "all float64 prices below 2^999 in size, all periods", "why_tests_cant": "The excursion by one unit in the last place needs particular last bits.", "anchors": ["btalib/indicators/stochastic.py:stochf", "btalib/indicators/williamsr.py:williamsr"]}
{"id": "C109", "title": "Aroon and balance of power in float64 stay in their range", "statement": "In float64, aroon up and down are NaN or within 0 and 100, the aroon oscillator within -100 and 100, and the balance of power of consistent bars within -1 and 1.", "quantifier": "all float64 series, all periods up to 2^46; for bop all prices below 2^999 in size with open and close between low and high", "why_tests_cant": "Ranges over all doubles.", "anchors": ["btalib/indicators/aroon.py:aroon", "btalib/indicators/aroon.py:aroonosc", "btalib/indicators/bop.py:bop"]}
{"id": "C110", "title": "Averages of the prices of a bar lie between its low and high in float64", "statement": "The float64 medprice, wclprice and typprice of a bar lie between its low and its high, midprice between the lowest low and highest high of its window, and the mean of equal prices is that price.", "quantifier": "all float64 prices below 2^999 in size with low <= close <= high", "why_tests_cant": "A mean that exceeds all its operands shows for particular last bits only.", "anchors": ["btalib/indicators/price.py:medprice", "btalib/indicators/price.py:wclprice", "btalib/indicators/price.py:typprice", "btalib/indicators/midpoint.py:midprice", "btalib/indicators/sma.py:sma"]}
{"id": "C111", "title": "Rounding never changes an extreme or a crossing", "statement": "Computed in float64, max, min, maxindex, minindex, truelow, crossup and crossdown give exactly the result of exact arithmetic on the same inputs; a crossing is neither invented nor lost by rounding.", "quantifier": "all float64 lines including NaN, infinities, subnormals and zeros of either sign", "why_tests_cant": "Ranges over all pairs of doubles, also those whose difference is subnormal.", "anchors": ["btalib/indicators/mathop.py:max", "btalib/indicators/mathop.py:maxindex", "btalib/indicators/crossover.py:crossup", "btalib/indicators/atr.py:truelow"]}
{"id": "C112", "title": "Ranges and variances are never negative in float64", "statement": "In float64, truerange and atr (any average that keeps non-negative values non-negative) are never negative, whatever the inputs; natr for positive closes; var for any input.", "quantifier": "all float64 lines including NaN, infinities and inconsistent bars", "why_tests_cant": "Ranges over all doubles.", "anchors": ["btalib/indicators/atr.py:truerange", "btalib/indicators/atr.py:atr", "btalib/indicators/atr.py:natr", "btalib/indicators/var.py:var"]}
{"id": "C113", "title": "Rolling sums and means depend on their window only", "statement": "The value of sum, sma and mfi at a bar is determined by the values in its window: two inputs that agree on the window give the same value, whatever came before.", "quantifier": "all periods, all inputs and all earlier histories, in exact arithmetic and in float64 with the running totals pandas keeps", "why_tests_cant": "A residue needs an earlier value of a particular size and may be arbitrarily far back.", "anchors": ["btalib/indicators/sma.py:sma", "btalib/indicators/mathop.py:sum", "btalib/indicators/mfi.py:mfi", "btalib/meta/lines.py:multifunc_op"]}
{"id": "C114", "title": "Rounding errors of exponential averages do not accumulate", "statement": "In float64 the values of ema, smma and ewma differ from the exact average of the same inputs by at most a multiple of the period, of 2^-53 and of the largest input, however many bars came before.", "quantifier": "all float64 inputs between 2^-1000 and 2^900 in size, all periods up to 2^46, all lengths of history", "why_tests_cant": "An error that grows with the history shows only after very many bars.", "anchors": ["btalib/indicators/ema.py:ema", "btalib/indicators/smma.py:smma", "btalib/indicators/ewma.py:ewma", "btalib/meta/lines.py:multifunc_op"]}
{"id": "C115", "title": "Exponential averages of equal prices are that price in float64", "statement": "If all prices are equal, ewma and ema give exactly that price at every bar.", "quantifier": "all finite float64 prices, all periods, all lengths of history", "why_tests_cant": "Depends on the last bits of the price and of the period.", "anchors": ["btalib/indicators/ema.py:ema", "btalib/indicators/ewma.py:ewma"]}
{"id": "C116", "title": "Operations between indicators", "statement": "An operation between an indicator and another indicator, a line or a number works bar by bar on the first output of each indicator and starts when both operands have values; exchanging the operands of a commutative operation gives the same result.", "quantifier": "all indicators with any outputs and minimum periods, all lines and numbers, all arithmetic operations and comparisons, both orders", "why_tests_cant": "Depends on the minimum periods of outputs that do not take part; tests compare one order of a few indicators.", "anchors": ["btalib/meta/linesholder.py:binary_op", "btalib/meta/lines.py:binary_op", "btalib/indicator.py:MetaIndicator"]}
{"id": "C117", "title": "Results are released", "statement": "When the caller drops an indicator result and the Series it was computed from, nothing keeps the values of its inputs and outputs in memory; a program that computes indicators again and again does not grow.", "quantifier": "all histories of calls, readings and drops, also of calls that fail", "why_tests_cant": "A leak shows only in long-running programs.", "anchors": ["btalib/meta/lines.py:MetaLine", "btalib/meta/metadata.py:metadata", "btalib/indicator.py:MetaIndicator"]}
{"id": "C118", "title": "Looking at inputs", "statement": "Reading the inputs, the outputs or the data frame of an indicator changes neither the values nor the names of any Series the caller passed or was handed before.", "quantifier": "all histories of calls and readings over any set of shared Series", "why_tests_cant": "Depends on which objects are shared after any sequence of calls.", "anchors": ["btalib/meta/lines.py:Line", "btalib/meta/linesholder.py:SeriesFetcher", "btalib/meta/inputs.py:Inputs"]}
{"id": "C119", "title": "Conditions on lines", "statement": "Python constructs that need a single truth value or an order (if, chained comparisons, and/or/not, max, min, searching a list) are refused on lines and indicators, as pandas refuses them, or respect the values; sums and operators work bar by bar, and what works for a line works for an indicator.", "quantifier": "all lines and indicators of any length, all six comparisons, all lists of operands", "why_tests_cant": "Wrong branches are taken silently whatever the values; no test can enumerate conditions of user programs.", "anchors": ["btalib/meta/linesops.py:_BINOPS", "btalib/meta/lines.py:Line", "btalib/meta/linesholder.py:LinesHolder"]}
{"id": "C120", "title": "Help texts", "statement": "The help text of an indicator class lists exactly its inputs, outputs and parameters with the defaults that calls use, names under which the class is available, and the description of every described parameter.", "quantifier": "all hierarchies of class statements with any declarations, and all classes of the package", "why_tests_cant": "Ranges over arbitrary class hierarchies; nobody reads 117 generated texts.", "anchors": ["btalib/meta/docs.py:_generate", "btalib/meta/params.py:_generate", "btalib/meta/aliases.py:_generate"]}
{"id": "C121", "title": "Change of unit", "statement": "Prices in another unit (cents instead of dollars) and volume in another unit give the same results, each in its own unit: averages, bands, ranges, differences and stops are multiplied like the prices, volume accumulations like the volume, and oscillators, ratios, positions, crossings and flags do not change; calls fail in one unit exactly if they fail in the other. Only linearreg_angle, mathematical functions of prices and sarext with a start value depend on the unit.", "quantifier": "all positive factors, all data with missing and infinite values, all indicators and parameters, all chains of indicators; exact arithmetic", "why_tests_cant": "Hidden absolute thresholds show only for data of another magnitude.", "anchors": ["btalib/indicators/rsi.py:rsi", "btalib/indicators/macd.py:macd", "btalib/indicators/sar.py:sar", "btalib/indicators/linreg.py:linearreg_angle", "btalib/indicators/ht_dcphase.py:ht_dcphase", "btalib/indicators/mfi.py:mfi"]}
{"id": "C122", "title": "Cycle measurement in double precision", "statement": "In float64 the dominant cycle measured by the Hilbert transform indicators is missing or between 0 and 50 bars, the number of past bars used is its rounded value, looking them up never leaves the data, the trend mode is 0 or 1, and the only exception is a ValueError when the measure is missing.", "quantifier": "all data (missing and infinite values, any magnitude), all lengths, any accuracy of the trigonometric functions", "why_tests_cant": "Rounding could push the cycle over its limit for particular data only.", "anchors": ["btalib/indicators/ht_dcperiod.py:ht_dcperiod", "btalib/indicators/ht_dcphase.py:ht_dcphase", "btalib/indicators/ht_sine.py:ht_sine", "btalib/indicators/ht_trendline.py:ht_trendline", "btalib/indicators/ht_trendmode.py:ht_trendmode"]}
{"id": "C123", "title": "Dropped history", "statement": "Leaving out the oldest rows of the data changes nothing from the bar on where the shorter computation starts to deliver, for every indicator that looks at a fixed number of bars and every chain of such indicators: the same values, the same minimum periods, or the same exception. correl and returns need the second input, or the first kept value, to be ready.", "quantifier": "all data with missing and infinite values, all numbers of dropped rows, all chains of windowed indicators with any parameters, in exact and in floating point arithmetic (with rolling windows computed afresh)", "why_tests_cant": "Ranges over all histories and all cuts; an indicator that looks one bar too far shows only at the cut.", "anchors": ["btalib/indicators/sma.py:sma", "btalib/indicators/rsi.py:rsi", "btalib/indicators/bbands.py:bbands", "btalib/indicators/correl.py:correl", "btalib/indicators/beta.py:beta", "btalib/meta/lines.py:Line"]}
{"id": "C124", "title": "Fading of old history", "statement": "What an exponential average over a longer history differs by from one over a shorter history shrinks with every bar by the factor of the average (1-2/(p+1) for ema, 1-1/p for smma and atr), so for every tolerance a number of bars suffices, also for dema, tema, t3 and macd; obv and ad differ forever by what the dropped bars contributed.", "quantifier": "all price histories in any range, all numbers of dropped bars, all periods; exact arithmetic", "why_tests_cant": "A bound for every history and every cut; tests compare a few literals.", "anchors": ["btalib/indicators/ema.py:ema", "btalib/indicators/smma.py:smma", "btalib/indicators/dema.py:dema", "btalib/indicators/tema.py:tema", "btalib/indicators/t3.py:t3", "btalib/indicators/macd.py:macd", "btalib/indicators/atr.py:atr", "btalib/indicators/obv.py:obv", "btalib/indicators/ad.py:ad"]}
{"id": "C125", "title": "Lines with different dates", "statement": "An operator between two lines whose data have different dates pairs the values of the same date and leaves missing what has no partner, in either order of the operands, and never shows a value under another date.", "quantifier": "all pairs of lines over data with any dates, all operators and comparisons, all minimum periods", "why_tests_cant": "Depends on how two sets of dates overlap and on their order; tests use one frame for all inputs.", "anchors": ["btalib/meta/lines.py:binary_op", "btalib/meta/lines.py:Line"]}
{"id": "C126", "title": "A fall is read as a rise of the same size", "statement": "On the mirrored prices (every price t minus the original, highs and lows exchanged) each indicator gives the mirror image of its results: oscillators between 0 and 100 show 100 minus the original value, those around zero change their sign, averages and bands are mirrored, measures of range and spread stay, the plus and minus versions of directional movement, aroon, maximum and minimum exchange their roles; the same for whole programs. The parabolic stop and reverse does so if its first move is definite.", "quantifier": "all prices with missing and infinite values, all levels of reflection, all programs of catalogue indicators with all parameters (periods and lookbacks of at least 1)", "why_tests_cant": "A swapped argument or a one-sided comparison shows only on data where rises and falls differ; tests contain one price history.", "anchors": ["btalib/indicators/rsi.py:rsi", "btalib/indicators/directionalmove.py:plus_di", "btalib/indicators/directionalmove.py:minus_di", "btalib/indicators/aroon.py:aroon", "btalib/indicators/stochastic.py:stochastic", "btalib/indicators/ultimateoscillator.py:ultosc", "btalib/indicators/sar.py:sar", "btalib/indicators/obv.py:obv"]}
{"id": "C127", "title": "Prices higher by a constant", "statement": "If all prices are raised by the same amount, averages, extremes, bands and the parabolic stop and reverse are raised by it, and everything built on price differences and ranges (rsi, stochastic, macd, directional movement, true range, correlation, accumulation/distribution and others) does not change at all, also through whole programs; relative changes, the money flow index and sarext do change.", "quantifier": "all prices with missing and infinite values, all amounts, all programs of catalogue indicators with all parameters", "why_tests_cant": "Ranges over all histories and amounts; a level that enters a difference by mistake is invisible at the fixed level of the test data.", "anchors": ["btalib/indicators/sma.py:sma", "btalib/indicators/macd.py:macd", "btalib/indicators/bbands.py:bbands", "btalib/indicators/atr.py:atr", "btalib/indicators/sar.py:sar", "btalib/indicators/correl.py:correl", "btalib/indicators/ad.py:ad", "btalib/indicators/mfi.py:mfi"]}
{"id": "C128", "title": "Small differences stay small", "statement": "If no price differs by more than e, no value of an average differs by more than a stated multiple of e (1 for the plain and exponential averages, extremes and midpoints, 3 for dema, 7 for tema, 2 for momentum, standard and mean deviation), macd, bands, typical prices, true range and atr by stated amounts, also through whole programs, and missing values and exceptions appear at the same places; with prices nowhere lower no average with positive weights is anywhere lower.", "quantifier": "all pairs of price histories with missing and infinite values, all sizes of the difference, all periods and factors, all programs of the covered indicators; exact arithmetic", "why_tests_cant": "Compares two runs for every pair of histories; a test checks one history against one literal.", "anchors": ["btalib/indicators/sma.py:sma", "btalib/indicators/ema.py:ema", "btalib/indicators/dema.py:dema", "btalib/indicators/tema.py:tema", "btalib/indicators/t3.py:t3", "btalib/indicators/macd.py:macd", "btalib/indicators/bbands.py:bbands", "btalib/indicators/atr.py:atr"]}
{"id": "C129", "title": "Numbered bars work like dated bars", "statement": "An indicator gives the same values for the same prices whether the bars are labelled with dates or numbered (the default index of pandas), and line[i] = v replaces the value of bar i, counted from the end if negative, and nothing else.", "quantifier": "all prices, all indexes of dates or integers, all periods, offsets and seeds of exponential smoothings, all positions", "why_tests_cant": "The project tests only use data read with dates; the meaning of an integer in brackets depends on the index, for every history.", "anchors": ["btalib/meta/lines.py:Line", "btalib/indicators/ema.py:ema", "btalib/indicators/smma.py:smma", "btalib/indicators/macd.py:macd", "btalib/indicators/rsi.py:rsi", "btalib/indicators/atr.py:atr"]}
{"id": "C130", "title": "Known equations between indicators hold", "statement": "Indicators that are related by a textbook equation satisfy it as whole lines: the regression value is 3 wma - 2 sma, the variance is the average of the squares less the squared average, averages of averages do not depend on the order, the highest of the highest is the highest over both windows, changes over consecutive spans add up and ratios multiply, period 1 changes nothing, Wilder smoothing is exponential smoothing with period 2p - 1 up to its start, t3 with factor 0 is a triple ema, the two betas multiply to the squared correlation, ppo is apo in percent of the slow average.", "quantifier": "all histories of numbers, all periods; exact arithmetic", "why_tests_cant": "Relates different indicators for every history; tests compare each indicator with its own literals.", "anchors": ["btalib/indicators/linreg.py:linearreg", "btalib/indicators/wma.py:wma", "btalib/indicators/sma.py:sma", "btalib/indicators/mom.py:mom", "btalib/indicators/smma.py:smma", "btalib/indicators/t3.py:t3", "btalib/indicators/beta.py:beta", "btalib/indicators/correl.py:correl", "btalib/indicators/ppo.py:ppo"]}
{"id": "C131", "title": "The period and bar helpers address the delivered bars", "statement": "The exported helpers agree with each other: _INCPERIOD and _DECPERIOD undo each other and change no value, _MPSERIES are the bars from the minimum period on and its k-th value stands at _MINIDX(x, k), and _MPSETVAL(x, k, v) writes exactly the k-th delivered bar and raises past the end. The seed constants select different seeds and no other number is accepted.", "quantifier": "every line, minimum period, amount, position, value, index of dates or of numbers, and every seed number", "why_tests_cant": "The helpers write into shared lines at computed positions; whether a position is a bar or a label depends on the index, and whether it counts from the end on the minimum period. Tests do not call them.", "anchors": ["btalib/utils.py:_INCPERIOD", "btalib/utils.py:_DECPERIOD", "btalib/utils.py:_MINIDX", "btalib/utils.py:_MPSERIES", "btalib/utils.py:_MPSETVAL", "btalib/utils.py:SEED_AVG", "btalib/meta/lines.py:multifunc_op"]}
{"id": "C132", "title": "A function applied to lines gets only complete bars", "statement": "line._apply(func, ...) calls func with the bars of the line and of every line, indicator or Series among the positional and keyword arguments from the first bar on at which all of them are complete, and with every other argument unchanged; what it returns is shown from that bar on and nothing before. An exception of func reaches the caller; a result of another length, and data that end before that bar, are a ValueError. _applymulti does the same for each of several results.", "quantifier": "every function, every line, all positional and keyword arguments of any kind, all minimum periods and histories", "why_tests_cant": "The first common bar depends on the minimum periods of all arguments together, and for an indicator on its latest output; tests apply it only inside a few indicators with one argument.", "anchors": ["btalib/meta/lines.py:_apply", "btalib/meta/lines.py:_applymulti", "btalib/meta/lines.py:_minperiodize"]}
{"id": "C133", "title": "Lines as arguments of methods", "statement": "A method of a line which takes further arguments (clip, where, mask, between, combine, isin, fillna, corr, dot and the others of pandas) reads every line, indicator or Series among them, passed by position or by keyword, from the first bar on at which all are complete; its result starts at that bar, and every other argument arrives unchanged.", "quantifier": "every such method, any function in the place of the method of pandas, all positional and keyword arguments, all minimum periods and histories", "why_tests_cant": "Which arguments are read depends on two flags per method and on the way of passing; tests use one spelling of clip and mask each.", "anchors": ["btalib/meta/lines.py:standard_op", "btalib/meta/lines.py:reduction_op", "btalib/meta/lines.py:_minperiodize", "btalib/meta/linesops.py:_STDOPS", "btalib/meta/linesops.py:_REDOPS"]}
{"id": "C134", "title": "The directional indicators and cmo stay in range in double precision", "statement": "For bars whose close lies between low and high, in double precision +DI, -DI and DX are missing or between 0 and 100, ADX is never negative, and cmo is missing or between -100 and 100.", "quantifier": "all histories of doubles of size at most 2^899, all periods up to 2^40, every lookback, with and without the early start", "why_tests_cant": "Two running accumulations are rounded at every bar for the whole history; that one never overtakes the other is an invariant of the rounding and not visible in a test with tolerances.", "anchors": ["btalib/indicators/directionalmove.py:plus_di", "btalib/indicators/directionalmove.py:minus_di", "btalib/indicators/directionalmove.py:dx", "btalib/indicators/directionalmove.py:adx", "btalib/indicators/cmo.py:cmo", "btalib/meta/lines.py:_lfilter"]}
{"id": "C135", "title": "Bollinger bands keep their order and close on flat prices in double precision", "statement": "In double precision, whatever the prices, the lower band is at most the middle and the middle at most the upper band wherever they are shown; the bands are as wide as the deviation of the window says, so on a window of equal prices they meet in the middle and prices that left the window have no effect. With exact arithmetic the variances that are carried from bar to bar are the variances of the windows.", "quantifier": "all histories of doubles including NaN and infinities, all periods, every average as middle, every factor that is not negative", "why_tests_cant": "The variance is carried from bar to bar and rounded, so an old price can stay in it for ever; tests compare a short history up to a tolerance.", "anchors": ["btalib/indicators/bbands.py:bbands", "btalib/indicators/stddev.py:stddev", "btalib/indicators/var.py:var", "btalib/meta/linesops.py:_MULTIFUNCOPS"]}
{"id": "C136", "title": "Correlation and beta of a series with itself are 1 in double precision", "statement": "In double precision beta of a series against itself is 1 or missing, and so is correlation; correlation stays between -1 and 1 and does not depend on which series comes first. With exact arithmetic the means, variances and totals that are carried from bar to bar give the same correlation and beta as the windows.", "quantifier": "all histories of doubles including NaN and infinities, all periods, with and without returns, every lookback that is not negative", "why_tests_cant": "The means and variances are carried from bar to bar and rounded, and the correlation divides what is left of them; tests compare a short history up to a tolerance.", "anchors": ["btalib/indicators/correl.py:correl", "btalib/indicators/beta.py:beta", "btalib/meta/linesops.py:_MULTIFUNCOPS"]}
{"id": "C137", "title": "The ultimate oscillator stays between 0 and 100 in double precision", "statement": "For bars whose close lies between low and high the ultimate oscillator is, in double precision, missing or between 0 and 100. With exact arithmetic running totals give the same values as sums of the windows.", "quantifier": "all histories of doubles of size at most 2^899, all periods up to 2^40, all factors whose weights are not negative", "why_tests_cant": "Six sums, three quotients, the weights and their total are rounded; whether the result passes 100 depends on how all of these roundings go together, for every history.", "anchors": ["btalib/indicators/ultimateoscillator.py:ultimateoscillator", "btalib/indicators/atr.py:truelow", "btalib/indicators/atr.py:truerange", "btalib/meta/linesops.py:_MULTIFUNCOPS"]}
{"id": "C138", "title": "Prices that do not move show no movement in double precision", "statement": "If all prices are the same number, momentum and rates of change are exactly 0 (1 or 100 for the ratios), true range and its averages 0, and indicators that compare rises with falls or place a price in its range (rsi, cmo, stochastic, %R, balance of power, directional indicators) are missing at every bar; macd, cci and the slope of the regression line are 0 or missing as well.", "quantifier": "all finite doubles as price, all lengths, periods and lookbacks, all non-adaptive averages", "why_tests_cant": "Whether a difference of two rounded averages of one number is 0 depends on the number and the period; a test uses one moving history and compares with a tolerance.", "anchors": ["btalib/indicators/roc.py:roc", "btalib/indicators/rsi.py:rsi", "btalib/indicators/cmo.py:cmo", "btalib/indicators/atr.py:atr", "btalib/indicators/stochastic.py:stochastic", "btalib/indicators/williamsr.py:williamsr", "btalib/indicators/directionalmove.py:plus_di", "btalib/indicators/macd.py:macd", "btalib/indicators/cci.py:cci", "btalib/indicators/linreg.py:linearreg_slope"]}
{"id": "C139", "title": "Lines and indicators have the listed operations and nothing else", "statement": "Every operation of the four tables (binary, standard, reduction, multi-function) is a method (iloc and loc: a property) of lines, the binary ones also of indicators, each with the function made for it; installing works from any number of helper functions inside a class body, reaches only the innermost class and does nothing outside of one; no further public attribute appears.", "quantifier": "all tables, all stacks of active calls, all class bodies made of definitions and loops over tables", "why_tests_cant": "The mechanism looks at the frames of the running program; tests exercise it once, at import, and call a handful of the 134 operations.", "anchors": ["btalib/meta/linesops.py:install_cls", "btalib/meta/linesops.py:_BINOPS", "btalib/meta/linesops.py:_STDOPS", "btalib/meta/linesops.py:_REDOPS", "btalib/meta/linesops.py:_MULTIFUNCOPS", "btalib/meta/lines.py:Line", "btalib/meta/linesholder.py:LinesHolder"]}
{"id": "C140", "title": "Whole numbers are added up exactly in double precision", "statement": "If all values are multiples of one power of two (shares, quarters of a dollar) and their sizes together stay below 2^53 of these units, sums over a period are exact at every bar, means are the doubles nearest to the exact means, and the on balance volume is the exact total of the signed volumes, whatever the prices. Momentum and true range of prices in such a unit are exact as well, and the averages of the prices of a bar and the balance of power are the doubles nearest to the exact results. It makes no difference whether a total is carried from bar to bar or taken afresh.", "quantifier": "all histories of doubles that are multiples of 2^e, -1074 <= e <= 900, with a total size below 2^53 units; all periods and lookbacks; all finite prices", "why_tests_cant": "Carried totals are rounded at every bar and keep what was rounded off; that nothing is ever rounded off for whole numbers has to hold for all histories, while tests use a tolerance.", "anchors": ["btalib/indicators/sma.py:sma", "btalib/indicators/mathop.py:sum", "btalib/indicators/obv.py:obv", "btalib/indicators/mom.py:mom", "btalib/indicators/atr.py:truerange", "btalib/indicators/price.py:typprice", "btalib/indicators/bop.py:bop", "btalib/meta/linesops.py:_MULTIFUNCOPS"]}
{"id": "C141", "title": "Momentum and rates of change show the direction of the price in double precision", "statement": "Momentum is positive, zero or negative exactly when the price is above, at or below the earlier price. For positive prices the same holds for roc and rocp, and rocr and rocr100 are above, at or below 1 and 100, however close the two prices are and also when the quotient is too large for a double. In the same way apo, macd and ppo are positive, zero or negative exactly when the fast average is above, at or below the slow one.", "quantifier": "all histories of finite doubles (positive ones for the rates), all periods, all averages", "why_tests_cant": "A quotient of two neighbouring doubles is rounded to within half a step of 1; that it never lands on 1, and that this survives the subtraction and the factor 100, has to hold for every pair of doubles.", "anchors": ["btalib/indicators/mom.py:mom", "btalib/indicators/roc.py:roc", "btalib/indicators/roc.py:rocp", "btalib/indicators/roc.py:rocr", "btalib/indicators/roc.py:rocr100", "btalib/indicators/ppo.py:apo", "btalib/indicators/ppo.py:ppo", "btalib/indicators/macd.py:macd"]}
{"id": "C142", "title": "Strength indicators show in double precision which side prevails", "statement": "cmo is positive, zero or negative exactly when the total of the rises is above, at or below the total of the falls, as long as there was any change. rsi is above, at or below 50 exactly when the average rise is above, at or below the average fall.", "quantifier": "all averages and totals that are finite and not negative (up to 2^1000 for cmo), all periods and lookbacks, all histories", "why_tests_cant": "Crossing the middle line is a trading signal; each of the four rounded operations can move a value onto or across the middle, so the claim has to hold for every pair of doubles.", "anchors": ["btalib/indicators/rsi.py:rsi", "btalib/indicators/cmo.py:cmo"]}
{"id": "C143", "title": "The parabolic SAR stays outside its bar and inside the range of prices in double precision", "statement": "Every value of sar is a finite number between the lowest low and the highest high so far. It is below the low of its bar or above its high, except at a reversal, where it is exactly one of the highs or lows seen so far. Rounding in the acceleration never moves it to the wrong side. With the same factors and positive prices sarext shows the same numbers, with a minus sign where they are above the market.", "quantifier": "all histories of finite doubles up to 2^1000 in size with low <= high, all acceleration factors and limits from 0 to 1, all lengths from two bars", "why_tests_cant": "The stop is carried from bar to bar through three rounded operations; that no sequence of roundings moves it past a price is a statement about all histories.", "anchors": ["btalib/indicators/sar.py:sar", "btalib/indicators/sarext.py:sarext"]}
