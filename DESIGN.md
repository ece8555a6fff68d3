# Formal model of mementum/bta-lib in Rocq (Coq 8.16.1)

Source: `/repo` (read as text, never run). Model and proofs: `/verif/rocq/theories`.
Property list: `properties.jsonl`. Claim status: `MANIFEST.json`. Seeded-bug log: `seeded/LOG.jsonl`.

Contents: 1 trusted base, 2 how values are modelled, 3 what is modelled and what is not, 4 plan per property,
5 disagreements between code and documentation or expectation, 6 how theorems are organised and tested,
7 `Print Assumptions` per theorem.

## 1. Trusted base

* Coq's kernel (8.16.1), including `vm_compute` (used for the examples and for facts about the transcribed tables).
* The axioms printed by `Print Assumptions` under each property theorem; section 7 lists them. The structural
  theorems (framework, lines, warm-up, no repainting, shared objects) are closed under the global context. Theorems
  about real-valued formulas use the standard library's real numbers and list at most
  `ClassicalDedekindReals.sig_forall_dec`, `ClassicalDedekindReals.sig_not_dec`,
  `FunctionalExtensionality.functional_extensionality_dep` and `Classical_Prop.classic`.
  No other axiom, no `Admitted`, no functor, no module type, no kernel check switched off.
* The reading of the Python source: each definition cites the file and lines it models.
* The reading of pandas/numpy (not in `/repo`): the functions listed in section 3 are modelled after
  their documented behaviour (pandas 1.0, the version range of the project).

## 2. How values are modelled

* `Num V` is a record of the operations the code performs on numbers. All models of line operations
  and indicators are polymorphic in it. Theorems about length, warm-up, minimum period and
  repainting are proved for every `Num V`, hence also for IEEE doubles.
* `ext F` (NaN, +inf, -inf, `Fin x`) over the exact reals is the instance used for formulas and bounds;
  over exact rationals it is the instance used for executable examples. Simplifications: no rounding, a
  single zero (`x/0` is `sign(x)*inf`, `0/0` is NaN).
* `float` (`Float64.v`) is the instance with IEEE doubles: Flocq's binary64 with rounding to nearest, ties to even,
  signed zeros, infinities, subnormals and one NaN. Flocq is a library of definitions and proofs on top of the standard
  library's reals and brings no axiom of its own. Operations are carried out one after the other, left to right. In
  the definitions shared by all instances a rolling sum or mean adds up each window from its first bar; pandas 1.0 keeps
  running totals (it adds the new value and subtracts the one that leaves), which is the same in exact arithmetic and
  not in doubles. `Running.v` models these totals with sma, sum and mfi on top of them; C113 states the difference.
  `RunVar.v` models the carried variances (RunVarFacts.v: equal to those of the windows in exact arithmetic); C135 states
  the difference in float64, where the square root is the correctly rounded one. `RunCorr.v` has correlations and beta on
  top of both (C136). The transcendental functions are not
  modelled in float64.
* `line` = minimum period (`Z`, it can become <= 0 in the code) and list of values; boolean lines are a
  separate type. Exceptions are values (`res`).
* Series are addressed by position, except in `Indexed.v` (binary operators and comparisons between lines with
  different indexes) and `Labels.v` (exponential smoothing and item assignment on an index of integers). Otherwise
  index alignment of pandas, integer dtypes and the special meaning of integer indexes (`s[-1]` on a RangeIndex) are
  not modelled: all lines of one calculation share one non-integer index (DatetimeIndex, as in the project's tests), so lines of a calculation have equal length.
* In most files Python objects are values. What is shared between objects is the subject of `Mem.v` (Series and Line
  objects in a store) and of `Calls.v`, `LinesGen.v`, `Registry.v` (class slots, call stack, configuration,
  registry); C94 to C96 prove that the value view and the object view agree for all the bodies of the library.
* Short histories. When a result is stored (`result[minidx:] = r`) pandas raises ValueError if `r` does not have
  `n - minidx` values. `Line.v` leaves this check out; it can only fail when the operand has fewer than `minidx` bars,
  where the statements `delivers l n k f` (with `n <= k`) promise nothing but NaN. `Strict.v` models the check and
  C102 says exactly from how many bars on an expression does not fail. So theorems which say "all NaN" or name an
  exception for histories below the minimum period hold in the code up to a ValueError raised earlier.

## 3. What is modelled

| Code | Model | Remarks |
|---|---|---|
| pandas Series and numpy functions | `Series.v` | positional slices with negative bounds, shift, diff, pct_change (pad fill), rolling mean/sum/max/min/var/std/apply/corr (min_periods = window, infinities count as missing), expanding, ewm.mean (adjust true/false), mean/sum with skipna, cumsum, clip, mask/where, replace(ffill), fillna |
| `meta/lines.py` binary_op, standard_op, multifunc_op, Line, _period, _setval, _apply, _applymulti | `Line.v`, `Apply.v`, `ApplyAny.v` | |
| `meta/lines.py` reduction_op, length-changing methods, expanding, slices, `line(ago, val)` | `LineApi.v`, `Strict.v` | |
| expressions built from the operators | `Expr.v` | deep embedding, used for no-repaint, warm-up, short histories |
| `meta/lines.py` _generate, Lines; `meta/linesholder.py`; instance attributes of `indicator.py` | `LinesGen.v`, `Holder.v` | names as strings |
| Series and Line objects, sharing and in-place updates | `Mem.v`, `Bodies.v` | `Bodies.v` is a step-by-step transcription of every body of `indicators/*.py`: what each step reads, creates, overwrites |
| `meta/inputs.py` | `Inputs.v` | |
| `meta/params.py` | `Params.v` | |
| `indicator.py`, `config.py`, `meta/metadata.py` | `Calls.v` | state machines over histories of calls and exceptions |
| `meta/aliases.py`, `meta/groups.py`, registration | `Registry.v`, `Table.v` | `Table.v` is the table of classes, bases, aliases, groups, inputs, outputs and parameters of the package |
| `meta/docs.py`, parameters of the package | `Docs.v`, `ParamTable.v` | sections of the text, without layout |
| `meta/linesops.py`, bodies of Line and LinesHolder | `Install.v` | frames as namespaces |
| operations between indicators; Python's protocols on them | `Operand.v`, `Protocol.v` | |
| what stays in memory; looking at inputs | `Keep.v` | |
| `indicators/*.py` | `IndMA.v`, `IndBasic.v`, `IndStat.v`, `IndRange.v`, `IndOsc.v`, `IndVol.v`, `IndSar.v`, `IndMavp.v`, `IndHT.v`, `IndMama.v` | one definition per indicator; kama is in `IndMA.v` |
| methods of lines that take further arguments; `utils.py` | `MethodArgs.v`, `Utils.v` | |
| bars that are numbered, lines with different dates | `Labels.v`, `Indexed.v` | labels are integers |
| double precision; sums and variances carried by pandas 1.0 | `Float64.v`, `Running.v`, `RunVar.v`, `RunCorr.v`, `RunUlt.v` | |
| numbers, Series, exceptions, dictionaries | `Num.v`, `Series.v`, `Py.v` | |
| chains of indicators | `Catalog.v` | one data type of all indicators with their parameters and averages, and programs that chain them |

Every class of `indicators/*.py` is modelled.

Not modelled: rounding in transcendental functions (in square roots except in C135), index alignment (except in `Indexed.v`) and dtypes, pandas methods not used by the library other
than those of `LineApi.v`, `iloc`/`loc` objects beyond what C101 says, plotting and I/O.

Specifications, independent of the models: `Spec.v` (`feeds`, `delivers`), `RSpec.v` (sums, means, extremes, recursive
averages over the reals), `StatSpec.v`, `RangeSpec.v`, `OscSpec.v`, `VolSpec.v`, `SarSpec.v`, `KamaSpec.v`,
`MavpSpec.v`, `HTSpec.v`, `MamaSpec.v`, `BoundSpec.v`, `HolderSpec.v`, `MemSpec.v`, `LineApiSpec.v`, `CatalogSpec.v` (table of minimum periods), `FloatSpec.v`, `RunSpec.v`, `BandSpec64.v`,
`OperandSpec.v`, `KeepSpec.v`, `ProtocolSpec.v`, `DocsSpec.v`, `UnitSpec.v`, `LocalSpec.v`, `ForgetSpec.v`, `MoveSpec.v`, `BandSpec.v`, `ApplySpec.v`,
`MethodSpec.v`, `FlatSpec.v`, `WholeSpec.v`, `RocSpec.v`.

## 4. Plan per property

`feeds l n k f`: line `l` has `n` bars, minimum period `k+1` and value `f i` at every bar `k <= i < n`.
`delivers l n k f`: the same and NaN at every bar before `k`.
Each indicator gets one master theorem "feeds -> delivers" whose function `F f` is written independently of the model
and does not mention `n`; length, warm-up, minimum period, formula and absence of repainting follow.

"Refuted" means: the faithful model does not have the property as a user would state it. Then a theorem with the suffix
`_refuted` says so, by a counterexample for every parameter or by the exact value the code gives, and a further theorem
proves the strongest restriction that holds.

| Id | Model and proof |
|---|---|
| C01-C03 | operators on lines, `feeds -> delivers` for arbitrary `Num V`, arbitrary `op`/window function |
| C04-C05 | deep embedding of expressions over the causal operators; induction over expressions |
| C06 | model of the rolling object as state; refuted by a witness, exact growth law proved |
| C07 | positional arguments modelled as missing keyword; refuted, exact outcome proved |
| C08 | minimum period in `Z`; refuted by a witness |
| C09 | both filters as folds; induction, also on float64 (FilterFloat.v) |
| C10-C14, C71, C81 | column assignment as a fold over (used, available) columns; invariants; determined result |
| C15 | check compares bars; refuted, exact condition proved |
| C16-C19 | association lists; C18, C19 refuted with exact characterisation |
| C20-C21, C72 | generator on declarations; C21 refuted for two renamings, proved for one |
| C22 | chain of optional initialisers; order and multiplicity |
| C23-C28 | call machine over trees of calls/histories; C24, C26, C27, C28 refuted with exact characterisation |
| C29 | fold of `setdefault` over the chain |
| C30 | fold over setter operations |
| C31-C32, C73 | registry and alias tables; C31 refuted for the colliding names, exact list of collisions proved |
| C33-C38, C82, C83 | moving averages; C38 proved for sma/wma, refuted for ema/smma; ewma with and without adjustment |
| C39-C40 | kama; C40 refuted with the exact condition |
| C41-C42 | mavp; C42 refuted, proved in ta-lib mode |
| C43-C47, C68, C74 | statistics over windows; C47: proved which regression is computed, refuted as documented; C68 refuted: the results do not depend on those parameters |
| C48-C51, C65, C75 | oscillators: formulas and bounds |
| C52-C53 | true range; C53 refuted |
| C54-C56 | directional movement; C55 refuted; C56 refuted for warm-up one |
| C57-C59 | macd/ppo/roc; C58 refuted (sign) |
| C60-C61 | cross detection; C61 refuted |
| C62-C63 | SAR state machines, invariants over histories |
| C64 | volume accumulators |
| C66-C67 | window extremes; C67 refuted for warm-up > 1 |
| C69, C76-C80 | Hilbert-transform indicators: invariants of the recurrences, ranges, periods |
| C70 | pointwise formulas |
| C84-C86 | MESA adaptive average: limits of alpha, hull, short histories |
| C87-C93 | containers and result objects: attribute resolution over all names |
| C94-C96 | store of shared objects: analysis of read/write sets, simulation between stores and values, checked for each transcribed body |
| C97-C101 | methods of a line; C98 and C101 refuted, C99 and C100 refuted for one way to call |
| C102 | evaluation with the length check; refuted, exact number of bars proved |
| C103-C105 | data type of all indicators; for C103 a simulation between the calculations on both histories, for C104 and C105 an invariant of lines, by cases over the indicators and induction over averages and steps; C105 refuted for ewma |
| C106 | the same theorems with the number type instantiated by Flocq's binary64, whose NaN obeys the laws they ask for; for the indicators that index with the measured cycle (C106_all_partial) the turns of the loop are bounded in double precision: during the first 19 turns the cycle stays below a computed sequence of doubles (monotone rounding), later below 50, so no bar before the first is read |
| C107-C110, C112 | sign and order of correctly rounded operations (monotone rounding between two doubles), carried through lines by one closure lemma per operation; computed counterexamples |
| C111 | the map from doubles to exact numbers commutes with comparisons, hence with every operation that only compares; for crossings the sign of a rounded difference is the sign of the exact one |
| C113 | the loop over the bars as a fold with an invariant on the totals; in exact arithmetic the totals are those of the window, in float64 the invariant bounds the accumulated rounding error; a fixed point of the loop for the residue that stays for ever |
| C114 | error analysis of one step of the recursion (relative errors of the operations, Flocq), then a contraction: the error of a step shrinks by the factor of the average; with adjusted weights first the same for the running sum of the weights |
| C115 | equality shortcut of pandas' recursion as fixed point; computed fixed point for the refutation |
| C116 | operations of indicator objects: attribute look-up of the right operand, then the line operation |
| C117 | tables of the library as part of the world of C94; invariant over histories: a registered container stays; exact characterisation of what stays |
| C118 | simulation of C94 over histories with readings; the one step that renames |
| C119 | Python's rules for truth, conditions, max, min, sum, searches, special methods, applied to the classes; lemmas on the length of comparisons, induction over lists |
| C120 | class statements one after the other generating sections; for the package a table of all parameters, checked by computation |
| C121 | multiplication by a positive factor commutes with every operation on values and lines, with windows, recursions, the loops of sar and of the Hilbert transform (state in mixed units); rules for the unit of each output; induction over sessions |
| C122 | interval of the two smoothed periods as invariant of the loop: the products of the four decimal constants with 50, computed, and monotone rounding; then the look-ups |
| C123 | the relation "same values from the minimum period on, without the first k" is kept by every line operation that looks at a bounded number of bars; induction over expressions, averages, indicators and sessions |
| C124 | closed form of the difference of two recursions with the same factor; nearness of two inputs is kept by an average; linear combinations; sums split at the cut |
| C125 | Series as lists of (date, value); union of sorted labels and alignment of pandas; lemmas on union, look-up and slices |
| C126 | one affine map (plus or minus the value, plus a constant) commutes with every operation on values and lines; the exchange of high and low is carried by a boolean through all indicators; rules `mirror`, induction over pairs of programs |
| C127 | the same lemmas with the boolean false; rules `shifts`, induction over sessions |
| C128 | relational lemmas for lists, lines and windows (BandFacts.v), the value lemmas for intervals (BandFacts2.v; the standard deviation by Cauchy-Schwarz), averages by induction over the catalogue, then the rules `bands` and sessions (BandFacts3.v) |
| C129 | `ewm` with the index of the data (Labels.v): what `s[-1] = v` does on dates and on integers; lengths by the length of slices, then each indicator through its first average (LabelsFacts.v) |
| C130 | from the value theorems of C33 to C59 and uniqueness of the fitted line; lines that deliver the same values from the same bar on are equal (IdentFacts.v) |
| C131 | utils.py on top of Labels.v; positions and slices by computation on lists (Utils.v, UtilsFacts.v) |
| C132 | `_minperiodize`, `_apply`, `_applymulti` with exceptions (ApplyAny.v); what each kind of argument contributes is the relation `sees` of ApplySpec.v; induction over the arguments (ApplyFacts.v) |
| C133 | tables of linesops.py with their flags; standard_op and reduction_op on top of ApplyAny.v; the table is compared with the lists of MethodSpec.v by computation (MethodFacts.v) |
| C134 | rounding is monotone: the movement of a bar is at most its true range, sums and the recursion keep the order (invariant `under`, DirFloat.v), 100 a / b for a <= b is at most one step above 100; feeds that pass 100 by computation (DirFloat2.v, DirFloat3.v) |
| C135 | rounding is monotone, so adding what is not negative does not go down; the square root of what is not negative is not negative (BandsFloat.v); sliding-window invariant of the carried state (walk_slide), a state that is reproduced by every further bar (BandsFlat.v) |
| C136 | numerator and denominator of beta are the same expression, and a finite double divided by itself is exactly 1; multiplication of doubles commutes; states of means, products and variances that every further bar reproduces (CorrFloat.v); window by window in exact arithmetic (RunCorrFacts.v) |
| C137 | rounding is monotone: buying pressure at most true range bar by bar, hence for the sums, quotients at most 1, and the weighted total at most the total of the weights (UltFloat.v, on `under` of DirFloat.v) |
| C138 | values that are missing or 0 are closed under all operations of the averages (induction over the filter and the windows); x - x is +0 and x / x is 1 in IEEE arithmetic; the refutations use that a window of equal prices gives the same rounded mean at every bar and that the recursion of ema stays at it (FlatSpec.v, FlatFloat.v) |
| C139 | the stack of active calls as a list of namespaces; induction over the search and over the tables; the tables of the package by computation (Install.v, InstallFacts.v) |
| C140 | sums and differences of multiples of 2^e below 2^53 units are representable (Flocq: FLT format), so every rounding is the identity; induction over the history seen by the running total and over the cumulative sum (WholeSpec.v, WholeFloat.v, WholeFloat2.v, WholeFloat3.v) |
| C141 | two different doubles differ by more than 2^-53 of the smaller one (Flocq: succ, ulp), so their quotient lies beyond the midpoint between 1 and its neighbour and is rounded away from 1; differences keep their sign; a factor of 100 is monotone after rounding (RocSpec.v, RocFloat.v) |
| C142 | cmo: the difference keeps its sign and loses at most a quarter, two different doubles are at least 2^-53 of the smaller one apart, so the quotient is at least 2^-60 and does not vanish; the falling side by symmetry of rounding. rsi: every operation is monotone after rounding and 1, 2, 50 and 100 are doubles (SideFloat.v) |
| C143 | invariant of the loop: the stop is finite, between all lows and highs so far and on the other side of the extreme price; each of the three rounded operations is monotone, so a move towards the extreme price never goes backwards; the limits are comparisons and exact (SarFloat.v); sarext runs in lockstep, since adding the offset 0 to a positive number changes nothing (SarFloat2.v) |

## 5. Disagreements found

Behaviour of the code that differs from its documentation or from what a user would expect. The theorems that state it
are in parentheses; where there is none the fact is part of the model only.

Lines
1. A rolling object used twice increases the minimum period twice; `rolling(5)` (positional) does not increase it (C06, C07).
2. Positional `diff(1)`/`shift(1)` raises TypeError (C07); a negative shift gives a minimum period below 1 (C08).
3. `_setval()` with its default arguments changes nothing; `_period(0, val=v)` never sets a value (C100).
4. `line(0)` and `line()` are lines of NaN, so roc with period 0, truerange and the directional movements with
   `_period` 0 and the ta-lib adxr with period 1 are NaN throughout (C02, C59, C54).
5. `line[i]` is a Line that wraps a scalar; `line[a:b]` keeps the minimum period, so a reduction of the slice skips its
   first bars (C101). `line.loc[...]` uses positions.
6. head, tail, dropna, drop_duplicates, append raise ValueError unless they change nothing; nlargest and nsmallest put
   later values into earlier bars (C98). `Line.concat` always raises AttributeError.
7. `expanding(m)` (positional) does not move the minimum period (C99).
8. With fewer bars than the minimum period some indicators give NaN and others raise ValueError (C102) or IndexError
   (ema and smma: C38, rsi: C48, smacc: C56, kama: C40, mama: C84, sar: C62, C63).
9. Boolean lines hold True during the warm-up (C61, C97).
10. `.series` renames the shared Series object in place; C94 shows that no caller's data is concerned when outputs are
    read. Reading an input (`ind.i.close.series`) renames the caller's own Series, or the output of an earlier indicator
    (C118).

Framework
11. Two or more renamed lines: every old name refers to the last new name (C21).
12. The slots of the inputs class are cut permanently (`inpret.__slots__[:]`); stochrsi in ta-lib mode appends `d` to the
    slots of its class for ever (C27, C28).
13. The call stack is not popped when an exception is raised; the thread-local data exists only in the importing thread;
    the minimum periods kept per thread are not reset (C24, C26).
14. `LinesHolder._period` ignores its argument, so the non-ta-lib directional indicators have a minimum period one too
    large (C55).
15. `_from_arg_linesholder` compares the number of bars with the number of inputs (C15).
16. `i_0`/`input_0` hold strings (C92). `name in ind` is true for methods of the container (C93). Slices of an indicator raise
    TypeError (C87). `ind.add`, `ind.sub`, `ind.div` of the indicators add, sub, div are the arithmetic methods (C88).
17. A DataFrame column that a later input needs by name may be taken by position; a string remap is not lower-cased and
    raises TypeError with a single input, where `OHLC_FIRST` is ignored too (C12, C14).
18. Parameter docs and the required flag are lost and tuple defaults are corrupted on inheritance (C18, C19).
19. Alias collisions: WCLPrice names medprice, TR names truerange through two classes, SAR/psar name sarext (C31). Misspelt
    `groups =` leaves cmo, smacc and mom out of their group (C73). Old output names are lost two generations down (natr, C72).
20. `_talib` hooks run base first with `setdefault`-like precedence (C29).

Indicators
21. truehigh always raises AttributeError (C53); crossover always raises TypeError (C61).
22. kama and mama on an input with minimum period above 1 raise IndexError (C40, C85); mama starts from 0 (C86). kama: `period + 1` equal prices make
    every later value NaN (C39).
23. maxindex/minindex absolute positions are off by the warm-up of a chained input (C67).
24. Parameters without effect: `trima._ma`, `t3._ma`, `bbands._stdev`, `cci._dev`, `mad._ma`, `correl._rets`,
    `correl._prets`, `wma.coef` (C68).
25. beta regresses the market on the asset (C47). linearreg_intercept outside ta-lib mode is `b - m` (C45).
26. ema with `poffset` under-reports its minimum period; the ta-lib macd with a fast period above the slow one starts
    from an empty seed; ewma delivers values before its minimum period (C05).
27. ppofast has the opposite sign of its documentation (C58). avgprice divides by 4 (documentation: 3); adxr adds
    (documentation: minus).
28. mavp outside ta-lib mode uses later periods (repaints) (C42); float periods raise ValueError.
29. smacc with `_pearly` on a line with minimum period 1 takes an empty slice as seed, that is 0 (C56); with exactly
    period - 1 bars the slice is not empty, so that value changes when the next bar arrives (C103).
30. correl with a larger second minimum period under-reports its own (C46).
31. +DI/-DI can be infinite when an earlier close lies outside the range of its own bar (C54). ad: a close outside a bar
    without range makes all later values non-finite (C64). ultimateoscillator raises ZeroDivisionError when the factors
    sum to zero (C65).
32. sar: the stop may move against the trend right after a reversal (C62).
33. ht_dcphase, ht_sine, ht_trendline and ht_trendmode raise ValueError when any price after the first 37 bars is NaN,
    while ht_dcperiod and ht_phasor deliver NaN from there on (C103).
34. t3 with `_gd` true and false differ in the early bars (C37).
35. A line that looks ahead (`line(ago=1)`) beyond its warm-up hides the first bars from methods called on it; looking
    ahead by more than all bars makes them raise ValueError (C98).
36. `df` of a result is made at its first reading and kept: outputs assigned later do not show in it (C89).
37. In float64 the stochastic can be 100.00000000000001 and Williams' %R -100.00000000000001 (C108); typprice and sma can
    exceed all the prices they average (C110). rsi, stochrsi, aroon, bop never leave their ranges and crossings are exact
    (C107, C109, C111).
38. Because pandas 1.0 keeps running totals, float64 results depend on values that left the window: `sma(period=2)` of
    1e16, 1, 1, 1, ... is 0 for ever and the sum of 1e16, 1, 0, 0, ... is -1 for ever (C113). mfi of ordinary prices
    followed by a flat stretch can be 133.3 or negative (C107). sma of non-negative values is not negative (C113).
39. ema(5) of a constant price of 0.11 is 0.11000000000000001 at every bar: the seed is rounded up and the recursion rounds
    back to it (C115). ewma gives the price itself.
40. `a + b` and `b + a` can start at different bars: on the left an indicator counts with the minimum period of its first
    output, on the right with the largest of all its outputs, though the values come from the first output in both cases.
    `sma + macd` is NaN for eight more bars than `macd + sma` with the default periods (C116).
41. Every container of inputs or outputs is a key of a table of the library from the moment it is made and is never
    removed, so the inputs and outputs of every call, failing ones included, stay in memory for ever (C117).
42. `if a > b:` is taken whatever the values, as soon as there is a bar: a line has a length and no truth value of its own
    (a pandas Series would raise ValueError). `a < b < c` is `b < c`, `max(a, b)` and `min(a, b)` are `b`, and every line is
    found in every list (C119). `abs(indicator)` and indicators as keys of a dictionary raise TypeError, unlike lines.
43. Help texts lack the description of 101 inherited parameters, and 15 of the aliases they list belong to another class
    (C120; same causes as 18 and 19).
44. The angle of linearreg_angle depends on the unit of the prices (and is the only such indicator besides mathematical
    functions and sarext with a start value) (C121).
45. correl takes its minimum period from its first input only: if the second is ready later, the first value presented as
    ready is missing or depends on how much history was loaded (C123_correl_refuted). Returns carry the last price over gaps,
    so a gap at the start of the loaded history changes the first return (C123_returns_refuted).
46. Operators between lines whose data have different dates (C125): the lines are cut by position at the larger minimum
    period before pandas aligns them, so sums of common dates are lost (C125_lost_refuted); pandas sorts the dates and the
    result is written back by position, so with data in descending order sums appear under wrong dates
    (C125_order_refuted); `a + b` works where `b + a` raises ValueError (C125_swap_refuted); comparisons always raise.
47. The code prefers a rise in two places: `sar` starts long when the first high and low move by the same amount or not
    outwards (C126_sar_refuted), and `obv` with `_talib` counts the first bar as a rise (C126_obv_refuted).  Otherwise every
    indicator reads mirrored prices as the mirror image of the originals (C126), for lookbacks of at least one bar.
48. Raising all prices by a constant changes relative changes, `mfi` and `sarext` (C127_relative_refuted): no disagreement
    with the documentation, but the rules of C127 leave them out for this reason.
49. Exponential averages do not work on numbered bars (C129_integers_refuted, C129_indicators_refuted,
    C129_directional_refuted, C129_adaptive_refuted). `_ewm` writes the
    seed with `trailprefix[-1] = ...`; on an integer index -1 is a label, so a row is added, the smoothed values are one
    too many and storing them raises ValueError. Every seeded average fails on a Series built from a list or a csv file
    read without `index_col`. For the same reason `line[-1] = v` adds a bar on such data (C129_last_refuted), while
    reading `line[-1]` is by position.
50. `_DECPERIOD` accepts amounts which bring the minimum period below 1 (C131_below_one_refuted). The position of the
    first delivered bar is then negative and counts from the end: `_MPSERIES` returns the last bars and
    `_MPSETVAL(x, 0, v)` writes the last bar. On numbered bars `_MPSETVAL` past the end adds a bar instead of raising
    (C131_numbered_refuted). `_seed=` with a number that is no constant, such as 3, is taken as no seed (C131_seeds).
51. Which arguments of a method may be lines depends on the spelling: `line.clip(lower=other)` works, `line.clip(other)` hands
    the Line object to pandas, `line.where(c, other)` works in both spellings, `line.between(a, b)` only by position,
    `line.fillna(other)` in none; the minimum period of an argument that is not read does not count
    (C133_objects_refuted). `line.apply(func, raw=1)` does not pass `raw` on (C133_raw_refuted). `concat` is listed as a
    method and is none of a pandas Series.
52. In double precision +DI can pass 100 by one step with the default period and ordinary prices, and so can cmo
    (C134_directional_refuted, C134_cmo_refuted). With the running totals of pandas 1.0 cmo is 300 on flat prices after a
    few changes, as what is left of the two totals is rounding error only (C134_running_refuted).
53. The variance of pandas 1.0, which stddev and bbands use, is carried from bar to bar, so that what left the window stays
    in it as rounding error: 7.0, 7.1, 7.1, ... never gives deviation 0, one price of 1e9 makes the deviation 0 for ever
    while prices alternate between 1 and 2, and one of 1e16 leaves a variance of 4.5e15 (C135_flat_refuted,
    C135_closed_refuted, C135_open_refuted).
54. `x < y` raises for lines with different dates while `x.lt(y)` is computed, a missing bar comparing as NaN
    (C125_spelling_refuted).
55. In double precision the correlation of a series with itself need not be 1: with the carried means and variances of
    pandas 1.0 the prices 2.0, 2.1, 2.1, ... give 163.84 for ever (period 2), and with windows taken afresh 1e8, 1e8 + 1
    give 0 (C136_carried_refuted, C136_window_refuted). Beta does not suffer from this (C136_beta).
56. In double precision the ultimate oscillator with default parameters is 100.00000000000001 while bars close at their
    high, and with the running totals of pandas 1.0 it is -242.86 on flat prices after a few moves (C137_default_refuted,
    C137_running_refuted).
57. In double precision indicators that compare averages see a movement in prices that stand still: at a price of 10.01
    macd is 3.6e-15 at every bar and does not decay, cci is 66.67 and the slope of the regression line -5.7e-16. Signals
    that test for > 0 fire on such data (C138_macd_refuted, C138_cci_refuted, C138_slope_refuted).
58. The loops in the bodies of Line and LinesHolder leave their variables behind as class attributes: `line.name` is
    'loc', `line.opargs` a dictionary and `indicator.name` '__xor__', for every line and indicator; an output called
    `name` cannot be read as an attribute (C139_nothing_else_refuted).

59. rsi can be exactly 50 although the average rise is larger than the average fall: with a quotient one step above 1,
    `1.0 + rs` is rounded to 2 (C142_rsi_refuted); a rule that waits for `rsi > 50` misses such a bar. cmo computes the
    same comparison from a difference and never misses it (C142_cmo).


## 6. Organisation and testing

* Model files contain no proofs. `*Facts.v` and `Prop*Facts.v` contain lemmas; `Prop_*.v` contain the property theorems
  only, each closed by `exact`, followed by `Print Assumptions` and by examples (`C##_met`: the hypotheses hold for a
  concrete case; `C##_run`: the model run on concrete data).
* `seeded/LOG.jsonl`: one line per wrong program tried (edited definition, edit, claim, theorems that failed, theorems that
  were tightened because the edit had survived). 1001 edits so far; 40 survived at first and led to stronger theorems.

## 7. Print Assumptions per theorem

* **Closed under the global context** (262 theorems): C01_elementwise, C01_scalar_right, C01_scalar_left, C01_compare, C01_compare_scalar, C02_lookback, C02_lookback_zero_refuted, C02_shift, C02_diff, C02_pct_change, C03_rolling, C04_no_repaint, C05_minperiod, C05_unseeded_ewm_refuted, C06_reuse_partial, C07_positional_refuted, C08_ahead_partial, C08_ahead_refuted, C38_short_window_partial, C38_short_exponential_refuted, C10_one_to_one, C10_with_names, C10_case, C11_named, C12_named_prefix_partial, C12_refuted, C12_stolen_refuted, C13_rejected, C14_single_input, C15_exact_refuted, C71_positional, C71_accepted, C81_choice, C81_determined, C16_kwargs_split, C17_defaults, C17_chain, C17_creation, C18_refuted, C19_refuted, C19_declared_partial, C20_own_declaration, C20_own_duplicates, C20_inherited, C20_keep_last, C20_package, C20_package_rooted, C21_single, C21_exact, C21_refuted, C21_package, C72_refuted, C72_package_refuted, C31_exact, C31_refuted, C31_class_names, C32_listing, C32_order, C32_by_name, C73_listing, C73_by_group, C73_selected, C73_groups, C73_names_by_group, C73_exact, C73_refuted, C22_once, C22_base_first, C22_general, C23_restored, C23_exact, C24_refuted, C24_partial, C25_return, C25_configured, C26_refuted, C26_main_partial, C27_refuted, C28_exact_refuted, C29_priority, C29_mode, C29_flag_removed, C30_last_setter, C30_initial, C30_meaning, C58_ppofast_refuted, C61_crossover_refuted, C70_two_inputs, C68_parameters_refuted, C53_truehigh_refuted, C54_close_outside, C56_short_history, C41_any_average, C42_no_repaint_partial, C42_refuted, C87_access, C87_errors, C87_get, C88_direct, C88_package, C88_order, C88_lookup, C88_endless, C89_frame, C89_once, C89_assign, C90_missing, C90_no_outputs, C90_undeclared, C91_minperiod, C92_inside, C92_after, C92_deleted, C93_contains, C93_contains_all, C94_inputs_untouched, C94_later, C95_results_stable, C95_series_stable, C95_named, C95_unassigned, C96_as_values, C96_obv, C96_sar, C97_reduction, C97_reduction2, C97_count, C97_all, C97_any, C98_same_length, C98_other_length, C98_head_refuted, C98_tail_refuted, C98_dropna_refuted, C98_drop_duplicates_refuted, C98_append_refuted, C98_ahead_refuted, C98_far_ahead_refuted, C100_setval, C100_setval_to_end, C100_setval_default_refuted, C100_period, C02_call, C02_call_fill, C101_slice_refuted, C101_prefix_partial, C102_enough, C102_too_short, C102_declared, C102_all_nan_refuted, C103_no_repaint_partial, C103_early_refuted, C104_minperiods, C104_one, C105_warm_up, C105_ewma_refuted, C139_nearest_class, C139_outside, C139_table, C139_line, C139_indicator, C139_nothing_else_partial, C139_nothing_else_refuted, C116_indicators, C116_line, C116_number, C116_compare, C116_compare_subclass, C116_exchange_partial, C116_exchange_refuted, C117_stays_refuted, C117_exactly, C117_growth, C117_held, C117_own, C118_values, C118_names_partial, C118_names_refuted, C118_look, C119_condition_refuted, C119_condition_number_refuted, C119_chain_refuted, C119_connectives_refuted, C119_extremes_refuted, C119_search_refuted, C119_search_partial, C119_truth, C119_sum, C119_operators, C119_unary_refuted, C119_keys_refuted, C119_bars, C119_any_refuted, C119_nothing, C119_identity_partial, C120_lines, C120_defaults, C120_shown, C120_described, C120_undescribed_refuted, C120_aliases_refuted, C120_texts, C120_package, C120_package_names_refuted, C120_package_descriptions_refuted, C120_package_lost, C18_package, C123_columns, C123_one, C123_correl, C123_correl_refuted, C123_returns, C123_beta_returns, C123_returns_refuted, C123_memory_refuted, C125_same, C125_same_logic, C125_by_label, C125_method_by_label, C125_logic_by_label, C125_extra, C125_extra_truth, C125_compare, C125_spelling_refuted, C125_swap_refuted, C125_lost_refuted, C125_order_refuted, C126_sar_refuted, C126_obv_refuted, C127_relative_refuted, C128_direction_refuted, C129_dates, C129_integers_refuted, C129_unseeded, C129_indicators_refuted, C129_directional_refuted, C129_adaptive_refuted, C129_same, C129_same_mama, C129_set_dates, C129_set_integers, C129_last_refuted, C131_period, C131_delivered, C131_set, C131_numbered_refuted, C131_set_any, C131_below_one_refuted, C131_seeds, C132_apply, C132_exception, C132_short, C132_multi, C132_library, C132_library_multi, C133_lines_partial, C133_objects_refuted, C133_raw_refuted, C133_reductions, C133_other_reductions, C133_arguments, C133_unknown.
* **`sig_forall_dec`** (1 theorems): C45_unique.
* **`functional_extensionality_dep`, `sig_forall_dec`** (141 theorems): C09_filters_agree, C33_sma, C34_wma, C35_ema, C35_ema_unique, C36_smma, C36_smma_unique, C37_dema, C37_tema, C37_gdema, C37_t3, C37_t3_gd, C37_trix, C37_trix_any, C37_trima, C37_trima_within, C37_constant, C37_constant_exponential, C82_ewma, C82_ewma_adjusted, C82_within, C83_ema_fades, C83_smma_fades, C83_vanishes, C57_macd_apo, C57_macd_ema, C57_macd_talib, C57_ppo, C57_ppo_positive, C58_ppofast_negated, C59_mom, C59_roc_family, C59_roc_zero, C60_crossup, C60_crossdown, C60_exclusive, C66_extremes, C66_midprice, C66_midpoint, C66_maxindex, C66_minindex, C66_minmaxindex, C67_maxindex_abs_partial, C67_minindex_abs_partial, C67_minmaxindex_abs_partial, C67_maxindex_abs_refuted, C70_prices, C43_sample, C45_period_one, C47_beta_partial, C47_beta_refuted, C74_mad, C74_cci, C52_true_range, C52_atr_natr, C52_atr_any_average, C54_movements, C54_smoothers, C54_averages, C54_directional_indicators, C54_dx, C54_adx, C54_adxr, C54_adxr_one_bar_refuted, C55_directional_indicators_late_refuted, C56_smacc, C56_smacc_pearly_partial, C56_smacc_pearly_raw_refuted, C48_rsi_bounds, C48_averages, C48_rsi_value, C48_rsi_too_few_bars, C49_stochastic_and_williamsr, C49_averages_bounded, C49_averages, C50_aroon, C50_distance_unique, C51_cmo, C51_mfi, C65_ultimate_oscillator, C65_zero_factors, C65_balance_of_power, C75_stochrsi, C64_obv, C64_obv_talib, C64_ad, C64_ad_close_outside, C64_adosc, C62_run, C62_determined, C62_sides, C62_monotone, C62_range, C62_short_input, C63_rules, C63_default, C63_short_input, C39_efficiency, C39_smoothing, C39_kama, C39_lookback, C40_refuted, C40_short_input, C41_sma, C41_ema, C41_ema_short, C42_averages, C97_sum, C97_mean, C97_max, C97_min, C97_dot, C97_equals, C98_nlargest_refuted, C98_nsmallest_refuted, C98_nlargest_few, C99_expanding, C99_missing, C99_mean, C99_sum, C99_max, C99_default, C99_positional_refuted, C113_exact, C113_exact_mfi, C137_exact, C119_numbers, C124_ema, C124_smma, C124_atr, C124_settle, C124_obv, C124_ad, C126_sar_partial, C130_averages, C130_extremes, C130_changes, C130_period_one, C130_wilder, C130_t3, C130_ppo.
* **`classic`, `functional_extensionality_dep`, `sig_forall_dec`, `sig_not_dec`** (137 theorems): C70_math, C70_sqrt, C43_var_stddev, C43_too_short, C44_bbands, C45_linear_regression, C46_correl, C46_symmetric, C46_affine, C69_dcperiod, C76_phasor, C76_determined, C77_dcphase, C77_sine, C78_trendline, C79_trendmode, C80_no_repaint, C84_mama, C84_short, C84_weight, C84_no_lookahead, C85_refuted, C86_range_partial, C86_floor_partial, C86_refuted, C103_all_partial, C103_missing_refuted, C106_no_repaint_partial, C106_minperiods, C106_warm_up, C107_rsi, C107_averages, C107_mfi_partial, C107_stochrsi, C108_stochastic_refuted, C108_williamsr_refuted, C108_stochastic_partial, C108_williamsr_partial, C109_aroon, C109_bop, C110_medprice, C110_wclprice, C110_midprice, C110_typprice_refuted, C110_sma_refuted, C111_extremes, C111_positions, C111_crossings, C111_truelow, C112_truerange, C112_atr, C112_natr, C112_var, C09_float64, C09_factor_refuted, C113_mean_refuted, C113_sum_refuted, C113_sum_drift, C113_mean_drift, C113_fresh_sum, C113_fresh_mean, C113_mean_nonneg, C113_rsi, C107_mfi_refuted, C134_directional_partial, C134_adx_partial, C134_directional_refuted, C134_cmo_partial, C134_cmo_refuted, C134_running_refuted, C135_exact, C135_order, C135_flat_partial, C135_flat_refuted, C135_closed_refuted, C135_open_refuted, C136_exact, C136_beta, C136_symmetric, C136_carried_refuted, C136_window_refuted, C137_weights, C137_default_partial, C137_default_refuted, C137_running_refuted, C138_momentum, C138_rate_of_change, C138_averages, C138_strength, C138_range, C138_macd_refuted, C138_cci_refuted, C138_slope_refuted, C114_ema, C114_smma, C114_ewma, C114_ewma_adjusted, C115_ewma_constant, C115_ema_refuted, C115_ema_close, C121_indicator, C121_session, C121_variable_period, C121_angle_refuted, C122_dcperiod, C122_bars_used, C122_exceptions, C122_trendmode, C106_all_partial, C126_mirror, C126_program, C127_raised, C127_program, C128_average, C128_indicator, C128_program, C128_direction, C128_quotient_refuted, C130_regression, C130_variance, C130_beta, C140_sum, C140_mean, C140_obv, C140_obv_talib, C140_momentum, C140_true_range, C140_prices, C140_balance_of_power, C141_momentum, C141_rates, C141_oscillators, C142_cmo, C142_rsi_partial, C142_rsi_refuted, C143_sar, C143_sarext.
