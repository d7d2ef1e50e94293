# Formal model of ggmichael/craterstats in Rocq (Coq 8.16.1)

## 1. How the model is organised

Every area of the code has up to four kinds of files under `rocq/theories/`:

* `XModel.v`  -- definitions only: the Python functions, branch by branch, exceptions as values
  (`Base.v: res A = Ok a | Err e`).  Each definition cites file and lines in `/repo/src/craterstats`,
  and says what is simplified.
* `XSpec.v`   -- the small independent vocabulary in which the properties are stated (counting,
  "is the k-th smallest", numerals, schedules, ...); it does not use helpers of the model.
* `XProofs*.v` -- lemmas.
* `XProps*.v`  -- the property theorems `Cnn_...`, an `Example Cnn_hypotheses_met` showing that concrete
  non-trivial cases meet the hypotheses, and `Print Assumptions` for each theorem.

| files | code modelled |
|-------|---------------|
| `Base`, `NumModel` | results and exceptions; min, max, searchsorted, digitize, histogram, cumsum, arange, linspace, interp, sorting of numpy and Python |
| `BinModel` | Cratercount: generate_bins, apply_binning, MakeBinNcum |
| `CountModel` | Cratercount: state of the object, decode_range, resurf_adj, getplotdata; bin_bias_correction |
| `ChronModel` | Chronologyfn: N1, phi, a0, t and its table |
| `PdfModel` | Craterpdf: all but the drawing (`MiniModel`); create_sequence_table |
| `ProdModel` | Productionfn: polynomial and tabular functions, evaluate, fit, getplotdata, getisochron; value_locate |
| `StrModel` | gm: filename, quoted_split, strip_quotes, read_textfile, write_textfile, with the regular expressions as matching functions |
| `FmtModel` | number formats %f %e %g; sigfigs, scientific_notation, diameter_range, percentile_sigfigs; str_age |
| `TsModel` | gm.read_textstructure with its regular expressions |
| `IoModel` | float(), split(); ReadDiamFile, ReadSCCfile, ReadStatFile, WriteStatFile, merge_cratercounts |
| `SccModel` | Spatialcount: readSCCfile, writeSCCfile |
| `CliModel` | cli: decode_abbreviation, option classes, construct_cps_dict, construct_plot_dicts, command files (shlex), set_default_filename, write_output_files; ra_decode_selection |
| `PlotModel` | gm: scl, poly, ticks, iterator_with_progress; fractional_crater_transform; calculate_time_axis_params |
| `RaModel`, `RaFileModel` | Randomnessanalysis: sprinkling, neighbour search, worker pool, progress counter, statistics, bins, panels, file; cli.randomness_analysis |
| `SetModel` | Craterplotset: autoscale, CreatePlotSpace (layout, ticks, strip); Hartmann_bins, n_sigma_scaling; rows of the sequence plot |
| `LegModel` | make_legend_label, draw (legend), create_summary_table |
| `AgeModel` | Craterplot.calculate_age |
| `EpModel` | Epochs; plot_isochrons (the list) |
| `AaModel` | compute_age_area, age_area_plot |
| `FlModel` | Functionslist, user functions |
| `MapModel` | Spatialcount: readSHPfiles, find_enclosing_polygon, llr2xyz, find_rims, plot (frame) |
| `LoadModel` | Chronologyfn.__init__, getplotdata; Productionfn.__init__; cli.construct_cps_dict (functions of the system) |
| `StripModel` | Cratercount.read_ra_file; Randomnessanalysis.__init__ (name of the file); Craterplot.oplot_n_sigma, overplot (which plots have a strip) |
| `MiniModel` | Craterpdf.plot (linear axis, the only one used), offset, violin_plot; their placement in Craterplot.overplot and sequence_plot |
| `MainModel` | cli: convert_format, demo, main |

## 2. Conventions

* Python floats are exact reals `R`; integers are `Z` or `nat`; texts are lists of 8-bit characters.  Rounding
  of binary64 arithmetic, overflow and nan are not modelled, except where nan is the observable result (C79).
  Numbers in files and labels are texts, and their rounding is modelled exactly (round half to even of the
  exact value, as C's printf does).
* Loops are structural recursion, or recursion on fuel with a theorem that enough fuel exists (or that none is
  enough, which is how "never ends" is stated).
* State (objects with caches, files, worker processes, shared memory) is an explicit record; calls are
  transitions; "for every history / schedule / crash point" is a quantifier over lists of calls, interleavings
  or prefixes.
* Externals are explicit arguments of the model functions: scipy's curve_fit and Simpson integral, erf, the
  random generator, the HEALPix pixelisation, map projections, spherical geometry (spherely), the shapefile
  reader, the file system, the process pool.  What is assumed of them is a hypothesis of the theorem.  The same
  holds for the output of `repr` for floats where it is written to files.
* When the statement in `properties.jsonl` is false of the code, a theorem `..._refuted` exhibits the failure on
  the model, and companions prove the strongest true part, with the guard stated.

## 3. Trusted base

* Coq's kernel, version 8.16.1, including its `vm_compute` machine; `native_compute` is not used.
* The four axioms of the standard library listed per theorem in section 6.  No other library's axioms, no axiom
  of our own, no `Admitted`, no switched-off check, no functors or module types, no plugins.
* That the model says what the code does.  This is by inspection, function by function, with line citations.
  The files `seeded/LOG.jsonl` record several hundred edits to the model of the kind a bug would make, and which
  theorem noticed each; where none did, the theorem was tightened.
* That the specifications (`*Spec.v` and the statements) say what the English says.

## 4. Plan and result per property

For each property: what is modelled, how it is proved, and where the code deviates ("Exception", proved as a `_refuted` theorem next to the guarded positive ones).

**C01 Generated bins cover the whole count.** *Model:* `generate_bins` (log10, floor, ceil, pseudo-log mantissas, arange, slice). *Proof:* floor/ceil arithmetic; the kept slice contains the edges around the extremes.

**C02 Bins lie on a universal grid, consecutive and tight.** *Model:* `generate_bins`. *Proof:* the edges are a contiguous part of one grid that does not depend on the data; two counts share the part of the grid they have in common; ascending by monotonicity of the grid.

**C03 Binning conserves craters and fractions.** *Model:* `apply_binning`, `histogram`. *Proof:* induction on the craters: every crater falls in exactly one half-open bin; sums of counts and fractions are conserved; totality.

**C04 Cumulative counts are counts of craters at least that large.** *Model:* `apply_binning` with `flip_cumsum`, also for unbinned counts. *Proof:* cumulative sums from the top equal counts of craters at least as large.

**C05 Binning does not depend on the order of the craters.** *Model:* `apply_binning`. *Proof:* histograms of permuted lists are equal (Permutation induction).

**C06 Plot data do not depend on earlier calls.** *Model:* the Cratercount object as a state (`cratercount`), its calls as transitions. *Proof:* invariant "the cached binning equals a fresh one" over all histories without offsets. *Exception:* apply_binning(binning, offset) caches under the binning name only, so a later getplotdata/decode_range with the same binning name uses the offset bins; without offsets the claim holds for every history.

**C07 Bin-numbered ranges bN address the populated bins.** *Model:* `decode_range` for bN limits. *Proof:* the N-th populated bin from below or above, from `where_pos`.

**C08 Snapping extends a range outward to bin boundaries.** *Model:* `decode_range`, snapping. *Proof:* searchsorted specification: nearest boundary outward; idempotent.

**C09 Fits and Poisson evaluation use the same craters.** *Model:* selection in `getplotdata`; `count_range`, `count_bins` of Craterpdf. *Proof:* both count the same half-open range of bins or diameters.

**C10 Presentations are consistent views of one histogram.** *Model:* presentations in `getplotdata` (`plot_point`). *Proof:* value and error of every presentation as functions of n, bin and area; scaling with area. *Exception:* differential error bars are not bias-corrected, so their relative error is the bias factor times 1/sqrt(n); Hartmann values in root-2 bins are 2^(1/4) times the incremental density.

**C11 Bin-bias correction is exact for power laws.** *Model:* `bin_bias_correction` with real powers. *Proof:* analytic identity with the integral of a power law over the bin; symmetry; convexity for the comparison with one. *Exception:* continuity in k fails at 0: for |k|<1e-5 the function returns 1 although the limit is below 1.

**C12 Poisson age pdf is a probability distribution.** *Model:* `craterpdf_lam`, `craterpdf_buffered`: grid, weights, likelihood, normalisation. *Proof:* sums by induction; weights positive; normalisation by the sum. *Exception:* if the likelihood sums to less than 1e-30 and the count exceeds the expected number at the end of the age axis, building the pdf raises IndexError.

**C13 Age percentiles are ordered and in range.** *Model:* `pdf_t`, `median1sigma`, `cumulative_fraction`. *Proof:* interpolation in a monotone table is monotone, bounded and inverse to the table.

**C14 Gaussian percentiles are symmetric.** *Model:* `gaussian_percentiles` with erf as argument. *Proof:* induction on n, using only oddness, monotonicity and range of erf.

**C15 Sequence probabilities are complementary.** *Model:* `sequence_probability` with `np.roll`. *Proof:* summation by parts; the defect is exactly half the sum of the two first weights. *Exception:* np.roll wraps the last cumulative value round to the first cell, so P(A<B)+P(B<A) exceeds 1 by half the sum of the two first weights (numerically tiny but never 0).

**C16 Counting ranges are half-open and additive.** *Model:* `count_range`, `count_bins`. *Proof:* splitting of filters at a common limit.

**C17 Chronology and its rate function are consistent.** *Model:* `N1`, `phi`. *Proof:* derivatives from the Reals of the standard library, mean value theorem.

**C18 Age inversion of the chronology.** *Model:* `cf_table`, `cf_t`, `cf_a0`. *Proof:* interpolation lemmas on the strictly increasing table of 1000 ages.

**C19 a0 is the log density at 1 km, and scales every presentation.** *Model:* `poly_C`, `evaluate`, the tabular functions. *Proof:* algebra of powers of ten; all presentations factor through the density.

**C20 Differential production function is minus the derivative of the cumulative.** *Model:* `poly_C`, `poly_F`, `poly_R`, `poly_H` for polynomials of any degree; the tabular counterparts. *Proof:* derivative of a polynomial by induction on its degree; chain rule.

**C21 evaluate honours the a0 it is given.** *Model:* `effective_a0`, `evaluate`. *Proof:* case analysis on Python truth values. *Exception:* for polynomial production functions a0=0 (one crater per km2) is treated as omitted and the function's own first coefficient is used.

**C22 Tabular production function reproduces its table.** *Model:* `make_tabular`, `tab_C`, `tab_H`. *Proof:* log interpolation at nodes; telescoping of the reversed cumulative sum.

**C23 Fitting recovers and brackets a0.** *Model:* `fit` with curve_fit as argument. *Proof:* hypothesis: curve_fit minimises the weighted squares; closed form of the optimum; monotone logarithm for the limits.

**C24 Isochrons are cut at the equilibrium function.** *Model:* `getisochron`, `value_locate`. *Proof:* position in the equilibrium table; first crossing. *Exception:* isochron points at or below the smallest tabulated equilibrium diameter are compared with the equilibrium value at the LARGEST diameter (index -1 wraps).

**C25 File names decompose losslessly.** *Model:* `filename` with its regular expression as backtracking search. *Proof:* characterisation of the first match; uniqueness of the pieces.

**C26 sigfigs prints the correctly rounded value.** *Model:* `sigfigs` on exact decimal numerals. *Proof:* value of digit lists; round half to even; number of figures.

**C27 Ages are printed in a sensible unit.** *Model:* `str_age` with errors, forced unit, simple. *Proof:* unit by comparison with powers of 1000; numeral values from C26. *Exception:* an age within half a unit of its last figure below 1000 is printed as 1000 in the smaller unit (0.9999 Ga prints as 1000 Ma); with sf=1 and errors the call raises ValueError.

**C28 Quote handling is invertible.** *Model:* `quoted_split`, `strip_quotes`. *Proof:* induction on the list of words with any separators; escape and unescape cancel. *Exception:* a quoted word that contains a backslash just before its closing quote (a Windows directory name) swallows the closing quote and the words after it.

**C29 Text files round-trip.** *Model:* `write_textfile`, `read_textfile` on a file map; universal newlines. *Proof:* splitlines of joined lines; comments by position. *Exception:* a file of exactly one empty line is read back as no lines.

**C30 Text structures keep every value in order.** *Model:* `read_textstructure` with its regular expressions as matchers with continuations. *Proof:* a grammar of files (`TsSpec`) and the value it denotes; induction over the definitions. *Exception:* a key written several times whose last value is a list has its earlier values put into that list instead; an empty value followed by an indented line takes that line as its value; a quoted text block ends at the last line of the file that starts with a quotation mark; structures inside structures are cut off.

**C31 Merging crater counts is additive.** *Model:* `merge_cratercounts` as reader, sum and writer of text. *Proof:* numerals read back within their rounding; permutation of sorted craters. *Exception:* fractions and areas keep six significant figures and diameters the printed form; a .diam input has no perimeter, so merging with one raises TypeError instead of writing the file.

**C32 Exported statistics read back the same.** *Model:* `write_stat`, `read_stat`. *Proof:* rows round-trip; upper edges from the next lower edge. *Exception:* numbers keep five figures; bins without craters are not written, so a bin before a gap is read as reaching to the next populated bin; the last upper edge is extrapolated from the last two lower edges; a file with one populated bin cannot be read (IndexError).

**C33 Command-line abbreviations resolve predictably.** *Model:* `decode_abbreviation`: the built regular expression as subsequence match. *Proof:* subsequence lemmas; the shipped lists are checked for pairs by computation. *Exception:* where ambiguity is not allowed a full name that is a subsequence of another item is rejected; no list shipped with the program contains such a pair.

**C34 Plot options carry over as documented.** *Model:* `construct_plot_dicts`. *Proof:* induction on the list of overplots with the inherited settings as accumulator. *Exception:* type is inherited even when a new source is given; and with -i a source inherited from the previous overplot has the directory of the command file put in front of it a second time.

**C35 A saved .cs file reproduces its command.** *Model:* `cs_content`, shlex splitting as a state machine, `LoadFromFile`. *Proof:* quoting is inverted by the machine, by induction on arguments and characters. *Exception:* an empty argument (-title '') raises IndexError before anything is written; an argument that starts with a dash and needs quoting (-title '-my title') is split on re-reading; a line break inside an argument followed by a blank line or # is lost.

**C36 Explicit settings take effect.** *Model:* `construct_cps_dict`. *Proof:* induction on the options; last one wins; the table of options is the code's. *Exception:* -text_halo 0 is overridden by the default; with -f the extension of -o is dropped; in Hartmann plots -xrange and -yrange are ignored.

**C37 -i finds the file the user names.** *Model:* `input_file`, `path_join`. *Proof:* case analysis of absolute and relative names. *Exception:* a relative name with an existing directory part is looked up inside that directory a second time (the program changes into it first), so -i runs/a.cs fails.

**C38 -select lists are decoded completely.** *Model:* `ra_decode_selection` (regular expression with findall). *Proof:* induction on the list of numbers and ranges.

**C39 -p key=value lists are parsed losslessly.** *Model:* `AppendPlotDict`: split at commas before keys. *Proof:* induction on the pairs.

**C40 Autoscaling shows all data with equal decades.** *Model:* `autoscale` for all presentations. *Proof:* ceil/floor of logarithms; every data point lies inside; fewest decades. *Exception:* with no drawable plot it raises TypeError even if both ranges are given; if the first plot is empty the default ranges are used although other plots have data; the odd decade left over goes on the side with more room on the x axis of non-differential plots, but on the side with less room elsewhere.

**C41 Legend keeps one entry per labelled series.** *Model:* `make_legend_label`, drawing order, merging of handles. *Proof:* induction on the list of labelled series. *Exception:* a -legend with none of c, r, N makes a fit swallow the entry of the plot before it (data and fit with 'n' give no legend at all); a plot whose label is 'fit' or begins with an underscore has no entry; a fit to a binned file with fractional counts raises ValueError as soon as the legend asks for counts, which it does by default.

**C42 Summary table has one row per age.** *Model:* `create_summary_table`. *Proof:* induction on the plots; columns by the type of plot. *Exception:* the last plot decides which range column all rows use, so a fit after a Poisson age raises TypeError; a comma in a name moves the columns of its row.

**C43 Axis ticks.** *Model:* `ticks` with the search for a step as a loop. *Proof:* termination measure on the step; multiples of a nice step enclosing the data; never-ending case by invariance. *Exception:* with max_ticks 1 or 2 (or negative) and data on both sides of zero the search never ends, as no two multiples of a step enclose them (with floating numbers it ends when the multiplier underflows, with one nan tick); data without extent raise ValueError.

**C44 Random crater populations satisfy the requested geometry.** *Model:* `sprinkle_discs` over an arbitrary stream of random points. *Proof:* invariant: placed discs are apart and inside; ends when the stream offers enough points. *Exception:* if n discs of the size do not fit (or no point can lie inside) the sampling never ends; a request for no point raises ValueError.

**C45 k-th neighbour search is exact.** *Model:* `kth_nearest_neighbour` over an abstract pixelisation. *Proof:* growing discs of cells contain all nearer points; sorted distances. *Exception:* with k points or fewer the search never ends (HEALPix grid without holes); next to one of the cells that lack a neighbour (reported as -1) a search that goes on fails with ValueError.

**C46 Monte Carlo results are attributed to their trials and independent.** *Model:* worker pool as interleaving of takes, draws and results; fork copies the generator. *Proof:* every schedule assigns each trial once and results are collected in order; draws depend on the takers only. *Exception:* worker processes are forked with the same generator state, so different trials can be the same draw and, with two workers or more, repeated runs can give different measures; on a machine with one processor the pool of 0 workers raises ValueError.

**C47 Progress reaches the total.** *Model:* shared counter with separate read and write. *Proof:* bounds over all interleavings; exact without overlap; a losing schedule for any number of workers. *Exception:* the update is a read followed by a write, so updates that overlap are lost: n workers can count 1.

**C48 Interrupted analyses keep finished measures.** *Model:* `write_states`, `analysis` with a crash at any point. *Proof:* prefix induction over the states of the file. *Exception:* each write first empties the file, so a crash inside a write loses everything in it, and the next run fails with TypeError on the empty file; between writes the property holds.

**C49 Stored trials are never degraded.** *Model:* `run_montecarlo` on the store of trials. *Proof:* case analysis; histories of requests. *Exception:* a request for more trials discards the stored ones and computes all again, instead of only the missing ones.

**C50 Randomness percentile is the share of smaller trials.** *Model:* `calculate_stats`. *Proof:* counting; monotone in the observed value.

**C51 Bins of the randomness analysis partition the count.** *Model:* `bin_craters`, `montecarlo_split`. *Proof:* half-open bins partition the craters; threshold on the count.

**C52 Randomness results file round-trips.** *Model:* `write_ra`, `read_ra` as text. *Proof:* numerals of seven figures; tables of C30; idempotence. *Exception:* values are kept to seven significant figures; a measure without any bin is written as a table that cannot be read again (ValueError).

**C53 Crater fractions survive in spatial counts.** *Model:* `read_spatial`, `read_scc`. *Proof:* counterexample for every file with a fraction column; positive theorem for Cratercount. *Exception:* Spatialcount looks for the column in the wrong dictionary and gives every crater the fraction 1, whatever the file says; Cratercount reads the fractions.

**C54 Area outlines round-trip through .scc.** *Model:* `write_scc`, `read_spatial`: ring tags. *Proof:* induction on rings; numbering of exteriors and holes. *Exception:* coordinates are kept to 15 decimals and repeated vertices are made one; an island in a hole is read as a polygon and also as another hole of the polygon around it; the second exterior of a multipart shape is written as internal and lost.

**C55 Readers keep diameter and fraction together.** *Model:* `read_diam`, `read_scc`. *Proof:* sorting of positions keeps pairs: permutation of the rows.

**C56 Fraction transform is a symmetric bijection.** *Model:* `area_fraction`, `af2lf`. *Proof:* integral of the chord; monotone bijection; interpolation in the table at its nodes.

**C57 Every requested output file is written once.** *Model:* `write_output_files` as a fold over formats. *Proof:* induction on the formats; injectivity of names. *Exception:* uncertainty plots with two image formats: only the first gets the three diagrams, the second gets an ordinary one under another name; with -ra the name of the table depends on the iteration order of the set of formats.

**C58 Progress iteration is transparent.** *Model:* `iterator_with_progress` as a coroutine of events. *Proof:* trace equality with plain iteration for every consumer.

**C59 Linear rescaling.** *Model:* `scl`, `poly`. *Proof:* linear algebra; case analysis of the optional arguments. *Exception:* a type name given together with an output range, or a name other than byte, int16, uint16, raises NameError.

**C60 Sequence-plot time axis is usable.** *Model:* `time_axis_params`. *Proof:* the parts of the axis join; ages are placed monotonically.

**C61 Sequence table.** *Model:* `create_sequence_table`. *Proof:* cells by C15; the exception by evaluation of the truth of an array. *Exception:* with one or more Poisson plots of non-trivial counts the table is never written: the pdf is rebuilt from an array and `if not lam` raises ValueError.

**C62 Scientific notation denotes the rounded value.** *Model:* `scientific_notation`. *Proof:* numeral values; exponent by comparison with powers of ten.

**C63 Diameter ranges are printed in the right unit.** *Model:* `diameter_range`. *Proof:* case analysis of units.

**C64 Percentiles keep their precision near 100.** *Model:* `percentile_sigfigs`. *Proof:* number of decimals from the distance to 100. *Exception:* for percentiles within 0.0001 of 100 (but not 100) the distance is formatted with an exponent and its length no longer gives the decimals, so too few are printed (99.99995 prints as 100.000).

**C65 Values of -p options mean what they say.** *Model:* `plot_value`, the tables of colours and symbols. *Proof:* case analysis; abbreviations by C33. *Exception:* the numbers 0-31 and 0-14 announced in the help text for colour and psym are read as abbreviations, so colour=3 is red3 and colour=0 an error.

**C66 Output goes where -o says.** *Model:* `set_default_filename`, `default_filename`. *Proof:* the name is independent of the order of sources (sorted set). *Exception:* if -o names a directory the run ends with NameError.

**C67 Area of a spatial count is read back.** *Model:* `write_scc`, reading of the area by `leading_number`. *Proof:* numeral values; failing case for exponents. *Exception:* areas of a million square kilometres or more (and below 0.0001) are written with an exponent that the reader ignores, so that 2.5e6 is read as 2.5.

**C68 Minor ticks.** *Model:* `minor_ticks`. *Proof:* the chosen number is the least of the list that satisfies the request; counterexamples to the upper bound. *Exception:* the number chosen is the smallest of those offered that gives at least max_minor, so max_minor is a lower bound; a request for more than ten per tick interval raises IndexError.

**C69 The measures run are those asked for.** *Model:* `chosen_measures`. *Proof:* case analysis. *Exception:* an empty -measure value is not checked and ends in NameError.

**C70 The search grid is a valid HEALPix grid.** *Model:* `nside`. *Proof:* power of two from floor of the logarithm; cells hold few points. *Exception:* with few trials on a large part of the globe (fewer than 60 times area over globe) the number is below 1, which HEALPix refuses.

**C71 The panels of the randomness figure do not overlap.** *Model:* `panels`. *Proof:* disjointness of rectangles by linear arithmetic over the grid of panels.

**C72 Random points are uniform by area inside the enclosing limits.** *Model:* `random_point` over uniform draws. *Proof:* monotone transformation; area of a zone is proportional to the measure of its draws.

**C73 The randomness strip fits between the data and the top of the plot.** *Model:* `autoscale`, `strip_edges`. *Proof:* inequalities between whole decades. *Exception:* with a y range given by the user the strip may lie outside the plot.

**C74 Decades keep one length on paper.** *Model:* `plot_layout`. *Proof:* field identities between sizes and decades. *Exception:* the height asked for a Hartmann plot is ignored; with the randomness setting y decades lose their proportion to x decades.

**C75 Natural tick labels are exact.** *Model:* `natural_ticks`. *Proof:* whole decades; numeral of a power of ten.

**C76 Root-2 tick labels name the diameters.** *Model:* `Hartmann_bins`, `Hartmann_labels`. *Proof:* powers of two; units. *Exception:* with no power of two in the range it raises ValueError, with only one IndexError; a range that begins above 1 km has no unit on any label.

**C77 The n-sigma scale of the strip is monotonic.** *Model:* `n_sigma_scaling`. *Proof:* monotone piecewise function; odd; bounded.

**C78 Rows of the sequence plot do not overlap.** *Model:* `sequence_row`. *Proof:* intervals of neighbouring rows are disjoint.

**C79 Age, limits, density and count of a plot belong to one measurement.** *Model:* `calculate_age` joining count, fit, chronology and pdf; nan as a value. *Proof:* composition of C07, C16, C18, C23 for one range. *Exception:* a differential fit whose smallest bin holds a single crater reports nan as lower limit, because the bias-corrected density is less than 0.98 of its error.

**C80 Epoch boundaries given as densities become the ages of their isochrons.** *Model:* `make_epochs`. *Proof:* fit at one diameter and inverse chronology; monotone. *Exception:* a file with a single definition raises TypeError, although the same text given directly is accepted.

**C81 Epoch names stand in the epochs they name.** *Model:* `sequence_names`, `chronology_names`. *Proof:* positions between boundaries clipped to the axis. *Exception:* a name with two consecutive spaces or hyphens, or more names than ages, raises IndexError.

**C82 Epochs are shaded and divided as their formatting says.** *Model:* `decode_formatting`, `epoch_regions`, `epoch_lines`. *Proof:* induction on the entries; regions cover what the format says. *Exception:* an entry that does not begin with a digit raises ValueError.

**C83 The isochrons drawn are those listed.** *Model:* `parse_isochrons`. *Proof:* induction on the list; flags by letters.

**C84 The uncertainty plot shows each age and area where its axes say.** *Model:* `compute_cell`, positions on the axes. *Proof:* inverse of the axis transformation; expected number of craters.

**C85 Saturated and impossible surfaces are covered.** *Model:* `x_exceed`, `y_exceed`, `covered`. *Proof:* monotone density; case analysis of the axis limits. *Exception:* an equilibrium age younger than the axis, or a globe smaller than the smallest area shown, leaves the whole plot uncovered although all of it exceeds the limit.

**C86 The colours of the uncertainty plot's counts are those of their labels.** *Model:* `colour_index`, `shown_k`, `diameter_text`. *Proof:* injectivity under the stated stretch; numerals. *Exception:* the colours are stretched over the counts that occur in the grid, so that without a count of 8 or more, or without an empty cell, the colours do not match the labels; for a smallest diameter of 1 km or more the text lacks its closing parenthesis.

**C87 User-defined functions are added to the built-in ones.** *Model:* `functions_text`, `functions`, `set_user_functions` on a file map. *Proof:* reading of concatenated files by C30; lookup order; abbreviations by C33. *Exception:* a built-in name with parentheses, such as 'Moon, Neukum (1983)', selects a user system of the same name without them; a user file that cannot be read ends the program with NameError instead of being ignored; a configuration of comments alone raises IndexError; a built-in file without a final newline would lose the first definition of the user.

**C88 The craters of a shapefile are measured on the sphere.** *Model:* `read_shapefiles` over an abstract spherical geometry and projection. *Proof:* cap area formula and its inverse; fraction by C56. *Exception:* a crater outline of no area outside the area ends the reading.

**C89 Random points can reach all of the area.** *Model:* `limits`. *Proof:* minimum and maximum over vertices; counterexamples on the sphere. *Exception:* the limits are those of the vertices: an edge that runs along a great circle leaves the latitudes of its ends; an area across the meridian of 180 degrees has the limits of the rest of the globe; an area around both poles loses the cap around the north pole.

**C90 Distances between craters are those on the sphere.** *Model:* `llr2xyz`. *Proof:* trigonometric identities; chord and arc.

**C91 Rims are circles of the crater's diameter.** *Model:* `find_rims` with its cache of projections. *Proof:* invariant of the cache; circle of the radius in the projection plane.

**C92 The map shows all of the area and of the craters.** *Model:* `map_frame`. *Proof:* extent contains every point; margins by linear arithmetic.

**C93 A conversion writes the files its name promises and never its source.** *Model:* `convert_format`, `count_name`, `area_file`. *Proof:* pieces of file names by C25; removal and replacement of CRATER by induction; extensions of written files differ from the source's. *Exception:* for statistics and scc files the name given with -o is ignored except for its directory; for some conversions that do not exist (scc to scc, diam to shp or to a map) the program says that they were written; CRATER is removed from the directories of -o for maps too; a map made with -o is written again under another name when its command file is run; a shapefile without CRATER in its name is taken for its own area file.

**C94 A run leaves a command file only after all its outputs.** *Model:* `main` as a list of deeds up to the first error; `write_until`. *Proof:* induction on the outputs; case analysis in the order of the options. *Exception:* the command file of a map is written before the map; while the user functions named in the configuration cannot be read, every request but the icon ends with that error, even the one that would name another file.

**C95 Functions are what their definitions say.** *Model:* `make_chronology`, `make_production`, `cf_plotdata` on the grammar of C30 (`given`, `defines`). *Proof:* C30_reading for dictionary, file and text (the added null entry is one more definition); first match by induction; numerals by py_float_decimal; tables by the lemmas of C19. *Exception:* a file with a single definition of the kind raises TypeError, although the same text given directly is accepted; a definition of an unknown type is accepted, but its function fails when it is first used.

**C96 A chronology system uses the functions and the body it names.** *Model:* `make_system`, `make_equilibrium`. *Proof:* from C95 and C33. *Exception:* a body written as an abbreviation of several known bodies ends the program instead of being taken as unknown.

**C97 The randomness strip of a plot shows what the analysis wrote.** *Model:* `read_ra_file`, `make_strip`, `make_legend`, `strips` on the file that `write_ra` (C52) leaves. *Proof:* the written document is read by C30_reading; names of bins by three-figure numerals (exact for half integers below 100); sorting; ticks by C76; scale by C77. *Exception:* the results of a shapefile whose name ends in _CRATER are written under the name without it and are not found by the plot; a results file that was opened for writing and left empty makes the count unreadable, whether the strip is wanted or not; results for a single bin, or for two bins that begin at an odd half power of two, stop the plot with an exception, as does any strip without two whole powers of two between 2^-10 and 2^10 km among its edges.

**C98 The small plots of an age distribution show the reported ages.** *Model:* `plot_pdf`, `offset`, `plot_box`, `violin` on the distributions of C12 and the ticks of C43; slices with negative positions as in numpy. *Proof:* positions by searchsorted on a non-decreasing grid; the percentile lies after the first sample because of C13; ticks from C43_ticks, labels because six figures write 1, 2, 4, 5 or 10 times a power of ten exactly; rows from C78. *Exception:* if the first sample has more probability than lies below the lower age, nothing is shaded (and with more than half, the median is not marked), because the position before the first sample counts from the end; nothing is shaded either if no sample lies between the one-sigma ages.

**C99 Converting a spatial count to shapefiles keeps its craters, outline and radius.** *Model:* `write_shapefiles`, `polygon_to_pts`, `load_count` on the types of C88, C91 and C93; the files written are a list in order with the exception, if any. The library lists a ring from any vertex in either direction. *Proof:* the rims from C91, the names from C93, the radius from the text of the projection by reading its digits back; the polygon because the library sees outlines only. *Exception:* an area of several parts cannot be converted: the conversion stops with an AttributeError after writing the file of craters, the file of outlines is left incomplete and without projection, and the pair cannot be read.

**C100 A density is that of the diameter in its label.** *Model:* `ref_ratio`, `chronology_curves`, `density_title` on the functions of C01 and C19; the legend and table of C41 and C42. *Proof:* scaling by value_scale (a production function with another a0 is a multiple of itself) and N1_derivative; texts by the specifications of C62. *Exception:* with another reference diameter the legend and the columns of the summary table carry its name, but show the density at 1 km; the title of the axis rounds the reference diameter to whole kilometres (0.5 km becomes 0 km).

**C101 A fit is drawn as its isochron over its range, with its age beside its start.** *Model:* `overplot`, `fit_data`, `age_place`, `data_to_axis` on the isochrons of C24 and the ages of C27; what is drawn is a list of elements in drawing order. *Proof:* the curve by linspace and evaluate_value; text by C27_errors; the offset by arithmetic on the proportions of C40. *Exception:* if the user gives axes of other proportions than the automatic ones, the vertical offset of the age is not in twentieths of a decade of either axis (x from -3 to 2 and y from -4 to 0: 4/5 of that).

**C102 The sequence diagram has one row for each fit, in the order of the plots.** *Model:* `overplot_sequence_element` as `sequence_element`, `mix_colours`, `name_text`, the texts A and a of `make_legend_label`; ages and counts are those of the record of C41. *Proof:* rows by counting the visible fits before a plot; texts by C27_errors and an inductive description of line breaks.

**C103 On a crater diagram an epoch is the area between the isochrons of its boundaries.** *Model:* `epochs_oplot`, `epoch_areas` on the isochrons of C24 and the formats of C82. *Proof:* curves as in C101; inside by value_scale and monotonicity of N1. *Exception:* the isochron of the oldest boundary is never drawn, although the chronology diagram has a strong line at that boundary if its format has a b.

**C104 An isochron has its age beside it, along its direction.** *Model:* `plot_isochrons`, `label_places`, `mean` on the isochrons of C24 and the parser of C83. *Proof:* the mean lies between two of the points; monotonicity keeps it in the band; evenly spaced points come within a tenth of a decade of any place; the angle by the layout of C73. *Exception:* the label of an isochron that does not enter the diagram is written outside it; an isochron that lies wholly above the equilibrium function stops the plot with an IndexError, even if its label is hidden.

**C105 Settings hold what was given last; colours and markers follow them.** *Model:* `UpdateSettings` (`merge`, `set_all`, `convert_set`), `new_set`, `later_settings`, `scale_markers` on the layout of C73; the tables of colours and marker sizes are transcribed. *Proof:* induction over the merged dictionary without repeated keys and over the calls; the converted values characterised by relations; an iterate for repeated drawing. *Exception:* a refused change may already have changed other settings; a background or letter size changed after the plot set was made reaches neither colours nor line widths; and drawing a plot set again scales its markers again, so that on the standard page they shrink to four fifths at every drawing.

**C106 A plot shows the count of its file under its name.** *Model:* `convert_plot`, `complete_plot`, `update_plot`, `new_plot`; reading a count, its file name and decoding a range are arguments. *Proof:* the loop as in C105, then the cases of what was given; names by the lemmas of C93. *Exception:* a source given to an existing plot changes neither its count nor its name, and a range given later is not decoded.

**C107 The option bins marks the bins of the diagram.** *Model:* `mark_bins`, `mark_bin`, `edge_text` on the bins of C02 and the number formats of C26. *Proof:* the boundaries as grid points by C02; membership in the concatenated marks; residues modulo three and two. *Exception:* with axis ranges that are a list, as they are unless the plot set was scaled automatically, the option stops the plot with a TypeError.

**C108 The titles say what is shown and the function legend which functions.** *Model:* `x_title`, `y_title`, `title_lines`, `function_text`, `function_legend`. *Proof:* splitting inverts joining; the format without decimals is exact on whole numbers; case analysis. *Exception:* a reference diameter that is not a whole number is rounded in the title of the axis, half a kilometre to N(>0 km).

**C109 The histogram of a randomness analysis counts every trial once and shades one standard deviation.** *Model:* `plot_histogram` (`hist_edges`, `diff`, `histogram` of C02, `step_line`, `shade`, `interp`), `histogram_ticks`, `hist_labels` on `calculate_stats` of C50 and `ticks` of C43; colours and letter sizes are not modelled. *Proof:* the step line as corners over increasing edges; the smallest and largest trial bound the deviation from below, so that an edge lies in the band; interpolation where the line is level. *Exception:* trials that are all the same stop the plot with a ValueError.

**C110 A table of bins is read in the order of size, with all its numbers.** *Model:* `ReadBinnedFile` as `read_binned`, `MakeBinNcum` as `make_ncum`, `MakeBinMin` as `make_bin_min` on the structure files of C55; only the constructor would call the reader, and refuses the extension first. *Proof:* the sorted positions give the rows sorted by their key; cumulative sums by induction; neighbours by position. *Exception:* the cumulative numbers of such a table stay in the order from the largest bin to the smallest, so that the smallest bin gets the number of the largest; and a file with this extension is refused when a count is opened.

**C111 The chart of an analysis shows every bin at its diameters and its deviation on the right side.** *Model:* `plot_n_sigma` of an analysis as `n_sigma_chart`, `chart_box`, `deviation`, on `Hartmann_bins` and `n_sigma_scaling` of C76, C77 and the bins of C51; letter sizes, colours and the margin of the text at the left are not modelled. *Proof:* the bins as integers; labels read back by C97; ticks by C76 with the margin of the axis smaller than a half step. *Exception:* an analysis of a single bin, or of two bins with the only power of two between them, stops the plot with an IndexError; the chart as a panel reaches a tenth of its width out of the panel.

**C112 The map of a bin is reduced until it leaves the corner of the histogram free.** *Model:* `get_plot_reduction_factor` (`bounds`, `scale`, `normalise`, `shrink`), `panel_boxes`, `panel_text`; the predicate overlaps of shapely is an argument specified by what is inside outlines; the projection of the area is not modelled. *Proof:* bounds characterised by their corners; below two fifths the reduced outline lies left of the corner, so that 46 steps always suffice; texts by C51 and C63. *Exception:* an outline that holds the corner wholly, such as a square area, does not count as overlapping: it is not reduced at all and the histogram is drawn on the map.

**C113 The commands of a file are run in order, each with its own output.** *Model:* `source_cmds`, `demo` as `run_demo`, on the reading of text files of C29 and shlex of C30; the parser of the command line and the run itself are arguments, what is printed is not modelled. *Proof:* words by induction over the line; the list of runs determined by the file, cut at the first failure; two-figure numbers by their value. *Exception:* quotes do not keep words together in a file of commands run with source_cmds (a title of two words becomes two arguments with a quote in each), and a line of white space only is run as a command.

**C114 Diagrams with an age axis and maps have the size asked for.** *Model:* `dims_of`, `page_of`, `fractions`, `map_page`, `time_layout`, `letters_of` on the axis of C60 and its parts of C84; registering fonts, ticks and colours are not modelled. *Proof:* numerals contain no x, so that splitting gives the two numbers; field arithmetic on the boxes; the two kinds of axis of C84. *Exception:* any font other than the seven in a table, even if it is installed, stops every plot with a KeyError.

**C115 The colours of the ratio of ages and the texts of the uncertainty plot are where they belong.** *Model:* `shown_ratio`, `ratio_colour`, `ratio_labels`, `border_texts` on the borders of C85. *Proof:* logarithms as exponents of 5; the floor of the scaled logarithm; positions by C85.

**C116 Every part of a diagram that was asked for is drawn, in an order that leaves the data visible.** *Model:* `draw` as the list of parts it asks for (`time_parts`, `crater_parts`, `sequence_parts`, `plot_parts`), with the names of the functions of C108; what the parts consist of is in C41, C81-C83, C100-C104 and C117. *Proof:* the list as four groups, the plots as a decreasing list of indices; membership and order by the groups.

**C117 On a chronology diagram an epoch is the area under the curve between its ages.** *Model:* `chronology_oplot` with `fill_region`, `divide_at`, `name_at`, `age_height`, on the regions, lines, names and ages of C81 and C82 and the curve of C95; fonts and paper offsets are not modelled. *Proof:* np.interp on the thousand ages of the curve as a chord; monotonicity of density and rate; lists by induction. *Exception:* an epoch system with a single age cannot be drawn on a chronology diagram: it stops with an IndexError.

**C118 From the files to the age beside a fit.** *Model:* `age_from_files`: `make_chronology`, `make_production` (C95), `read_diam` (C55), `decode_range` (C08), `calculate_age` (C79) on the count that keeps its bins, `age_string` (C101) in sequence. curve_fit is any function that minimises the sum of squares of a model with an additive parameter. *Proof:* composition of C03, C06, C08, C27, C55, C79 and C95; the boundaries of the bins as points of the fixed grid; the minimum of the misfit of a polynomial as that of a quadratic; sorting of permuted lists.

**C119 What the standard deviation of adjacent area measures.** *Model:* `sdaa` with `to_xyz`, `to_lonlat`, `atan2`. SphericalVoronoi, create_polygon, intersection and area are parameters; of the diagram it is assumed that corners lie on the sphere and that indices are valid. *Proof:* atan and asin from the standard library, by quadrant; the standard deviation as root of the mean square; permutations of the cells.

**C120 Outlines of cells and lines to neighbours on the map.** *Model:* `outline`, `side`, `flatten`, `oplot_voronoi`, `oplot_neighbours`. pyproj geodesics are parameters that are assumed to divide a side evenly; shapes other than polygons (lines or points where a cell only touches the area) are not modelled. *Proof:* the sides of a ring as a list; each side as 21 places on its geodesic; steps by induction over the corners.

**C121 What one trial measures, and trials one after the other.** *Model:* `run_trial`, `evaluate_randomness`, `montecarlo_serial` on `sprinkle_discs` (C44), `kth_nearest_neighbour` (C45), `sdaa` (C119) and the pool (C46). *Proof:* composition; induction on the number of trials. *Exception:* with fewer than three points there is no mean second closest distance (the search fails or does not end).

**C122 What a significance says.** *Model:* `calculate_stats` of C50. *Proof:* sums of squares; the inequalities of Samuelson and Chebyshev.

**C123 Poisson ages follow the counts.** *Model:* `craterpdf`, `craterpdf_buffered`, `pdf_t`, `cumulative_fraction`, `median1sigma`, `count_range`, `sequence_probability` of C12-C15. *Proof:* the likelihood ratio of the two counts grows along the density axis; so do the ratios of partial sums, hence one cumulative distribution lies below the other; interpolation is monotone in the places and in the values of a table.

**C124 From the files to the Poisson age.** *Model:* `age_from_files` of C118 with the method Poisson: `make_chronology`, `make_production`, `read_diam`, `decode_range`, `calculate_age`, `craterpdf`, `median1sigma`, `age_string`. *Proof:* composition of C55, C95, C08, C79, C12, C13 and C27; C123 for the order; a bound on factorials (k! e^k <= e k^(k+1)) and on the steps of the density axis shows that the likelihood of an ordinary count is not negligible.

**C125 Density of an age and its ratio to the median.** *Model:* `instantaneous_ratio`, with `relative_probability`, `pdf_t` and `craterpdf` of C12-C13. *Proof:* the segment that holds an age is unique; densities are positive (C12); the likelihood ratio of two counts grows along the density axis (C123).

**C126 From the files to the age beside a differential fit.** *Model:* `age_from_files` of C118 with the method of the differential fit: bins, densities, corrections and weights as in `getplotdata` (C03, C09), `poly_F` for the isochron. *Proof:* composition of C08, C55, C79, C95 and C27; the isochron density F enters only as minus the derivative of the polynomial isochron (C20); the occupied bins as an ascending list of bin numbers; the minimum of the weighted misfit as that of a quadratic.

**C127 The lists of names that can be used.** *Model:* `print_functions`, `print_symbols`, `print_highlighted` (ListModel): what is printed, and the exception after it if there is one. The codes of the terminal are any function of the text. *Proof:* the names of the values of a kind by induction on the definitions read (C30, C95); first definitions and missing ones as in C95 and C96; C65 for symbols and colours. *Exception:* if there is only one definition of a kind, the list stops after the heading with a TypeError.

**C128 The correction for resurfacing raises all cumulative points of the range by one value, found by repeated fits of the isochron.** *Model:* `resurf_iter`, `resurf_adj`, `plotdata_of`, `getplotdata` and `requested_bin_range` with resurfacing, `as_prodfn`, `calculate_age` with CFit true. The specification is the sequence of additions `added`. *Proof:* by induction on the rounds the model of the loop walks along `added`; every fit on the way is the weighted mean of C23/C118 because the points stay positive: the largest diameter has the smallest density, and is put on an isochron; C79 for the age; composition with C08, C55, C95 and C27 as in C118 for the text from files. *Exception:* the iteration stops at an absolute change, so that for sparse counts, where already the first value is below one crater in 10000 km2, it ends after one step, short of the value that would put the points on an isochron; and a fitted isochron of exactly 1 crater of 1 km per km2 is mistaken for none given.

## 5. What is not modelled

* Drawing itself: calls into matplotlib, styles, fonts, colours on paper, text placement, the PDF/PNG/SVG contents
  (`Craterplot.overplot`, `Craterplotset.draw`, `create_time_axis_plotspace`, the figures of `Randomnessanalysis`,
  `Epochs.oplot`, `shp_plot_polygon`, `create_map_plotspace`).  Modelled are the numbers and texts handed over.
* floating-point rounding, overflow, warnings; Unicode beyond single bytes; locale.
* argparse itself (the result of parsing is the input of the model; the option classes of the program are modelled);
  printed messages, except where a property is about them.
* scipy, numpy.random, healpy/HEALPix geometry, pyproj, spherely, shapefile I/O: arguments of the model.
* Unreachable code: `ReadBinnedFile`, `MakeBinMin` (disabled by a comment in the constructor),
  `calculate_instantaneous_probability_ratio`, `source_cmds`, `relative_probability` outside the sequence table.
* Desktop icon, fonts, `get_documents_path` (an environment argument in C87), progress bar text, test scripts.

### Further observations about the code, made while modelling

* C23: for differential plots the errors given to curve_fit are used as weights.
* Cratercount: a bin that holds only craters of fraction 0 is dropped from the event counts; `resurfacing=None` passes the
  test for the correction like a given value; the constructor turns every exception into SystemExit.
* ReadDiamFile: invalid fractions or a zero area only set an unused message.
* Randomness analysis: stored trials computed with other settings are reused (C49 speaks of their number only).
* `functions.txt` has a stray quotation mark in line 405, harmless to the reader.
* `%sample%/` in a source is replaced only for the first reader in `convert_format`.
* Decoding a range treats limits within 1e-7 (absolute) of a bin boundary as that boundary, also for tiny diameters.

## 6. Axioms

### Axioms per theorem

`Print Assumptions` of each theorem lists exactly the axioms given by the letters: r = `ClassicalDedekindReals.sig_forall_dec`, n = `ClassicalDedekindReals.sig_not_dec`, f = `FunctionalExtensionality.functional_extensionality_dep`, c = `Classical_Prop.classic`; "-" = closed under the global context. All four come with the real numbers of the standard library (directly, or through its trigonometric functions, integrals and limits). No theorem rests on anything else.

* C01: bins_cover_all_diameters [cfnr]
* C02: bins_consecutive_on_fixed_grid, bins_strictly_ascending, bins_of_two_counts_comparable [cfnr]
* C03: binning_conserves_craters, each_crater_in_exactly_one_bin, binning_total_and_exact [cfnr]
* C04: cumulative_counts, unbinned_counts [cfnr]
* C05: binning_order_independent [cfnr]
* C06: history_independent_refuted, getplotdata_history_independent, decode_range_history_independent, calls_never_change_the_craters, prebinned_counts_immutable [cfnr]
* C07: bin_numbers_address_populated_bins [cfnr]; bin_numbers_any_bins [fnr]; no_populated_bin [fr]
* C08: snapping_extends_to_nearest_boundaries, snapping_idempotent, without_snapping_only_ordered [cfnr]
* C09: fit_counts_craters_of_the_range, fit_and_poisson_count_the_same_craters [cfnr]
* C10: plotted_points, values_scale_inversely_with_area, relative_error, differential_relative_error_refuted, hartmann_is_root2_incremental_refuted [cfnr]
* C11: correction_exact_for_power_laws, exponent_of_power_law, correction_symmetric, correction_relative_to_one, correction_continuous_refuted [cfnr]
* C12: pdf_is_a_distribution, pdf_is_the_poisson_likelihood, when_the_pdf_exists, every_count_has_a_pdf_refuted, buffered_pdf_is_a_distribution [cfnr]; buffered_needs_perimeter [-]
* C13: percentiles_ordered_and_in_range, percentile_inverts_the_cdf, cumulative_fraction_is_a_cdf [fr]; median1sigma_order [fnr]
* C14: gaussian_percentiles [fnr]
* C15: sequence_probability_in_unit_interval, sum_of_both_probabilities, complementary_without_first_weight [fr]; complementary_refuted [cfnr]
* C16: counts_half_open_range, adjacent_ranges_add, adjacent_ranges_add_binned [fr]
* C17: density_starts_at_zero, rate_is_the_derivative [fnr]; density_increases [cfnr]; needs_four_coefficients [-]
* C18: exact_at_table_ages, within_one_step, monotone, strictly_monotone_inside, clamped, a0_inverse [cfnr]
* C19: density_at_1km, a0_scales_every_presentation [cfnr]
* C20: presentations_of_one_function, table_R_is_cube_times_F, table_differential_at_bin_means [cfnr]
* C21: given_a0_replaces_own, own_a0_when_omitted, table_honours_every_a0, zero_a0_is_ignored_refuted [cfnr]
* C22: table_gives_table_densities, incremental_is_cumulative_difference [cfnr]
* C23: fit_is_the_weighted_least_squares_optimum, limits_bracket_the_fit [cfnr]; empty_range_exits [-]
* C24: isochron_without_equilibrium, isochron_cut_at_equilibrium, below_equilibrium_range_refuted [cfnr]
* C25: pieces, lossless, replace_extension, directory, brackets_refuted, parent, list [-]
* C26: correctly_rounded, shows_all_figures [cfnr]
* C27: value_and_unit, errors, forced_unit, simple, below_1000_refuted, one_figure_with_errors_fails [cfnr]; at_most_1000 [fr]
* C28: words_recovered, quoting_all, strip_quotes, final_backslash_refuted [-]
* C29: round_trip, single_empty_line_refuted, append, other_files_unchanged, comments_dropped, trailing_comment_stripped, no_comment_untouched [-]
* C30: reading, file, lines, table, repeated_list_refuted, empty_value_refuted, text_block_refuted, nested_refuted [-]
* C31: additive, diam_input_refuted [cfnr]; exact [fr]
* C32: bins, upper_edges, computed_bins, gap_refuted, last_bin_refuted, single_bin_refuted [cfnr]; exact [fr]
* C33: decode, full_name, shipped_names, full_name_refuted [-]
* C34: carry_over, source, carry_over_refuted [-]
* C35: round_trip, written, round_trip_refuted [-]
* C36: settings, formats, settings_refuted [-]
* C37: found, relative, found_refuted [-]
* C38: selection, none [-]
* C39: pairs, repeated [-]
* C40: shows_all_data, smallest, padding, forced, no_plot_refuted, empty_first_refuted [cfnr]
* C41: one_entry_per_plot, count_text, names_only_refuted, binned_fractions_refuted, underscore_refuted [cfnr]
* C42: rows, no_ages, text, mixed_types_refuted, comma_refuted [cfnr]
* C43: ticks, two_ticks_refuted, no_extent [cfnr]
* C44: population, ends, no_room_refuted, none_refuted [fr]
* C45: exact, total, few_points_refuted, few_points_never_end, missing_neighbour_refuted [fr]
* C46: trial_order, completes, same_takers_same_measures, draws, one_worker, distinct_draws_refuted, same_again_refuted, single_processor_refuted, more_processors [-]
* C47: progress_bounds, no_overlap, counts_all_refuted [-]
* C48: between_writes, all_finished, inside_write_refuted [cfnr]
* C49: never_fewer, as_many_as_asked, enough_unchanged, repeat_unchanged, other_measures, missing_only_refuted [-]
* C50: percentile, percentile_grows, extremes [fnr]
* C51: partition, enough_craters, unknown_bin [cfnr]
* C52: roundtrip, exact, stable, no_bins_refuted [cfnr]
* C53: spatial_fraction_refuted, count_keeps_fractions [cfnr]; any_file_refuted [fr]
* C54: outlines, island_refuted, second_exterior_refuted [cfnr]
* C55: diam, buffered, scc [fr]
* C56: area_fraction, segment, inverse [cfnr]
* C57: outputs, outputs_refuted [-]
* C58: transparent, items [-]
* C59: linear, defaults, type_and_range_refuted, constant, poly [fr]
* C60: time_axis [cfnr]
* C61: cells_complementary [fr]; table_is_written_refuted [cfnr]
* C62: plain, scientific, errors [cfnr]; exponent [fr]
* C63: range [cfnr]
* C64: low, high, very_high_refuted [cfnr]
* C65: values, numbers_refuted [-]
* C66: given_name, default_name, default_order, directory_refuted [-]
* C67: area_and_perimeter, large_area_refuted [cfnr]
* C68: minor_ticks_refuted, many_refuted [cfnr]
* C69: measures_named, default [-]; empty_refuted [cfnr]
* C70: cells, few_trials_refuted [cfnr]
* C71: panels [fnr]; selection [-]
* C72: in_limits [cfnr]
* C73: strip_fits, forced_refuted [cfnr]; offset [fr]
* C74: decade_length, fits, one_dimension, Hartmann_refuted, randomness_refuted [fr]
* C75: natural_ticks [cfnr]
* C76: Hartmann_ticks, needs_two_ticks, no_unit_refuted [cfnr]
* C77: scale [cfnr]
* C78: rows [fr]
* C79: any_fit, cumulative_fit, differential_fit, no_lower_limit, differential_lower_limit_refuted, poisson, unlimited_range, buffered_needs_perimeter [cfnr]
* C80: boundaries_from_densities, denser_is_older, ages_given, unknown_name, no_ages, single_definition_in_a_file_refuted [cfnr]
* C81: names_in_the_visible_part, every_shown_epoch_is_named, two_spaces_refuted, too_many_names_refuted [fnr]; names_beside_the_chronology [fr]
* C82: formatting_is_decoded, entry_without_digit_refuted, lines [-]; shading [r]; shading_covers [fr]; ages_written [cfnr]
* C83: isochrons_listed, ages_are_not_negative [fr]
* C84: columns_at_their_ages, expected_number, cell [cfnr]; rows_at_their_areas, grid_is_fine_enough [fr]
* C85: covered, covered_without_equilibrium, equilibrium_age, older_than_the_axis_refuted, globe_below_the_axis_refuted [cfnr]
* C86: colours_of_counts, labels_differ, stretched_colours_refuted [fr]; text_metres, text_kilometres_not_closed_refuted [cfnr]
* C87: user_functions_are_added, builtin_values_first, no_user_functions, setting_takes_effect, plain_names_keep_their_meaning, names_with_parentheses_refuted, unreadable_file_refuted, configuration_of_comments_refuted, needs_final_newline_refuted, configuration_place, no_place_refuted [-]
* C88: craters, area, radii_must_agree, flat_outline_refuted [cfnr]; positions [-]; larger_areas [fnr]
* C89: vertices_inside [fr]; both_poles_refuted, antimeridian_refuted [fnr]; edges_refuted [cfnr]
* C90: on_the_sphere, distance [fnr]
* C91: rims, radius, rims_independent [fnr]
* C92: frame, inside [fr]
* C93: named_after_the_source, source_kept, named_by_the_user, user_name_ignored_refuted, no_such_conversion, directories_changed_refuted, map_repeated, map_repeated_refuted, shapes_found_again, area_file, untagged_shapes_refuted [-]
* C94: complete_run, failed_output, command_file_last, one_request, conversion_only, functions_unreadable_refuted, command_file_before_the_map_refuted, demonstrations_apart [-]
* C95: chronology, single_definition_in_a_file_refuted [fnr]; chronology_incomplete [fr]; unknown_name, production, table, unknown_type_refuted, production_incomplete, plotted_curve [cfnr]
* C96: system, densities, unknown_system, unknown_functions, equilibrium, ambiguous_body_refuted [cfnr]; user_definitions [-]
* C97: points, bands, grid, legend_possible, narrow_refuted, rows, strips [cfnr]; sought, shapefile_refuted, unfinished_refuted, measures [-]
* C98: shading, first_sample_refuted, narrow_refuted, axis, clear_of_text [cfnr]; violin, rows [fr]
* C99: shapefiles_written [fnr]; read_again, several_parts_refuted [cfnr]
* C100: chronology_curves, chronology_1km, legend, legend_refuted, summary, summary_refuted [cfnr]; title, title_refuted [fr]
* C101: data, fit, offset, offset_refuted [cfnr]
* C102: rows, text [cfnr]
* C103: areas, inside, last_boundary_refuted [cfnr]
* C104: label, outside_refuted, above_equilibrium_refuted [cfnr]; direction [fr]
* C105: history, accepted, refused, refused_changes_refuted, new, later_refuted, markers, redraw_refuted [fr]
* C106: plot, needs_count, later_source_refuted, later_range_refuted [fr]
* C107: bins [cfnr]; list_refuted [-]
* C108: title [-]; axes, reference_refuted, functions, no_functions [fr]
* C109: histogram, no_spread_refuted, ticks [cfnr]
* C110: bins, cumulative_refuted, not_accepted, limits [fnr]
* C111: chart, reading, possible, narrow_refuted [cfnr]; box [fr]
* C112: reduction, boxes, square_refuted [fr]; text [cfnr]
* C113: in_order, outputs_apart, words, unquoted, demonstrations, quotes_refuted, white_line_refuted [-]
* C114: map, colour_bar, refused, letters, font_refuted [fr]; age_axis [cfnr]
* C115: blank, colours, mirrored, labels, labels_in_range, whole_globe, saturation [cfnr]
* C116: parts, order, curves, missing [cfnr]
* C117: areas, dividers, names, ages, last_curve, one_age_refuted [cfnr]
* C118: order_of_craters, cumulative_fit [cfnr]
* C119: places, measure, shared_out, order, radius [cfnr]
* C120: outline, no_gaps, every_part [fnr]; neighbours [-]
* C121: trial_m2cnd, trial_sdaa, other_measure, few_points_refuted [cfnr]; serial [-]
* C122: units, one_of_them, few_as_far, defined [fnr]
* C123: ages_follow_counts, added_craters, larger_area, probably_older, buffered, usual_counts [cfnr]
* C124: poisson_age, added_craters [cfnr]
* C125: density_of_an_age, ratio_to_the_median, ratios_are_likelihood_ratios, older_ages_gain [cfnr]
* C126: differential_fit [cfnr]
* C127: listing, single_definition_refuted, symbols_and_colours, highlights [-]; listed_names_are_known [cfnr]
* C128: correction, settles, on_an_isochron, age, sparse, converged_refuted, from_files [cfnr]
