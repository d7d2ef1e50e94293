{"id": "C01", "title": "Generated bins cover the whole count", "statement": "For any non-empty list of positive diameters, any logarithmic or pseudo-log binning and any bin offset, the bin boundaries returned by Cratercount.generate_bins start at or below the smallest diameter and end strictly above the largest one, so no measured crater can fall outside the histogram.", "quantifier": "all non-empty lists of positive diameters, all binning styles with k bins per decade (k>0) and pseudo-log, all real offsets", "why_tests_cant": "The failure would occur at particular positions of the extreme diameters relative to decade and bin edges; a finite set of diameters cannot exclude all of them.", "anchors": ["src/craterstats/Cratercount.py:generate_bins", "src/craterstats/gm/maths/range.py:range"]}
{"id": "C02", "title": "Bins lie on a universal grid, consecutive and tight", "statement": "The boundaries returned by generate_bins are strictly increasing, consecutive members of a grid that depends only on the binning style and offset (never on the data), and contain no more than one superfluous bin at either end; hence different counts binned the same way are comparable bin by bin.", "quantifier": "all non-empty positive diameter lists, binnings, offsets; all pairs of counts", "why_tests_cant": "Comparability is a relation between every pair of data sets; tests compare a few literal boundaries.", "anchors": ["src/craterstats/Cratercount.py:generate_bins"]}
{"id": "C03", "title": "Binning conserves craters and fractions", "statement": "After apply_binning every crater is counted in exactly one bin, the one with d_min <= D < d_max: n_event sums to the number of craters, n sums to the sum of their fractions, and each bin's n and n_event are the totals over exactly its own craters.", "quantifier": "all lists of (diameter, fraction), all binnings and offsets", "why_tests_cant": "Off-by-one errors at boundaries show only for diameters lying on an edge; the statement is about every list of any length.", "anchors": ["src/craterstats/Cratercount.py:apply_binning"]}
{"id": "C04", "title": "Cumulative counts are counts of craters at least that large", "statement": "For every bin, ncum is the total fraction (ncum_event the number) of craters with diameter >= the bin's lower edge; ncum never increases with diameter and its first value is the total of the count.", "quantifier": "all counts, all binnings, all bins", "why_tests_cant": "An ordering or accumulation slip may cancel on a small example; the claim is for each bin of each count.", "anchors": ["src/craterstats/Cratercount.py:apply_binning", "src/craterstats/Cratercount.py:MakeBinNcum"]}
{"id": "C05", "title": "Binning does not depend on the order of the craters", "statement": "Permuting the craters of a count (diameters together with their fractions) leaves the bins, n, n_event, ncum and ncum_event unchanged, with or without binning.", "quantifier": "all counts and all permutations of them", "why_tests_cant": "n! permutations of an unbounded list.", "anchors": ["src/craterstats/Cratercount.py:apply_binning", "src/craterstats/Cratercount.py:ReadDiamFile"]}
{"id": "C06", "title": "Plot data do not depend on earlier calls", "statement": "getplotdata(presentation, binning, ...) returns the same values whatever sequence of apply_binning / decode_range / getplotdata / WriteStatFile calls was made on the Cratercount before. Exception present in this commit (proved as a *_refuted theorem): apply_binning(binning, offset) caches under the binning name only, so a later getplotdata/decode_range with the same binning name uses the offset bins; without offsets the claim holds for every history.", "quantifier": "all finite histories of public calls on one Cratercount object", "why_tests_cant": "The binning is cached in the object, so the result is a function of the whole history, of unbounded length.", "anchors": ["src/craterstats/Cratercount.py:getplotdata", "src/craterstats/Cratercount.py:decode_range", "src/craterstats/Cratercount.py:apply_binning"]}
{"id": "C07", "title": "Bin-numbered ranges bN address the populated bins", "statement": "A range limit 'bN' given to decode_range denotes the N-th populated bin counted from the small end (N>0) or from the large end (N<0), numbers beyond the ends being clamped to the first/last populated bin; the decoded range is ordered even if the limits are given in reverse.", "quantifier": "all binned counts, all integer bin numbers, all pairs of limits", "why_tests_cant": "Index wrap-around (negative indices, clamping) has to be right for every number of bins and every N.", "anchors": ["src/craterstats/Cratercount.py:decode_range"]}
{"id": "C08", "title": "Snapping extends a range outward to bin boundaries", "statement": "decode_range returns limits that are bin boundaries, enclose the requested range (up to the stated relative tolerance of 1e-6, and clamped to the extent of the bins), are the nearest such boundaries, and are unchanged by a second application.", "quantifier": "all binned counts and all requested ranges", "why_tests_cant": "The interesting requests lie on or next to bin edges; the claim is over a continuum.", "anchors": ["src/craterstats/Cratercount.py:decode_range"]}
{"id": "C09", "title": "Fits and Poisson evaluation use the same craters", "statement": "For a range whose limits are bin boundaries, the number of craters in the binned points selected by getplotdata(range) equals the number of craters counted by Craterpdf for the same range: both are the craters with lo <= D < hi.", "quantifier": "all counts, binnings, and pairs of bin boundaries lo < hi", "why_tests_cant": "Two independently written selection rules (mean strictly inside / half-open interval) agree only if every boundary case agrees.", "anchors": ["src/craterstats/Cratercount.py:getplotdata", "src/craterstats/Craterpdf.py:__init__"]}
{"id": "C10", "title": "Presentations are consistent views of one histogram", "statement": "In getplotdata, cumulative y is ncum/area; the Hartmann value is n/area scaled to a root-2 bin; R is D^3 times the uncorrected differential density; every y is inversely proportional to area; the relative error bar of a point equals 1/sqrt(number of craters it stands on). Exception present in this commit (proved as a *_refuted theorem): differential error bars are not bias-corrected, so their relative error is the bias factor times 1/sqrt(n); Hartmann values in root-2 bins are 2^(1/4) times the incremental density.", "quantifier": "all counts, all bins, all presentations", "why_tests_cant": "An algebraic identity between continuous quantities for every bin of every count.", "anchors": ["src/craterstats/Cratercount.py:getplotdata"]}
{"id": "C11", "title": "Bin-bias correction is exact for power laws", "statement": "For a population whose cumulative density is a power law D^k (k not 0), the differential density of a bin divided by bin_bias_correction(ratio,k) equals the true differential density at the geometric mean of the bin; the correction is 1 at |k|=1, symmetric in k, below 1 for |k|<1 and above 1 for |k|>1, and varies continuously with k. Exception present in this commit (proved as a *_refuted theorem): continuity in k fails at 0: for |k|<1e-5 the function returns 1 although the limit is below 1.", "quantifier": "all bin ratios > 1, all real exponents, all bins", "why_tests_cant": "A real-analytic identity over a continuum of exponents and bin widths.", "anchors": ["src/craterstats/miscellaneous.py:bin_bias_correction", "src/craterstats/Cratercount.py:getplotdata"]}
{"id": "C12", "title": "Poisson age pdf is a probability distribution", "statement": "For every crater count, range, area and chronology, the age pdf is non-negative, its weights over the time grid sum to 1, the cdf is non-decreasing with final value 1, and the time grid is non-decreasing. Exception present in this commit (proved as a *_refuted theorem): if the likelihood sums to less than 1e-30 and the count exceeds the expected number at the end of the age axis, building the pdf raises IndexError.", "quantifier": "all k, areas, production functions and increasing chronologies, all grid sizes", "why_tests_cant": "Normalisation of an arbitrary-length numerical density for every input.", "anchors": ["src/craterstats/Craterpdf.py:__init__"]}
{"id": "C13", "title": "Age percentiles are ordered and in range", "statement": "Craterpdf.t is non-decreasing in the requested cumulative fraction and stays within the time grid; hence lower 1-sigma <= median <= upper 1-sigma, and median1sigma reports them in the order (median, lower, upper).", "quantifier": "all pdfs, all pairs of fractions", "why_tests_cant": "Monotonicity of an interpolated inverse of an arbitrary (possibly flat) cdf.", "anchors": ["src/craterstats/Craterpdf.py:t", "src/craterstats/Craterpdf.py:median1sigma"]}
{"id": "C14", "title": "Gaussian percentiles are symmetric", "statement": "gaussian_percentiles(n) has 2n+1 entries, strictly increasing, with 1/2 in the middle and entry i plus entry 2n-i equal to 1.", "quantifier": "all n, any increasing error function", "why_tests_cant": "Quantified over all n.", "anchors": ["src/craterstats/Craterpdf.py:gaussian_percentiles"]}
{"id": "C15", "title": "Sequence probabilities are complementary", "statement": "For two age pdfs on the same time grid, P(A older than B) and P(B older than A) as given by calculate_sequence_probability lie between 0 and 1 and sum to 1. Exception present in this commit (proved as a *_refuted theorem): np.roll wraps the last cumulative value round to the first cell, so P(A<B)+P(B<A) exceeds 1 by half the sum of the two first weights (numerically tiny but never 0).", "quantifier": "all pairs of pdfs on a common grid of any length", "why_tests_cant": "An identity over all pairs of distributions.", "anchors": ["src/craterstats/Craterpdf.py:calculate_sequence_probability"]}
{"id": "C16", "title": "Counting ranges are half-open and additive", "statement": "The crater number k used by Craterpdf counts lo <= D < hi; for lo <= mid <= hi the counts of [lo,mid) and [mid,hi) add to that of [lo,hi), so adjacent ranges never share or lose a crater.", "quantifier": "all counts and all triples of limits", "why_tests_cant": "Boundary behaviour at every possible diameter.", "anchors": ["src/craterstats/Craterpdf.py:__init__"]}
{"id": "C17", "title": "Chronology and its rate function are consistent", "statement": "N1(t)=0 at t=0, is strictly increasing, and phi(t) is exactly its derivative, for any positive coefficients.", "quantifier": "all t and all positive chronology coefficients", "why_tests_cant": "Calculus identity over a continuum.", "anchors": ["src/craterstats/Chronologyfn.py:N1", "src/craterstats/Chronologyfn.py:phi"]}
{"id": "C18", "title": "Age inversion of the chronology", "statement": "t(n1=N1(t0)) returns t0 exactly at the table's ages and within one table step of t0 for every t0 between 0 and 5 Ga; t is non-decreasing in N1 and clamped to [0,5]; t(a0) and a0(t) are inverse in the same sense.", "quantifier": "all t0 in [0,5], all positive densities, all increasing chronologies", "why_tests_cant": "Error bound between table points must hold on a continuum.", "anchors": ["src/craterstats/Chronologyfn.py:t", "src/craterstats/Chronologyfn.py:a0"]}
{"id": "C19", "title": "a0 is the log density at 1 km, and scales every presentation", "statement": "For polynomial production functions evaluate('cumulative', 1 km, a0) = 10^a0, and replacing a0 by a0+x multiplies the cumulative, differential, R-plot and Hartmann values at every diameter by 10^x.", "quantifier": "all diameters, all coefficients, all a0 and x", "why_tests_cant": "A scaling law over continuous parameters.", "anchors": ["src/craterstats/Productionfn.py:evaluate", "src/craterstats/Productionfn.py:polynomial_C"]}
{"id": "C20", "title": "Differential production function is minus the derivative of the cumulative", "statement": "For every polynomial production function F(D) = -dC/dD, R(D) = D^3 F(D) and H(D) = D F(D) (2^(1/4)-2^(-1/4)).", "quantifier": "all polynomial coefficients (any degree) and all D>0", "why_tests_cant": "Calculus identity for polynomials of arbitrary degree.", "anchors": ["src/craterstats/Productionfn.py:polynomial_F", "src/craterstats/Productionfn.py:polynomial_R", "src/craterstats/Productionfn.py:polynomial_H"]}
{"id": "C21", "title": "evaluate honours the a0 it is given", "statement": "evaluate(presentation, d, a0) uses the supplied a0 for every numeric a0 (the function's own a[0] only when a0 is omitted). Exception present in this commit (proved as a *_refuted theorem): for polynomial production functions a0=0 (one crater per km2) is treated as omitted and the function's own first coefficient is used.", "quantifier": "all a0, including 0", "why_tests_cant": "The exceptional value is a single point of the continuum.", "anchors": ["src/craterstats/Productionfn.py:evaluate"]}
{"id": "C22", "title": "Tabular production function reproduces its table", "statement": "A root-2 tabular production function, normalised to a0, gives cumulative density 10^a0 at 1 km, and its incremental densities stand in the same ratios as the table it was built from.", "quantifier": "all tables of positive incremental densities containing a 1 km row, all a0", "why_tests_cant": "Arbitrary table length and values.", "anchors": ["src/craterstats/Productionfn.py:tabular_prepare", "src/craterstats/Productionfn.py:tabular_C", "src/craterstats/Productionfn.py:tabular_H"]}
{"id": "C23", "title": "Fitting recovers and brackets a0", "statement": "fit returns the weighted least-squares optimum; if the data lie exactly on the production function for some a0 it returns that a0; lower <= best <= upper.", "quantifier": "all data sets of any size with positive errors", "why_tests_cant": "Optimality over all candidate values.", "anchors": ["src/craterstats/Productionfn.py:fit"]}
{"id": "C24", "title": "Isochrons are cut at the equilibrium function", "statement": "getisochron with an equilibrium function keeps exactly the diameters at which the isochron lies below 0.8 of the equilibrium density tabulated at the nearest smaller diameter. Exception present in this commit (proved as a *_refuted theorem): isochron points at or below the smallest tabulated equilibrium diameter are compared with the equilibrium value at the LARGEST diameter (index -1 wraps).", "quantifier": "all isochron and equilibrium tables", "why_tests_cant": "Index arithmetic at the edge of arbitrary tables.", "anchors": ["src/craterstats/Productionfn.py:getisochron", "src/craterstats/gm/idl/value_locate.py:value_locate"]}
{"id": "C25", "title": "File names decompose losslessly", "statement": "gm.filename(f,'pne') returns f; path, name and extension are disjoint consecutive pieces, the extension is '' or a dot and 1..max word characters, and replacing the extension ('pn1', ext) changes nothing before it.", "quantifier": "all file names (without newlines)", "why_tests_cant": "The split is done by a backtracking regular expression over arbitrary strings.", "anchors": ["src/craterstats/gm/file/filename.py:filename"]}
{"id": "C26", "title": "sigfigs prints the correctly rounded value", "statement": "gm.sigfigs(n,d) is a plain decimal numeral denoting exactly the value of n rounded to d significant figures, whatever the magnitude or sign.", "quantifier": "all decimal mantissas, all exponents, all d>=1", "why_tests_cant": "Different branches for each relation of exponent to digits; unbounded exponents.", "anchors": ["src/craterstats/gm/string/sigfigs.py:sigfigs"]}
{"id": "C27", "title": "Ages are printed in a sensible unit", "statement": "str_age chooses the largest unit in which the age is at least 1 (or the simple/forced unit), and the printed number times the unit is the age rounded to the requested significant figures; the printed number is below 1000. Exception present in this commit (proved as a *_refuted theorem): an age within half a unit of its last figure below 1000 is printed as 1000 in the smaller unit (0.9999 Ga prints as 1000 Ma); with sf=1 and errors the call raises ValueError.", "quantifier": "all positive ages below 1000 Ga", "why_tests_cant": "Rounding across a unit boundary occurs only in small intervals.", "anchors": ["src/craterstats/miscellaneous.py:str_age"]}
{"id": "C28", "title": "Quote handling is invertible", "statement": "Joining any words, quoting those with separators, and splitting with gm.quoted_split gives the words back; strip_quotes removes exactly one matching pair. Exception present in this commit (proved as a *_refuted theorem): a quoted word that contains a backslash just before its closing quote (a Windows directory name) swallows the closing quote and the words after it.", "quantifier": "all word lists", "why_tests_cant": "Arbitrary strings through a regular expression.", "anchors": ["src/craterstats/gm/string/quoted_split.py:quoted_split", "src/craterstats/gm/string/strip_quotes.py:strip_quotes"]}
{"id": "C29", "title": "Text files round-trip", "statement": "read_textfile(write_textfile(lines)) gives the lines back; ignore_hash drops exactly the comment lines and keeps the order of all others. Exception present in this commit (proved as a *_refuted theorem): a file of exactly one empty line is read back as no lines.", "quantifier": "all line lists", "why_tests_cant": "Arbitrary content.", "anchors": ["src/craterstats/gm/file/read_textfile.py:read_textfile", "src/craterstats/gm/file/write_textfile.py:write_textfile"]}
{"id": "C30", "title": "Text structures keep every value in order", "statement": "Reading 'key = value' lines yields for each key its value, or for a repeated key the list of its values in file order; a table yields for each column the list of its cells in row order. Exception present in this commit (proved as a *_refuted theorem): a key written several times whose last value is a list has its earlier values put into that list instead; an empty value followed by an indented line takes that line as its value; a quoted text block ends at the last line of the file that starts with a quotation mark; structures inside structures are cut off.", "quantifier": "all sequences of assignments, all tables", "why_tests_cant": "Arbitrary repetition patterns and table sizes.", "anchors": ["src/craterstats/gm/file/read_textstructure.py:read_textstructure"]}
{"id": "C31", "title": "Merging crater counts is additive", "statement": "merge_cratercounts of files (in any supported format) writes a .diam whose craters are all the craters of the inputs with their fractions, and whose area is the sum of areas. Exception present in this commit (proved as a *_refuted theorem): fractions and areas keep six significant figures and diameters the printed form; a .diam input has no perimeter, so merging with one raises TypeError instead of writing the file.", "quantifier": "all non-empty lists of input counts in any supported format", "why_tests_cant": "Arbitrary numbers and mixtures of inputs.", "anchors": ["src/craterstats/miscellaneous.py:merge_cratercounts"]}
{"id": "C32", "title": "Exported statistics read back the same", "statement": "A .stat file written by WriteStatFile and read by Cratercount gives the same bins (d_min, d_max), counts and cumulative counts. Exception present in this commit (proved as a *_refuted theorem): numbers keep five figures; bins without craters are not written, so a bin before a gap is read as reaching to the next populated bin; the last upper edge is extrapolated from the last two lower edges; a file with one populated bin cannot be read (IndexError).", "quantifier": "all binned counts", "why_tests_cant": "Depends on gaps between populated bins, in any pattern.", "anchors": ["src/craterstats/Cratercount.py:WriteStatFile", "src/craterstats/Cratercount.py:ReadStatFile", "src/craterstats/Cratercount.py:MakeBinGeometricMean"]}
{"id": "C33", "title": "Command-line abbreviations resolve predictably", "statement": "decode_abbreviation returns an item of which the abbreviation is a case-insensitive subsequence, of minimal length, first in list order; a full name always resolves to an item with that name; without allow_ambiguous the match is unique; no match is an error. Exception present in this commit (proved as a *_refuted theorem): where ambiguity is not allowed a full name that is a subsequence of another item is rejected; no list shipped with the program contains such a pair.", "quantifier": "all option lists and all abbreviations of letters and digits", "why_tests_cant": "Arbitrary strings and lists.", "anchors": ["src/craterstats/cli.py:decode_abbreviation"]}
{"id": "C34", "title": "Plot options carry over as documented", "statement": "In a sequence of -p options each overplot inherits exactly the carry-over properties from the previous one unless overridden, all other properties start from the defaults, and type is inherited only if the source is. Exception present in this commit (proved as a *_refuted theorem): type is inherited even when a new source is given; and with -i a source inherited from the previous overplot has the directory of the command file put in front of it a second time.", "quantifier": "all sequences of -p dictionaries", "why_tests_cant": "A fold over an unbounded sequence of option dictionaries.", "anchors": ["src/craterstats/cli.py:construct_plot_dicts", "src/craterstats/constants.py:CARRY_OVER_PROPERTIES"]}
{"id": "C35", "title": "A saved .cs file reproduces its command", "statement": "Reading back with -i the command file written next to the output yields exactly the argument list of the original command. Exception present in this commit (proved as a *_refuted theorem): an empty argument (-title '') raises IndexError before anything is written; an argument that starts with a dash and needs quoting (-title '-my title') is split on re-reading; a line break inside an argument followed by a blank line or # is lost.", "quantifier": "all argument lists", "why_tests_cant": "Quoting of arbitrary strings.", "anchors": ["src/craterstats/cli.py:main", "src/craterstats/cli.py:LoadFromFile"]}
{"id": "C36", "title": "Explicit settings take effect", "statement": "Any plot-set option given on the command line has the value given (text_halo, output formats and the extension of -o included); options not given have their defaults. Exception present in this commit (proved as a *_refuted theorem): -text_halo 0 is overridden by the default; with -f the extension of -o is dropped; in Hartmann plots -xrange and -yrange are ignored.", "quantifier": "all option sets", "why_tests_cant": "Combinations of options.", "anchors": ["src/craterstats/cli.py:construct_cps_dict"]}
{"id": "C37", "title": "-i finds the file the user names", "statement": "If the file named by -i exists relative to the directory in which craterstats is started, it is the file that is read. Exception present in this commit (proved as a *_refuted theorem): a relative name with an existing directory part is looked up inside that directory a second time (the program changes into it first), so -i runs/a.cs fails.", "quantifier": "all file systems, working directories and path names", "why_tests_cant": "Depends on the whole file system state.", "anchors": ["src/craterstats/cli.py:LoadFromFile"]}
{"id": "C38", "title": "-select lists are decoded completely", "statement": "ra_decode_selection of a comma-separated list of integers returns exactly those integers in ascending order; single values and lists alike.", "quantifier": "all integer lists", "why_tests_cant": "Unbounded lists through a regular expression.", "anchors": ["src/craterstats/miscellaneous.py:ra_decode_selection"]}
{"id": "C39", "title": "-p key=value lists are parsed losslessly", "statement": "A -p argument built from key=value pairs whose values contain commas (but no '=') is decoded to exactly those pairs in order.", "quantifier": "all pair lists", "why_tests_cant": "Arbitrary strings; commas inside values.", "anchors": ["src/craterstats/cli.py:AppendPlotDict"]}
{"id": "C40", "title": "Autoscaling shows all data with equal decades", "statement": "The automatic axis ranges are whole decades, contain every data point and the margins, and keep the aspect: as many y decades as x decades (twice as many for differential). Exception present in this commit (proved as a *_refuted theorem): with no drawable plot it raises TypeError even if both ranges are given; if the first plot is empty the default ranges are used although other plots have data; the odd decade left over goes on the side with more room on the x axis of non-differential plots, but on the side with less room elsewhere.", "quantifier": "all data ranges", "why_tests_cant": "Integer rounding and padding branches for all ranges.", "anchors": ["src/craterstats/Craterplotset.py:autoscale"]}
{"id": "C41", "title": "Legend keeps one entry per labelled series", "statement": "Building the legend drops no labelled data series: every series with a label appears, in reverse plotting order, fits being merged with their symbol. Exception present in this commit (proved as a *_refuted theorem): a -legend with none of c, r, N makes a fit swallow the entry of the plot before it (data and fit with 'n' give no legend at all); a plot whose label is 'fit' or begins with an underscore has no entry; a fit to a binned file with fractional counts raises ValueError as soon as the legend asks for counts, which it does by default.", "quantifier": "all sequences of plot elements and legend options", "why_tests_cant": "A stateful skip flag over an arbitrary sequence.", "anchors": ["src/craterstats/Craterplotset.py:draw", "src/craterstats/Craterplot.py:make_legend_label"]}
{"id": "C42", "title": "Summary table has one row per age", "statement": "create_summary_table produces a header and one row per fitted or Poisson plot for every mixture of plot types. Exception present in this commit (proved as a *_refuted theorem): the last plot decides which range column all rows use, so a fit after a Poisson age raises TypeError; a comma in a name moves the columns of its row.", "quantifier": "all lists of plots", "why_tests_cant": "Mixtures and orders of types.", "anchors": ["src/craterstats/Craterplotset.py:create_summary_table"]}
{"id": "C43", "title": "Axis ticks", "statement": "gm.ticks terminates, returns at most max_ticks ticks, equally spaced by 1, 2 or 5 times a power of ten, covering the data range. Exception present in this commit (proved as a *_refuted theorem): with max_ticks 1 or 2 (or negative) and data on both sides of zero the search never ends, as no two multiples of a step enclose them (with floating numbers it ends when the multiplier underflows, with one nan tick); data without extent raise ValueError.", "quantifier": "all data ranges with positive extent and all max_ticks", "why_tests_cant": "Termination of an unbounded loop over real inputs.", "anchors": ["src/craterstats/gm/plotting/ticks.py:ticks"]}
{"id": "C44", "title": "Random crater populations satisfy the requested geometry", "statement": "sprinkle_discs returns exactly n points, all inside the polygon, no later crater centre closer than a crater radius to an earlier surviving one, for every stream of random numbers. Exception present in this commit (proved as a *_refuted theorem): if n discs of the size do not fit (or no point can lie inside) the sampling never ends; a request for no point raises ValueError.", "quantifier": "all random streams, polygons, n, diameters", "why_tests_cant": "A rejection loop over arbitrary random streams.", "anchors": ["src/craterstats/Randomnessanalysis.py:sprinkle_discs_pp"]}
{"id": "C45", "title": "k-th neighbour search is exact", "statement": "kth_nearest_neighbour returns for every point the k-th smallest distance to the other points, although only nearby cells are searched. Exception present in this commit (proved as a *_refuted theorem): with k points or fewer the search never ends (HEALPix grid without holes); next to one of the cells that lack a neighbour (reported as -1) a search that goes on fails with ValueError.", "quantifier": "all point sets, all cell partitions, all k", "why_tests_cant": "Search pruning is right only if it is right for each configuration.", "anchors": ["src/craterstats/Randomnessanalysis.py:kth_nearest_neighbour_pp"]}
{"id": "C46", "title": "Monte Carlo results are attributed to their trials and independent", "statement": "montecarlo returns one measure per trial in trial order for every completion order of the worker processes; trials are distinct random draws; repeated runs give the same measures. Exception present in this commit (proved as a *_refuted theorem): worker processes are forked with the same generator state, so different trials can be the same draw and, with two workers or more, repeated runs can give different measures; on a machine with one processor the pool of 0 workers raises ValueError.", "quantifier": "all schedules of all numbers of workers and trials", "why_tests_cant": "Depends on process scheduling.", "anchors": ["src/craterstats/Randomnessanalysis.py:montecarlo_pp", "src/craterstats/Randomnessanalysis.py:run_montecarlo"]}
{"id": "C47", "title": "Progress reaches the total", "statement": "The progress counter shared by the workers counts every finished trial. Exception present in this commit (proved as a *_refuted theorem): the update is a read followed by a write, so updates that overlap are lost: n workers can count 1.", "quantifier": "all interleavings of the workers' updates", "why_tests_cant": "A lost update needs a particular interleaving.", "anchors": ["src/craterstats/Randomnessanalysis.py:montecarlo_pp"]}
{"id": "C48", "title": "Interrupted analyses keep finished measures", "statement": "If the program stops at any point during a randomness analysis, the results file contains every measure completed before, and those found there at the start. Exception present in this commit (proved as a *_refuted theorem): each write first empties the file, so a crash inside a write loses everything in it, and the next run fails with TypeError on the empty file; between writes the property holds.", "quantifier": "all crash points", "why_tests_cant": "Crash between any two file operations.", "anchors": ["src/craterstats/cli.py:randomness_analysis", "src/craterstats/Randomnessanalysis.py:write", "src/craterstats/gm/file/write_textfile.py:write_textfile"]}
{"id": "C49", "title": "Stored trials are never degraded", "statement": "Running the analysis again never replaces a measure by one with fewer trials, recomputes only what is missing, and repeating the same request changes nothing. Exception present in this commit (proved as a *_refuted theorem): a request for more trials discards the stored ones and computes all again, instead of only the missing ones.", "quantifier": "all sequences of requests", "why_tests_cant": "Histories of runs.", "anchors": ["src/craterstats/Randomnessanalysis.py:run_montecarlo"]}
{"id": "C50", "title": "Randomness percentile is the share of smaller trials", "statement": "The percentile reported for a bin is the percentage of trial values below the measured value: between 0 and 100, non-decreasing in the measured value.", "quantifier": "all trial lists and measured values", "why_tests_cant": "Arbitrary samples with ties.", "anchors": ["src/craterstats/Randomnessanalysis.py:calculate_stats"]}
{"id": "C51", "title": "Bins of the randomness analysis partition the count", "statement": "The craters returned for the bins of a count are disjoint, together are all craters, and their number in each bin is n_event; only bins with enough craters are analysed.", "quantifier": "all counts", "why_tests_cant": "Agreement of two indexing schemes for every count.", "anchors": ["src/craterstats/Randomnessanalysis.py:get_bin_craters", "src/craterstats/Randomnessanalysis.py:montecarlo_split"]}
{"id": "C52", "title": "Randomness results file round-trips", "statement": "read() after write() gives the same measures, trial numbers and trial values per bin. Exception present in this commit (proved as a *_refuted theorem): values are kept to seven significant figures; a measure without any bin is written as a table that cannot be read again (ValueError).", "quantifier": "all stored results", "why_tests_cant": "Arbitrary numbers of trials and bins.", "anchors": ["src/craterstats/Randomnessanalysis.py:write", "src/craterstats/Randomnessanalysis.py:read"]}
{"id": "C53", "title": "Crater fractions survive in spatial counts", "statement": "Spatialcount reads for every crater the fraction stored in the .scc file, the same as Cratercount reads for it. Exception present in this commit (proved as a *_refuted theorem): Spatialcount looks for the column in the wrong dictionary and gives every crater the fraction 1, whatever the file says; Cratercount reads the fractions.", "quantifier": "all .scc contents", "why_tests_cant": "Agreement of two readers over all files.", "anchors": ["src/craterstats/Spatialcount.py:readSCCfile", "src/craterstats/Cratercount.py:ReadSCCfile", "src/craterstats/Spatialcount.py:writeSCCfile"]}
{"id": "C54", "title": "Area outlines round-trip through .scc", "statement": "Writing a spatial count to .scc and reading it gives the same rings (exteriors and holes) with the same vertices. Exception present in this commit (proved as a *_refuted theorem): coordinates are kept to 15 decimals and repeated vertices are made one; an island in a hole is read as a polygon and also as another hole of the polygon around it; the second exterior of a multipart shape is written as internal and lost.", "quantifier": "all multipolygons with holes", "why_tests_cant": "Arbitrary nesting and numbers of parts.", "anchors": ["src/craterstats/Spatialcount.py:writeSCCfile", "src/craterstats/Spatialcount.py:readSCCfile"]}
{"id": "C55", "title": "Readers keep diameter and fraction together", "statement": "Reading a .diam or .scc file sorts the craters without separating a diameter from its fraction, losing or duplicating a crater.", "quantifier": "all crater tables", "why_tests_cant": "Sorting arbitrary lists with ties.", "anchors": ["src/craterstats/Cratercount.py:ReadDiamFile", "src/craterstats/Cratercount.py:ReadSCCfile"]}
{"id": "C56", "title": "Fraction transform is a symmetric bijection", "statement": "The linear-to-area fraction transform maps 0 to 0, 1/2 to 1/2, 1 to 1, is symmetric under x -> 1-x, increasing; its inverse table lookup is exact at the table points and stays in [0,1].", "quantifier": "all fractions", "why_tests_cant": "Continuum.", "anchors": ["src/craterstats/miscellaneous.py:fractional_crater_transform"]}
{"id": "C57", "title": "Every requested output file is written once", "statement": "For every set of requested formats each gets its own file name, no two outputs share a name, and all are drawn alike for each image format. Exception present in this commit (proved as a *_refuted theorem): uncertainty plots with two image formats: only the first gets the three diagrams, the second gets an ordinary one under another name; with -ra the name of the table depends on the iteration order of the set of formats.", "quantifier": "all format sets and presentations", "why_tests_cant": "Combinations.", "anchors": ["src/craterstats/cli.py:write_output_files", "src/craterstats/cli.py:set_default_filename"]}
{"id": "C58", "title": "Progress iteration is transparent", "statement": "iterator_with_progress yields exactly the items of the underlying sequence in order and reports k/total before the k-th item.", "quantifier": "all sequences", "why_tests_cant": "Arbitrary length and consumer behaviour.", "anchors": ["src/craterstats/gm/misc/iterator_with_progress.py"]}
{"id": "C59", "title": "Linear rescaling", "statement": "gm.scl maps the input range onto the output range linearly, clamps outside it, and is monotone; gm.poly evaluates ascending-coefficient polynomials. Exception present in this commit (proved as a *_refuted theorem): a type name given together with an output range, or a name other than byte, int16, uint16, raises NameError.", "quantifier": "all inputs", "why_tests_cant": "Continuum.", "anchors": ["src/craterstats/gm/maths/scl.py:scl", "src/craterstats/gm/maths/poly.py:poly"]}
{"id": "C60", "title": "Sequence-plot time axis is usable", "statement": "The time-axis parameters always satisfy 0 <= t_min < t_max <= 4.5 and the linear/log split is a fraction between 0 and 1.", "quantifier": "all requested ranges and ages", "why_tests_cant": "Clamping branches for all inputs.", "anchors": ["src/craterstats/Craterplotset.py:calculate_time_axis_params"]}
{"id": "C61", "title": "Sequence table", "statement": "For two or more Poisson age plots a table is written in which the cells for (A before B) and (B before A) add up to 1. Exception present in this commit (proved as a *_refuted theorem): with one or more Poisson plots of non-trivial counts the table is never written: the pdf is rebuilt from an array and `if not lam` raises ValueError.", "quantifier": "all sets of counts", "why_tests_cant": "Needs every pair of distributions and every table size.", "anchors": ["src/craterstats/Craterplotset.py:create_sequence_table", "src/craterstats/Craterpdf.py:__init__"]}
{"id": "C62", "title": "Scientific notation denotes the rounded value", "statement": "scientific_notation(v,sf) writes v=0 and 0.01<|v|<10000 (unless forced) as a plain numeral, and every other value as a mantissa m with 1<=|m|<10 and a power of ten e, such that the numeral, or m*10^e, is v rounded to sf significant figures.", "quantifier": "all values, all numbers of figures >=1", "why_tests_cant": "Rounding may carry into the next power of ten for any magnitude.", "anchors": ["src/craterstats/gm/string/scientific_notation.py:scientific_notation"]}
{"id": "C63", "title": "Diameter ranges are printed in the right unit", "statement": "diameter_range(d) prints both ends rounded to sf significant figures, in km if the upper end is at least 1 km and in m otherwise.", "quantifier": "all diameter pairs", "why_tests_cant": "All magnitudes.", "anchors": ["src/craterstats/gm/string/diameter_range.py:diameter_range"]}
{"id": "C64", "title": "Percentiles keep their precision near 100", "statement": "percentile_sigfigs(p,sf) prints p<50 rounded to sf significant figures, and p>=50 at least as accurately as its distance from 100 rounded to sf significant figures. Exception present in this commit (proved as a *_refuted theorem): for percentiles within 0.0001 of 100 (but not 100) the distance is formatted with an exponent and its length no longer gives the decimals, so too few are printed (99.99995 prints as 100.000).", "quantifier": "all percentiles between 0 and 100, all sf>=2", "why_tests_cant": "The number of decimals depends on the length of another formatted number.", "anchors": ["src/craterstats/gm/string/percentile_sigfigs.py:percentile_sigfigs"]}
{"id": "C65", "title": "Values of -p options mean what they say", "statement": "range=[a,b] gives the two numbers a and b; every name of a type, binning, colour or symbol (and every symbol code) selects exactly that one; #rrggbb is accepted exactly for six hexadecimal digits; the numbers listed in the help select the entry with that number. Exception present in this commit (proved as a *_refuted theorem): the numbers 0-31 and 0-14 announced in the help text for colour and psym are read as abbreviations, so colour=3 is red3 and colour=0 an error.", "quantifier": "all values of all -p options", "why_tests_cant": "Abbreviation matching and bracket stripping apply to every text.", "anchors": ["src/craterstats/cli.py:construct_plot_dicts", "src/craterstats/constants.py:CRATERPLOT_KEYS"]}
{"id": "C66", "title": "Output goes where -o says", "statement": "Output files are named after -o if given (a directory included), otherwise after the command file, otherwise after the set of sources, whatever their order. Exception present in this commit (proved as a *_refuted theorem): if -o names a directory the run ends with NameError.", "quantifier": "all -o values, all sets of sources", "why_tests_cant": "Depends on the file system and on every set of sources.", "anchors": ["src/craterstats/cli.py:set_default_filename"]}
{"id": "C67", "title": "Area of a spatial count is read back", "statement": "The area and the perimeter that a spatial count writes to an .scc file are those that a crater count reads from it, to the six figures written. Exception present in this commit (proved as a *_refuted theorem): areas of a million square kilometres or more (and below 0.0001) are written with an exponent that the reader ignores, so that 2.5e6 is read as 2.5.", "quantifier": "all areas, perimeters, outlines and crater lists", "why_tests_cant": "Depends on the magnitude of the number and on the text around it in the file.", "anchors": ["src/craterstats/Spatialcount.py:writeSCCfile", "src/craterstats/Cratercount.py:ReadSCCfile"]}
{"id": "C68", "title": "Minor ticks", "statement": "gm.ticks with max_minor divides the tick interval into round parts, with at most max_minor minor ticks in total. Exception present in this commit (proved as a *_refuted theorem): the number chosen is the smallest of those offered that gives at least max_minor, so max_minor is a lower bound; a request for more than ten per tick interval raises IndexError.", "quantifier": "all data ranges, max_ticks and max_minor", "why_tests_cant": "Depends on the tick count the search arrives at.", "anchors": ["src/craterstats/gm/plotting/ticks.py:ticks"]}
{"id": "C69", "title": "The measures run are those asked for", "statement": "-measure with a comma separated list runs exactly the measures named, each once; a name that is not a measure ends the program before anything is computed; without the option the default measures are run. Exception present in this commit (proved as a *_refuted theorem): an empty -measure value is not checked and ends in NameError.", "quantifier": "all values of the option", "why_tests_cant": "finite tests cover a few spellings", "anchors": ["src/craterstats/cli.py: randomness_analysis, construct_cps_dict", "src/craterstats/Randomnessanalysis.py: montecarlo_split"]}
{"id": "C70", "title": "The search grid is a valid HEALPix grid", "statement": "The number of cells along the side of a base cell chosen for the neighbour search is a power of two, at least 1, for every planet, area and number of trials. Exception present in this commit (proved as a *_refuted theorem): with few trials on a large part of the globe (fewer than 60 times area over globe) the number is below 1, which HEALPix refuses.", "quantifier": "all radii, areas and numbers of trials", "why_tests_cant": "unbounded numeric domain", "anchors": ["src/craterstats/Randomnessanalysis.py: establish_hpx"]}
{"id": "C71", "title": "The panels of the randomness figure do not overlap", "statement": "The summary figure gives every selected bin, and n_sigma if selected, its own panel inside the square; -select picks exactly the bins named, in order, and ignores numbers that are no bin.", "quantifier": "all numbers of bins and all selections", "why_tests_cant": "all layouts would have to be looked at", "anchors": ["src/craterstats/Randomnessanalysis.py: plot_montecarlo_split"]}
{"id": "C72", "title": "Random points are uniform by area inside the enclosing limits", "statement": "Every random point lies within the enclosing longitudes and latitudes; its longitude is in proportion to one random number, the sine of its latitude to the other, so that equal areas are equally likely.", "quantifier": "all limits and all random numbers", "why_tests_cant": "no test can inspect all random numbers", "anchors": ["src/craterstats/Randomnessanalysis.py: random_points_pp"]}
{"id": "C73", "title": "The randomness strip fits between the data and the top of the plot", "statement": "With automatic ranges the strip showing the randomness analysis lies inside the y range and above all data; ra_offset moves it by twentieths of a decade and changes nothing else about it. Exception present in this commit (proved as a *_refuted theorem): with a y range given by the user the strip may lie outside the plot.", "quantifier": "all data, all offsets", "why_tests_cant": "depends on every combination of data ranges", "anchors": ["src/craterstats/Craterplotset.py:autoscale", "src/craterstats/Craterplotset.py:CreatePlotSpace"]}
{"id": "C74", "title": "Decades keep one length on paper", "statement": "Whatever the ranges, all x decades have one printed length and y decades that length divided by the aspect of the presentation; the axes fit the print dimensions asked for and touch them in one direction; a single dimension is the length of a decade. Exception present in this commit (proved as a *_refuted theorem): the height asked for a Hartmann plot is ignored; with the randomness setting y decades lose their proportion to x decades.", "quantifier": "all ranges, dimensions and point sizes", "why_tests_cant": "real-valued layout arithmetic", "anchors": ["src/craterstats/Craterplotset.py:CreatePlotSpace"]}
{"id": "C75", "title": "Natural tick labels are exact", "statement": "With -style natural the x ticks are exactly the powers of ten in the range, in order, and each label with its unit names the diameter exactly, in km from 1 km and in m below.", "quantifier": "all ranges", "why_tests_cant": "unbounded ranges", "anchors": ["src/craterstats/Craterplotset.py:CreatePlotSpace"]}
{"id": "C76", "title": "Root-2 tick labels name the diameters", "statement": "With -style root-2 and for Hartmann plots the ticks are the powers of two from 2^-10 to 2^10 km in the range, each labelled with the nearest whole number of metres, or kilometres from 1 km; minor ticks are at the root-2 steps between. Exception present in this commit (proved as a *_refuted theorem): with no power of two in the range it raises ValueError, with only one IndexError; a range that begins above 1 km has no unit on any label.", "quantifier": "all ranges", "why_tests_cant": "unbounded ranges", "anchors": ["src/craterstats/miscellaneous.py:Hartmann_bins", "src/craterstats/Craterplotset.py:CreatePlotSpace"]}
{"id": "C77", "title": "The n-sigma scale of the strip is monotonic", "statement": "The scaling of n-sigma values in the randomness strip keeps their order and sign and is odd.", "quantifier": "all values", "why_tests_cant": "real-valued function", "anchors": ["src/craterstats/miscellaneous.py:n_sigma_scaling"]}
{"id": "C78", "title": "Rows of the sequence plot do not overlap", "statement": "The rows of a sequence plot lie inside the plot, in plot order from the top, one row height apart.", "quantifier": "all numbers of plots", "why_tests_cant": "unbounded number of plots", "anchors": ["src/craterstats/Craterplot.py:overplot_sequence_element"]}
{"id": "C79", "title": "Age, limits, density and count of a plot belong to one measurement", "statement": "For a fit the age and its limits are those of the chronology for the fitted level and for that level lowered and raised by the error of the lowest populated bin; the level is the best fit of the production function to the points plotted in the range; the density reported is that of the isochron at the reference diameter; counts and range are those of the craters used. For a Poisson age they are the median and 1-sigma interval of the likelihood of the number of craters in the range and the area. Exception present in this commit (proved as a *_refuted theorem): a differential fit whose smallest bin holds a single crater reports nan as lower limit, because the bias-corrected density is less than 0.98 of its error.", "quantifier": "all counts, binnings, ranges, production and chronology functions", "why_tests_cant": "real-valued, history-dependent pipeline", "anchors": ["src/craterstats/Craterplot.py:calculate_age", "src/craterstats/Productionfn.py:fit", "src/craterstats/Craterpdf.py:median1sigma", "src/craterstats/Chronologyfn.py:t"]}
{"id": "C80", "title": "Epoch boundaries given as densities become the ages of their isochrons", "statement": "An epoch system whose boundaries are given as crater densities at reference diameters gets, for every boundary, the age of the isochron through that density, in order after the present; at one diameter denser boundaries are older. Boundaries given as ages are used unchanged; a name that is not defined, or a definition with neither, is refused. Exception present in this commit (proved as a *_refuted theorem): a file with a single definition raises TypeError, although the same text given directly is accepted.", "quantifier": "all definitions, production and chronology functions", "why_tests_cant": "real-valued functions chosen by the user", "anchors": ["src/craterstats/Epochs.py:__init__", "src/craterstats/Productionfn.py:fit", "src/craterstats/Chronologyfn.py:t"]}
{"id": "C81", "title": "Epoch names stand in the epochs they name", "statement": "In a sequence plot the letters of every epoch that is shown are at the middle of its visible part, as its axis is divided, and those of an epoch that is not shown are outside the plot; where the axis has a logarithmic and a linear part, every epoch shown is named in one of them. Beside a chronology curve each name is at the middle of its epoch. Exception present in this commit (proved as a *_refuted theorem): a name with two consecutive spaces or hyphens, or more names than ages, raises IndexError.", "quantifier": "all epoch systems and axis ranges", "why_tests_cant": "depends on every position of the axis limits between the boundaries", "anchors": ["src/craterstats/Epochs.py:sequence_oplot", "src/craterstats/Epochs.py:chronology_oplot"]}
{"id": "C82", "title": "Epochs are shaded and divided as their formatting says", "statement": "The formatting entries give the slant of the names and for each epoch a shade, a raised age and a strong boundary; every age between the first and last boundary is shaded exactly once, with the shade of its own epoch; every boundary has a line and its age is written to three digits. Exception present in this commit (proved as a *_refuted theorem): an entry that does not begin with a digit raises ValueError.", "quantifier": "all formatting entries and boundaries", "why_tests_cant": "unbounded lists", "anchors": ["src/craterstats/Epochs.py:decode_formatting", "src/craterstats/Epochs.py:chronology_oplot", "src/craterstats/Epochs.py:sequence_oplot"]}
{"id": "C83", "title": "The isochrons drawn are those listed", "statement": "The option -isochrons draws exactly the ages listed that are numbers, in their order, each with the settings of the letters after it.", "quantifier": "all texts of the option", "why_tests_cant": "unbounded texts", "anchors": ["src/craterstats/Craterplotset.py:plot_isochrons"]}
{"id": "C84", "title": "The uncertainty plot shows each age and area where its axes say", "statement": "Each column of the uncertainty plot is drawn, within half a column, where the axis shows its age, and each row where the axis shows its area; no side has fewer cells than the number of samples asked for; a cell shows the median and the 1-sigma spread of the age distribution of a count drawn from the number of craters expected for its age and area.", "quantifier": "all age and area ranges, aspect ratios and numbers of samples", "why_tests_cant": "real ranges and unbounded grids", "anchors": ["src/craterstats/Craterplotset.py:compute_age_area", "src/craterstats/Craterplotset.py:age_area_plot", "src/craterstats/Craterplotset.py:calculate_time_axis_params"]}
{"id": "C85", "title": "Saturated and impossible surfaces are covered", "statement": "In the uncertainty plot exactly the surfaces older than the equilibrium age at the smallest diameter, or larger than the globe, are covered. Exception present in this commit (proved as a *_refuted theorem): an equilibrium age younger than the axis, or a globe smaller than the smallest area shown, leaves the whole plot uncovered although all of it exceeds the limit.", "quantifier": "all axes, equilibrium ages, globe areas and points of the plot", "why_tests_cant": "real ranges", "anchors": ["src/craterstats/Craterplotset.py:age_area_plot"]}
{"id": "C86", "title": "The colours of the uncertainty plot's counts are those of their labels", "statement": "A cell with k craters has the colour beside the label k (7+ for more), and different labels have different colours; the smallest diameter is given in a closed pair of parentheses. Exception present in this commit (proved as a *_refuted theorem): the colours are stretched over the counts that occur in the grid, so that without a count of 8 or more, or without an empty cell, the colours do not match the labels; for a smallest diameter of 1 km or more the text lacks its closing parenthesis.", "quantifier": "all counts and diameters", "why_tests_cant": "unbounded counts", "anchors": ["src/craterstats/Craterplotset.py:age_area_plot"]}
{"id": "C87", "title": "User-defined functions are added to the built-in ones", "statement": "The functions available are the built-in ones followed by those of the file the user has set, in order, none lost or changed; without such a file they are the built-in ones; setting a file makes it the one used from then on and changes no other file; a built-in name written in full keeps its meaning whatever the user adds. Exception present in this commit (proved as a *_refuted theorem): a built-in name with parentheses, such as 'Moon, Neukum (1983)', selects a user system of the same name without them; a user file that cannot be read ends the program with NameError instead of being ignored; a configuration of comments alone raises IndexError; a built-in file without a final newline would lose the first definition of the user.", "quantifier": "all function files, environments and names", "why_tests_cant": "unbounded texts and histories", "anchors": ["src/craterstats/miscellaneous.py:Functionslist", "src/craterstats/cli.py:decode_abbreviation"]}
{"id": "C88", "title": "The craters of a shapefile are measured on the sphere", "statement": "Every crater outline that is covered by the area or overlaps it gives one crater, in the order of the file: its diameter is that of the spherical cap of the same area, its position the centroid, its fraction 1 if covered, else the part of the diameter belonging to the part of the area inside, to 1/99; others are left out; files for bodies of different radius are refused. Exception present in this commit (proved as a *_refuted theorem): a crater outline of no area outside the area ends the reading.", "quantifier": "all crater and area shapefiles", "why_tests_cant": "real-valued geometry of arbitrary outlines", "anchors": ["src/craterstats/Spatialcount.py:readSHPfiles", "src/craterstats/miscellaneous.py:fractional_crater_transform"]}
{"id": "C89", "title": "Random points can reach all of the area", "statement": "The limits of longitude and latitude in which random points are drawn contain the whole area. Exception present in this commit (proved as a *_refuted theorem): the limits are those of the vertices: an edge that runs along a great circle leaves the latitudes of its ends; an area across the meridian of 180 degrees has the limits of the rest of the globe; an area around both poles loses the cap around the north pole.", "quantifier": "all areas", "why_tests_cant": "all outlines on the sphere", "anchors": ["src/craterstats/Spatialcount.py:find_enclosing_polygon", "src/craterstats/Randomnessanalysis.py:random_points_pp"]}
{"id": "C90", "title": "Distances between craters are those on the sphere", "statement": "The points in space of two positions are on the sphere, at the distance that belongs to the angle between the positions.", "quantifier": "all positions and radii", "why_tests_cant": "real-valued", "anchors": ["src/craterstats/Spatialcount.py:llr2xyz"]}
{"id": "C91", "title": "Rims are circles of the crater's diameter", "statement": "The outline made for a crater is a closed ring of evenly spaced points at half its diameter from its centre, in an equal-area projection centred no more than 2.5 degrees from it; it does not depend on the other craters.", "quantifier": "all lists of craters", "why_tests_cant": "unbounded lists, cached projections", "anchors": ["src/craterstats/Spatialcount.py:find_rims"]}
{"id": "C92", "title": "The map shows all of the area and of the craters", "statement": "Every point of the area and of the rims lies inside the frame of the map, with a margin of a tenth (a fiftieth in small maps) of the extent on each side.", "quantifier": "all areas and craters", "why_tests_cant": "real-valued, unbounded lists", "anchors": ["src/craterstats/Spatialcount.py:plot", "src/craterstats/gm/maths/range.py:range"]}
{"id": "C93", "title": "A conversion writes the files its name promises and never its source", "statement": "A conversion (-convert) of a count writes exactly the files of the asked format, in the directory and under the name given with -o or, without it, in the current directory under the name of the source without its CRATER tag: one file of statistics or craters, a pair of shapefiles that is recognised as a pair when read again, or a map with its command file. It never writes over its source, and a conversion that does not exist writes nothing. Exception present in this commit (proved as a *_refuted theorem): for statistics and scc files the name given with -o is ignored except for its directory; for some conversions that do not exist (scc to scc, diam to shp or to a map) the program says that they were written; CRATER is removed from the directories of -o for maps too; a map made with -o is written again under another name when its command file is run; a shapefile without CRATER in its name is taken for its own area file.", "quantifier": "all directories, names, formats and sources", "why_tests_cant": "unbounded file names, all combinations of options", "anchors": ["src/craterstats/cli.py:convert_format", "src/craterstats/Spatialcount.py:__init__", "src/craterstats/Spatialcount.py:writeSHPfiles"]}
{"id": "C94", "title": "A run leaves a command file only after all its outputs", "statement": "A run for diagrams writes its outputs in order; only when all are written it keeps the command line in a command file, once and last, and not when the command line came from such a file. When an output fails, the ones before it stay and no command file is written. Of the other requests (lists, version, merge, demo, ...) exactly the first in a fixed order is done, without making diagrams and whatever the settings of the diagrams. A conversion makes no diagram. The demonstrations have different outputs. Exception present in this commit (proved as a *_refuted theorem): the command file of a map is written before the map; while the user functions named in the configuration cannot be read, every request but the icon ends with that error, even the one that would name another file.", "quantifier": "all command lines, settings and points of failure", "why_tests_cant": "must hold at every point of failure and for every combination of options", "anchors": ["src/craterstats/cli.py:main", "src/craterstats/cli.py:write_output_files", "src/craterstats/cli.py:demo"]}
{"id": "C95", "title": "Functions are what their definitions say", "statement": "A chronology, production or equilibrium function made from a dictionary, a file or a text is the one of the first definition of its kind and name: the chronology has the densities and rates of the formula with the coefficients written, a polynomial the coefficients and the range written, a table the sums of its counts at the bin edges, with 10^a0 at 1 km, its range and plot axes. A name that is not defined, or a definition without its numbers, is refused. The plotted chronology curve consists of points of the function. Exception present in this commit (proved as a *_refuted theorem): a file with a single definition of the kind raises TypeError, although the same text given directly is accepted; a definition of an unknown type is accepted, but its function fails when it is first used.", "quantifier": "all texts of definitions, names and numerals", "why_tests_cant": "unbounded texts; real-valued functions", "anchors": ["src/craterstats/Chronologyfn.py:__init__", "src/craterstats/Chronologyfn.py:getplotdata", "src/craterstats/Productionfn.py:__init__", "src/craterstats/gm/file/read_textstructure.py"]}
{"id": "C96", "title": "A chronology system uses the functions and the body it names", "statement": "The chosen chronology system gives the chronology and production functions of the names in its definition and the area of its body; an undefined system ends the program, undefined functions are refused; definitions of the user are found under new names and can use built-in ones, and a built-in name keeps its built-in definition; the equilibrium function is sought among the equilibrium definitions. Exception present in this commit (proved as a *_refuted theorem): a body written as an abbreviation of several known bodies ends the program instead of being taken as unknown.", "quantifier": "all definitions and names", "why_tests_cant": "unbounded texts", "anchors": ["src/craterstats/cli.py:construct_cps_dict", "src/craterstats/Chronologyfn.py:__init__", "src/craterstats/Productionfn.py:__init__", "src/craterstats/constants.py"]}
{"id": "C97", "title": "The randomness strip of a plot shows what the analysis wrote", "statement": "A results file written by the randomness analysis and found in the current directory or beside the count gives, in the plot of the count, one line for each measure with a point at the centre of every bin that the measure has and a gap for every other, in ascending order of the bins; the height is the written value of n_sigma, to four figures, on the scale of the bands, above the middle for separated and below for clustered populations with either measure; a value lies within the band of k sigma exactly if its size is at most k; the strip reaches from the lower edge of the first bin to the upper edge of the last and its grid lines are the edges of the bins; only visible plots of data have a strip, and only the one drawn first, that of the last plot, a legend, which names every measure once; without a results file there is none. Exception present in this commit (proved as a *_refuted theorem): the results of a shapefile whose name ends in _CRATER are written under the name without it and are not found by the plot; a results file that was opened for writing and left empty makes the count unreadable, whether the strip is wanted or not; results for a single bin, or for two bins that begin at an odd half power of two, stop the plot with an exception, as does any strip without two whole powers of two between 2^-10 and 2^10 km among its edges.", "quantifier": "all results of analyses, names and places of counts, and sets of plots", "why_tests_cant": "all files and sets of plots; graphics are not tested", "anchors": ["src/craterstats/Cratercount.py:read_ra_file", "src/craterstats/Craterplot.py:oplot_n_sigma", "src/craterstats/Randomnessanalysis.py:write", "src/craterstats/Craterplotset.py:autoscale"]}
{"id": "C98", "title": "The small plots of an age distribution show the reported ages", "statement": "In the small plot beside an age the curve passes through all samples, the shading runs from the last sample before the lower one-sigma age to the sample before the last one before the upper one-sigma age, and the median mark is at the last sample before the median, the three ages being the reported ones; the axis runs from 0 to the first of two or three round ticks that is not below the 99.7% age, and every label with its unit is exactly the value of its tick; wherever the distribution lies, the nearer end of the part of the curve above half its height is at the same distance from the age text; in the sequence plot a violin is symmetric, 0.9 of its half row stands for the highest density, its areas cover the 0.01% to 99.99% and the 16% to 84% ages, and the violins of different rows never touch. Exception present in this commit (proved as a *_refuted theorem): if the first sample has more probability than lies below the lower age, nothing is shaded (and with more than half, the median is not marked), because the position before the first sample counts from the end; nothing is shaded either if no sample lies between the one-sigma ages.", "quantifier": "all age distributions, sizes and positions", "why_tests_cant": "all distributions; graphics are not tested", "anchors": ["src/craterstats/Craterpdf.py:plot", "src/craterstats/Craterpdf.py:offset", "src/craterstats/Craterpdf.py:violin_plot", "src/craterstats/Craterplot.py:overplot", "src/craterstats/Craterplot.py:sequence_plot"]}
{"id": "C99", "title": "Converting a spatial count to shapefiles keeps its craters, outline and radius", "statement": "Converting a spatial count to shapefiles writes a file of craters and a file of outlines, each with its projection and style beside it, under the given name with _CRATER and _AREA; there is one row for each crater, in order, with its diameter, position and a closed rim that an equal-area projection centred nearby shows as a circle of that diameter around that position, and one shape whose rings are the exterior and the holes of the area in order. Read again by the name of the file of craters, they give the same area and one crater shape for each crater, and the radius to the nearest metre, exactly if it is a whole number of metres. Exception present in this commit (proved as a *_refuted theorem): an area of several parts cannot be converted: the conversion stops with an AttributeError after writing the file of craters, the file of outlines is left incomplete and without projection, and the pair cannot be read.", "quantifier": "all spatial counts, names and directories, and all libraries of spherical geometry for which a polygon is determined by its outlines", "why_tests_cant": "all counts and names; the files are not read again in tests", "anchors": ["src/craterstats/Spatialcount.py:writeSHPfiles", "src/craterstats/Spatialcount.py:polygon_to_pts", "src/craterstats/Spatialcount.py:find_rims", "src/craterstats/Spatialcount.py:readSHPfiles"]}
{"id": "C100", "title": "A density is that of the diameter in its label", "statement": "In the chronology and rate presentations the curve labelled with the reference diameter shows, at every age drawn, the density of craters larger than that diameter which the production function has at that age, or its derivative by the age, and the other curve that of craters larger than 1 km; with a reference diameter of 1 km there is one curve. The title of the axis names a reference diameter of whole kilometres. With a reference diameter of 1 km the density in the legend of a fit, and in the summary table, is that of the fitted isochron at 1 km, to three figures, with its errors to two. Exception present in this commit (proved as a *_refuted theorem): with another reference diameter the legend and the columns of the summary table carry its name, but show the density at 1 km; the title of the axis rounds the reference diameter to whole kilometres (0.5 km becomes 0 km).", "quantifier": "all chronology and production functions, reference diameters and ages", "why_tests_cant": "real-valued functions; graphics and tables are not compared with the functions in tests", "anchors": ["src/craterstats/Craterplotset.py:draw", "src/craterstats/Craterplotset.py:CreatePlotSpace", "src/craterstats/Craterplotset.py:create_summary_table", "src/craterstats/Craterplot.py:calculate_age", "src/craterstats/Craterplot.py:make_legend_label"]}
{"id": "C101", "title": "A fit is drawn as its isochron over its range, with its age beside its start", "statement": "A hidden plot draws nothing and a plot of data its points in order, with error bars if wanted. A fit has, between its error bars and its symbols, its isochron over the whole range of the production function if wanted, the part of that isochron over its own diameter range (widened by 1 % at each end and cut to the range of the production function), and its age with errors to the wanted number of figures, beside the start of that part: above and to the right, or below and to the left, by a fiftieth of the axes, moved by the offset in twentieths of a decade. Exception present in this commit (proved as a *_refuted theorem): if the user gives axes of other proportions than the automatic ones, the vertical offset of the age is not in twentieths of a decade of either axis (x from -3 to 2 and y from -4 to 0: 4/5 of that).", "quantifier": "all production functions, plots, diameter ranges, axes and offsets", "why_tests_cant": "real-valued functions; graphics are not compared with the functions in tests", "anchors": ["src/craterstats/Craterplot.py:overplot", "src/craterstats/Productionfn.py:getisochron", "src/craterstats/Productionfn.py:getplotdata"]}
{"id": "C102", "title": "The sequence diagram has one row for each fit, in the order of the plots", "statement": "In the sequence presentation each fit or Poisson age that is not hidden has its own row, in the order of the plots from the top, and hidden plots and plots of data have none. In its row a Poisson age has its distribution and another fit a bar from its lower to its upper age, filled with a mixture of 35 % of its colour and the background, with a mark at its age, on both parts of the age axis if that is in two parts. Left of the row is the name without enclosing quotes, with a line break for each backslash and n; right of it are, one to a line, the age with errors, the area and the other texts, as the legend option asks.", "quantifier": "all lists of plots, names, ages, colours and legend options", "why_tests_cant": "unbounded lists; graphics are not inspected in tests", "anchors": ["src/craterstats/Craterplot.py:overplot_sequence_element", "src/craterstats/Craterplot.py:make_legend_label", "src/craterstats/gm/plotting/mix_colours.py:mix_colours", "src/craterstats/gm/string/strip_quotes.py:strip_quotes"]}
{"id": "C103", "title": "On a crater diagram an epoch is the area between the isochrons of its boundaries", "statement": "In the crater diagrams each epoch between two boundaries is filled as one area, in the colour its format gives: from the isochron of its younger boundary to that of its older one over the range of the production function. At each diameter of those curves where densities are positive a density lies in the area exactly if its age lies between the ages of the boundaries. The isochron of a boundary is drawn as a line if its format has a b. Exception present in this commit (proved as a *_refuted theorem): the isochron of the oldest boundary is never drawn, although the chronology diagram has a strong line at that boundary if its format has a b.", "quantifier": "all chronology and production functions, epoch systems, densities and ages", "why_tests_cant": "real-valued functions; graphics are not compared with the functions in tests", "anchors": ["src/craterstats/Epochs.py:oplot", "src/craterstats/Epochs.py:decode_formatting", "src/craterstats/Productionfn.py:getisochron", "src/craterstats/Chronologyfn.py:a0"]}
{"id": "C104", "title": "An isochron has its age beside it, along its direction", "statement": "Every isochron asked for is drawn over the whole range of the production function. Unless its label is hidden, its age, to six figures in the fitting unit, begins a twentieth of a decade below the curve: near the top of the diagram, within a tenth of a decade of the height a tenth below its upper edge, if the curve has points there and the first is not left of the diagram, otherwise near the left edge or the beginning of the curve; and it runs on the paper towards the point of the isochron 0.3 decades to the right. Exception present in this commit (proved as a *_refuted theorem): the label of an isochron that does not enter the diagram is written outside it; an isochron that lies wholly above the equilibrium function stops the plot with an IndexError, even if its label is hidden.", "quantifier": "all chronology functions, falling production functions, ages, axes and page sizes", "why_tests_cant": "real-valued functions; graphics are not compared with the functions in tests", "anchors": ["src/craterstats/Craterplotset.py:plot_isochrons", "src/craterstats/Productionfn.py:getisochron", "src/craterstats/miscellaneous.py:str_age"]}
{"id": "C105", "title": "Settings hold what was given last; colours and markers follow them", "statement": "After any history of accepted changes a setting of a plot set has the value last given for it, axis ranges as lists of numbers, sizes as numbers and switches as whole numbers, and settings never given keep their value. A change is accepted exactly if all its values can be converted. A new plot set has the values given or the defaults, the colours of its background and line widths in proportion to its letter size. Markers are drawn in proportion to the width of the diagram. Exception present in this commit (proved as a *_refuted theorem): a refused change may already have changed other settings; a background or letter size changed after the plot set was made reaches neither colours nor line widths; and drawing a plot set again scales its markers again, so that on the standard page they shrink to four fifths at every drawing.", "quantifier": "all values, dictionaries, and histories of changes and drawings", "why_tests_cant": "histories of calls are unbounded", "anchors": ["src/craterstats/Craterplotset.py:__init__", "src/craterstats/Craterplotset.py:UpdateSettings", "src/craterstats/Craterplotset.py:CreatePlotSpace"]}
{"id": "C106", "title": "A plot shows the count of its file under its name", "statement": "A plot made from a file has the count read from it, one made from a count has the file of the count as source, and one given both keeps both. Its name is the one given, otherwise that of the file without folder, ending and the word CRATER; its range is the one given decoded for its count, binning and snapping; every other setting is the one given or its default. Without file and count there is no plot. Exception present in this commit (proved as a *_refuted theorem): a source given to an existing plot changes neither its count nor its name, and a range given later is not decoded.", "quantifier": "all settings, files and counts", "why_tests_cant": "histories of calls are unbounded", "anchors": ["src/craterstats/Craterplot.py:__init__", "src/craterstats/Craterplot.py:UpdateSettings"]}
{"id": "C107", "title": "The option bins marks the bins of the diagram", "statement": "Every bin of the first data plot's binning that begins left of the right edge of the diagram is marked, beginning with the one at its left edge: in turn it is left as it is, shaded red and shaded blue between its boundaries; and each boundary inside the diagram has its first two figures at three heights. Exception present in this commit (proved as a *_refuted theorem): with axis ranges that are a list, as they are unless the plot set was scaled automatically, the option stops the plot with a TypeError.", "quantifier": "all binnings and diameter ranges", "why_tests_cant": "unbounded ranges; graphics are not compared in tests", "anchors": ["src/craterstats/Craterplotset.py:CreatePlotSpace", "src/craterstats/Cratercount.py:generate_bins"]}
{"id": "C108", "title": "The titles say what is shown and the function legend which functions", "statement": "The title stands in the lines that its bars separate. The axes are named after the presentation; the Hartmann diagram says equivalent exactly if some plot has other bins than root 2, and chronology and rate name the reference diameter. With f in the legend there is one line for each function in use, in the order epochs, equilibrium, production, chronology; the sequence diagram leaves out the equilibrium function, and a chronology for 1 km without epochs the production function. Exception present in this commit (proved as a *_refuted theorem): a reference diameter that is not a whole number is rounded in the title of the axis, half a kilometre to N(>0 km).", "quantifier": "all titles, plots, reference diameters and functions", "why_tests_cant": "unbounded texts and combinations", "anchors": ["src/craterstats/Craterplotset.py:CreatePlotSpace", "src/craterstats/Craterplotset.py:draw"]}
{"id": "C109", "title": "The histogram of a randomness analysis counts every trial once and shades one standard deviation", "statement": "For trials that are not all the same the histogram can always be drawn: bars of one width, five more than the square root of the number of trials to the nearest integer, from the smallest trial to the largest, each as high as there are trials in it, together every trial once. The line follows the tops of the bars, the shaded part is that within one standard deviation of the mean, the line of the mean ends at the top of its bar, and the measured value, marked with three figures and its percentile, lies inside the axes with all trials, a bar away from the ends. One to three ticks stand at all multiples of a nice step inside the axis, the last one with the unit. Exception present in this commit (proved as a *_refuted theorem): trials that are all the same stop the plot with a ValueError.", "quantifier": "all lists of trials, measured values and kinds of plot", "why_tests_cant": "every sample, including heavy tails where the mean is close to the end and the deviation is narrower than might be thought", "anchors": ["src/craterstats/Randomnessanalysis.py:plot_histogram", "src/craterstats/Randomnessanalysis.py:calculate_stats", "src/craterstats/gm/plotting/ticks.py:ticks"]}
{"id": "C110", "title": "A table of bins is read in the order of size, with all its numbers", "statement": "Reading a file that holds a table of bins (lower diameter, frequency and, if present, event frequency) puts the bins in the order of increasing diameter, each with its own numbers, whatever the order in the file. Each bin ends where the next begins and the last is as wide in proportion as the one before; the area is that of the file; without event frequencies the frequencies stand for them; every bin centre is the geometric mean of its limits. Lower limits made from bin centres lie in proportion halfway between neighbouring centres. Exception present in this commit (proved as a *_refuted theorem): the cumulative numbers of such a table stay in the order from the largest bin to the smallest, so that the smallest bin gets the number of the largest; and a file with this extension is refused when a count is opened.", "quantifier": "all structure files with such a table of two or more bins of positive diameters, all lists of bin centres", "why_tests_cant": "all orders and sizes of tables, columns in any order", "anchors": ["src/craterstats/Cratercount.py:ReadBinnedFile", "src/craterstats/Cratercount.py:MakeBinNcum", "src/craterstats/Cratercount.py:MakeBinMin", "src/craterstats/Cratercount.py:__init__"]}
{"id": "C111", "title": "The chart of an analysis shows every bin at its diameters and its deviation on the right side", "statement": "In the chart of a randomness analysis every bin has one point in the middle of its diameters, at the height of the distance of the measured value from the mean of the trials in standard deviations, on a scale that widens the centre. For both measures the point is above the middle, towards the word separated, exactly if the craters are more separated than the mean of the trials, and within the band of k sigma exactly if the deviation is at most k; trials that do not vary give no point. The axis reaches from the lower edge of the first bin to the upper edge of the last, with a line at every edge between; the numbers of the scale stand at their values. The chart can be drawn exactly if two powers of two are among the edges. Exception present in this commit (proved as a *_refuted theorem): an analysis of a single bin, or of two bins with the only power of two between them, stops the plot with an IndexError; the chart as a panel reaches a tenth of its width out of the panel.", "quantifier": "all analyses: bins, measured values and trials of either measure", "why_tests_cant": "every combination of bins and statistics", "anchors": ["src/craterstats/Randomnessanalysis.py:plot_n_sigma", "src/craterstats/miscellaneous.py:n_sigma_scaling", "src/craterstats/miscellaneous.py:Hartmann_bins"]}
{"id": "C112", "title": "The map of a bin is reduced until it leaves the corner of the histogram free", "statement": "In a panel with the map of a bin and its histogram the map keeps the upper left corner and the proportions of the panel, the histogram is at the right side, and both lie in the panel. The map is reduced by steps of two hundredths until its outline, brought to the unit square and reduced about its middle, no longer overlaps the lower right corner; the search always ends, at more than 39 per cent, and goes no further than needed. The text of the panel has the diameters of the bin to two figures, in kilometres exactly if the bin begins at 1 km or more, and the number of the craters with diameters in the bin. Exception present in this commit (proved as a *_refuted theorem): an outline that holds the corner wholly, such as a square area, does not count as overlapping: it is not reduced at all and the histogram is drawn on the map.", "quantifier": "all outlines with two different corners, all panels, all counts of ordinary diameters and bins", "why_tests_cant": "the termination of the search for every outline, all shapes and counts", "anchors": ["src/craterstats/Randomnessanalysis.py:get_plot_reduction_factor", "src/craterstats/Randomnessanalysis.py:plot_map_and_histogram", "src/craterstats/Randomnessanalysis.py:get_bin_craters"]}
{"id": "C113", "title": "The commands of a file are run in order, each with its own output", "statement": "Running the commands of a file runs one after the other each line that is neither blank nor a comment, with the words between its white space as arguments; a command that names no output gets one named after its number, different for each command. When a command is refused or its run fails, those before it have been run and none after it. The demonstrations are run in the same way, all or those chosen, in the order asked for, each under its own name and with quotes keeping words together; a number for which there is no demonstration is refused after those before it. For lines without quotes both give the same words. Exception present in this commit (proved as a *_refuted theorem): quotes do not keep words together in a file of commands run with source_cmds (a title of two words becomes two arguments with a quote in each), and a line of white space only is run as a command.", "quantifier": "all files, commands and points of failure", "why_tests_cant": "must hold for every file and at every point of failure", "anchors": ["src/craterstats/cli.py:source_cmds", "src/craterstats/cli.py:demo", "src/craterstats/gm/file/read_textfile.py"]}
{"id": "C114", "title": "Diagrams with an age axis and maps have the size asked for", "statement": "With print dimensions of two numbers (in cm, e.g. 7.5x8) the plot of a map, sequence or uncertainty diagram has exactly that size, with one number d it is a square of 5d cm; the page adds a margin of a fifth of the letter size on each side. Other numbers of dimensions are refused. The two parts of an age axis fill the plot without gap or overlap, an age is at the same place by the axes of its part and by those of the whole plot, and the parts are separated by a mark exactly if there are both. The colours beside an uncertainty plot are 2 mm to the right of it and on the page if the letters have at least 2 points. Letters have the size given times a factor of the font between 0.83 and 1. Exception present in this commit (proved as a *_refuted theorem): any font other than the seven in a table, even if it is installed, stops every plot with a KeyError.", "quantifier": "all dimensions, letter sizes, fonts and age ranges", "why_tests_cant": "real-valued sizes and ranges; graphics are not inspected in tests", "anchors": ["src/craterstats/Craterplotset.py:create_map_plotspace", "src/craterstats/Craterplotset.py:create_time_axis_plotspace", "src/craterstats/Craterplotset.py:calculate_time_axis_params", "src/craterstats/Craterplotset.py:EstablishFontandScaling"]}
{"id": "C115", "title": "The colours of the ratio of ages and the texts of the uncertainty plot are where they belong", "statement": "In the uncertainty plot of the ratio of measured to actual age a cell is left blank exactly if the ratio is at most 1/5 or at least 5; nine colours stand for equal factors between, so that a ratio and its inverse have colours at the same distance from the middle one; every label beside the colours is the ratio at its place, rounded to the figures written. The text for the whole globe is at the height of its area and the text for saturation at the equilibrium age, unless these are too close to the border of the plot.", "quantifier": "all ratios, areas and ages", "why_tests_cant": "continuum of values; graphics are not inspected in tests", "anchors": ["src/craterstats/Craterplotset.py:age_area_plot"]}
{"id": "C116", "title": "Every part of a diagram that was asked for is drawn, in an order that leaves the data visible", "statement": "A diagram consists of exactly these parts: its axes first; the names of the functions if the legend asks for them; the epochs if there are some (not on the uncertainty plot); the line of the equilibrium function and the isochrons on crater diagrams only; the curves on chronology and rate diagrams only (two with labels at a reference diameter other than 1 km, one without label otherwise); the plots on crater diagrams and the sequence, except for those without bins where bins are needed; the legend last. Every plot is drawn once, on top of the epochs, the equilibrium function and the isochrons and of the plots that were given after it; epochs are beneath curves, equilibrium function and isochrons. Without a chronology function a chronology diagram or the names of the functions cannot be drawn.", "quantifier": "all presentations, settings and lists of plots", "why_tests_cant": "graphics are not inspected in tests; all combinations of settings and lists of plots", "anchors": ["src/craterstats/Craterplotset.py:draw"]}
{"id": "C117", "title": "On a chronology diagram an epoch is the area under the curve between its ages", "statement": "On a chronology or rate diagram there is one area for each epoch between two boundaries other than the present; it goes at a hundred ages from the younger to the older boundary from far below up to the line drawn for the function, which is the true curve within 5/999 Ga, in the colour of that epoch; that line is the last curve drawn, which at another reference diameter is the one of 1 km. Each boundary has a dividing line up to the same curve, strong if so formatted, and its age to three figures below the curve, all at one height; each name begins above the curve, 0.03 Ga left of the middle of its epoch. Exception present in this commit (proved as a *_refuted theorem): an epoch system with a single age cannot be drawn on a chronology diagram: it stops with an IndexError.", "quantifier": "all chronology functions with positive coefficients and all epoch systems within 5 Ga", "why_tests_cant": "continuum of functions and ages; graphics are not inspected in tests", "anchors": ["src/craterstats/Epochs.py:chronology_oplot", "src/craterstats/Chronologyfn.py:getplotdata"]}
{"id": "C118", "title": "From the files to the age beside a fit", "statement": "For every .diam file with craters of positive diameter and fraction and a positive area, every chronology with positive coefficients and polynomial production function in the definitions, every binning and every range that has a crater in one of its bins and ends before the last bin does: the text beside a cumulative fit shows, to the significant figures asked for and in the fitting unit, the age at which the chronology (to within 5/999 Ga, never older) reaches the density at 1 km of the fitted isochron, with the ages of densities smaller and larger by 0.98/sqrt(n) as errors, n being the number of craters from the lower limit on; beyond 5 Ga it shows 5 Ga without errors. The range is widened to boundaries of bins; the isochron is at the mean distance, weighted by the densities, of the logarithms of the cumulative densities from the polynomial, at the lower ends of the bins in the range that have a crater. The order of the craters in the file does not matter, for any kind of age.", "quantifier": "all texts of files and definitions, all craters, areas, coefficients, binnings, ranges and significant figures; all files with the same craters in another order", "why_tests_cant": "files, counts and functions can be combined without limit; a test sees a few ages and cannot see whether one depends on the order or on the bins of another range.", "anchors": ["src/craterstats/cli.py:construct_cps_dict", "src/craterstats/Cratercount.py:ReadDiamFile,decode_range,getplotdata", "src/craterstats/Craterplot.py:calculate_age,overplot", "src/craterstats/Productionfn.py:fit", "src/craterstats/Chronologyfn.py:t"]}
{"id": "C119", "title": "What the standard deviation of adjacent area measures", "statement": "For every set of craters for which the measure sdaa is computed: the Voronoi diagram is made of the very positions of the craters on the unit sphere; the corners of its cells, given to the geometry library as longitude and latitude, are the very corners of the diagram; the measure is the standard deviation of the areas of the parts of the cells inside the counting area. It is never negative, and zero exactly if all the areas are equal. If the cells share out the counting area, its square is the mean square of the areas less the square of area/n, and at most (area/n)^2 (n-1). It does not depend on the order of the craters. On a globe k times as large it is k^2 times as large.", "quantifier": "all craters, polygons, radii and cell diagrams with corners on the sphere; all orders of the craters", "why_tests_cant": "the positions are continuous, the conversions have branches at the poles and at the date line; equalities for all orders and scales are not seen from samples.", "anchors": ["src/craterstats/Randomnessanalysis.py:sdaa"]}
{"id": "C120", "title": "Outlines of cells and lines to neighbours on the map", "statement": "For every polygon of an adjacent area, the outline drawn passes all its corners in order; on a side longer than a fifth of a degree it also passes the 19 places that divide the side in 20 equal parts, in order; on a shorter side no further place. All the way round, also from the last corner to the first, no step is longer than the larger of a fifth of a degree and a twentieth of the longest side. Every part of a cell in several parts is drawn, once. For m2cnd one line is drawn for each crater, from it to its neighbour.", "quantifier": "all rings of any number of corners, all lists of cells with any number of parts, all neighbours", "why_tests_cant": "the number of corners and parts is unbounded and the wrap-around at the last corner is a special case that a picture hardly shows.", "anchors": ["src/craterstats/Randomnessanalysis.py:oplot_voronoi,oplot_neighbours"]}
{"id": "C121", "title": "What one trial measures, and trials one after the other", "statement": "Whatever is drawn: a trial of m2cnd that returns is the mean distance to the second nearest neighbour in a population of exactly as many points as asked for, all in the counting area, no two within a crater radius; a trial of sdaa is the standard deviation of the adjacent areas of such a population. Other measures are refused. Trials run one after the other give the draws of the generator in order and report 1, 2, ... as they end, the same measures as a pool with one worker, for every schedule. Exception present in this commit (proved as a *_refuted theorem): with fewer than three points there is no mean second closest distance (the search fails or does not end).", "quantifier": "all draws of the random generator, numbers of points and trials, crater sizes, areas and schedules", "why_tests_cant": "random draws and schedules cannot be enumerated, and a test sees a few trials.", "anchors": ["src/craterstats/Randomnessanalysis.py:run_trial,evaluate_randomness,montecarlo_serial"]}
{"id": "C122", "title": "What a significance says", "statement": "For every measure and every set of trials: the mean and standard deviation are those of the trials; a number of standard deviations is given exactly if the trials are not all equal, and it has the sign of the difference from the mean. It and the percentile do not change with the unit and the zero of the measure. A value equal to one of n trials is within sqrt(n-1) standard deviations; for every k > 0, at most one trial in k^2 is k or more standard deviations from the mean.", "quantifier": "all measures, all lists of trials, all k > 0, units and zeros", "why_tests_cant": "inequalities over all lists of numbers; a test cannot cover all distributions of trials.", "anchors": ["src/craterstats/Randomnessanalysis.py:calculate_stats"]}
{"id": "C123", "title": "Poisson ages follow the counts", "statement": "Of two counts for the same chronology and production function, let one have at least as many craters where at most as many were expected at the density of 1 Ga, whatever the areas and diameter ranges. Then no percentile of its Poisson age, so neither the age nor its limits, is younger than the same one of the other, at no age is it more probably younger than that, it is the older of the two with a probability above 1/2, and no third surface is more probably older than it than older than the other. So adding craters to a count, in any place of the list, never makes its Poisson age younger, and the same craters on a larger area never make it older. The same holds for buffered counts. (Counts whose likelihood is negligible at all densities, below 10^-30 in total, are set aside: their age is a single spike. Every count of at most 100000 craters of which as many are expected somewhere on the density axis, at 5000 samples or more, is not one of them.)", "quantifier": "all chronologies with positive coefficients, all production functions that decrease over the ranges, all counts, areas, ranges and numbers of samples", "why_tests_cant": "an ordering between all pairs of counts, over a continuum of areas and functions", "anchors": ["src/craterstats/Craterpdf.py:__init__", "src/craterstats/Craterpdf.py:t", "src/craterstats/Craterpdf.py:median1sigma", "src/craterstats/Craterpdf.py:calculate_sequence_probability"]}
{"id": "C124", "title": "From the files to the Poisson age", "statement": "For every .diam file with craters of positive diameter and a positive area, every chronology with positive coefficients and every polynomial production function in the definitions that falls over the range asked for (taken as given, not snapped, and cut to the range of the polynomial): with up to 100000 craters in the range the text shows, to the significant figures asked for, the median of the Poisson age of exactly the craters in the range, with the percentiles of one standard deviation as limits. This age has at each of 5000 densities, between 10^-10 and 10^5 times that of 1 Ga, a probability in proportion to the Poisson probability of that many craters where the polynomial gives the expected number on the area, times the rate of the chronology and the time since the age before. A file with further craters, in any order, and the same area never shows a younger age or limits.", "quantifier": "all files, definitions, ranges, areas and binnings of these kinds", "why_tests_cant": "all files and numbers; the text is the end of a chain of reading, decoding, integration and formatting", "anchors": ["src/craterstats/Craterplot.py:calculate_age", "src/craterstats/Craterpdf.py:__init__", "src/craterstats/Craterpdf.py:median1sigma", "src/craterstats/Cratercount.py:ReadDiamFile", "src/craterstats/miscellaneous.py:str_age"]}
{"id": "C125", "title": "Density of an age and its ratio to the median", "statement": "For every count with a Poisson age: the probability density is defined and positive at every age; at the age of each sample it is the density of that sample, between the ages of two samples it lies on the straight line joining their densities, and beyond the first and last it is theirs. The instantaneous probability ratio is defined and positive for every age, 1 at the median, and times the density of the median gives the density of the age. Unless the likelihood is negligible throughout, the ratios at two sample ages compare as the likelihoods of the count at these ages, whatever the normalisation; and for a second count with at least as many craters where at most as many were expected every older age gains on every younger one.", "quantifier": "all counts, areas, ranges, chronologies with positive coefficients, sample numbers and ages", "why_tests_cant": "ages and counts range over all real and natural numbers; the median is itself the result of an interpolation", "anchors": ["src/craterstats/Craterpdf.py:relative_probability", "src/craterstats/Craterpdf.py:calculate_instantaneous_probability_ratio", "src/craterstats/Craterpdf.py:t"]}
{"id": "C126", "title": "From the files to the age beside a differential fit", "statement": "For every .diam file with craters of positive diameter and fraction and a positive area, every chronology with positive coefficients, every polynomial production function whose isochrons fall at the middles of the bins fitted, every binning and every range with a crater in one of its bins that ends before the last bin does, if the first such bin has enough craters for the lower limit to be positive: the text beside a differential fit shows, to the significant figures asked for and in the fitting unit, the age at which the chronology reaches the density at 1 km of the fitted isochron, with the ages of densities smaller and larger by 0.98 times the relative error of the first bin; beyond 5 Ga it shows 5 Ga without errors. The range is widened to boundaries of bins. Each bin with a crater counts once: its density is the sum of the fractions per area and width, corrected from the mean over the bin to its middle with the exponent of the polynomial between its ends; the isochron is at the mean distance of the logarithms of these densities from the derivative of the polynomial at the middles, weighted by density over the root of the number of craters.", "quantifier": "all texts of files and definitions, all craters, areas, coefficients, binnings, ranges and significant figures", "why_tests_cant": "files, counts and functions can be combined without limit; whether the bins, corrections, weights and errors belong together shows only in small shifts of an age.", "anchors": ["src/craterstats/cli.py:construct_cps_dict", "src/craterstats/Cratercount.py:ReadDiamFile,decode_range,getplotdata", "src/craterstats/Craterplot.py:calculate_age,overplot", "src/craterstats/Productionfn.py:fit", "src/craterstats/Chronologyfn.py:t"]}
{"id": "C127", "title": "The lists of names that can be used", "statement": "The list of functions (-lcs) shows, under the headings Chronology systems, Equilibrium functions and Epoch systems, the names of all definitions of these kinds, one on a line, once for each definition and in the order of the definitions, the user's after those built in. A name is listed exactly if a definition is found under it; one that is not listed is refused, and a chronology system that is not listed ends the program. The list of symbols and colours (-lpc) shows every symbol with its code and every colour; what stands at a place, name or code, given for a plot, selects the symbol or colour of that place. A text printed with highlights loses nothing but the stars that begin lines. Exception present in this commit (proved as a *_refuted theorem): if there is only one definition of a kind, the list stops after the heading with a TypeError.", "quantifier": "all texts of definitions, built in and by the user, with two or more definitions of each kind; all names; all texts", "why_tests_cant": "the user's definitions are unlimited, and whether a list agrees with what is accepted must hold for every name.", "anchors": ["src/craterstats/miscellaneous.py:Functionslist.print", "src/craterstats/cli.py:list_symbols_and_colours,print_with_highlights"]}
{"id": "C128", "title": "The correction for resurfacing raises all cumulative points of the range by one value, found by repeated fits of the isochron", "statement": "With the correction for resurfacing, for every count, polynomial production function and range of bins with a crater: the cumulative points of the range are those counted, all raised by one and the same value, which leaves them positive, with errors in proportion to the numbers counted. The value is 0 for a single point; otherwise it starts from nothing and is replaced, time after time, by the distance of the largest point from the isochron that best fits the points as raised so far, until it changes by less than one crater in 10000 km2, at most 21 times. Points that are on an isochron already are left as they are. The numbers of craters stay those counted, and the range of bins recorded starts with the smallest bin of the count. The age is that of the isochron that best fits the corrected points, with the errors of the count; it is the one written on the plot of a file of counts. Exception present in this commit (proved as a *_refuted theorem): the iteration stops at an absolute change, so that for sparse counts, where already the first value is below one crater in 10000 km2, it ends after one step, short of the value that would put the points on an isochron; and a fitted isochron of exactly 1 crater of 1 km per km2 is mistaken for none given.", "quantifier": "every set of craters of positive diameter and fraction, area, binning, range of bins, polynomial, chronology with positive coefficients and least-squares solver", "why_tests_cant": "The correction is the end of an iteration on the data; a test sees a few counts and cannot tell what the iteration stops at for others.", "anchors": ["src/craterstats/Cratercount.py: Cratercount.resurf_adj, Cratercount.getplotdata", "src/craterstats/Craterplot.py: Craterplot.calculate_age"]}
