{
"C01": [
"proved",
"agreement with the Gregorian calendar refuted at multiples of 4000 (C01_gregorian_refuted)"
],
"C05": [
"proved",
"the desirable property is refuted; the exact behaviour for >=3 copies is proved"
],
"C07": [
"proved",
"exact value with the century slip; the gap-free claim is refuted (1900-08-31/1900-09-01)"
],
"C08": [
"proved",
"exact rational semantics; float rounding not modelled"
],
"C10": [
"proved",
"the file name regular expressions are parameters; their string matching is not modelled"
],
"C64": [
"proved",
"consistency refuted; exact one-day offset proved"
],
"C14": [
"proved",
"orders 0..lmax+1 (mmax<=lmax+1, otherwise the closed length formula does not apply)"
],
"C16": [
"proved",
"coefficients of the divisor non-zero on the common triangle; the sine terms of order 0 are excluded as in the code"
],
"C17": [
"proved",
"mmax=0 refuted"
],
"C18": [
"proved",
"both corner cases (repeated request, repeated month) stated as theorems"
],
"C20": [
"proved",
"time-variable field with 1-d factor raises (C20_scale_series_refuted)"
],
"C22": [
"proved",
"argsort is any sorting permutation; single-object list refuted"
],
"C23": [
"proved",
"nested loops over one object refuted"
],
"C24": [
"proved",
"attributes dictionary/list and filename not modelled"
],
"C26": [
"proved",
"the desirable property is refuted; exact behaviour for all histories proved"
],
"C28": [
"proved",
"text formatting abstracted to a rounding function; netCDF/HDF5 libraries trusted to return what was stored"
],
"C29": [
"proved",
"exact real arithmetic"
],
"C30": [
"proved",
"exact real arithmetic"
],
"C31": [
"proved",
"refuted for the radius and the cartesian uncertainties; the rest of the copy is proved"
],
"C32": [
"proved",
"1-d series; the unselected empty mean (nan) is an error in the model"
],
"C33": [
"proved",
"update_mask, replace_invalid, offset, scale: all grids; refuted for power (masked cells hold fill^p), for offset with a 3-d argument on a 2-d grid (ignored) and when a result equals the fill value"
],
"C34": [
"proved",
"wrap proved; last longitude refuted exactly when the two spacings differ"
],
"C35": [
"proved",
"involution and coordinate attachment for the three axes; month numbers refuted for the time axis"
],
"C36": [
"proved",
"round trip without dates on global grids; dates, missing cells and negative longitudes refuted"
],
"C37": [
"proved",
"non-square grids restored, square ones transposed (refuted)"
],
"C38": [
"proved",
"statistics and residuals; mean(apply=True) on cells with missing epochs refuted"
],
"C65": [
"proved",
"gain, mask, magnitude and error; the error is refuted when an epoch has x=0 or an exact fit"
],
"C66": [
"proved",
"single-row/column grids refuted; nested iteration as in C23"
],
"C67": [
"proved",
"memory model with views; copy independent, flip and transpose share memory"
],
"C39": [
"proved",
"Round trip spatial/harmonic = 1/(4 pi) for cmwe, mmwe, microGal; refuted for mmGH (factor 10) and for stale attributes; Earth parameters consistent."
],
"C40": [
"proved",
"Exact acceptance set -7..6 of bycode; negative codes refute the documented table; Pa has no attributes."
],
"C41": [
"proved",
"Weights equal Jekeli's Legendre coefficients of the Gaussian kernel (as integrals), floored at the cut-off; positivity, bound, monotonicity, prefix; LMAX=0 raises (refuted)."
],
"C42": [
"proved",
"Filter = subtraction of the least squares quadratic in the closest admissible window; linear; annihilates quadratics; low orders untouched; NARROW flag acts opposite to its documentation."
],
"C43": [
"proved",
"exact real arithmetic; lmax=0 refuted"
],
"C44": [
"proved",
"exact real arithmetic, elementwise in x; degrees below 2 refuted for the default method, documented name 'columbo' refuted, pole values of order>=1 refuted"
],
"C45": [
"proved",
"LMAX=0 (the default) refuted; UNITS given as a list must have LMAX+1 entries"
],
"C46": [
"proved",
"latitudes strictly between the poles for the table computed by default; numpy's ifft is its defining sum; broadcasting of a one-row user PLM not modelled"
],
"C68": [
"proved",
"Formula against Nlm (m-th derivative of the Legendre polynomial) for every degree; points where the code switches to its approximation (0 < (1-x^2)^(l/2) <= 2^-511) are excluded by hypothesis."
],
"C47": [
"proved",
"Exact value formula as a finite sum over the grid, for custom factors and codes 1,2,3; linearity; periodicity in longitude; errors. Refuted: a square grid given as [lon,lat] is transposed. gen_harmonics METHOD='fourier' is not modelled."
],
"C48": [
"proved",
"Values and complementarity for every mask and SIMPLIFY; isolated-point rule."
],
"C49": [
"proved",
"Value formula, superposition for every split into two sets, total mass at degree 0. Refuted for a single point: IndexError."
],
"C50": [
"proved",
"Complete characterisation: the returned grid is the n-th iterate of an explicitly specified map, n the first converged round or ITERATIONS; mass conservation, zero/fill on land, homogeneity, zero load; ITERATIONS=0 raises. Grids with as many longitudes as latitudes are excluded (gen_harmonics transposes them)."
],
"C51": [
"proved",
"File values, interpolation and constant extension below the first degree for every file, column order, LMAX; refuted at the degree of the last line (overwritten by extrapolation). Tokenising the text is not modelled."
],
"C52": [
"proved",
"All frames; reading = transform after reading; CF/CL/CH absolute and idempotent; refuted for CM twice."
],
"C53": [
"proved",
"regress: least squares, exact recovery, orthogonality, dof/R2/errors/likelihood formulas, relative epochs, linearity, DATA_ERR mutation; for every number of epochs, order, cycles and terms. Rank deficient designs (numpy minimum norm answer) are outside."
],
"C54": [
"proved",
"MOVING=True: window average with half end weights, constants/lines/periodic signals, edge errors."
],
"C55": [
"proved",
"reconstruction and uniqueness."
],
"C56": [
"proved",
"refuted for FREQUENCY; OMEGA/PERIOD correct; shift/scale invariance; scipy lombscargle is an arbitrary function."
],
"C57": [
"proved",
"refuted: error scaling, break slope error, break time; least squares and error formulas proved."
],
"C70": [
"proved",
"all epochs and periods."
],
"C69": [
"proved",
"all series, windows, orders, derivatives (distinct times)."
],
"C71": [
"proved",
"default and weighted modes; exact real arithmetic (in floating point an exactly singular window is only nearly singular)."
],
"C58": [
"proved",
"shift_grid for every grid and every base longitude other than the first: C58_shift/C58_columns/C58_increasing; C58_first_longitude_refuted shows the IndexError/failure case."
],
"C59": [
"proved",
"url_split: C59_components (for every url not starting with two slashes the components rejoined with slash runs give the url back), C59_join (the converse), C59_two_slashes_refuted (infinite recursion)."
],
"C60": [
"proved",
"Directory state may change between attempts. C60_fresh, C60_terminates (at most |E|+1 attempts), C60_distinct; C60_unwritable_refuted: an unwritable directory makes the loop run for ever because every OSError is caught."
],
"C61": [
"proved",
"For all reals."
],
"C62": [
"proved",
"C62_lists gives the alignment claim under the condition that every entry has a link of the relation, and that this condition is necessary; C62_misaligned_refuted and C62_missing_feed_refuted are the counterexamples; unknown endpoints and cmr_metadata_json also covered."
],
"C72": [
"proved",
"arctan2 of sine and cosine over exact reals."
],
"C73": [
"proved",
"order=0 branch (argmin of distances); spline orders not modelled."
],
"C74": [
"proved",
"White space is an arbitrary predicate; one line without line breaks."
],
"C75": [
"proved",
"Glob semantics specified separately (inductive glob)."
],
"C11": [
"proved",
"grace_find_months for every list of months; refuted parts: months 1-3 present, single-row date file."
],
"C12": [
"proved",
"exact rational dates for years outside multiples of 4000; file-name parsing not modelled. Refuted part: decimal date half a day late; GRAZ/Swarm end day across a leap year."
],
"C13": [
"proved",
"grace_input_months with readers, tables and correction files given by their parsed rows; lstsq for identifying times. Refuted part: atmospheric corrections with MMAX different from LMAX fail."
],
"C76": [
"proved",
"read_GRACE_harmonics on parsed lines; refuted part: drift lines outside RL04 GSM or above the truncation raise."
],
"C63": [
"proved",
"mascons.py, all four functions in exact reals; refuted parts: extra division in to_jpl, in-place centers, spans around the globe, [0,360) grids."
],
"C77": [
"proved",
"exact real arithmetic"
],
"C78": [
"proved",
"exact real arithmetic; MMAX=0 refuted"
],
"C79": [
"proved",
"AREA keyword and Gt mass refuted"
],
"C80": [
"proved",
"exact real arithmetic; Gaussian coefficients stated as integrals"
],
"C81": [
"proved",
"Lines are modelled as the list of their numbers; float32 columns of the CSR file are exact rationals."
],
"C82": [
"proved",
"np.argsort is any sorting permutation; rationals instead of floats."
],
"C83": [
"proved",
"Lines as lists of numbers; month numbers outside 1..12 are errors."
],
"C84": [
"proved",
"Lines as lists of numbers; titles/citations and the reformatted ascii/netCDF4/HDF5 inputs are not modelled here."
],
"C85": [
"proved",
"Lines as lists of numbers; YAML header as the numbers of its comments; new objects."
],
"C86": [
"proved",
"coefficients come from geoid_toolkit and are abstract; dateutil parsing of Swarm names not modelled"
],
"C87": [
"proved",
"exact real arithmetic; the array is a function; a division by the zero norm is kept symbolic"
],
"C88": [
"proved",
"exact real arithmetic; a PLM argument is assumed to have the shape of the table; at most 49000 latitudes (tolerance of np.isclose)"
],
"C89": [
"proved",
"exact real arithmetic; the zonal component is characterized only on sectoral harmonics, where the claim is refuted"
],
"C90": [
"proved",
"exact real arithmetic; with smoothing only the second component is characterized; DENSITY=0 and grids with a latitude of zero or a pole (division by zero) are excluded"
],
"C91": [
"proved",
"exact real arithmetic; all orders kept (MMAX=LMAX); the field is the series of C45/C46"
],
"C92": [
"proved",
"exact real arithmetic; the sphere integral is the iterated integral over colatitude and longitude"
],
"C93": [
"proved",
"exact real arithmetic (numpy.linalg.lstsq and scipy.linalg.lstsq as exact minimum norm least squares); reading the files, the corrections and the text output are not part of this model"
],
"C94": [
"proved",
"exact real arithmetic; the sphere integral is the iterated integral over colatitude and longitude"
],
"C95": [
"proved",
"exact real arithmetic; sine coefficients of order 0 and coefficients with order above degree are zero, as in every harmonics object filled by the library"
],
"C96": [
"proved",
"exact real arithmetic; reading of files, temporal means, destriping, plots and text output are not part of this model; the land-sea grid has different numbers of longitudes and latitudes; FINGERPRINT with k_0 = 0"
],
"C97": [
"proved",
"C97_one_file_refuted: Ylms.name does not exist (line 373); C97_single_month_refuted: the months of a one month drift have no axis. Values at the poles, where plm_holmes replaces sin by eps, are left out."
],
"C98": [
"proved",
"C98_order_refuted: harmonic_summation is called without MMAX (line 283); C98_undated_refuted: the time of undated files is array([None]) and has one entry; C98_index_mean_refuted: the format of the index is used for the mean file (line 184)."
],
"C99": [
"proved",
"C99_shared_name_refuted: mascons whose file names differ only in case, degree or order overwrite each other silently; C99_one_month_refuted: np.loadtxt of one line is one-dimensional."
],
"C100": [
"proved",
"the output file of the map, the log and the text of file names are not modelled (the name is the tuple of its parts)"
],
"C101": [
"proved",
"ScaleModel.v / PropScale.v; counterexample theorems for removed files, LMIN, negative factors and zero magnitudes."
],
"C102": [
"proved",
"SyncModel.v / PropSync.v; md5 is an arbitrary function (collision-freeness a hypothesis where needed); network protocol not modelled."
],
"C103": [
"proved",
"SyncModel.v / PropSync.v; the packing of a month is abstract (the pieces written are an input)."
],
"C104": [
"proved",
"TrendMapModel.v / PropTrendMap.v, PropTrendMap2.v; monthly maps are a function of the month; np.argsort is an input constrained to sort; log files and attributes are not modelled; erf and the Student quantile are arbitrary functions."
],
"C105": [
"proved",
"TrendMapModel.v / PropTrendMap3.v, PropTrendMap4.v; same simplifications as C104."
],
"C106": [
"proved",
"Names are given by what they are made of, lines by what the regular expressions find. The reader of C76 is used for the round trip."
],
"C107": [
"proved",
"Proved; refuted parts: C20 of the second half of each day of release 6, the file name of the reader, the partial file after an interrupted run, two archives of one month."
],
"C108": [
"proved",
"Proved; refuted parts: missing days, other orders of the coefficients. Values at the poles are left out as in C97."
],
"C109": [
"proved",
"gfc files are read by another package: only their lines are described. Without any month (nan) the model raises."
],
"C110": [
"proved",
"File reading is that of C08/C11; masks of one row or one column (squeezed by the reader) are outside the model."
],
"C111": [
"proved",
"Without a fill value nan cells are not replaced (all coefficients nan): outside the theorems. Grids of one row or column are squeezed by the readers: outside the model."
],
"C112": [
"proved",
"Widths, digits, units and headings of the printed lines and text reading are not modelled."
],
"C113": [
"proved",
"widths of the printed fields and the rounding of the mid-date are not modelled; file permissions are not modelled"
],
"C114": [
"proved",
"Random draws, monthly fields and the field of standard deviations are inputs. C114_gia_refuted shows that the degree one coefficients of GIA and atmosphere are added in the wrong unit. The theorems on errors (data, scaling, no noise) are for the uniform ocean layer; C114_balance covers fingerprints too."
],
"C115": [
"proved",
"Characters are ASCII. Reals stand for floats: the rounding of the conversion to binary is not modelled. C115_nan_refuted, C115_full_stop_refuted and C115_fortran_time_refuted are negative results."
],
"C116": [
"proved",
"Reals stand for floats. C116_last_degree_refuted, C116_zero_degree_refuted and C116_column_order_refuted are negative results."
],
"C117": [
"proved",
"The netCDF4 and HDF5 libraries are trusted. The theorems ending in _refuted are negative results."
],
"C118": [
"proved",
"netCDF4 and HDF5 formats; other special characters of regular expressions in names are not modelled; refuted variants are proved for unknown formats and longer names"
],
"C119": [
"proved",
"ASCII names; refuted variants for short release numbers and for releases"
],
"C120": [
"proved",
"dateutil is an arbitrary function; month 00 is a refuted variant"
],
"C121": [
"proved",
"versions given as int are not modelled; texts inserted in the patterns hold no special characters of regular expressions; names are ASCII"
],
"C122": [
"proved",
"the libraries are trusted to store arrays, numbers and texts; compressed files, attributes scale_factor and add_offset, values whose shape does not fit the dimensions are not modelled"
],
"C123": [
"proved",
"dateutil.parser.parse is a parameter (any function from texts to dates or exceptions); texts are ASCII; rational arithmetic"
],
"C124": [
"proved",
"files as in C122; ascii files are C38; axes read as scalars or with missing values are not modelled"
],
"C125": [
"proved",
"connections, certificates, cookies and logging are left out; dateutil.parser.parse is a parameter; entries have title, updated and links"
],
"C126": [
"proved",
"pyproj and the geocentric latitude of geoid-toolkit are one arbitrary function; attributes and the output file are left out"
],
"C127": [
"proved",
"order 0 only; reading of the mask file is a parameter; the two coordinate arrays have one shape"
],
"C128": [
"proved",
"exact reals"
],
"C129": [
"proved",
"the numbers that a regular expression finds in a line are a parameter; matplotlib is not modelled beyond the table given to it; HSV colors are interpolated in RGB by it"
],
"C130": [
"proved",
"exact reals (floor of 0.7 N too); matplotlib is not modelled"
],
"C131": [
"proved",
"decimal text of numbers is not modelled"
],
"C132": [
"proved",
"exact reals"
],
"C133": [
"proved",
"what the readers return is arbitrary (the readers themselves: C86 and the GRACE claims)"
],
"C134": [
"proved",
"numbers on the lines and rounding of the printed format as in C36 and C115; the axes set up before reading are given"
],
"C135": [
"proved",
"exact reals; text of the object not modelled"
],
"C136": [
"proved",
"numbers are numpy numbers (python numbers have no copy method)"
],
"C137": [
"proved",
"Proved for every local state and interruption; md5 is a parameter whose collisions are a hypothesis; directories, permissions, the regular expression of the dates and the date format are parameters."
],
"C138": [
"proved",
"Proved. The regular expression of the names and the hash function are parameters."
],
"C139": [
"proved",
"Proved. Callbacks are functions of the values of the widgets; the dispatch of events by ipywidgets is not modelled."
],
"C140": [
"proved",
"Proved. The handlers of the opener, ssl and the text of the prompts are not modelled."
],
"C141": [
"proved",
"Proved. Of Python logging only basicConfig, the level of the root logger and one handler are modelled; blank lines and the names of the log files are not represented (C60 for the names)."
],
"C142": [
"proved",
"Proved. Readers are given by the exception they raise on a file; folders and names have no separators; the values are in C13 and C81-C85."
],
"C143": [
"proved",
"Proved. A leading // of a text is not told from /; of a module only its names are represented."
],
"C144": [
"proved",
"Proved. The server is given by its folders, files and two arbitrary rules; chunks, context and verbose are not represented."
],
"C145": [
"proved",
"Proved. References have no line ends; the parts of a reference (url_split) are in C59."
],
"C146": [
"proved",
"Proved. Values are texts or references; the other fields of the objects are in C24 and C67."
]
}