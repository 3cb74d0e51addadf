{"id": "C01", "title": "calendar_days is total and follows the leap-year rule", "statement": "time.calendar_days(year) always returns twelve month lengths (never falls through to None); only February varies; the lengths sum to 366 exactly for leap years and to 365 otherwise; and \"leap\" agrees with the proleptic Gregorian calendar for every year that is not a multiple of 4000 (the code applies an extra 4000-year exception, so full agreement with the Gregorian calendar is false).", "quantifier": "every integer year, positive, zero or negative", "why_tests_cant": "the two guarded branches partition infinitely many years; a test samples a handful", "anchors": ["gravity_toolkit/time.py:calendar_days"]}
{"id": "C02", "title": "GRACE month numbering is a bijection with calendar months", "statement": "grace_to_calendar(n) returns (year, month) with 1<=month<=12, calendar_to_grace inverts it, and grace_to_calendar inverts calendar_to_grace on every (year, month in 1..12); month 1 is January 2002, consecutive calendar months have consecutive numbers.", "quantifier": "every integer GRACE month and every integer (year, month) pair", "why_tests_cant": "round trips must hold for an unbounded range of integers, including numbers before 2002", "anchors": ["gravity_toolkit/time.py:grace_to_calendar", "gravity_toolkit/time.py:calendar_to_grace"]}
{"id": "C03", "title": "adjust_months leaves clean month lists alone", "statement": "time.adjust_months returns a list of the same length; every month which occurs exactly once in the input is returned unchanged at its position, so a duplicate-free list of months is returned unchanged.", "quantifier": "every list of integer months, of any length and order", "why_tests_cant": "the loop inspects neighbours with wrap-around indices; any list is possible", "anchors": ["gravity_toolkit/time.py:adjust_months"]}
{"id": "C04", "title": "adjust_months repairs an isolated shifted doublet", "statement": "If a true, strictly increasing month sequence is distorted by one accelerometer-shutoff shift so that two consecutive entries carry the same number (either the second slipped back, or the first slipped forward), adjust_months returns the true sequence exactly under the conditions the code tests: a slip back is repaired iff the month before the doublet is present (immediately precedes), a slip forward iff the month before is present, or the doublet is at the end, or the month after is present; at the start of the list only the forward slip with the following month present is repaired.", "quantifier": "every true month sequence and every position of the doublet", "why_tests_cant": "an induction over positions and arbitrary surrounding months is needed", "anchors": ["gravity_toolkit/time.py:adjust_months"]}
{"id": "C05", "title": "adjust_months output is always a usable month (refuted)", "statement": "Every returned month is within one month of the corresponding input month. (False: a month occurring three or more times, and a doublet whose copies are not adjacent, are silently replaced by month number 0.)", "quantifier": "every list of integer months", "why_tests_cant": "the violating shapes are not in any test data set", "anchors": ["gravity_toolkit/time.py:adjust_months"]}
{"id": "C06", "title": "convert_calendar_decimal is monotone and stays inside its year", "statement": "For valid calendar dates the decimal year lies in [year, year+1), is strictly increasing in (month, day, hour, minute, second), and 1 January 00:00 gives exactly year; the day-of-year form agrees with the month/day form.", "quantifier": "every year and every valid month/day/hour/minute/second, every day of year", "why_tests_cant": "ordering of all pairs of dates", "anchors": ["gravity_toolkit/time.py:convert_calendar_decimal"]}
{"id": "C07", "title": "convert_calendar_dates gives the modified Julian day (refuted around non-leap centuries)", "statement": "The modified Julian day computed by convert_calendar_dates is the true one (the unique numbering that advances by one from each Gregorian date to its successor, 0 at 1858-11-17) plus the exact day fraction, except that it is exactly one day too large for March-August of the years divisible by 100 but not by 400 and in the January after them (so 1900-08-31 and 1900-09-01 get the same number); shifting the epoch subtracts the epoch; the scale multiplies.", "quantifier": "every proleptic Gregorian date (year >= 1; any month, any day), every time of day, epoch and scale", "why_tests_cant": "closed formula with nested floors over unbounded years", "anchors": ["gravity_toolkit/time.py:convert_calendar_dates"]}
{"id": "C08", "title": "convert_julian inverts the Julian-day conversion", "statement": "For every Gregorian date from 1582-10-15 on, converting its Julian day back with convert_julian gives the same year, month and day, and the same time of day (before that date: the Julian-calendar date). Hence convert_julian inverts convert_calendar_dates except for the dates on which the latter is a day off.", "quantifier": "every date from the Gregorian reform onwards, unbounded above", "why_tests_cant": "the algorithm uses decimal approximations (30.6001, 122.1, 365.25) whose correctness must hold for all dates", "anchors": ["gravity_toolkit/time.py:convert_julian", "gravity_toolkit/time.py:convert_calendar_dates"]}
{"id": "C09", "title": "convert_delta_time composes and inverts", "statement": "convert_delta_time(dt, epoch1, epoch2, scale) = scale*(dt - (epoch2-epoch1)): converting from an epoch to itself is scaling only, converting there and back is the identity, and conversions through an intermediate epoch compose.", "quantifier": "every time list, every triple of epochs, every scale", "why_tests_cant": "universally quantified algebraic law", "anchors": ["gravity_toolkit/time.py:convert_delta_time"]}
{"id": "C10", "title": "reduce_by_date keeps exactly the newest file of each period", "statement": "time.reduce_by_date returns, for a list of GRACE file names, exactly one file for every distinct (start date, end date) present, in increasing date order, each of them an input file with the largest version for its period; nothing else is returned.", "quantifier": "every list of GRACE file names", "why_tests_cant": "arbitrary lists with arbitrary duplicates", "anchors": ["gravity_toolkit/time.py:reduce_by_date", "gravity_toolkit/time.py:parse_grace_file"]}
{"id": "C11", "title": "grace_find_months reports exactly the missing months (refuted outside its assumption)", "statement": "The \"missing\" list is the sorted set of months of the mission (month 4 onward) up to the last available month that have no data, provided months 1-3 are absent; if any of the months 1-3 is present in the date file the unconditional removal of the first three entries drops genuinely missing months, and a date file with a single row raises TypeError.", "quantifier": "every list of available months", "why_tests_cant": "set difference plus positional slicing is only right under an assumption", "anchors": ["gravity_toolkit/grace_find_months.py:grace_find_months"]}
{"id": "C12", "title": "grace_date midpoint lies between start and end and maps to one month", "statement": "For a file covering start day..end day (possibly across a year end) the mid-point decimal date computed by grace_date/read_GRACE_harmonics is the true midpoint of the first and last day expressed in years of the start year plus one day (half a day later than the centre of the covered interval); the month is the calendar month of the midpoint; the day count since 2002 is that of the midpoint; files of different months are stored in the dictionary under their own month. GRAZ and Swarm files that cross into a leap year have their end day computed with the month lengths of the start year.", "quantifier": "every start/end day-of-year pair within consecutive years", "why_tests_cant": "calendar arithmetic across year ends and leap years", "anchors": ["gravity_toolkit/grace_date.py:grace_date", "gravity_toolkit/read_GRACE_harmonics.py:read_GRACE_harmonics"]}
{"id": "C13", "title": "grace_input_months replaces only the requested low-degree coefficients", "statement": "The months returned are exactly start..end without the missing ones, in increasing order. Replacing C20 (all months), C21/S21, C22/S22, C30, C40, C50 (only single-accelerometer months, number > 176) and degree 1 changes only those coefficients, only in those months, to the value of the matching month, and raises an error when a month has no match or several; every other coefficient is the file value. With MODEL_DEG1 a month without degree-1 value gets the least-squares quadratic, annual and semi-annual fit of the whole degree-1 series, which reproduces a series of exactly that form. The atmospheric corrections are subtracted for GSM and added for GAC and GAA, with the correction file of the period of the month, and need MMAX = LMAX (refuted otherwise).", "quantifier": "every set of months, every replacement product, every (degree, order, month)", "why_tests_cant": "frame condition over all coefficients and all months", "anchors": ["gravity_toolkit/grace_input_months.py:grace_input_months"]}
{"id": "C14", "title": "flatten and expand are inverse", "statement": "harmonics.flatten stores each coefficient (l,m), m<=min(l,mmax) exactly once in order-major order in a vector of the length given by its closed formula, and expand recovers every such coefficient; entries with m>l become zero.", "quantifier": "every lmax, mmax<=lmax and coefficient field", "why_tests_cant": "closed-form count and index arithmetic over all sizes", "anchors": ["gravity_toolkit/harmonics.py:harmonics.flatten", "gravity_toolkit/harmonics.py:harmonics.expand"]}
{"id": "C15", "title": "add and subtract are inverse and touch only the common block", "statement": "harmonics.add then subtract with the same object restores every coefficient; coefficients beyond the common degree/order block are untouched by either; the result of add on the common block is the coefficient-wise sum for each time.", "quantifier": "all sizes, all shapes (single field or time series), all values", "why_tests_cant": "frame condition for all index pairs", "anchors": ["gravity_toolkit/harmonics.py:harmonics.add", "gravity_toolkit/harmonics.py:harmonics.subtract"]}
{"id": "C16", "title": "multiply and divide are inverse on valid coefficients", "statement": "harmonics.multiply then divide by a field that is non-zero on the valid triangle restores every coefficient of the common triangle (sine terms of order 0 excepted), and divide changes only coefficients with m<=l in the common block.", "quantifier": "all sizes, all values", "why_tests_cant": "frame condition for all index pairs", "anchors": ["gravity_toolkit/harmonics.py:harmonics.multiply", "gravity_toolkit/harmonics.py:harmonics.divide"]}
{"id": "C17", "title": "truncate keeps exactly the requested degrees and orders", "statement": "harmonics.truncate(lmax, lmin, mmax) returns a field of the requested size whose coefficients with lmin<=l<=lmax, m<=mmax equal the originals where these exist and are zero elsewhere; truncating twice equals truncating once to the smaller limits; expanding pads with zeros. (The request mmax=0 is refuted: it is treated as no limit.)", "quantifier": "all sizes and limits", "why_tests_cant": "all combinations of old and new sizes", "anchors": ["gravity_toolkit/harmonics.py:harmonics.truncate"]}
{"id": "C18", "title": "subset returns the requested months (and fails loudly otherwise)", "statement": "If the object holds each month once and the request lists available months without repetition, harmonics.subset returns exactly the fields of those months, in the order of the object; a request for an unavailable month raises. (Refuted when the request repeats a month: trailing all-zero fields with month 0 appear; and when the object holds a month twice: IndexError.)", "quantifier": "every object and every requested list", "why_tests_cant": "arbitrary lists, with and without duplicates", "anchors": ["gravity_toolkit/harmonics.py:harmonics.subset"]}
{"id": "C19", "title": "mean removal gives zero-mean residuals", "statement": "harmonics.mean(apply=True) leaves each valid coefficient with zero time mean, returns the arithmetic mean over the selected indices, and field = mean + residual; without apply the object is unchanged.", "quantifier": "every time series length >= 1, every selection of indices", "why_tests_cant": "sum over arbitrary length", "anchors": ["gravity_toolkit/harmonics.py:harmonics.mean"]}
{"id": "C20", "title": "scale, power and drift act coefficient-wise", "statement": "scale by a then b equals scale by a*b, scale by 1 is the identity; drift is linear in time and vanishes at its epoch; power(1) is the identity; scale of a field by an array gives one field per array element.", "quantifier": "all sizes, values, exponents, times", "why_tests_cant": "universally quantified algebra", "anchors": ["gravity_toolkit/harmonics.py:harmonics.scale", "gravity_toolkit/harmonics.py:harmonics.power", "gravity_toolkit/harmonics.py:harmonics.drift"]}
{"id": "C21", "title": "convolve multiplies each degree by its weight", "statement": "harmonics.convolve(w) multiplies every coefficient of degree l by w[l]; convolutions commute and compose to the product of weights; unit weights are the identity; too short weight vectors raise.", "quantifier": "all sizes, weights", "why_tests_cant": "all degrees", "anchors": ["gravity_toolkit/harmonics.py:harmonics.convolve"]}
{"id": "C22", "title": "from_list keeps every field, in time order", "statement": "harmonics.from_list of single-month objects yields one slice per object, sorted by time, each slice being the object truncated to the smallest lmax/mmax of the list, with its own time and (for distinct months) its own month; no object is lost or duplicated. (Refuted corner: a list with one object gives a series whose month is 0-dimensional, so it can be neither indexed nor iterated.)", "quantifier": "every list of harmonics objects", "why_tests_cant": "permutation + sorting over arbitrary lists", "anchors": ["gravity_toolkit/harmonics.py:harmonics.from_list"]}
{"id": "C23", "title": "indexing and iteration visit each month exactly once in order", "statement": "iterating a time-variable harmonics object yields index(0), index(1), ..., index(n-1) and stops; index(i) is slice i with its time and month; the object itself is unchanged and can be iterated again. (Nested loops over the same object are refuted: the cursor is shared.)", "quantifier": "every time series length", "why_tests_cant": "unbounded number of steps of a stateful iterator", "anchors": ["gravity_toolkit/harmonics.py:harmonics.index", "gravity_toolkit/harmonics.py:harmonics.__iter__", "gravity_toolkit/harmonics.py:harmonics.__next__"]}
{"id": "C24", "title": "copy is independent of the original", "statement": "Mutating a copy of a harmonics object (any sequence of in-place operations) never changes the original, and the copy has the same coefficients, size, time and month.", "quantifier": "every sequence of in-place operations", "why_tests_cant": "aliasing under arbitrary histories", "anchors": ["gravity_toolkit/harmonics.py:harmonics.copy"]}
{"id": "C25", "title": "expand_dims and squeeze are inverse", "statement": "expand_dims makes a single field a series of length one (and leaves a series alone); squeeze undoes it; neither changes a coefficient.", "quantifier": "every field", "why_tests_cant": "all sizes", "anchors": ["gravity_toolkit/harmonics.py:harmonics.expand_dims", "gravity_toolkit/harmonics.py:harmonics.squeeze"]}
{"id": "C26", "title": "amplitude reflects the current coefficients (refuted)", "statement": "harmonics.amplitude is the degree amplitude of the coefficients currently held. It is a caching attribute: the first read is correct, but after any change of the coefficients the stale first value is returned.", "quantifier": "every history of reads and in-place updates", "why_tests_cant": "depends on history, not on one call", "anchors": ["gravity_toolkit/harmonics.py:harmonics.amplitude", "gravity_toolkit/utilities.py:reify"]}
{"id": "C27", "title": "to_masked_array places every coefficient once", "statement": "to_masked_array puts Clm at column lmax+m and Slm at column lmax-m (m>=1), and masks exactly the cells without coefficient.", "quantifier": "every lmax, mmax, field", "why_tests_cant": "index arithmetic for all sizes", "anchors": ["gravity_toolkit/harmonics.py:harmonics.to_masked_array"]}
{"id": "C28", "title": "writing and reading back coefficients is lossless on the valid triangle", "statement": "to_ascii followed by from_ascii (and the netCDF4/HDF5 writers, which store the flattened vectors) reproduces lmax, mmax and every valid coefficient (ascii: up to the printed precision), as well as time and month when date=True. (ascii: the month is recomputed from the printed date, so a special month centred in its neighbour is not restored.)", "quantifier": "every lmax>=0, mmax<=lmax, field", "why_tests_cant": "encode/decode round trip over all sizes", "anchors": ["gravity_toolkit/harmonics.py:harmonics.to_ascii", "gravity_toolkit/harmonics.py:harmonics.from_ascii"]}
{"id": "C29", "title": "geocenter coefficient/cartesian conversion round-trips", "statement": "to_cartesian followed by from_cartesian restores C10, C11, S11 for every load Love number kl != -1 and non-zero radius, and vice versa; both are linear.", "quantifier": "all values of coefficients, kl, radius", "why_tests_cant": "real-valued identity", "anchors": ["gravity_toolkit/geocenter.py:geocenter.to_cartesian", "gravity_toolkit/geocenter.py:geocenter.from_cartesian"]}
{"id": "C30", "title": "geocenter water-equivalent conversions round-trip and agree", "statement": "to_cmwe/from_cmwe and to_mmwe/from_mmwe are inverse; mmwe values are ten times the cmwe values.", "quantifier": "all coefficients, kl != -1", "why_tests_cant": "real-valued identity", "anchors": ["gravity_toolkit/geocenter.py:geocenter.to_cmwe", "gravity_toolkit/geocenter.py:geocenter.to_mmwe", "gravity_toolkit/geocenter.py:geocenter.from_cmwe", "gravity_toolkit/geocenter.py:geocenter.from_mmwe"]}
{"id": "C31", "title": "geocenter.copy preserves the object (refuted for the radius)", "statement": "A copy behaves like the original. copy() keeps C10, C11, S11, time and month but not a custom radius, so conversions on the copy differ from the original whenever the radius is not the default.", "quantifier": "all objects", "why_tests_cant": "needs an object with a non-default radius and a relation between two conversions", "anchors": ["gravity_toolkit/geocenter.py:geocenter.copy"]}
{"id": "C32", "title": "geocenter arithmetic and matrix layout agree with harmonics", "statement": "geocenter.from_matrix(to_matrix()) and from_harmonics pick C10=clm[1,0], C11=clm[1,1], S11=slm[1,1]; add/subtract and multiply/divide are inverse; mean(apply=True) leaves zero-mean coefficients.", "quantifier": "all objects and series", "why_tests_cant": "universally quantified algebra", "anchors": ["gravity_toolkit/geocenter.py:geocenter.to_matrix", "gravity_toolkit/geocenter.py:geocenter.from_matrix", "gravity_toolkit/geocenter.py:geocenter.from_harmonics", "gravity_toolkit/geocenter.py:geocenter.add"]}
{"id": "C33", "title": "masked cells always hold the fill value", "statement": "After update_mask (hence after offset, scale, add..., replace_invalid) each masked cell holds the fill value and valid cells keep their computed value; update_mask is idempotent; replace_invalid(new fill) moves all invalid cells to the new value and leaves valid cells untouched.", "quantifier": "every grid, mask and fill value", "why_tests_cant": "all cells, any sequence of operations", "anchors": ["gravity_toolkit/spatial.py:spatial.update_mask", "gravity_toolkit/spatial.py:spatial.replace_invalid", "gravity_toolkit/spatial.py:spatial.replace_masked"]}
{"id": "C34", "title": "extending a grid wraps it around in longitude (refuted for unequal spacing)", "statement": "extend adds one wrapped column at each side: the first added column equals the last data column, the last added equals the first data column, longitudes extended by one longitude step at each end. The last longitude is extended by the latitude step, so this fails unless both steps agree.", "quantifier": "every grid", "why_tests_cant": "all sizes, all spacings", "anchors": ["gravity_toolkit/spatial.py:spatial.extend_matrix"]}
{"id": "C35", "title": "flip is an involution and keeps cells attached to coordinates", "statement": "flip(axis) applied twice restores the object; after flip(0) cell at latitude value x still holds the same datum, likewise for flip(1) and longitude. (flip(2) refuted: time is reversed but month numbers are not.)", "quantifier": "every grid size and axis", "why_tests_cant": "all cells", "anchors": ["gravity_toolkit/spatial.py:spatial.flip"]}
{"id": "C36", "title": "reading back a written spatial ascii file (refuted with dates)", "statement": "to_ascii followed by from_ascii restores data, coordinates and date. With date=True the reader drops the time column and then looks it up, so it always raises KeyError.", "quantifier": "every grid with a date", "why_tests_cant": "decision logic independent of data", "anchors": ["gravity_toolkit/spatial.py:spatial.from_ascii", "gravity_toolkit/spatial.py:spatial.to_ascii"]}
{"id": "C37", "title": "reading a netCDF4/HDF5 grid restores the orientation (refuted for square grids)", "statement": "Writing then reading gives the same array orientation (lat, lon). The reader transposes whenever the number of longitudes equals the first dimension, so grids with nlat = nlon come back transposed, all others correctly.", "quantifier": "every nlat, nlon", "why_tests_cant": "the violating case is one equality among all sizes", "anchors": ["gravity_toolkit/spatial.py:spatial.from_netCDF4", "gravity_toolkit/spatial.py:spatial.from_HDF5"]}
{"id": "C38", "title": "spatial statistics ignore no valid epoch and mask consistently", "statement": "spatial.mean(apply=True) leaves zero-mean residuals in every valid cell; sum = n*mean; min <= mean <= max; a cell is masked in the statistic iff it is masked at some epoch.", "quantifier": "every series of grids", "why_tests_cant": "sums and bounds over arbitrary length", "anchors": ["gravity_toolkit/spatial.py:spatial.mean", "gravity_toolkit/spatial.py:spatial.sum", "gravity_toolkit/spatial.py:spatial.max", "gravity_toolkit/spatial.py:spatial.min"]}
{"id": "C39", "title": "units conversions are mutually consistent", "statement": "For every degree, converting a coefficient to cm water equivalent (harmonic factors) and back (spatial factors) is the identity up to the normalisation 4*pi*... used by the integration; mmwe = 10*cmwe, Pa = 100*mbar, and the derived density is consistent with GM, G and radius.", "quantifier": "every degree, every Love number != -1", "why_tests_cant": "real-valued identities for every degree", "anchors": ["gravity_toolkit/units.py:units"]}
{"id": "C40", "title": "units.bycode accepts exactly the documented codes (refuted for negatives)", "statement": "bycode(n) names the n-th unit for 0<=n<=6 and rejects others. Python negative indexing makes it accept -7..-1.", "quantifier": "every integer", "why_tests_cant": "all integers", "anchors": ["gravity_toolkit/units.py:units.bycode"]}
{"id": "C41", "title": "Gaussian weights: normalisation, bounds and cut-off", "statement": "gauss_weights(hw, LMAX): 2*pi*w[0]=1 always; for radius below the cut-off all weights equal 1/(2*pi); once a weight falls below the cut-off all later ones equal the cut-off; every weight from degree 2 on is >= cut-off; results for smaller LMAX are a prefix of those for larger LMAX.", "quantifier": "every radius, every LMAX", "why_tests_cant": "recursion of unbounded length", "anchors": ["gravity_toolkit/gauss_weights.py:gauss_weights"]}
{"id": "C42", "title": "destriping is linear, leaves low orders alone and removes smooth signals", "statement": "destripe_harmonics never changes coefficients of order < 5 (given window), is linear, does not modify its input, and maps to zero any coefficient series that is quadratic in degree of one parity, where the window is long enough.", "quantifier": "every field, every LMAX/MMAX", "why_tests_cant": "least-squares windows of all sizes", "anchors": ["gravity_toolkit/destripe_harmonics.py:destripe_harmonics"]}
{"id": "C43", "title": "Legendre polynomials: normalisation and recursion", "statement": "legendre_polynomials(lmax, x) returns sqrt(2l+1) times the Legendre polynomials (Bonnet recursion), hence +-sqrt(2l+1) at x=+-1 and bounded in value there; smaller lmax gives a prefix.", "quantifier": "every lmax, every real x", "why_tests_cant": "recursion of unbounded depth over the reals", "anchors": ["gravity_toolkit/legendre_polynomials.py:legendre_polynomials"]}
{"id": "C44", "title": "the three associated Legendre routines agree", "statement": "plm_colombo and plm_holmes and plm_mohlenkamp return the same fully-normalised functions sqrt((2-delta_m0)(2l+1)(l-m)!/(l+m)!) (1-x^2)^(m/2) d^m P_l/dx^m in exact arithmetic for every degree and order, and their derivatives with respect to colatitude. (Refuted: LMAX<2 with the default method; the documented name columbo; orders >= 1 at the poles are not 0.)", "quantifier": "every LMAX, degree, order and |x|<1", "why_tests_cant": "three different recursions; equality for all degrees needs induction", "anchors": ["gravity_toolkit/associated_legendre.py:plm_colombo", "gravity_toolkit/associated_legendre.py:plm_holmes", "gravity_toolkit/associated_legendre.py:plm_mohlenkamp"]}
{"id": "C45", "title": "Clenshaw summation equals direct summation", "statement": "clenshaw_summation gives the same value as summing coefficients against the fully-normalised Legendre functions and cos/sin(m*lon), for LMAX>=1, independent of its internal scale. (Refuted for LMAX=0, the default.)", "quantifier": "every LMAX>=1, coefficients, point", "why_tests_cant": "backward recursion of unbounded length", "anchors": ["gravity_toolkit/clenshaw_summation.py:clenshaw_summation", "gravity_toolkit/harmonic_summation.py:harmonic_summation"]}
{"id": "C46", "title": "harmonic_summation is linear and respects truncation", "statement": "harmonic_summation is linear in the coefficients, sums exactly degrees LMIN..LMAX and orders <= MMAX, and stokes_summation equals harmonic_summation of the coefficients scaled by the degree factors and filter weights; harmonic_transform gives the same values on a full circle of longitudes. (Refuted: harmonic_transform with MMAX<LMAX; single longitude or latitude.)", "quantifier": "all fields, limits and points", "why_tests_cant": "sums of arbitrary size", "anchors": ["gravity_toolkit/harmonic_summation.py:harmonic_summation", "gravity_toolkit/harmonic_summation.py:stokes_summation"]}
{"id": "C47", "title": "gen_stokes / gen_harmonics are linear integrators with the right support", "statement": "Coefficients returned are linear in the data, zero for degree < LMIN and order > MMAX or > degree; masked-out (zero) data contribute nothing; doubling a unit factor doubles the coefficients.", "quantifier": "every grid, limits", "why_tests_cant": "sums of arbitrary size", "anchors": ["gravity_toolkit/gen_stokes.py:gen_stokes", "gravity_toolkit/gen_harmonics.py:gen_harmonics"]}
{"id": "C48", "title": "ocean and land functions are complementary", "statement": "For every land-sea mask, ocean_stokes + land_stokes equals the harmonics of the uniform function 1 on the same grid; simplifying a mask only turns isolated points.", "quantifier": "every mask", "why_tests_cant": "all grids", "anchors": ["gravity_toolkit/ocean_stokes.py:ocean_stokes", "gravity_toolkit/ocean_stokes.py:land_stokes"]}
{"id": "C49", "title": "point loads superpose", "statement": "gen_point_load of several points is the sum of the single-point results, linear in mass, with degree-0 coefficient proportional to the total mass; coefficients for order > degree are zero.", "quantifier": "every number of points", "why_tests_cant": "sum over arbitrary lists", "anchors": ["gravity_toolkit/gen_point_load.py:gen_point_load"]}
{"id": "C50", "title": "sea_level_equation conserves mass at every iteration and terminates", "statement": "After every iteration the ocean mass change equals minus the land load mass (the degree-0 term after the uniform shift), the sea level is zero (or fill) on land, and the loop ends after at most ITERATIONS rounds. (ITERATIONS=0 raises.)", "quantifier": "every load, ocean function, iteration count", "why_tests_cant": "loop invariant over unbounded iterations", "anchors": ["gravity_toolkit/sea_level_equation.py:sea_level_equation"]}
{"id": "C51", "title": "read_love_numbers returns the file values (refuted at the last degree)", "statement": "Each degree present in the file and <= LMAX is returned with its file value. When the last degree of the file is <= LMAX that degree is overwritten by linear extrapolation from the two previous ones.", "quantifier": "every file content and LMAX", "why_tests_cant": "depends on the relation between file length and LMAX", "anchors": ["gravity_toolkit/read_love_numbers.py:read_love_numbers"]}
{"id": "C52", "title": "reference-frame conversion of load Love numbers", "statement": "Conversion changes only degree 1, subtracts the same constant from h1,k1,l1 (so differences are frame independent), gives h1+2*l1=0 in CF, l1=0 in CL, h1=0 in CH, k1=-1+k1_CE in CM; an unknown frame raises. love_numbers.transform equals reading in that frame; applying it twice is not the same as once (only CF/CL/CH are idempotent).", "quantifier": "every Love number set, every frame", "why_tests_cant": "all values", "anchors": ["gravity_toolkit/read_love_numbers.py:read_love_numbers", "gravity_toolkit/read_love_numbers.py:love_numbers.transform"]}
{"id": "C53", "title": "regress reproduces exact models and decomposes the data", "statement": "If the data are exactly a combination of the design functions and the normal matrix is invertible, the returned coefficients are that combination and residuals vanish; in general data = model + residual, model = simple + seasonal and residuals are orthogonal to each design column.", "quantifier": "every time vector, data, order, cycles", "why_tests_cant": "least-squares algebra of arbitrary dimension", "anchors": ["gravity_toolkit/time_series/regress.py:regress"]}
{"id": "C54", "title": "moving average reproduces straight lines and constants", "statement": "time_series.smooth(MOVING=True) returns nmax-2*HFWTH values, is linear, reproduces constants always, and reproduces linear trends for evenly sampled data.", "quantifier": "every length, half-width, data", "why_tests_cant": "sum of arbitrary length", "anchors": ["gravity_toolkit/time_series/smooth.py:smooth"]}
{"id": "C55", "title": "amplitude/phase reconstructs the seasonal signal", "statement": "time_series.amplitude(bsin,bcos) gives A>=0 and phase such that bsin=A*cos(ph), bcos=A*sin(ph), so A*sin(wt+ph) = bsin*sin(wt)+bcos*cos(wt).", "quantifier": "all real pairs", "why_tests_cant": "real identity incl. quadrants", "anchors": ["gravity_toolkit/time_series/amplitude.py:amplitude"]}
{"id": "C56", "title": "lomb_scargle frequency option means frequency (refuted)", "statement": "Giving FREQUENCY=[f0,f1] must analyse the angular frequencies 2*pi*f0..2*pi*f1, i.e. the same as PERIOD=[1/f0,1/f1]. The code divides by 2*pi.", "quantifier": "all frequency ranges", "why_tests_cant": "relation between two option paths", "anchors": ["gravity_toolkit/time_series/lomb_scargle.py:lomb_scargle"]}
{"id": "C57", "title": "piecewise error scaling (refuted)", "statement": "With a constant DATA_ERR, coefficient errors scale linearly with DATA_ERR as in regress. piecewise omits the square root: errors scale with its square.", "quantifier": "all design matrices and errors", "why_tests_cant": "scaling law", "anchors": ["gravity_toolkit/time_series/piecewise.py:piecewise"]}
{"id": "C58", "title": "shift_grid permutes columns consistently (refuted for the first longitude)", "statement": "shift_grid moves data and longitudes together: every output column is an input column, longitudes shifted by a multiple of the cycle, each non-duplicated input column present exactly once; fails (raises) if the new base is the first longitude.", "quantifier": "every grid, every base longitude", "why_tests_cant": "slice arithmetic for all positions", "anchors": ["gravity_toolkit/tools.py:shift_grid"]}
{"id": "C59", "title": "url_split recovers the path components", "statement": "url_split(s) returns host and path components such that joining them again yields s for URLs without empty components.", "quantifier": "every URL", "why_tests_cant": "recursion on strings of any length", "anchors": ["gravity_toolkit/utilities.py:url_split"]}
{"id": "C60", "title": "create_unique_file never overwrites and terminates", "statement": "create_unique_file opens a name that did not exist before, leaves all existing files untouched, and terminates for every finite directory; names tried are stem, stem_1, stem_2, ...", "quantifier": "every directory state", "why_tests_cant": "search loop over arbitrary directory contents", "anchors": ["gravity_toolkit/utilities.py:create_unique_file"]}
{"id": "C61", "title": "even and ceil", "statement": "utilities.even(x) is the largest even integer <= x and utilities.ceil(x) the smallest integer >= x.", "quantifier": "all reals (in particular negatives)", "why_tests_cant": "all reals", "anchors": ["gravity_toolkit/utilities.py:even", "gravity_toolkit/utilities.py:ceil"]}
{"id": "C62", "title": "cmr_filter_json lists stay aligned (refuted)", "statement": "The returned name, url and time lists have equal length and refer to the same granule at each index; an empty response gives three empty lists. Granules without a matching link shift the urls, and an empty response returns only two lists.", "quantifier": "every response", "why_tests_cant": "arbitrary responses", "anchors": ["gravity_toolkit/utilities.py:cmr_filter_json"]}
{"id": "C63", "title": "mascon gridding: each cell gets the value of the mascon that contains it", "statement": "from_gsfc/from_jpl fill each grid cell whose centre lies in a mascon with the value of the last such mascon and leave the others at 0; to_gsfc gives the cosine-latitude weighted mean of the cells inside each mascon (nan if there is none) when the grid longitudes are in [-180,180) and no mascon away from the poles spans more than 180 degrees, and averaging a filled grid gives back the mascon values when the mascons are disjoint and none is empty. Refuted parts: to_jpl divides the mean once more by the number of latitude rows in the mascon, so the round trip does not give the values back; the longitudes of the centers passed by the caller are modified in place; a non-polar mascon around the whole parallel is half filled; with grid longitudes in [0,360) western mascons average to nan.", "quantifier": "every grid spacing dividing 180 degrees, every grid, every list of mascons and every data", "why_tests_cant": "arbitrary mascon geometry", "anchors": ["gravity_toolkit/mascons.py:to_gsfc", "gravity_toolkit/mascons.py:to_jpl", "gravity_toolkit/mascons.py:from_gsfc", "gravity_toolkit/mascons.py:from_jpl"]}
{"id": "C64", "title": "calendar_to_julian is consistent with decimal years (refuted: one day early)", "statement": "calendar_to_julian applied to the decimal year of a date gives the Julian day of that date. False: the result is exactly one day too small for every date (the formula expects a 1-based day of year but computes a 0-based one).", "quantifier": "every Gregorian date (year not a multiple of 4000) and time of day", "why_tests_cant": "exact value of a nested floor formula for all dates", "anchors": ["gravity_toolkit/time.py:calendar_to_julian", "gravity_toolkit/time.py:convert_calendar_decimal"]}
{"id": "C65", "title": "scaling factors are least squares gains", "statement": "scaling_factors.kfactor gives in every valid cell the gain k that minimises the squared misfit sum_t (k*x_t - y_t)^2 (0 and masked where any epoch is missing), the error sqrt(misfit/n) and the magnitude sqrt(sum y^2). Refuted for the error: one epoch with x=0 or an exact fit makes the reported error 0.", "quantifier": "every pair of series of grids", "why_tests_cant": "optimality over all gains k and all lengths", "anchors": ["gravity_toolkit/spatial.py:scaling_factors.kfactor"]}
{"id": "C66", "title": "spatial index, iteration, subset and from_list keep epochs together", "statement": "index(k), iteration, subset(months) and from_list move data, mask, error, time and month of an epoch together: index(k) and the k-th iterate are epoch k; subset keeps exactly the requested months in stored order and raises IOError on an absent month; from_list is a permutation of its inputs in the order of time. Refuted for grids with a single row or column: squeeze removes that axis.", "quantifier": "every series, every month list, every list of grids", "why_tests_cant": "arbitrary length and order", "anchors": ["gravity_toolkit/spatial.py:spatial.index", "gravity_toolkit/spatial.py:spatial.subset", "gravity_toolkit/spatial.py:spatial.from_list", "gravity_toolkit/spatial.py:spatial.__next__"]}
{"id": "C67", "title": "copy is independent, flip and transpose are not (refuted)", "statement": "No in-place call on a copy() changes the original. The results of flip() and transpose() share memory with the original: after any in-place calls both show the same cells, and replace_invalid on the result writes the new fill value into the original.", "quantifier": "every object, every sequence of in-place calls", "why_tests_cant": "all interleavings of calls on the two objects", "anchors": ["gravity_toolkit/spatial.py:spatial.copy", "gravity_toolkit/spatial.py:spatial.flip", "gravity_toolkit/spatial.py:spatial.transpose"]}
{"id": "C68", "title": "one-degree Legendre functions are the exact associated Legendre functions", "statement": "legendre(l, x, NORMALIZE=True) returns l+1 rows, row m being the fully normalized associated Legendre function Nlm of degree l and order m at every point of [-1,1] where the code does not switch to its small-value approximation; NORMALIZE=False gives (-1)^m (1-x^2)^(m/2) times the m-th derivative of the Legendre polynomial; the normalized rows agree with plm_holmes away from the poles.", "quantifier": "every degree, order and list of points", "why_tests_cant": "every degree: tests compare a handful of degrees with another approximate routine", "anchors": ["gravity_toolkit/legendre.py:legendre"]}
{"id": "C70", "title": "aliasing terms before and after 2018", "statement": "time_series.fit.aliasing_terms(t, period) returns four arrays of the length of t: sine and cosine of the cycle of the given period in days (365.25-day years) at the epochs before 2018.0 and zero elsewhere, and the same from 2018.0 on; the first and second pair add up to the full sine and cosine.", "quantifier": "every list of epochs, every period", "why_tests_cant": "every epoch", "anchors": ["gravity_toolkit/time_series/fit.py:aliasing_terms"]}
{"id": "C69", "title": "savitzky_golay gives derivatives of the local best fitting polynomial", "statement": "Each output value is RATE^DERIV times the DERIV-th derivative, at the window centre, of the polynomial of degree ORDER that best fits the data of the window; data on a polynomial of degree at most ORDER give its exact derivative at the output epochs, for unevenly spaced times too; errors are |DATA_ERR| times the root sum of squares of the data weights; the default window is the smallest odd length >= ORDER+2; other windows, short series and DERIV > ORDER raise.", "quantifier": "every series with distinct times, every window, order, derivative, rate", "why_tests_cant": "every polynomial and every sampling", "anchors": ["gravity_toolkit/time_series/savitzky_golay.py:savitzky_golay"]}
{"id": "C71", "title": "smooth separates trend, annual and semi-annual signals", "statement": "time_series.smooth (default mode) returns, for each complete window, the constant+trend, annual and semi-annual parts at the centre of the signal that best fits the window, with amplitude and phase; data = smoothed + seasonal + noise; a signal of that form is recovered exactly with zero noise; the call raises when the six functions cannot be told apart on some window (always for quarterly data and for HFWTH < 3); errors scale with |DATA_ERR|. With WEIGHT=1,2 every epoch of the series gets the weighted mean over the windows containing it, exact for such signals.", "quantifier": "every series, half width, weights", "why_tests_cant": "every signal, sampling and window", "anchors": ["gravity_toolkit/time_series/smooth.py:smooth"]}
{"id": "C72", "title": "wrap_longitudes", "statement": "wrap_longitudes maps every longitude to the unique longitude in (-180, 180] on the same meridian; wrapping twice changes nothing and longitudes already in range are kept.", "quantifier": "every real longitude", "why_tests_cant": "holds for all reals, in particular exactly at odd multiples of 180", "anchors": ["gravity_toolkit/tools.py:wrap_longitudes"]}
{"id": "C73", "title": "interp_grid with order 0 takes the nearest node", "statement": "With order=0 the value returned for a point inside the grid is that of the grid node nearest in latitude and in longitude; at a grid node it is the node value.", "quantifier": "every regular grid and every point inside it", "why_tests_cant": "every grid and point", "anchors": ["gravity_toolkit/tools.py:interp_grid"]}
{"id": "C74", "title": "convert_arg_line_to_args yields the words before the first hash sign", "statement": "For every line of an argument file the arguments are exactly the maximal runs of non-space characters before the first hash sign, in order; no argument is empty or contains white space or a hash sign.", "quantifier": "every line", "why_tests_cant": "every line of characters, of any length", "anchors": ["gravity_toolkit/utilities.py:convert_arg_line_to_args"]}
{"id": "C75", "title": "CMR short names and granule patterns", "statement": "cmr_product_shortname succeeds exactly for the existing mission/level/center/release combinations and lists one short name per requested Level-2 product (CSR without GAA and GAB); the Level-2 granule pattern matches exactly the granule names of the product, solution (BC01 for products other than GSM) and version.", "quantifier": "every query and every granule name", "why_tests_cant": "every string as granule name", "anchors": ["gravity_toolkit/utilities.py:cmr_product_shortname", "gravity_toolkit/utilities.py:cmr_readable_granules"]}
{"id": "C76", "title": "read_GRACE_harmonics returns the coefficients of the file", "statement": "Every degree and order up to LMAX and MMAX holds the value of its last coefficient line in the file (1 for C00 and 0 for the others if there is none), for RL04 GSM files plus the drift rate times the time since 2003.3, minus the pole tide correction for C21 and S21 only; the pole tide correction is continuous in time to 2e-15 at 2010; start, end and mean times are those of the first and last day. A drift line in any other file or above the truncation raises an exception.", "quantifier": "every file content, truncation and date", "why_tests_cant": "frame condition over all coefficients and files", "anchors": ["gravity_toolkit/read_GRACE_harmonics.py:read_GRACE_harmonics"]}
{"id": "C77", "title": "degree_amplitude is the root sum of squares of each degree", "statement": "For every degree up to LMAX the amplitude is the non-negative square root of the sum over orders up to min(l, MMAX) of C^2+S^2; it is zero exactly if all those coefficients are, scales with the absolute value of a factor, obeys the triangle inequality, and does not see coefficients outside the triangle.", "quantifier": "every pair of coefficient arrays and truncation", "why_tests_cant": "norm axioms over all inputs", "anchors": ["gravity_toolkit/degree_amplitude.py:degree_amplitude"]}
{"id": "C78", "title": "gen_disc_load gives the harmonics of a uniform disc", "statement": "The coefficients of a disc are the unit conversion factor times the integral of the Legendre polynomial over the cap times the normalized harmonic at the center; a load in Gt has exactly its mass in the degree 0 coefficient for every radius and position, a disc covering the Earth has no coefficient above degree 0. Refuted: a zonal call (MMAX = 0) raises an exception.", "quantifier": "every degree, position, radius and load", "why_tests_cant": "integral identity over all degrees and radii", "anchors": ["gravity_toolkit/gen_disc_load.py:gen_disc_load", "gravity_toolkit/legendre_polynomials.py:legendre_polynomials"]}
{"id": "C79", "title": "gen_spherical_cap gives the harmonics of a uniform cap", "statement": "With RAD_CAP the coefficients agree with gen_disc_load for the same angle; without any size keyword the call raises an exception. Refuted: AREA gives a cap of that area (the code uses the flat-disc radius, so the cap is smaller), and a Gt load keeps its mass.", "quantifier": "every degree, position, radius and load", "why_tests_cant": "real-analytic identity over all radii", "anchors": ["gravity_toolkit/gen_spherical_cap.py:gen_spherical_cap"]}
{"id": "C80", "title": "gen_averaging_kernel gives optimal averaging weights", "statement": "Every coefficient of the kernel is the region coefficient divided by the area and by one plus the ratio of its noise to the signal in the Gaussian spectrum; without noise it is the region divided by its area, noise shrinks coefficients towards zero and never changes their sign, more noise shrinks more, and the kernel does not depend on the scaling of the region. Units other than 0 and 1 raise an exception.", "quantifier": "every region, error model, truncation and half width", "why_tests_cant": "monotonicity and invariance over all inputs", "anchors": ["gravity_toolkit/gen_averaging_kernel.py:gen_averaging_kernel"]}
{"id": "C81", "title": "SLR C20 files are read completely and dated correctly", "statement": "Every data line after the end of the header gives exactly one record, in file order, with its own value, error in units of 1e-10 and decimal year (for Julian dates: the date to the whole hour); the record month is the nearest month to its time, so dates up to the 14th get their own month and dates after the 18th the next one, and duplicate months are adjusted. The older monthly files give one record per month, the flagged line of two; two lines with no or two flags raise ValueError. CSR files remove the dealiasing column when asked. A file without an end of header, or a short line, raises IndexError. Refuted: the month of the rows of CSR files is the calendar month (March 1st counts as February), and a month with three lines keeps one of them (it becomes zero).", "quantifier": "every file: any header, any number and content of lines", "why_tests_cant": "Corner cases depend on the number of lines per month and on the day of the month of all lines.", "anchors": ["gravity_toolkit/SLR/C20.py:C20", "gravity_toolkit/time.py:adjust_months"]}
{"id": "C82", "title": "Other SLR coefficient tables and weekly averages", "statement": "C30, C50, C21, C22 and GravIS geocenter tables give for every data line with enough numbers one record with the documented columns; an empty table raises for C30 and C50. LARES values are scaled by 1e-10 about the given mean. Weekly series are turned into seven days per week; for each requested date the value is the mean over the 28 days nearest to the date and the time is the mean of these days, cosine and sine use the same days, and results stay within the range of the weekly values. Refuted: the seven days are centred on the date of the week (they are half a day early), C50 lines with eight numbers can be read, a LARES file with one row can be read.", "quantifier": "every file, every list of dates, every sorting permutation of equally near days", "why_tests_cant": "Nearest-day selection depends on all dates and on how ties are ordered.", "anchors": ["gravity_toolkit/SLR/C30.py:C30", "gravity_toolkit/SLR/C50.py:C50", "gravity_toolkit/SLR/CS2.py:CS2", "gravity_toolkit/geocenter.py:geocenter.from_gravis", "gravity_toolkit/read_SLR_harmonics.py:convert_weekly"]}
{"id": "C83", "title": "SLR low degree fields", "statement": "Weekly files: every complete block of twenty lines after the header is one week, with its date and with each coefficient of degree and order from the last row for it, zero without a row; trailing lines are ignored. Monthly files: block k must carry number k+1, its coefficients are the mean field of the header plus the scaled anomaly, errors add in quadrature, the time is the middle of the calendar month; a header without mean field is refused. The zonal series of a weekly file at given dates are averages of the 28 nearest days. Refuted: one adjustment of duplicate months is final.", "quantifier": "every file with any number of blocks and rows in any order", "why_tests_cant": "The number and order of the rows and blocks are unbounded.", "anchors": ["gravity_toolkit/read_SLR_harmonics.py:read_CSR_monthly_6x1", "gravity_toolkit/read_SLR_harmonics.py:read_GSFC_weekly_6x1", "gravity_toolkit/SLR/C40.py:C40", "gravity_toolkit/SLR/C50.py:C50"]}
{"id": "C84", "title": "GIA models are read with every coefficient in its place", "statement": "Tables of degree, order, cosine and sine: every line with numbers counts, the last line for a coefficient wins, missing coefficients are zero, degrees or orders above LMAX are left out, IJ05-R2 values are scaled by 1e-11. ICE6G-D uses the six lines after the first title and all lines after the second, and needs exactly one title of each kind. ICE6G coefficient (l,m) is read from line (l+1)^2/4 + m/2 and the columns of its order. Wu10 coefficients are taken from position l^2-1+2m-1 (cosine) and l^2-1+2m (sine) and divided by the radius in mm; a file with too few values raises IndexError. Caron rows with negative order are sine coefficients. A missing file or a file name that does not fit the model is an error. MMAX only limits the orders kept. Refuted: LMAX=0 gives degree 0 (it means the default), an unknown model name is an error (it gives zeros), from_GIA accepts MMAX (TypeError).", "quantifier": "every file content, every LMAX and MMAX", "why_tests_cant": "The position of a coefficient depends on all preceding degrees; files are unbounded.", "anchors": ["gravity_toolkit/read_GIA_model.py:read_GIA_model", "gravity_toolkit/read_GIA_model.py:gia.from_GIA"]}
{"id": "C85", "title": "Geocenter series from text files", "statement": "from_SLR gives for every line after the header its time, the degree-one coefficients of its X, Y and Z displacement and errors (divided by radius times the square root of 3) from the named columns; with AOD the mean over the dealiasing file of the month is subtracted. from_swenson converts mm water equivalent, and takes the month from the fifth of five numbers. from_UCI takes the columns named in the header and the month from the last number. from_tellus joins the lines of order 0 and 1 into one record, dated at the middle of its days (JPL) or of its month, and refuses other orders. Files without the end of the header are refused. Refuted: the month of from_SLR is the month of the date (the first of a month counts to the month before), the dealiasing directory is only needed with AOD, a non-default radius is used for the dealiasing part, the order of the two lines of from_tellus does not matter.", "quantifier": "every file, column order, radius and date", "why_tests_cant": "Files are unbounded and calendar effects depend on all dates.", "anchors": ["gravity_toolkit/geocenter.py:geocenter.from_SLR", "gravity_toolkit/geocenter.py:geocenter.from_AOD1B", "gravity_toolkit/geocenter.py:geocenter.from_swenson", "gravity_toolkit/geocenter.py:geocenter.from_UCI", "gravity_toolkit/geocenter.py:geocenter.from_tellus"]}
{"id": "C86", "title": "Dates of ICGEM gravity field files", "statement": "read_gfc_harmonics adds to the coefficients of the file the start, end and middle of its period. For a month in the file name, start and end are the Julian days of the first and the last second of the month, and the decimal date falls in that year and in the twelfth of the year belonging to that month; for a Swarm file from one date and time to another, of the same year or of January or February of the next, start and end are the Julian days of the two, and the decimal date is that of grace_date for the same file. Months above 12 and unknown names raise an error. Refuted: the decimal date is the one of the middle of the month (it is one day late), the Swarm background models can be read (always an error), month 0 is refused (it is dated like December).", "quantifier": "every year, month, start and end date, and every content of the file", "why_tests_cant": "Calendar arithmetic depends on all dates; the one-day shift needs comparison with an exact calendar.", "anchors": ["gravity_toolkit/read_gfc_harmonics.py:read_gfc_harmonics"]}
{"id": "C87", "title": "Fourier coefficients of the Legendre functions", "statement": "For even LMAX of at least 4 and MMAX between 4 and LMAX+1, the table of fourier_legendre(LMAX, MMAX) expands the fully normalised associated Legendre functions of every degree up to MMAX (rounded down to even) and every order in the colatitude: for all theta from 0 to pi, the sum over j of plm[l,m,j] times cos(j theta) for even orders, sin(j theta) for odd orders, is the function of degree l and order m at cos(theta), and there are no harmonics above the degree or of the other parity. With the default MMAX these are all degrees. All other arguments raise IndexError or ValueError. Refuted: a smaller MMAX only truncates the table (the zonal rows of even degrees above MMAX are divided by a norm that is exactly zero).", "quantifier": "every LMAX and MMAX, every degree and order, every colatitude", "why_tests_cant": "The recursions in degree and order and the normalisation sums are tied together for all sizes; tests compare a few degrees at a few colatitudes.", "anchors": ["gravity_toolkit/fourier_legendre.py:fourier_legendre"]}
{"id": "C88", "title": "Fourier method of gen_harmonics recovers band-limited fields", "statement": "gen_harmonics with METHOD=fourier, on a global grid of cell centres (any first longitude, more than 2 LMAX longitudes, more than LMAX latitudes, in either order), returns exactly the coefficients of any field that is a spherical harmonic series of degree up to LMAX (even, at least 4): clm is the cosine coefficient, slm the sine coefficient of every degree and order, zero for order zero and above the degree. Consequently harmonic_summation followed by it is the identity. With a smaller even MMAX the same holds for degrees up to MMAX. A precomputed table gives the same result. Odd or too small orders and grids with exactly one pole raise an error. Refuted: grids that include both poles (the mean of a constant field of one comes out as 1 - 1/(N (LMAX+1)) from north to south and 1 + 1/(N (LMAX+1)) from south to north, N the number of latitude intervals).", "quantifier": "every LMAX, grid size, first longitude, orientation and every set of coefficients", "why_tests_cant": "Exactness is a statement about all band-limited fields and all grid sizes; tests compare a few fields up to a tolerance.", "anchors": ["gravity_toolkit/gen_harmonics.py:gen_harmonics", "gravity_toolkit/gen_harmonics.py:fourier"]}
{"id": "C89", "title": "Harmonic gradients", "statement": "For every even LMAX of at least 4, legendre_gradient returns a first table that is, order by order, the Fourier series of the colatitude derivative of the normalized Legendre functions divided by -sqrt(l(l+1)). harmonic_gradients returns, as its second component, the exact colatitude derivative of the spherical harmonic series with S in front of the cosine and -C in front of the sine, at every grid point off the poles, and its arrays have one row per longitude and one column per latitude. Refuted: that the components are the gradient of the field: a zonal field gets a zero gradient everywhere, and the first component is the longitude derivative over the sine of the colatitude only for degree 1, half of it for every other sectoral harmonic. An odd LMAX, MMAX different from LMAX and MMAX below 4 raise an error.", "quantifier": "every LMAX, grid and every set of coefficients", "why_tests_cant": "The tables are infinite families of derivatives; no test of the project runs harmonic_gradients against the derivative of a field.", "anchors": ["gravity_toolkit/fourier_legendre.py:legendre_gradient", "gravity_toolkit/harmonic_gradients.py:harmonic_gradients"]}
{"id": "C90", "title": "Geostrophic currents", "statement": "geostrophic_currents without smoothing returns, at every grid point off the poles and the equator, as its first component g rho_e/(6 Omega rho_w cos(theta)) times the colatitude derivative of the height field (harmonics times (2l+1)/(1+k_l)), provided C10 and the coefficients of the two highest degrees vanish; its second component is -g rho_e/(6 Omega rho_w cos(theta) sin(theta)) times the longitude derivative of the height field, smoothed with the Gaussian weights, and every degree contributes whatever LMIN. The exact value of the first component for all coefficients is given. Refuted: the relation for C10 (error 2 sqrt(3)/(1+k_1) C10 times the scale over cos sin) and for degrees LMAX-1 and LMAX (exact error given for a zonal field of degree LMAX). Missing or too short Love numbers and single longitudes or latitudes raise an error.", "quantifier": "every LMAX, MMAX, grid, Love numbers, density and every set of coefficients", "why_tests_cant": "The relation is between a sum with shifted degrees and a derivative, for all coefficients and sizes; no test of the project runs the function.", "anchors": ["gravity_toolkit/harmonic_gradients.py:geostrophic_currents"]}
{"id": "C91", "title": "Loads have symmetric fields", "statement": "The field of the coefficients of gen_point_load, gen_disc_load and gen_spherical_cap (all orders kept) at any point depends only on the angular distance to the load: it is the load times the sum over the degrees of the degree factor times (2l+1) P_l(cos distance), where the cosine is the scalar product of the unit vectors; point loads superpose. Moving a disc and the observer to another pair of points at the same distance leaves the value unchanged. A disc layer in cm of water mapped back to cm of water by stokes_summation is the Legendre expansion up to LMAX of the indicator function of the disc, whatever the Love numbers.", "quantifier": "every LMAX, load, position of load and observer, unit factors or Love numbers", "why_tests_cant": "Symmetry under all rotations of the sphere: it needs the addition theorem of the spherical harmonics for every degree and all pairs of points.", "anchors": ["gravity_toolkit/gen_point_load.py:gen_point_load", "gravity_toolkit/gen_disc_load.py:gen_disc_load", "gravity_toolkit/gen_spherical_cap.py:gen_spherical_cap", "gravity_toolkit/harmonic_summation.py:stokes_summation"]}
{"id": "C92", "title": "Gaussian smoothing is a spatial average", "statement": "The field returned by clenshaw_summation with a smoothing radius is, at every point, the average of the unsmoothed field over the sphere with weights exp(-b(1-cos distance)), half the central weight at the radius, positive, decreasing with the distance and of total weight one, up to the terms of the degrees whose exact weight is below the floor 2e-10 pi of gauss_weights (these enter with at most that factor). When no weight reaches the floor, every bound of the unsmoothed field is a bound of the smoothed field: smoothing never overshoots.", "quantifier": "every coefficient set, LMAX, radius, unit and evaluation point", "why_tests_cant": "Equality of a spectral product with an integral over the sphere and a maximum principle, for all fields and radii.", "anchors": ["gravity_toolkit/clenshaw_summation.py:clenshaw_summation", "gravity_toolkit/gauss_weights.py:gauss_weights"]}
{"id": "C93", "title": "Least squares mascons", "statement": "calc_mascon with fit method 1 and a least squares solver returns, for every month, mass = amplitude times mascon area, where the amplitudes minimise the sum over all harmonics of degree LMIN to LMAX and order up to MMAX of the squared misfit between the corrected coefficients and the mixture of the mascons, weighted with smoothing times (2l+1)/(1+k_l) (the smallest such amplitudes if several). A month that is a mixture of independent mascons gives back exactly the mass of each mascon. Masses are linear in the corrected coefficients of their own month and depend on no other month; the error is the root sum of squares of the changes caused by each single coefficient error. The area of a mascon built as a disc of 1 cm of water is the area of the disc times 1+k_0; redistribution over the ocean gives every mascon zero total mass. Solver inv needs as many mascons as harmonics. Refuted: fit method 2 (geoid) returns for every mascon a common factor times its last sine coefficient, whatever the data (all rows of the fit matrix are overwritten by the last); LMIN above MMAX+1 always fails.", "quantifier": "every number of mascons and months, coefficients, degree range, Love numbers, smoothing radius, corrections and errors", "why_tests_cant": "Optimality over all amplitudes and exact recovery for every mixture, month and set of mascons.", "anchors": ["scripts/calc_mascon.py:calc_mascon", "scripts/calc_sensitivity_kernel.py:calc_sensitivity_kernel", "gravity_toolkit/gen_disc_load.py:gen_disc_load"]}
{"id": "C94", "title": "Sensitivity kernels", "statement": "The kernel written by calc_sensitivity_kernel (fit method 1) for a mascon is its weight function: the mass calc_mascon returns for that mascon and month equals the integral over the surface of the Earth of kernel times the surface mass density whose Stokes coefficients are the corrected coefficients. Integrated against the surface mass of mascon j the kernel of mascon k gives the area of mascon k if j = k and zero otherwise (no leakage between independent mascons). Harmonics outside the fit are zero.", "quantifier": "every set of mascons, degree range, Love numbers, smoothing radius, solver and surface mass", "why_tests_cant": "Equality with an integral over the sphere for all fields.", "anchors": ["scripts/calc_sensitivity_kernel.py:calc_sensitivity_kernel", "scripts/calc_mascon.py:calc_mascon"]}
{"id": "C95", "title": "Degree amplitudes are power", "statement": "The mean square over the sphere of the field of a coefficient set is the sum over the degrees of the squared degree amplitudes, and the mean square of the part of degree l is the squared amplitude of degree l; parts of different degree are uncorrelated over the sphere.", "quantifier": "every coefficient set, LMAX, MMAX and time slice", "why_tests_cant": "Identity between a finite sum and a surface integral for all fields.", "anchors": ["gravity_toolkit/degree_amplitude.py:degree_amplitude"]}
{"id": "C96", "title": "Geocenter solution", "statement": "calc_degree_one returns degree one coefficients that close the water budget. In every iteration and month there is a sea level (uniform over the ocean, or with FINGERPRINT the solution of the sea level equation for the land load) such that land water (computed with the degree one coefficients of the iteration before) and ocean sum to zero mass, and the ocean part of the mass of the GRACE degrees 2..LMAX plus the new degree one terms has the same three degree one moments over the ocean as the sea level, up to one constant per component that makes the mean over the months zero. With a uniform ocean these coefficients are unique, so coefficients that close the budget by themselves are returned after one iteration; data that are only GIA and atmosphere give back their degree one. There are 1 to 15 iterations (1 if not iterative), they go on exactly while the coefficients move by more than 1e-6 relative, and the last one is the result. Solver inv raises exactly when all ocean cells lie on one great circle. Degrees 0 and 1 of the GRACE fields are never used. The second file adds the dealiasing coefficients. Refuted: an unknown solver (the default None of the function) silently returns the GIA and atmosphere coefficients less their mean; an external bottom pressure model always raises TypeError; the AOD group of the netCDF file holds the dealiasing coefficients divided by the mass factor although labelled fully normalized.", "quantifier": "every grid with different numbers of longitudes and latitudes, land-sea mask, LMAX, MMAX, expansion, Love numbers, smoothing radius, number of months, coefficients and first guess", "why_tests_cant": "The budget must close for every field, mask and iteration history.", "anchors": ["scripts/calc_degree_one.py:calc_degree_one", "scripts/calc_degree_one.py:model_seasonal_geocenter", "gravity_toolkit/gen_stokes.py:gen_stokes", "gravity_toolkit/sea_level_equation.py:sea_level_equation"]}
{"id": "C97", "title": "Monthly maps: from coefficients to grids", "statement": "grace_spatial_maps writes one map per GRACE month with its time and month, on the grid the arguments describe; away from the poles its value is the sum of the harmonics from LMIN to LMAX of the anomaly of that month (GRACE less the mean file or the time mean, less the glacial isostatic adjustment rate times the time since 2003.3, less the fields to be removed with their mass put into the ocean; filter applied to both if asked), each degree multiplied by the factor of the unit and the weight of the Gaussian filter. Signal plus everything that is taken out gives the maps of the signal; without a mean file the average map is minus the average of what is taken out after the mean, not zero; smoothing is a Gaussian average over the sphere. A field to be removed that is one data file, a single month, a region without bounds and an unknown interval raise.", "quantifier": "all degrees, orders, months, fields, mean files, lists of fields to be removed, units, radii, spacings, intervals and bounds", "why_tests_cant": "the maps combine a dozen steps on arrays of any size; a test compares single numbers of single runs", "anchors": ["scripts/grace_spatial_maps.py:grace_spatial_maps", "gravity_toolkit/harmonics.py:harmonics.destripe", "gravity_toolkit/harmonics.py:harmonics.subset"]}
{"id": "C98", "title": "combine_harmonics: coefficients to maps", "statement": "combine_harmonics maps every field of its input: truncated to LMAX, less the mean file, with its total mass put into the ocean if asked, filtered if asked, smoothed and in the unit asked, on longitudes from 0 to 360. With redistribution every map has zero total over the sphere for all units, radii and filters; without it the total is that of input less mean times the factor of degree 0. Smoothing is a Gaussian average over the sphere. An order below LMAX, several fields without dates, a mean file with an index of files, a region without bounds and an unknown interval raise.", "quantifier": "all degrees, numbers of fields, dated or single undated inputs, means, ocean functions, units, radii, spacings, intervals and bounds", "why_tests_cant": "the total of a map is an integral over the sphere and the claims range over all fields and settings", "anchors": ["scripts/combine_harmonics.py:combine_harmonics", "gravity_toolkit/harmonics.py:harmonics.__next__"]}
{"id": "C99", "title": "Mascon fields from their time series", "statement": "mascon_reconstruct reads back the text files of calc_mascon: for mascons of different names, field k holds, for every month of the series, the coefficients of mascon k (redistributed over the ocean if asked) times the mass of mascon k that was printed, divided by its area; the months are exact, the dates within half of the fourth decimal. The sum of all fields is the least squares fit of the mascons to the data up to amplitudes of 50000 g over the area (rounding of the text file). In a second run of calc_mascon with the fields of some independent mascons removed, those mascons show no mass (to half of the tenth decimal of a Gt) and all others the same mass as before. With redistribution every field has zero total mass. Names are compared without case and without degree and order: mascons of one name share one file and the last one counts. A series of one month and a series computed only in a run with fields removed raise.", "quantifier": "all numbers of mascons, names, months, data, degrees, orders, smoothing radii, solvers and sets of removed mascons", "why_tests_cant": "two programs communicate through rounded text files whose names are computed from any names; the claims need the minimality and linearity of the fit for all data", "anchors": ["scripts/mascon_reconstruct.py:mascon_reconstruct", "scripts/calc_mascon.py:calc_mascon"]}
{"id": "C100", "title": "Error maps propagate the residual noise of every coefficient", "statement": "grace_spatial_error, run on a directory without an error file of its name, returns the map of errors on the documented grid: the error at a cell is the root of the sum of squares of the changes of the map of grace_spatial_maps when one Stokes coefficient after the other is off by its error over sqrt(N), where the error of a coefficient is the root mean square of its residuals, at the centre of every window of 13 months (39 fields for CNES RL01/RL02), from the best fitting constant, trend, annual and semi-annual signal, and N the number of windows. Adding such signals to the coefficients leaves the map unchanged and data without noise have no error, with or without a mean field and destriping. A second run with netCDF or HDF5 files gives the same map. Refuted: with text files the second run divides by the GRACE month of the mean date instead of the number of months; and a later run with other data but the same options and first and last month silently reuses the errors of the earlier run.", "quantifier": "all degrees, orders, months, coefficients, mean fields, radii, units, grids, directories, pairs of runs and printing functions", "why_tests_cant": "a test runs the program once on one data set; reuse of the error file, the propagation law and the invariance under signals concern all data and all histories of runs", "anchors": ["scripts/grace_spatial_error.py:grace_spatial_error", "gravity_toolkit/tools.py", "gravity_toolkit/time_series/smooth.py:smooth", "gravity_toolkit/harmonics.py:truncate,convolve,power,scale,to_file,from_file"]}
{"id": "C101", "title": "Scaled maps, leakage errors and shared error files of scale_grace_maps", "statement": "scale_grace_maps: without files to be removed, the map of each month is in every valid cell the map of C97 (degrees from 0) times the gridded scale factor; masked cells of the scale factors hold the fill value and the mask in all three outputs; the leakage error is the scaling error times the root of the total power of the scaled months divided by the magnitude; the GRACE error is the error of C100 times the scale factor, computed from the coefficient error file, which is shared with grace_spatial_error: after a run of that program whose file has the same name the errors of THAT run are used. Refuted: with any file to be removed the program always raises and writes no error file; the minimum degree option has no effect on maps and leakage error; a negative scale factor gives a negative error; zero magnitude with zero signal gives -9999 times the scaling error.", "quantifier": "all monthly fields, mean fields, GIA rates, scale factor grids and masks, smoothing radii, degrees and orders, file histories", "why_tests_cant": "real-valued fields, arbitrary grids and the state left by earlier runs", "anchors": ["scripts/scale_grace_maps.py:scale_grace_maps", "gravity_toolkit/spatial.py:spatial.scale", "gravity_toolkit/spatial.py:spatial.sum", "gravity_toolkit/spatial.py:spatial.power", "gravity_toolkit/spatial.py:spatial.replace_invalid"]}
{"id": "C102", "title": "Local copies of data archives: complete, idempotent, repaired after interruption only with CLOBBER or CHECKSUM", "statement": "The sync programs: a complete run gives every listed file that is due (missing, older than the archive to within the even-second rounding, different checksum, or CLOBBER) the contents and the modification time of the archive and touches nothing else; a second run does nothing; after any history of complete runs and archive changes that advance the modification time by two seconds or more, one more complete run makes the local copy agree with the archive; an interruption at any point leaves all other files as they were, and a complete run with CLOBBER or CHECKSUM repairs it. from_http and from_ftp return the remote contents and rewrite the local file only if the hash differs; the listing functions keep each name with its own time, filtered and sorted. Refuted: an interrupted transfer leaves a truncated file with a newer time that no later run without CLOBBER or CHECKSUM replaces; a version one second newer is overlooked; a file without modification time stops every run.", "quantifier": "all listings, contents, times, file systems, interruption points and histories of runs", "why_tests_cant": "quantifies over every crash point and every history of runs", "anchors": ["scripts/gfz_isdc_grace_ftp.py:ftp_mirror_file", "scripts/gfz_icgem_costg_ftp.py:ftp_mirror_file", "scripts/gfz_isdc_dealiasing_ftp.py:ftp_mirror_file", "scripts/itsg_graz_grace_sync.py:http_pull_file", "scripts/esa_costg_swarm_sync.py:http_pull_file", "scripts/podaac_cumulus.py:http_pull_file", "scripts/podaac_cumulus.py:s3_pull_file", "gravity_toolkit/utilities.py:from_http", "gravity_toolkit/utilities.py:from_ftp", "gravity_toolkit/utilities.py:get_hash", "gravity_toolkit/utilities.py:ftp_list", "gravity_toolkit/utilities.py:http_list"]}
{"id": "C103", "title": "Listings, compressed copies and monthly archives of the sync programs", "statement": "esa_costg_swarm_sync lists the whole directory in order if the server returns full pages; cnes_grace_sync with a log file gives the archive the contents and time of the server, and gzip_copy_file rewrites a compressed file exactly when missing, older by the time in its header, or CLOBBER, and is idempotent. Refuted: a server with shorter pages is listed incompletely; with LIST the index names files that were not transferred; cnes_grace_sync without a log file raises UnboundLocalError; an interrupted compressed copy is never completed (and with fewer than eight bytes every later run raises, even with CLOBBER); the monthly dealiasing archive is written once, so days published later or lost by an interruption are never added without CLOBBER.", "quantifier": "all listings, page sizes, contents, header times, interruption points", "why_tests_cant": "quantifies over every crash point and page size", "anchors": ["scripts/esa_costg_swarm_sync.py:esa_costg_swarm_sync", "scripts/cnes_grace_sync.py:cnes_grace_sync", "scripts/cnes_grace_sync.py:gzip_copy_file", "scripts/gfz_isdc_dealiasing_ftp.py:gfz_isdc_dealiasing_ftp"]}
{"id": "C104", "title": "Trend maps: every map of regress_grace_maps shows the coefficient its label names, by least squares in every cell", "statement": "regress_grace_maps with the periods in the order seasonal, then aliasing: the maps of the coefficients together are in every cell the only least squares combination of the functions their labels name (x0, x1, x2 about the mean time, semiannual and annual sine and cosine, aliasing terms of the tides before and from 2018 on), so a series that is such a combination is recovered; errors are the Student quantile times the standard error; the statistics maps hold sum of squares, AIC, BIC and adjusted R2; amplitude and phase maps describe the same wave as the sine and cosine maps, with propagated errors; all files have different names; the program returns exactly if the order is at most 2, there are more months than coefficients and the functions are independent on the months. Refuted: order 3 or more never gives output; a cell that is masked in all months gets a value and a mask that says it is valid; with an aliasing period before the annual one, or a period without a label, the maps show the coefficients of other functions.", "quantifier": "all grids, values, fill values, months, missing months, orders, lists of periods, cells and competing coefficients", "why_tests_cant": "least squares optimality over all coefficients for every grid and set of months", "anchors": ["scripts/regress_grace_maps.py:regress_grace_maps", "gravity_toolkit/time_series/fit.py:aliasing_terms", "gravity_toolkit/time_series/regress.py:regress", "gravity_toolkit/time_series/amplitude.py:amplitude", "gravity_toolkit/spatial.py:spatial.from_list"]}
{"id": "C105", "title": "Trend maps with a break: two lines that meet at the break month, least squares in every cell", "statement": "piecewise_grace_maps: it raises ValueError if the break month is not among the months read; otherwise the x0 map and the two px1 maps (START to break, break to END) together with the seasonal and aliasing maps are in every cell the only least squares combination of two straight lines that meet at the break and the periodic functions, so such series are recovered; errors, fit statistics, amplitude and phase as for C104 (the error of the second slope leaves out the covariance); the break has months on both sides and no two files have the same name and months; the program returns exactly if there are more months than coefficients and the functions are independent on the months. Refuted: a cell masked in all months gets a value and a mask that says it is valid.", "quantifier": "all grids, values, fill values, months, break months, lists of periods, cells and competing coefficients", "why_tests_cant": "least squares optimality over all coefficients for every grid, set of months and break", "anchors": ["scripts/piecewise_grace_maps.py:piecewise_grace_maps", "gravity_toolkit/time_series/piecewise.py:piecewise", "gravity_toolkit/time_series/fit.py:aliasing_terms", "gravity_toolkit/time_series/amplitude.py:amplitude"]}
{"id": "C106", "title": "Monthly dealiasing means", "statement": "dealiasing_monthly_mean reads, for each month of the GRACE date file, exactly the daily AOD1B members from the first to the last day (also across a year end), lists the months for which every day has a member, and writes for each of them whose file is missing or older than a member (or all, with clobber) the mean over all epochs of all days of every coefficient up to LMAX, with the mean of the epochs as time; every other file is left alone and a second run writes nothing. The SHM file read as a GRACE file gives the printed means with zero errors. The mean time is (nt+1)/(2 nt) days before the GRACE mid-date. Refuted: completeness is counted (a day twice makes up for a missing one), an extra member raises IndexError and the later months are lost, a member without the product never ends, a date file with one month empties the new date file, days of 2099 and 2100 are off by one, mid-dates are listed in single precision.", "quantifier": "all rows from 1901 to 2098, all archives and members, all orders of coefficients, all degrees and releases, all file states and modification times", "why_tests_cant": "The days depend on the calendar of each row and the output on every earlier file and archive; tests would need archives of AOD1B data for particular months.", "anchors": ["scripts/dealiasing_monthly_mean.py:dealiasing_monthly_mean", "scripts/dealiasing_monthly_mean.py:calc_julian_day", "scripts/dealiasing_monthly_mean.py:to_SHM"]}
{"id": "C107", "title": "Series of the geocenter and of the oblateness of the dealiasing product", "statement": "The programs aod1b_geocenter and aod1b_oblateness write for each monthly archive of readable members whose output file is missing or older (or with clobber) one line for each epoch of each member in their order: the displacements sqrt(3) a (C11, S11, C10) of the product; for C20 only the first four epochs of each day, so that in release 6 the second half of every day is missing. Files which are up to date are left as they are, so that a second run changes nothing. The reader of the geocenter class recovers the degree 1 coefficients of every epoch up to the rounding of the print, but looks for another file name than the program writes. A member which cannot be read ends the program, and the file with the lines before it is taken for complete in the next run; of two archives of one month the first is kept.", "quantifier": "every release, product, list of archives with their members, modification times, files present before, clobber flag and printing function", "why_tests_cant": "ranges over all archives, epochs, coefficients and states of the output directory, and over interrupted runs", "anchors": ["scripts/aod1b_geocenter.py:aod1b_geocenter", "scripts/aod1b_oblateness.py:aod1b_oblateness", "gravity_toolkit/geocenter.py:from_AOD1B"]}
{"id": "C108", "title": "Maps of the crustal uplift by the dealiasing product", "statement": "The program dealiasing_global_uplift writes for every monthly archive of readable members whose output file is missing or older one file with a map for each epoch of each day of the month: at the places of a day the uplift 10 a h/(1+k) of the coefficients of its data sets at the hours since the start of the month, on the documented grid; for a complete month the hours are equally spaced. Other files are left as they are and a second run changes nothing. An unreadable member or a day beyond the month ends the program with the earlier files complete and no file for this archive. Refuted: a day without a member becomes zero maps dated to the midnight before the month, and data sets with another order of the coefficients than the one read last are mapped with wrong degrees and orders.", "quantifier": "every release, product, grid, set of load Love numbers, list of archives with their members, modification times and files present before", "why_tests_cant": "ranges over all archives, epochs, coefficients, orders of lines and states of the output directory, and over interrupted runs", "anchors": ["scripts/dealiasing_global_uplift.py:dealiasing_global_uplift"]}
{"id": "C109", "title": "Mean field of a range of GRACE months", "statement": "grace_mean_harmonics writes, for every range of months with its missing months, product choices, degree, order and format, the average of each coefficient over the selected months (rounded in text formats), once for each degree and order, with the averages of dates and month numbers; gfc files also hold the root mean square of the errors of the months. Reading the file back without dates and subtracting it from the series of the same months leaves deviations whose average is zero (up to the printed digits), as without a mean file. Found: the errors are not those of an average (larger by the root of the number of months), and runs with different missing months write to the same default name.", "quantifier": "all month ranges and lists of missing months, all inputs accepted by grace_input_months, degrees, orders and formats", "why_tests_cant": "the average runs over arbitrary many months and coefficients and is composed with the readers, which tests do only for fixed files", "anchors": ["scripts/grace_mean_harmonics.py:grace_mean_harmonics", "scripts/grace_mean_harmonics.py:mean.to_gfc", "gravity_toolkit/harmonics.py:harmonics.mean", "gravity_toolkit/harmonics.py:harmonics.from_file", "scripts/grace_spatial_maps.py:grace_spatial_maps"]}
{"id": "C110", "title": "Sea level fingerprints for every date of a load", "statement": "run_sea_level_equation solves the sea level equation for every date of a load file on its own, for every land mask, every number of dates, every degree and every solver setting: the level of a date is that of the solver for the coefficients of that date up to LMAX (zero beyond what the file holds) with the cells of codes 1 to 3 as land, stopped at the first converged iteration or the limit; land cells are zero and masked, the ocean takes up exactly the mass of the load, and the result of a date is the same as when its file holds that date alone. Found: the mask is the set of zero values, so a date without load masks the ocean as well.", "quantifier": "all land masks, loads, numbers of dates, degrees, Love numbers, iteration limits and solver options", "why_tests_cant": "the script composes a fixed-point solver over arbitrary grids and dates; tests run one small grid", "anchors": ["scripts/run_sea_level_equation.py:run_sea_level_equation", "gravity_toolkit/sea_level_equation.py:sea_level_equation", "gravity_toolkit/harmonics.py:harmonics.truncate"]}
{"id": "C111", "title": "Spatial fields of a file to spherical harmonics", "statement": "convert_harmonics integrates every field of a netCDF4 or HDF5 file on its own, for every grid, number of dates, degree, order and unit: missing cells (fill value or nan) count as zero, the coefficients are the quadrature sums of C47 in the units of the file, the output holds every degree and order of the triangle once with the dates sorted and their month numbers. Found: with two or more dates on a grid with as many rows as columns the fields are transposed (with one date two transpositions cancel); the documented ascii format never writes a file; files with several fields and no dates stop with an index error.", "quantifier": "all grids, fill values, numbers and orders of dates, degrees, orders, units and Love numbers", "why_tests_cant": "the result is a sum over arbitrary grids and dates; tests use one grid with different numbers of rows and columns", "anchors": ["scripts/convert_harmonics.py:convert_harmonics", "gravity_toolkit/gen_stokes.py:gen_stokes", "gravity_toolkit/spatial.py:spatial.replace_invalid", "gravity_toolkit/spatial.py:spatial.__next__", "gravity_toolkit/spatial.py:spatial.from_netCDF4", "gravity_toolkit/harmonics.py:harmonics.from_list", "gravity_toolkit/harmonics.py:harmonics.to_netCDF4"]}
{"id": "C112", "title": "Summary of a fit to one mascon time series", "statement": "quick_mascon_regress prints, for every file, polynomial degree, breakpoint month and list of periods it knows, the coefficients of the unique least squares fit (polynomial about the mean time, or two lines that meet at the breakpoint, with periodic terms), each under its own label, with standard errors from the residuals and 95% confidence from Student t; amplitudes and phases are those of the waves of the printed coefficients with first order error propagation; degrees of freedom, AIC, BIC, log likelihood, MSE, NRMSE, R2 and adjusted R2 follow from the misfit. It returns exactly when the terms can be told apart and are fewer than the rows (and the breakpoint month is one row); a breakpoint wins over an order; several files get a summary each, and a failure stops at that file. Found: a period without a label ends in an index error and leaves a summary cut after the labelled coefficients; an aliasing period before the annual one moves every estimate under another label; a failed run destroys the old summary; files that differ only in the extension overwrite each other.", "quantifier": "all series, orders, breakpoints, lists of periods, previous summaries and lists of files", "why_tests_cant": "least squares optimality, identifiability and the match between labels and columns hold over arbitrary data and lists of periods", "anchors": ["scripts/quick_mascon_regress.py:run_regress", "scripts/quick_mascon_regress.py:main", "gravity_toolkit/time_series/regress.py:regress", "gravity_toolkit/time_series/piecewise.py:piecewise", "gravity_toolkit/time_series/amplitude.py:amplitude"]}
{"id": "C113", "title": "Date files and the table of months", "statement": "run_grace_date writes for every product of the centres and releases asked for a date file with one line per file of its index (dates from the name, month number), and then GRACE_months.txt: one column for each GSM date file found, in the order of the names, one line for each month from April 2002 to the last month of any date file, and in each entry the dates of the file of that month or that it is missing. The table is complete exactly if every date file found has rows, none has the same month twice and none consists of one row. Found false: one product without an index ends the run before the table is written; releases other than RL04-RL06 (v02.4 is a default) never get a new date file, but old ones are shown; a product with one file loses its date file and empties the next table.", "quantifier": "all contents of the product directories, all lists of centres and releases, all date files", "why_tests_cant": "a test uses one directory tree; which files, months and releases occur together, and what an earlier run has left, is open", "anchors": ["gravity_toolkit/grace_months_index.py:grace_months_index", "gravity_toolkit/grace_date.py:grace_date", "scripts/run_grace_date.py:run_grace_date"]}
{"id": "C114", "title": "Monte Carlo errors of the geocenter", "statement": "Every run of the Monte Carlo calculation adds to the data noise made of one uniform draw of each error source (never larger than the sum of the errors) and solves for degree one coefficients that close the mass budget of the disturbed data, as the geocenter solution itself does, from a seasonal first guess of zero mean; the stored runs have zero mean over the months. The text file holds mean and standard deviation of the stored runs. With a uniform ocean layer the errors depend on the error sources and draws only, not on the data, and scale with the error sources; without noise they are zero and the result is the one of the solution without iterations. GIA and atmosphere coefficients are not restored as they should be: they are divided by the mass factor, so that stored runs close the budget only if these coefficients do not change. An unknown solver leads to UnboundLocalError, and ocean cells on one great circle to LinAlgError.", "quantifier": "all land-sea masks on regular grids, maximum degrees and orders, Love numbers, smoothing radii, numbers of months and runs, data, error files, random draws and solvers", "why_tests_cant": "The statements are about all random draws, masks and data; a test runs a few seeds on one mask and cannot tell noise of the draws from a wrong unit.", "anchors": ["scripts/monte_carlo_degree_one.py:monte_carlo_degree_one", "scripts/monte_carlo_degree_one.py:model_seasonal_geocenter", "gravity_toolkit/geocenter.py:geocenter.from_cartesian"]}
{"id": "C115", "title": "Numbers of text files", "statement": "The numbers taken from a line of a text file are exactly the numbers printed on it, in order and with their values, also when a signed number directly follows another one and for Fortran exponents with D. For every line whatever, the pieces found are numbers that convert without exception, they do not overlap, and no digit of the line is outside of them. The pattern of the SLR and geocenter readers finds only the numbers printed with a point (a full stop counts as one and makes the conversion fail). Numbers printed by the format strings are within half a unit of the last digit; a harmonics text file therefore keeps each coefficient to a relative accuracy of 5e-13 and the time to 5e-5 years, and rewriting what was read reproduces the file character by character. A coefficient that is not a number is silently replaced on reading: the sine becomes the cosine and the time the sine of a dated file. A time with a Fortran exponent is rejected.", "quantifier": "all lines of characters, all numbers of any number of digits, all real coefficients and times, all maximum degrees and orders", "why_tests_cant": "A test parses a few lines; the claims are about every line, every layout of numbers and every real number printed.", "anchors": ["gravity_toolkit/harmonics.py:harmonics.from_ascii", "gravity_toolkit/harmonics.py:harmonics.to_ascii", "gravity_toolkit/spatial.py:spatial.from_ascii", "gravity_toolkit/geocenter.py:geocenter.from_UCI", "gravity_toolkit/read_GIA_model.py:read_GIA_model", "gravity_toolkit/SLR/C20.py:C20"]}
{"id": "C116", "title": "Love numbers of the published files", "statement": "For each of the supported models (Han and Wahr, Gegout, Wang and the two others) the numbers printed in its file are returned for every degree before the last line of the file, in the right one of the three arrays, also with D exponents and with the columns of h and l swapped. Degrees before the first one of the file take its values. All output formats hold the same numbers and the object also its maximum degree, frame, model, citation and file name; an object read in the frame of the file and transformed equals the object read in the other frame. An unknown model is a ValueError, a missing file a FileNotFoundError, an unknown format gives None. The last degree of the file is replaced by an extrapolation of the two before it. With maximum degree zero an unknown frame is not noticed. If a column with a D exponent comes before the degree, the maximum degree is taken from a piece of that number.", "quantifier": "all supported models, all contents of their files in the layout of numbers separated by blanks or signs, all maximum degrees, frames and output formats", "why_tests_cant": "A test reads the bundled files; the claims are about every file of that layout and every maximum degree.", "anchors": ["gravity_toolkit/read_love_numbers.py:read_love_numbers", "gravity_toolkit/read_love_numbers.py:load_love_numbers", "gravity_toolkit/read_love_numbers.py:love_numbers", "gravity_toolkit/read_love_numbers.py:love_number_formatter"]}
{"id": "C117", "title": "netCDF4 and HDF5 files of harmonics with their attributes", "statement": "A harmonics object with dates written to a netCDF4 or HDF5 file is read again with the same degrees, dates and coefficients, with units and long names of every field, and with its file attributes plus title, source, reference and software; other files are not touched. Without dates the same holds for one field, and for a series in HDF5. An existing file is not changed by a call that must not replace it. Not preserved: the units of a field read from a file are not written again (the new file says Geodesy_Normalization); a title given for one file is also written to the next file from the same object; with another name of the months the file cannot be read with dates; a netCDF4 file of grids with a time dimension is changed by a call that fails; a call that fails has already destroyed the earlier file; an object converted to a dictionary and back holds its attributes one level deeper and can then not be written.", "quantifier": "all objects, all arguments without a mapping of names, all states of the file system", "why_tests_cant": "A test writes and reads one file; the claims are about every object, every combination of arguments and every earlier state of the file.", "anchors": ["gravity_toolkit/harmonics.py:harmonics.to_netCDF4", "gravity_toolkit/harmonics.py:harmonics.from_netCDF4", "gravity_toolkit/harmonics.py:harmonics.to_HDF5", "gravity_toolkit/harmonics.py:harmonics.from_HDF5", "gravity_toolkit/harmonics.py:harmonics.to_dict", "gravity_toolkit/harmonics.py:harmonics.from_dict"]}
{"id": "C118", "title": "Index files and the search for files by name", "statement": "Writing the months of a field to files and their names to an index file, and reading the index file back, returns the first k months (times, months and all coefficients) when k names are given, in the order of the list or of the times; names below the home directory are written with a tilde and are found again; names that begin with # or % are not lost, since absolute names are written. With more names than months the call raises IndexError after all months have been written, and the index lists one file too many. An unknown format is not reported on writing (only the index is written) but is a ValueError on reading. A name that exists is used as it is; otherwise the name is compared without regard to case: a file is not found exactly if no name of the directory begins with the pattern, the only file with the same letters is found, but a missing file is silently replaced by any file whose name merely begins with the given name.", "quantifier": "every field with dates, every list of names, home and working directory, directory contents and previous state of the file system", "why_tests_cant": "the names, directories and number of months are unbounded, and the tests write one list of names in one directory", "anchors": ["gravity_toolkit/harmonics.py:harmonics.to_index", "gravity_toolkit/harmonics.py:harmonics.from_index", "gravity_toolkit/harmonics.py:harmonics.compressuser", "gravity_toolkit/harmonics.py:harmonics.case_insensitive_filename"]}
{"id": "C119", "title": "Dates, release and version in the names of GRACE files, and the file kept for each period", "statement": "A name is accepted exactly if it ends with a text of the form SET-2_YYYYDDD-YYYYDDD_AUX_CENTRE_SOLUTION_digits..., any other name gives IndexError, and every field that is returned is the corresponding piece of such a text; for names as the centres give them (no separators inside the pieces) the eleven fields are exactly the pieces, whatever the directory. Dates with fixed numbers of digits are ordered as texts like the numbers they write. From every list of names with four digits after the last bar one file is kept for each period, in the order of the periods, and its version (third and fourth digit) is the highest of that period. Not guaranteed: the release is ignored, so that version 03 of release 6 replaces version 00 of release 7; two files of one period whose release number has fewer than four digits (005a of the GFZ) give IndexError.", "quantifier": "every text as a name, every list of names, every directory", "why_tests_cant": "names, directories and lists are unbounded, and the backtracking of lazy groups can take other pieces than expected for names that no test lists", "anchors": ["gravity_toolkit/time.py:parse_grace_file", "gravity_toolkit/time.py:reduce_by_date", "gravity_toolkit/read_GRACE_harmonics.py:parse_file"]}
{"id": "C120", "title": "Dates from the names of GRAZ and Swarm files", "statement": "For every GRAZ name of the form PREFIX[-_]PRODUCT[_nNN]_YYYY-MM.gfc (letters in any case, any directory, no other point in the name) and every Swarm model name SET_Swarm_NN_MM_YYYY.gfc or .ZIP the start date is the first day of that month at 0:00:00 and the end date its last day of the Gregorian calendar at 23:59:59 (years that are not multiples of 4000); for Swarm data the two texts between the double bar and the release are given to the date parser and its dates are returned, ValueError if it rejects one. Months above 12 give IndexError, GRAZ names without a hyphen give IndexError, other centres UnboundLocalError. Not rejected: month 00, which gets the 31 days of December.", "quantifier": "every name of these forms, every directory, every date parser", "why_tests_cant": "the names are unbounded and the patterns are unanchored with lazy groups, so a wrong piece could be taken for a name no test has", "anchors": ["gravity_toolkit/time.py:parse_gfc_file"]}
{"id": "C121", "title": "Finding GRACE files and writing index files", "statement": "compile_regex_pattern accepts exactly the names of the asked centre, release, product, mission, solution and version: for Release 6 GSM-2_dates_mission_centre_solution_06version with or without .gz; for Releases 4 and 5 the fixed names of the centres, for which mission and version play no role; laser ranging solutions take release and version from the name of the release; CNES any name GRGS_...; all other products any name with the mission between bars. Unknown missions, centres and products raise a ValueError. Without a mission the solutions of Release 6 are looked for under the name None. make_grace_index writes for every existing directory that is asked for an index in the order of the names that lists only wanted files and, for every wanted file, exactly one file of the same period, with the same or a later version; missing directories are skipped, other directories are not touched, and a failure leaves the indices made before. Directories of Release 5 of the GFZ that hold one wanted file always fail with an IndexError, and the dealiasing products of Release 5 of CSR and GFZ get an empty index.", "quantifier": "all centres, releases, products, missions, solutions, versions, names, directory listings in any order and lists of products", "why_tests_cant": "unit tests look at a few names of one centre; the sets of names and the order and contents of directories are unbounded, and the failures depend on the release", "anchors": ["gravity_toolkit/utilities.py:compile_regex_pattern", "scripts/make_grace_index.py:make_grace_index", "gravity_toolkit/time.py:reduce_by_date"]}
{"id": "C122", "title": "Spatial fields in netCDF4 and HDF5 files", "statement": "to_netCDF4 and to_HDF5 of spatial write exactly the variables of the names asked for: longitudes, latitudes, the field and, with dates, the dates, with long names, units and fill value, and the attributes of the object with title, source, reference and signature; no other file changes. Reading under the same names restores values, fill value, mask, coordinates, dates and attributes, with these exceptions: axes of length 1 are removed, a single field on a square grid and several fields on one latitude come back transposed, several fields on one longitude cannot be read (TypeError); the mask is lost without a fill value, and is not written without dates; months are computed from the dates. Objects made by from_list cannot be written (AttributeError, nothing touched); several fields without dates cannot be written to netCDF4 (ValueError, file incomplete); existing files are refused if they are not to be replaced; attributes that leave out one variable are replaced by the defaults for all; a mapping with the error field and no attributes leaves an incomplete file (KeyError); the error field is never transposed with the field; unknown formats write nothing and read None.", "quantifier": "all grids, numbers of fields, masks, fill values, dates, names, attributes, options, and existing files", "why_tests_cant": "unit tests write a few rectangular grids; orientation, masks and failures depend on every size, name, option and previous state of the files", "anchors": ["gravity_toolkit/spatial.py:spatial.to_netCDF4", "gravity_toolkit/spatial.py:spatial.to_HDF5", "gravity_toolkit/spatial.py:spatial.from_netCDF4", "gravity_toolkit/spatial.py:spatial.from_HDF5", "gravity_toolkit/spatial.py:spatial.default_field_mapping", "gravity_toolkit/spatial.py:spatial.to_file", "gravity_toolkit/spatial.py:spatial.from_file"]}
{"id": "C123", "title": "Dates and units of time in texts", "statement": "A text of unit, any word, and epoch gives the calendar fields of the epoch in UTC, with time zones converted over day, month and year boundaries, and the seconds of the unit, whatever the white space and the case of the unit; a time in these units after the epoch, converted with convert_delta_time, is the same instant counted in seconds since 1970. A text that is a date as a whole gives scale 0. Epochs as tuple, list, text or datetime64 count the same instants; missing epochs are a TypeError, fields that are no date a ValueError or TypeError. Fewer than three words, or an unknown unit, are a ValueError; instants outside of the years 1 to 9999 an OverflowError. Refuted: the fraction of a second of an epoch is lost; the word between unit and epoch has no effect (before is since); a year is not twelve months and not 365 days.", "quantifier": "all texts, white space, units in any case, dates, times, offsets from UTC, epochs of every kind", "why_tests_cant": "unit tests parse four texts; the conversion to UTC, the splitting and the failures depend on every text and date", "anchors": ["gravity_toolkit/time.py:parse", "gravity_toolkit/time.py:parse_date_string", "gravity_toolkit/time.py:split_date_string", "gravity_toolkit/time.py:datetime_to_list", "gravity_toolkit/time.py:convert_datetime", "gravity_toolkit/time.py:convert_delta_time"]}
{"id": "C124", "title": "Index files of spatial fields", "statement": "Writing the fields of a spatial object into an index of netCDF4 or HDF5 files, with any distinct file names, and reading the index gives the same grid, values, masks, fill value and times, with the months that go with the dates; with fewer names than fields these are the first fields, in the order of the list or of the times; other files are unchanged. On a grid that is not square and with a fill value the object read is the object written. More names than fields: IndexError after all fields have been written, and the index lists a file too many. Refuted: on a square grid the values come back with latitudes and longitudes exchanged; an unknown format is not reported on writing (the index lists files that do not exist), reading it is an IndexError.", "quantifier": "all grids with at least two latitudes and longitudes, all numbers of fields, masks, dates, names of files and of variables", "why_tests_cant": "unit tests write two or three fields on one grid; order, names, masks and number of names vary without bound", "anchors": ["gravity_toolkit/spatial.py:spatial.to_index", "gravity_toolkit/spatial.py:spatial.from_index", "gravity_toolkit/spatial.py:spatial.from_list", "gravity_toolkit/spatial.py:spatial.index"]}
{"id": "C125", "title": "Searching the Common Metadata Repository", "statement": "A search for granules returns all granules the server has, one name, link and time each and in its order, for any number and size of pages, when the pages are followed by an empty one; the header that leads to the next page is found in any case of letters. The query asks for the short names of the collections of the mission, level, centre and release, the dates, and the granules of the product, solution and version. Combinations that do not exist raise before the server is asked; a failure on any page loses everything; missing entries are a ValueError, an unknown endpoint a KeyError. The documents of collections are all links that match the pattern. Refuted: a last page that comes without the header is lost (a single page: nothing is returned); a page without links of the endpoint ends the search; an empty header, or one that leads back, makes it endless; a date that cannot be read is sent as the text None; without a product the names asked for begin with None.", "quantifier": "all servers, pages, granules, links, endpoints, missions, centres, releases, dates", "why_tests_cant": "unit tests need the network and see one state of the repository; paging depends on the server", "anchors": ["gravity_toolkit/utilities.py:cmr", "gravity_toolkit/utilities.py:cmr_metadata", "gravity_toolkit/utilities.py:cmr_filter_json", "gravity_toolkit/utilities.py:isoformat"]}
{"id": "C126", "title": "Rasters of the monthly fields over land", "statement": "grace_raster_grids gives one raster per month with the time of GRACE. A cell holds, where the land function smoothed with twice the radius is above 0.025 at its longitude and geocentric latitude, the map of the anomaly of the month (the same value that grace_spatial_maps gives there), and -9999 elsewhere. A signal to which everything that the program takes out was added gives the rasters of the signal. The axes start half of a spacing above the lower bounds and go on for one spacing beyond the upper ones; spacings that are not one or two values and bounds that are not four raise ValueError. Refuted: with different spacings the rows are off by half of their difference, since y starts with the spacing of x; a maximum order below the maximum degree stops the program with an IndexError; a field to be removed given as one data file stops it with an AttributeError.", "quantifier": "all monthly series, mean, adjustment and removed fields, land masks, radii, units, projections, spacings and bounds", "why_tests_cant": "the result depends on all coefficients, the projection and the land mask at once", "anchors": ["scripts/grace_raster_grids.py:grace_raster_grids", "gravity_toolkit/clenshaw_summation.py:clenshaw_summation"]}
{"id": "C127", "title": "Masking of a grid with the land-sea mask", "statement": "mask_oceans with order 0 gives a mask of the shape of the output points; a point is masked exactly when the node of the file nearest to it in longitude and latitude is land or a small island, or a lake or an ice shelf when these are asked for. With data, what was masked stays masked, land joins it, masked values become the fill value and no other value changes. A resolution without a file raises FileNotFoundError, data without a mask TypeError. Refuted: the documentation says that ocean and water points are masked, but points on the ocean stay and points on land are masked; longitudes are not wrapped, so everything west of the first longitude of the file gets the mask of that longitude.", "quantifier": "all masks on even axes, output points, data, masks, fill values and flags", "why_tests_cant": "unit tests see a few points of one mask file", "anchors": ["gravity_toolkit/tools.py:mask_oceans", "gravity_toolkit/tools.py:interp_grid"]}
{"id": "C128", "title": "Resolution of a harmonic expansion", "statement": "calc_harmonic_resolution gives the distance on the equator between neighbouring zeros of every harmonic of the largest degree and order; twice the degree of them go around the Earth. For caps it gives the diameter of a spherical cap such that as many caps as there are coefficients have together the area of the sphere. Both get smaller with the degree. Degree 0 (half wavelength) and -1 (cap) raise ZeroDivisionError; the cap of degree 0 is half of the sphere around.", "quantifier": "all degrees and radii", "why_tests_cant": "a statement about zeros of functions and areas for every degree", "anchors": ["scripts/calc_harmonic_resolution.py:calc_harmonic_resolution"]}
{"id": "C129", "title": "Color palette tables", "statement": "from_cpt gives, for a file with slices, the table of the start colors of the slices and the end color of the last, at positions that run from 0 to 1, increase when x does and do not depend on the unit of x; RGB colors are divided by 255 and HSV colors (degrees, fractions) follow the textbook formula, with channels from 0 to 1; the last COLOR_MODEL line of the file, anywhere, rules; the last B, F and N lines give the extremes when asked for; comments change nothing. No color line raises UnboundLocalError, a color line (also an empty one) without eight numbers or a flag without three ValueError, a table without width ZeroDivisionError. Refuted: tables with jumps are not drawn as written (between the start of a slice and the next, the map has the colors of the slice exactly when the slice ends in the color of the next); a color model in lower case is taken but gives a table without positions and with raw colors; flags in lower case are ignored.", "quantifier": "all files as lists of lines, all numbers found in them, both models and flags", "why_tests_cant": "unit tests see a few palette files", "anchors": ["gravity_toolkit/tools.py:from_cpt"]}
{"id": "C130", "title": "Custom color maps", "statement": "custom_colormap takes its three names in any case and gives evenly spaced colors from position 0 to 1: Joughin N saturated colors of the hues 1/10 to 1; Rignot N colors of the hues 0 to 1 with saturation min(1, hue + 1/10); Seroussi floor(0.7 N) - 1 colors (not N) of the hues from 1 - 1/(N-1) downwards with the same saturation. Other names raise ValueError. Refuted: one color is not served (ZeroDivisionError for N = 1 and for Seroussi with 3 or 4).", "quantifier": "all numbers of colors, names, and places in the map", "why_tests_cant": "unit tests see one number of colors", "anchors": ["gravity_toolkit/tools.py:custom_colormap"]}
{"id": "C131", "title": "Length, truth value and text of objects; spacing and extent of grids", "statement": "The length of a harmonics or spatial object is the number of its months; a loop over a series takes that many steps. The extent is the least and greatest longitude and latitude in the order west, east, south, north, the spacing the step of longitudes, then latitudes, without sign; both are those of the grid for even axes in either direction. Axes of fewer than two values have no spacing (IndexError), empty axes no extent (ValueError). Refuted: when all months are 0 (December 2001) the length is 0 and the object counts as false, although the loop takes all steps; what the loop gives has no length or truth value (TypeError); the text of a series of two or more months cannot be made (ValueError: print fails), nor that of a single month that is not in an array (TypeError); only an array with one month is described.", "quantifier": "all values of the months, degrees and orders, all axes", "why_tests_cant": "unit tests print no object and take a few grids", "anchors": ["gravity_toolkit/harmonics.py:harmonics.__str__", "gravity_toolkit/harmonics.py:harmonics.__len__", "gravity_toolkit/spatial.py:spatial.__str__", "gravity_toolkit/spatial.py:spatial.__len__", "gravity_toolkit/spatial.py:spatial.spacing", "gravity_toolkit/spatial.py:spatial.extent"]}
{"id": "C132", "title": "Complex form of the coefficients", "statement": "ilm is C - iS: the field at a longitude is the real part of the sum of P times ilm times exp(i m lon); turning the field multiplies ilm by exp(i m a) and keeps its moduli; the squared amplitude of a degree is the sum of the squared moduli of its orders. A copy gives the form of its own coefficients. Refuted: after a first reading no change of the coefficients is seen; every later reading in any history of readings and changes gives the form at the first reading.", "quantifier": "all coefficients, latitudes (any Legendre values), longitudes, histories of readings and changes", "why_tests_cant": "identities of functions and a statement over histories", "anchors": ["gravity_toolkit/harmonics.py:harmonics.ilm", "gravity_toolkit/utilities.py:reify"]}
{"id": "C133", "title": "Harmonics objects from ICGEM and level-2 files", "statement": "Reading an ICGEM file into a harmonics object gives coefficients, constants and maximum degree of the file and axes that count from 0 to it; the date, month and header the object had stay, nothing else of its past matters, reading twice is reading once. A level-2 file gives coefficients, date and the month number 12(y-2002)+j of the twelfth of the year in which the date falls, which for a file of a whole calendar month is that month; degree and order axes stay those of the object. File names match exactly first, else but for capitals, else FileNotFoundError; nothing else changes. Failing readers leave the object as it was but for the file name. Refuted: no dated ICGEM file can be read: KeyError for every file and object, after coefficients, date and maximum degree were replaced (axes, month and constants not); from_file can never read a level-2 file (TypeError) and ignores its parameter date for ICGEM files (no date); an object without a maximum degree cannot take a level-2 file (TypeError); two files with middles in the same twelfth of a year get the same month.", "quantifier": "all objects (any earlier state), files, directories, dates, keywords", "why_tests_cant": "unit tests read a few files into new objects", "anchors": ["gravity_toolkit/harmonics.py:harmonics.from_gfc", "gravity_toolkit/harmonics.py:harmonics.from_SHM", "gravity_toolkit/harmonics.py:harmonics.from_file", "gravity_toolkit/harmonics.py:harmonics.case_insensitive_filename", "gravity_toolkit/harmonics.py:harmonics.update_dimensions"]}
{"id": "C134", "title": "Text files of scaling factors", "statement": "The text file of scaling factors that an object with errors and magnitudes writes (one line per cell that is not missing: longitude, latitude, factor, error, magnitude) gives, read with the columns named lon, lat, data, error, magnitude, the same factors, errors and magnitudes in these cells; every other cell becomes 0, which is missing if the fill value is 0 and only then. An empty file gives zeros. Refuted: with the columns the reader expects by default no line can be read by any object (KeyError: the factors are looked for under another name), nor with any columns without the name data; a new object cannot read a line whatever the names (its errors are no array: TypeError), nor write a cell.", "quantifier": "all grids (sizes, steps), values, masks, fill values, lines, column names", "why_tests_cant": "no unit test reads scaling factors from a text file", "anchors": ["gravity_toolkit/spatial.py:scaling_factors.from_ascii", "gravity_toolkit/spatial.py:scaling_factors.to_ascii", "gravity_toolkit/spatial.py:scaling_factors.update_mask"]}
{"id": "C135", "title": "Love number objects and the arrays they share", "statement": "A transformation of a love_numbers object to a frame changes the degree 1 entries of its three arrays as the same transformation of the numbers does, labels the object and leaves every other array as it is; an unknown frame changes nothing; objects with arrays of their own keep their numbers in any program on other objects. Dictionaries, tuples and loops give the arrays of the object, and the length after from_dict is the number of degrees. Refuted: from_dict, to_dict and to_tuple copy nothing, so objects made from one dictionary show the numbers of all transformations of any program on any of them, while each is labelled with the frame it was last taken to itself: after one is taken to CF and the other to CM the first says CF but has h1 + 2 l1 = -3. If the last transformation of a program is to CF, CL or CH all show that frame. A new object has a length but cannot be transformed (IndexError); a dictionary without hl is a TypeError after the arrays were replaced.", "quantifier": "all programs of transformations on all objects, arrays, frames", "why_tests_cant": "needs several objects and all orders of operations", "anchors": ["gravity_toolkit/read_love_numbers.py:love_numbers.transform", "gravity_toolkit/read_love_numbers.py:love_numbers.from_dict", "gravity_toolkit/read_love_numbers.py:love_numbers.to_dict", "gravity_toolkit/read_love_numbers.py:love_numbers.to_tuple", "gravity_toolkit/read_love_numbers.py:love_numbers.__len__", "gravity_toolkit/read_love_numbers.py:love_numbers.__iter__"]}
{"id": "C136", "title": "Loops over geocenter objects and their dictionaries", "statement": "A loop over a geocenter series gives its epochs one after the other from the first, wherever earlier loops were left, as objects with the date, month and coefficients as numbers; it takes as many steps as the shortest of date, month, C10, C11 and S11 has values. Every number and series an object holds comes back from its dictionary, and a new object then holds all of them. Refuted: errors, coordinates and the radius are not part of what the loop gives; an object of one date (a number) gives no step at all; a new object is a TypeError; a loop inside a loop over the same object ends the outer one after its first step; an object that is filled from a dictionary keeps its own values where the dictionary has none, and its own radius.", "quantifier": "all series (lengths of each field), earlier loops, fields, dictionaries", "why_tests_cant": "loops and dictionaries of geocenter objects are not tested", "anchors": ["gravity_toolkit/geocenter.py:geocenter.__iter__", "gravity_toolkit/geocenter.py:geocenter.__next__", "gravity_toolkit/geocenter.py:geocenter.from_dict", "gravity_toolkit/geocenter.py:geocenter.to_dict", "gravity_toolkit/geocenter.py:geocenter.__init__"]}
{"id": "C137", "title": "Product downloads leave the files of the server in place", "statement": "from_csr, from_gfz and from_gsfc: a complete run leaves exactly the files of the wanted products in their local places, with the contents of the server, whatever was there before (also after an interrupted run) as long as no other contents with the same hash were there; nothing else changes and a second run writes nothing. A file that cannot be had ends the run with the earlier files in place. The dated copy of from_gsfc has the contents and the time of the file and needs exactly one line with two dates (ValueError otherwise). Refuted: the default variable of from_csr (None) raises TypeError; LRI files of one name in two years share a local place and are written again by every run; an interruption before os.utime leaves a from_gfz file with a wrong time for good.", "quantifier": "all hash functions, servers, listings, directories, transfers, clocks, local file systems and interruption points", "why_tests_cant": "tests download from one server once; they cannot range over listings, local states, hash values and interruption points", "anchors": ["gravity_toolkit/utilities.py:from_csr", "gravity_toolkit/utilities.py:from_gfz", "gravity_toolkit/utilities.py:from_gsfc", "gravity_toolkit/utilities.py:from_http", "gravity_toolkit/utilities.py:from_ftp", "gravity_toolkit/utilities.py:get_hash"]}
{"id": "C138", "title": "Figshare downloads are verified; addresses of objects are split into bucket and key", "statement": "from_figshare: when a run returns, the hash of every local file asked for is the one that figshare gives, whatever the server sent and whatever was there before; a complete run leaves exactly those files, and a second run writes nothing. s3_bucket and s3_key of s3://bucket/a/b give the bucket and the names joined by single slashes; an address without a key has no key (TypeError). Refuted: a file with another checksum ends the run but stays in place, and every later run ends there again; S3:// in upper case gives S3: as the bucket, since re.IGNORECASE is passed as the number of replacements.", "quantifier": "all hash functions, servers, answers, local file systems, transfers; all buckets and keys of any length", "why_tests_cant": "tests cannot range over the answers of a server, local states and addresses", "anchors": ["gravity_toolkit/utilities.py:from_figshare", "gravity_toolkit/utilities.py:s3_bucket", "gravity_toolkit/utilities.py:s3_key", "gravity_toolkit/utilities.py:url_split", "gravity_toolkit/utilities.py:get_hash"]}
{"id": "C139", "title": "Notebook widgets offer what exists and keep the list of files", "statement": "Every center and release offered has a list of products, and the value shown is always among the options; the release shown is the newest one. The corrections switched on by default depend on release and product only. The list of files to remove survives being written to its label and read back, and any number of choices accumulates all files in order, when no name has a comma. The index of a unit is its position counted from 1. Refuted: the callback for the maximum degree always fails with UnboundLocalError, since the widget and not its value is compared with the names of the centers; switching to CNES with release RL06 is a KeyError; a default product other than GSM is not offered everywhere; a comma cuts a file name in two.", "quantifier": "all centers, releases, products, defaults, lists of files and sequences of choices of any length", "why_tests_cant": "tests cannot range over the states of the widgets and sequences of choices", "anchors": ["gravity_toolkit/tools.py:widgets.set_release", "gravity_toolkit/tools.py:widgets.set_product", "gravity_toolkit/tools.py:widgets.set_max_degree", "gravity_toolkit/tools.py:widgets.set_max_order", "gravity_toolkit/tools.py:widgets.set_pole_tide", "gravity_toolkit/tools.py:widgets.set_atm_corr", "gravity_toolkit/tools.py:widgets.set_removefile", "gravity_toolkit/tools.py:widgets.set_removelabel", "gravity_toolkit/tools.py:widgets.unit_index"]}
{"id": "C140", "title": "Earthdata login uses the first accepted credentials and gives up after the retries", "statement": "attempt_login takes the first credentials from the netrc entry, else from the keywords, else from the environment, and asks for what is missing. With no stored password, the credentials tried are the pairs in the order they are typed; it returns for the first pair that the server accepts, whatever the server answers over time, and raises exactly when as many pairs as there are retries were refused; never more attempts than retries. Stored credentials that are accepted are used at once and nothing is asked. drive_list and from_drive use a complete pair as given and the netrc entry when nothing is given. Refuted: a stored password that is refused cannot be replaced by typing another one (UnboundLocalError of prompt); after the last refusal one more pair is asked for and never tried; get_token, list_tokens and revoke_token never use the environment variables; half a pair is not completed from the netrc file.", "quantifier": "all netrc entries, keywords, environments, numbers of retries, lists of typed answers and servers whose answers change with time", "why_tests_cant": "tests cannot range over the histories of a server and of what a user types", "anchors": ["gravity_toolkit/utilities.py:attempt_login", "gravity_toolkit/utilities.py:drive_list", "gravity_toolkit/utilities.py:from_drive", "gravity_toolkit/utilities.py:get_token", "gravity_toolkit/utilities.py:list_tokens", "gravity_toolkit/utilities.py:revoke_token", "gravity_toolkit/utilities.py:build_opener"]}
{"id": "C141", "title": "Logs of the scripts: what is shown, where, and what stays empty", "statement": "With -V the terminal of an analysis script with --log has the information, the messages of the level asked for, every argument once and sorted by name, and the output files in order; without -V nothing is shown but a failure. A run that fails without --log ends normally. More than two -V are an IndexError. The synchronization scripts append all messages from INFO on to their log file and print nothing. Refuted: the log file of an analysis is always empty, since the loggers were configured before and since it is opened as a binary file; a run that fails with --log ends with TypeError; the degree one scripts end with AttributeError after a run with --log that ended well, since the function arguments is asked for an option.", "quantifier": "all arguments, messages, levels, numbers of -V, lists of outputs, tracebacks and endings of a run", "why_tests_cant": "tests cannot range over runs and what is logged on the way", "anchors": ["scripts/calc_mascon.py:main", "scripts/calc_mascon.py:info", "scripts/calc_mascon.py:output_log_file", "scripts/calc_mascon.py:output_error_log_file", "scripts/calc_degree_one.py:output_log_file", "scripts/monte_carlo_degree_one.py:output_log_file", "scripts/itsg_graz_grace_sync.py:itsg_graz_grace_sync"]}
{"id": "C142", "title": "Which auxiliary files an analysis reads, and what its title tells", "statement": "grace_input_months reads exactly the files that belong to the chosen centers, in order and with the reader and options of that file; its title has the name of every replaced coefficient with its center, then the atmospheric and the pole tide correction and nothing else, and two runs with the same title made the same replacements and corrections. Every replacement has an attribute with its source and the name of its file. The choice ends with an exception only when one of these files cannot be read, when a release other than RL04, RL05 and RL06 is used with the C20 of CSR, or when the geocenter file is a text. Centers that are not offered for a coefficient are ignored without notice, and so is the geocenter file of the user with SLR. Refuted: the attribute of C30 from LARES has another key (SLR_C30); a geocenter file given as a text, as documented, ends with AttributeError; an unknown release with the C20 of CSR ends with UnboundLocalError.", "quantifier": "all processing centers, releases, centers chosen for the coefficients, geocenter files, corrections and failures of readers", "why_tests_cant": "tests run a few choices; the combinations are more than a hundred thousand and the texts are arbitrary", "anchors": ["gravity_toolkit/gravity_toolkit/grace_input_months.py:grace_input_months"]}
{"id": "C143", "title": "Paths of the data of the package and optional dependencies", "statement": "get_data_path leads for every list of relative names to the file below the folder of the package whose folders are the words of the names in order, and for the text of the same names with slashes to the same file; an absolute name starts again. The import of the package succeeds whichever optional dependencies are missing, and the first use of a name of a missing one is an AttributeError; it is an ImportError only on demand, and a dependency that is there is the same either way; one that fails with another exception stops the import. Refuted: a pathlib.Path, as documented, gives None instead of a path; names with .. lead out of the package.", "quantifier": "all names, lists of names, folders of the package, and all sets of installed, missing and broken dependencies", "why_tests_cant": "tests know only the names used in the package and the dependencies of one installation", "anchors": ["gravity_toolkit/gravity_toolkit/utilities.py:get_data_path", "gravity_toolkit/gravity_toolkit/utilities.py:import_dependency"]}
{"id": "C144", "title": "Uploads to figshare: every file in its folder, and what is there after a failure", "statement": "to_figshare with a folder puts every file below data and that folder with its content (of files with the same name the last one) and changes nothing else on the server, whether the folder was there or had to be made. When a file cannot be opened or is refused, the files before it are on the server and those after it are not tried. A refused connection changes nothing. Refuted: without a folder, the default, no file is ever uploaded (TypeError, since the same error was ignored when the folder was made); a folder that begins with a slash is not below data.", "quantifier": "all lists of files, names, contents, folders, states of the server and all rules of the server for folders and files", "why_tests_cant": "tests cannot upload, and cannot range over servers and failures", "anchors": ["gravity_toolkit/gravity_toolkit/utilities.py:to_figshare"]}
{"id": "C145", "title": "The list of the models of ICGEM", "statement": "icgem_list gives, for every page whose references are files NAME.gfc of any folders and references of other kinds, exactly the models that have a file, each with its file, of several files of a model the last one. A page that cannot be had or read is an error. Refuted: a file NAME.gfc.gfc is listed with the empty name; one reference to a file called gfc stops the whole list with IndexError.", "quantifier": "all pages: all numbers, folders and names of references, also repeated ones", "why_tests_cant": "tests see one page of one day; pages are arbitrary lists of texts", "anchors": ["gravity_toolkit/gravity_toolkit/utilities.py:icgem_list"]}
{"id": "C146", "title": "Attributes of copies: their own dictionary, shared contents", "statement": "A copy of a harmonics or spatial object shows the same attributes as the original, at both levels, and whatever attributes are then set on one, in any number and order, those of the other stay. Refuted: the dictionaries inside (the attributes of the file or of a variable) are shared, so what is set there through the copy is also set in the original; the list of attributes of a series made from a list is the same list in the copy, so what is appended to one appears in the other.", "quantifier": "all dictionaries and lists of attributes, all sequences of settings on the copy or on the original", "why_tests_cant": "tests compare a copy once; the property is about every later change", "anchors": ["gravity_toolkit/gravity_toolkit/harmonics.py:harmonics.copy", "gravity_toolkit/gravity_toolkit/spatial.py:spatial.copy"]}
