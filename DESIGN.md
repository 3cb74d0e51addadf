# Formal model of gravity-toolkit in Rocq/Coq: design

## 1. Shape of the development

All Coq code is in `rocq/theories` (logical name `Verif`).  For each part of the
package there are up to four files:

| suffix | content |
|--------|---------|
| `<X>Model.v`  | definitions only: the Python functions, one Gallina definition per function (or per loop), branch by branch, with a comment citing file and lines of `/repo` |
| `<X>Spec.v`   | small independent specifications (calendar, leap years, sums, Legendre functions, ...) that do not mention the model |
| `<X>Proofs.v` | lemmas |
| `Prop<X>.v`   | the specification definitions the statements use, the theorems `Cnn_*` and `Example`s that exhibit a concrete instance of the hypotheses.  A theorem whose name ends in `_refuted` proves that a property a user would expect is false of the code, by a general statement where possible and a witness otherwise |

Modelling conventions

* Python exceptions are values: `res A := Ok a | Err e` (`Base.v`).
* NumPy arrays are records of a shape and an index function (`arr1`, `arr2`, `arr3`);
  indices outside the shape are *never* meaningful, equality is `same shape and same
  entries inside the shape`.  Where the code can raise (shape mismatch, index out of
  range) the model returns `Err`.
* In-place mutation of an object becomes a function returning the new object;
  where aliasing is the property (C24, C26) there is an explicit heap / object state.
* Integers are `Z`; exact calendar arithmetic with fractions is over `Q`
  (`Qfloor` for `np.floor`); field values are over `R`.  **Float rounding is not
  modelled**: theorems are about the exact real/rational semantics of the code.
* `np.linalg.lstsq` and `np.linalg.inv` are *defined* in `LinAlg.v` (Gauss elimination) and proved
  to be what their callers need (normal equations, minimality, uniqueness, inverse); for rank
  deficient designs, where NumPy returns the minimum norm solution, the model returns an error and
  the theorems assume an identifiable design.
* `np.fft.ifft` is its defining sum.  SciPy's `erf`, `t.ppf`, `lombscargle` and file-name regular
  expressions are universally quantified parameters; file systems are explicit state.
* Python integer expressions that can be negative are over `Z`, or rearranged so that natural
  subtraction never truncates (`k - 2*l + 1` is written `k + 1 - 2*l`).

## 2. Properties: what is modelled, how it is proved

| id | model | proof |
|----|-------|-------|
| C01 | `calendar_days` on Z | case analysis, lia; refutation witness year 4000 |
| C02 | `grace_to_calendar`, `calendar_to_grace` on Z and on Q years | Z division |
| C03-C05 | `adjust_months` as the sequential loop on lists of Z, negative index wrap | induction over the loop; refutation witnesses |
| C06 | `convert_calendar_decimal` over Q | bounds on cumulative days, monotonicity, against `year_len`/`year_start` |
| C07-C09, C64 | `convert_calendar_dates`, `convert_julian`, `convert_delta_time`, `calendar_to_julian` over Q | successor-day relation as independent spec; Z division reasoning |
| C10 | `reduce_by_date` on parsed records | lists, sorting, maximum |
| C11 | `grace_find_months` | sorted integer ranges, set membership |
| C12 | `grace_date` on parsed file names | covering of the year by whole days, exact rational midpoints |
| C13 | `grace_input_months` over parsed rows (all centres, replacement tables, degree 1, poles, atmosphere) | frame condition by an assignment calculus (`assign_spec`, `put_spec`) |
| C14-C23, C25, C27 | `harmonics` class methods over shaped arrays | index arithmetic, sums, permutations |
| C24, C26, C67 | explicit heap of objects and array views (`HeapModel`, `Arr`) | invariants over histories of calls |
| C28 | ascii/netCDF4/HDF5 writers and readers as record lists | round trip by induction on the written lines |
| C29-C32 | `geocenter` class over R | field, lists |
| C33-C38, C66 | `spatial` class over masked grids | cell-wise case analysis, list permutations |
| C39-C40 | `units` over R, `bycode` table | field; exact acceptance set |
| C41 | `gauss_weights` | the recursion is shown to be the integral of the Gaussian against Legendre polynomials (FTC, recurrences), floor handled by first-hit induction |
| C42 | `destripe_harmonics` | window search invariants; least squares characterisation |
| C43-C44, C68 | three Legendre routines, `legendre_polynomials`, `legendre` (one degree) | equal to derivatives of Legendre polynomials (`LegendreSpec`, `Nlm`), induction on degree |
| C45-C46 | `clenshaw_summation`, `harmonic_summation`, `harmonic_transform`, `stokes_summation` | telescoping; ifft as sum; equality with the direct double sum |
| C47-C49 | `gen_stokes`, `gen_harmonics` (integration), `ocean_stokes`, `gen_point_load` | explicit quadrature sums; linearity |
| C50 | `sea_level_equation` | iterate of an explicit map, loop invariant, mass balance |
| C51-C52 | `read_love_numbers` on parsed rows, `love_numbers` frames | loop invariants, field |
| C53, C57 | `regress`, `piecewise` | normal equations, uniqueness, change of basis |
| C54-C56, C69-C71 | `smooth`, `amplitude`, `lomb_scargle`, `savitzky_golay`, aliasing terms | window sums, least squares, trigonometry |
| C58, C72-C73 | `tools` grids: `shift_grid`, `wrap_longitudes`, `interp_grid` order 0 | lists, atan2 |
| C59-C62, C74-C75 | `utilities`: urls, unique files, CMR filters, argument files | strings, search loops, glob semantics |
| C63 | `mascons.py`, four functions | integer cell arithmetic, weighted means |
| C65 | scaling factors of `spatial` | least squares in one variable |
| C76 | `read_GRACE_harmonics` on parsed lines | last-write-wins over line lists |
| C77-C79 | `degree_amplitude`, `gen_disc_load`, `gen_spherical_cap` | Cauchy-Schwarz; integral of Legendre polynomials over the cap |
| C80 | `gen_averaging_kernel` | Gaussian coefficients as integrals, field, monotonicity |
| C81 | `SLR.C20` (five file kinds) over parsed lines | induction over lines; calendar bounds from the exact decimal year |
| C82 | `SLR.C30/C50/CS2`, `from_gravis`, `convert_weekly` for any sorting permutation | permutation argument for the nearest days |
| C83 | `read_CSR_monthly_6x1`, `read_GSFC_weekly_6x1`, weekly zonal series | block decomposition by induction, last-row specification |
| C84 | `read_GIA_model` (nine models), `gia.from_GIA` | loop invariants over degree and order, last-row specification |
| C85 | `geocenter.from_SLR/from_AOD1B/from_swenson/from_UCI/from_tellus` | induction over lines, calendar lemmas of C01-C08 |
| C86 | `read_gfc_harmonics` (dates; coefficients abstract) | calendar lemmas of C01-C12 |
| C87 | `fourier_legendre` (whole function) | closed form of the Fourier coefficients of P_l by Bonnet recursion, order recursion on functions, orthonormality for the norms |
| C88 | `gen_harmonics(METHOD=fourier)` | discrete orthogonality of the trigonometric functions by telescoping sums, C87, orthonormality of the Legendre functions (C44) |
| C89 | `legendre_gradient`, `harmonic_gradients` | derivative of the normalized functions by the order raising and lowering relations, Fourier series of C87 |
| C90 | `geostrophic_currents` | sin(theta) dP/dtheta as a combination of the neighbouring degrees, shift of the summation index by induction on LMAX |
| C91 | `gen_point_load`, `gen_disc_load`, `gen_spherical_cap`, `stokes_summation` | the addition theorem of the spherical harmonics proved by induction on the degree, applied to C49, C78, C79 |
| C92 | `clenshaw_summation`, `gauss_weights` | Funk-Hecke formula: for Legendre kernels by the addition theorem and orthogonality, for polynomials by the recursion, for the exponential as uniform limit; monotonicity of the integral |
| C93 | `scripts/calc_mascon.py:calc_mascon` | minimum norm least squares of any rank built from orthogonal projection; superposition of unit responses; counting of the harmonics by induction |
| C94 | `scripts/calc_sensitivity_kernel.py:calc_sensitivity_kernel` | Parseval identity for spherical harmonic series (orthogonality of the associated Legendre functions and of the circular functions), C93 |
| C95 | `degree_amplitude` | Parseval identity for spherical harmonic series |
| C96 | `scripts/calc_degree_one.py:calc_degree_one` | the I matrix as Gram matrix of the three functions on the ocean cells; Legendre functions of degree one in closed form; C47 and C50 for the land load and the fingerprint; induction over the iterations |
| C97 | `grace_spatial_maps` (lines 211-487) | MapsModel.v composes the models of mean, subtract, destripe, drift, subset, truncate, add, index, convolve, plm_holmes, harmonic_summation; representation predicate on the triangle m <= l carried through every step (MapsProofs.v), final sum from C46; Gaussian average from C92 |
| C98 | `combine_harmonics` (lines 134-293) | MapsModel.v; the steps of C97 without dates; total from Parseval (C95) with the constant field |
| C99 | `mascon_reconstruct` (lines 139-271), text files and RECONSTRUCT option of calc_mascon | ReconstructModel.v: directory as map from names to rows, regular expression for names as a scanner, rounding to decimals; invariants of the loops over the mascons, then C93_least_squares, C93_recovers and C93_linear |
| C100 | `grace_spatial_error` (directory of error files, coefficient noise, propagation) | smoothing fits are least squares (C71), file round trips (C27), Legendre tables (C43), factors (C45); histories of two runs |
| C101 | `scale_grace_maps` | program model over C97/C100 models; cell-wise values by composition of spatial and harmonics lemmas |
| C102 | `http_pull_file`, `ftp_mirror_file`, `s3_pull_file`, `from_http`, `from_ftp`, listing | file system steps, interruption = prefix of the step list; induction over listings and histories |
| C103 | `esa_costg_swarm_sync`, `cnes_grace_sync`, `gzip_copy_file`, `gfz_isdc_dealiasing_ftp` | file system steps; induction over pages; prefix argument for interrupted headers |
| C104 | `regress_grace_maps` | the labels are given their functions by a separate table; columns of the design matrix shown equal to those functions; least squares facts of C53 and C57 cell by cell |
| C105 | `piecewise_grace_maps` | columns shown equal to constant, line and ramp functions; least squares facts of C57 cell by cell; independence gives months on both sides |
| C106 | `dealiasing_monthly_mean`, `calc_julian_day`, `to_SHM` | days by the calendar numbering (C01), members by induction over archives, reading by induction over a listing relation, mean through expand/truncate/mean (C20, C24), program by induction over rows |
| C107 | `aod1b_geocenter, aod1b_oblateness` | model of the archive loop over output files with modification times; induction over archives and members; the reader of GeoReadModel inverts the lines up to the print rounding |
| C108 | `dealiasing_global_uplift` | places of the data sets by induction over members and sets; expansion, convolution and synthesis through the lemmas of C97 and C106; induction over archives |
| C109 | `grace_mean_harmonics` with its writers and the readers without dates (MeanModel) | averages of the series of C13, flatten/expand on the index triangle, subtraction lemmas of C97 |
| C110 | `run_sea_level_equation` (SleRunModel) over the solver of C50 | per-date reduction to the solver, truncation lemma, C50 theorems |
| C111 | `convert_harmonics` with its readers and writers (ConvertModel) | mask invariant over read/expand/replace, C47 per field, from_list and flatten lemmas |
| C112 | `run_regress`, `main` (QuickModel) | least squares lemmas of C53, C54 lifted to rows of a file; counting of labels against columns; permutation of columns |
| C113 | `grace_months_index`, `run_grace_date`, the date file of `grace_date` | state of the disk before and after; induction over products and months; the file of a month is traced from its name to its entry with C12 and C03 |
| C114 | `monte_carlo_degree_one` | reduction of a run to a month of the geocenter solution (C96) with disturbed data; linearity of the ocean moments in the field, uniqueness of the solution of the normal equations; means over months and runs |
| C115 | regular expressions, `float`, `int`, `str.format`, `harmonics.to_ascii`, `from_ascii` | backtracking matcher with priorities (all ways to match, in order), proved equal to a deterministic scanner; induction over lines; decimal expansion of reals by floor of the logarithm |
| C116 | `read_love_numbers` on characters, `load_love_numbers`, class `love_numbers`, `love_number_formatter` | the scanner of C115 with the pattern of the Love numbers, refinement to the rows of C51 and C52 |
| C117 | `harmonics.to_netCDF4`, `from_netCDF4`, `to_HDF5`, `from_HDF5`, `to_dict`, `from_dict` | file system of named variables and attributes, state after an exception, object attributes updated in place; case analysis and the round trip of C28 |
| C118 | `to_index`, `from_index`, `compressuser`, `case_insensitive_filename` | NcIndexModel.v over NcModel: names as text, splitlines, prefix matching ignoring case; induction over the names with the round trip of C117 as the step |
| C119 | `parse_grace_file`, `parse_file`, `reduce_by_date` on texts | NameModel.v: backtracking matcher in continuation style with groups, proved sound and complete for the language of the pattern; first match by symbolic execution of lazy and greedy pieces; reduction to C10 by the order of digit texts |
| C120 | `parse_gfc_file` | NameModel.v: pattern language (C119) sound and complete, the pieces are unique by counting separators; Gregorian month lengths from C01 |
| C121 | `compile_regex_pattern`, `make_grace_index` | language of the patterns from the sound and complete matcher of C119; the index from C119_reduce, a sorting lemma and induction over the products |
| C122 | `to_netCDF4`, `to_HDF5`, `from_netCDF4`, `from_HDF5` of spatial | files as dictionaries of arrays of any rank; symbolic execution of the writers for arbitrary names, table of layouts for the reader |
| C123 | `parse_date_string`, `split_date_string`, `parse`, `convert_datetime`, `convert_delta_time` | dateutil.parser as arbitrary function; calendar arithmetic against the day numbers of TimeSpec |
| C124 | `spatial.to_index`, `from_index` | induction over the list of names on the file system of C122 and the index files of C118; a field by C122 and C66 |
| C125 | `cmr`, `cmr_metadata`, `isoformat` | the server is an arbitrary function of url and header; induction over pages; the loop with any number of requests allowed |
| C126 | `grace_raster_grids` | steps before the grid as for C97; Clenshaw sums as series (C45); row-major selection and scatter proved without duplicates; axes as the unique list of values below the bound |
| C127 | `mask_oceans` | nearest nodes from C73; or and fill proved cell by cell over ragged lists of rows |
| C128 | `calc_harmonic_resolution` | zeros from the determinant sin(w b - w a); half-angle formula for the cap |
| C129 | `from_cpt` | invariant of the loop over lines; the greedy search for the color model against a specification on words; HSV by cases of the sextant |
| C130 | `custom_colormap` | hue of a saturated color recovered by cases of the sextant; reversed and trimmed list by index |
| C131 | `__str__`, `__len__`, `spacing`, `extent` | case analysis of the months; folds of minimum and maximum; loop from C24 |
| C132 | `ilm`, `reify` | addition formulas; induction over histories |
| C133 | `from_gfc`, `from_SHM`, `from_file` | object before and after as a pair with the error; case analysis; floor of twelfths, all months of common and leap years |
| C134 | `scaling_factors.from_ascii`, `to_ascii` | induction over the lines: every cell holds the values of its line; the cells written are the valid ones |
| C135 | `love_numbers` | store of arrays and objects that hold addresses; induction over programs; refinement of the transformation of C52 |
| C136 | `geocenter.__next__`, `from_dict`, `to_dict` | induction over the remaining epochs; fold over the fields |
| C137 | `from_csr`, `from_gfz`, `from_gsfc` as loops over items on the file system of SyncModel.v (DownModel.v) | induction over the items with the local file system threaded through; the wanted files are an inductive specification with explicit names (PropDown.v) |
| C138 | `from_figshare`, `s3_bucket`, `s3_key` (FigModel.v) | induction over the files with the local file system threaded through; C59_join for the splitting (PropFig.v) |
| C139 | widgets callbacks (WidgetModel.v) | case analysis over the tables against a separate relation of what exists; induction over the text for split and join; induction over the choices (PropWidget.v) |
| C140 | `attempt_login`, `drive_list` credentials (LoginModel.v) | induction over the retries with the typed answers threaded through, against a specification by position in the list of candidates (PropLogin.v) |
| C141 | `main`, `output_log_file`, `output_error_log_file` (LogModel.v) | the root logger as a state with one handler; induction over the messages (PropLog.v) |
| C142 | `selection`, `title` (InputSelModel.v) | one specification per step, induction over the steps; the flags are a prefix code (PropInputSel.v) |
| C143 | `get_data_path`, `import_dependency`, `head_of_module` (DataPathModel.v) | words of a text as an inductive relation, induction over names and dependencies (PropDataPath.v) |
| C144 | `to_figshare` (UploadModel.v) | induction over the files with the state of the server (PropUpload.v) |
| C145 | `icgem_list` (IcgemListModel.v) | the lazy pattern as a scan, induction over the characters of a name and over the references (PropIcgemList.v) |
| C146 | `copy`, `apply` (AttrModel.v) | a heap of lists and dictionaries; induction over the settings (PropAttr.v) |

No property of `properties.jsonl` was left out as inexpressible.  Properties whose expected form is
false of the code keep the English claim in `properties.jsonl` marked "(refuted ...)" together with
the exact behaviour that was proved instead; the refutation is a theorem too.

### Testing the theorems against wrong programs

`tools/mutate.py` copies the development to a scratch directory, applies one realistic edit to a
model definition, rebuilds and records which `Cnn_*` theorems no longer compile.  The log is
`seeded/LOG.jsonl`; survivors led to tightened statements, named in the last field.

## 3. Trusted base

* Coq 8.16.1's kernel and its `vo` checker; `coqc` parsing of the statements.
* The axioms listed by `Print Assumptions` for each theorem are in `ASSUMPTIONS.md` (regenerated by
  `tools/assumptions.py`).  There are five groups: theorems closed under the global context
  (integer, rational and list properties), and theorems over the reals that use some of
  `ClassicalDedekindReals.sig_forall_dec`, `ClassicalDedekindReals.sig_not_dec`,
  `FunctionalExtensionality.functional_extensionality_dep` and `Classical_Prop.classic`.  All four are axioms
  of Coq's standard library (its construction of R, and classical analysis as used by Coquelicot,
  which adds none of its own).  No axioms, functors, module types or plugins are added here.
* The correspondence between the Python text and the model: by reading.  Each definition cites the
  lines it models.

### Modelled with a simplification

* Exact reals/rationals instead of IEEE doubles, everywhere.  Consequences worth knowing: singular
  windows are exactly singular (in floats nearly so); `cos 90` is 0; the Legendre routines add a
  machine epsilon at the poles, which the model keeps as a positive parameter or excludes.
* NumPy broadcasting is modelled only for the shapes each theorem mentions.
* Text: file readers are modelled from the parsed rows (tokens already split and converted), writers
  up to the rounding function of the number format.  File-name regular expressions are parameters.
* netCDF4/HDF5 libraries return what was stored.
* `lstsq` for rank-deficient designs (minimum norm solution) is not modelled (error instead).
* SciPy special functions and `lombscargle` are arbitrary functions.

### Not modelled

Connections, certificates, credentials and tokens (`utilities`: `check_connection`, `attempt_login`,
`build_opener`, `get_token`, the `s3_*` functions, Google Drive and Figshare); the protocol of a
transfer is a parameter where a program that uses it is modelled.  Plotting and colour maps (`tools`
widgets, the `plot_*`, `geocenter_*` and `quick_mascon_plot` scripts except `geocenter` file
handling), logging, YAML/JSON parsing, spline orders of `interp_grid`, the approximation branch of
`legendre.py` for points extremely near a pole, and `dateutil` parsing.
