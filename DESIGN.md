# Formal model of pycomlink in Rocq: design

Source: `/repo` (pycomlink, pinned commit), read as text, never executed.
Properties: `properties.jsonl`.  Status of each: `MANIFEST.json`.
(`tools/props.py` + `tools/props_data.py` generate both files.)
Wrong-program experiments: `seeded/LOG.jsonl`.

## 1. How the code is modelled

* **Shallow functional models, function by function.**  Every Python function
  becomes a Gallina function with the same branches in the same order.  Every
  model definition has a comment citing file and lines.
* **Arrays are lists**, in-place writes are `upd`, `for i in range(..)` is a
  fold over `seq`, keeping the loop state explicit.
* **Exceptions are values**: `res A := Ok a | Err exn`.
* **Numbers.**  Numeric code is written once over a record `numops` and used at
  two instances:
  * `F64` : IEEE-754 binary64 with round-to-nearest-even, NaN, infinities and
    signed zeros (Flocq's `binary_float 53 1024`).  This is what numpy/numba do.
  * `XR` : real numbers extended with NaN, +inf, -inf, no rounding.  Used for
    "exact arithmetic" claims (convexity, inverse of the power law, ...).
  A law record `numsem` (proved for both) says that each operation is the
  exact extended-real operation followed by a monotone rounding.  Order and
  NaN claims are proved once from these laws.
* **Transcendental functions** (`pow`, `exp`, `log`, `sin`, ...): in `XR` the
  real functions; in `F64` a *record argument* `libm` of unspecified functions,
  so that theorems hold for whatever libm is installed; required facts are
  explicit hypotheses, shown satisfiable by a witness.
* **Libraries** (xarray, pandas, scipy, torch, tensorflow): the part that is
  used is modelled by its documented behaviour, each time with a comment; neural
  networks are arbitrary functions (theorems quantify over them).

## 2. File layout (`rocq/theories`)

For each topic `T`: `T_model.v` (the code), `T_spec.v` (independent
specifications, only where needed), `T_proofs.v` (lemmas), `T_props.v` (only
property theorems, each closed by `exact`, with `Print Assumptions` and an
`Example` showing that the hypotheses are met by a non-trivial case).

Shared files:

| file | content |
|---|---|
| `Base` | results and exceptions, list access and update, loops |
| `Num`, `NumF64` | the records `numops` and `numsem`, extended reals `XR`, binary64 `F64` (Flocq) and the proof of its laws |
| `NumList`, `NpOps`, `Median` | numpy and pandas operations on lists (sums, means, masks, broadcasting, medians) |
| `Libm`, `Libm64` | elementary functions: exact (`XRm`), arbitrary (`libm` record), a correctly rounded power and a demonstration instance |
| `RealSpec`, `RealStat` | embedding of real lists, means, variances |
| `Itu_table`, `Spline` | ITU coefficient table as rational data, scipy's not-a-knot cubic spline |

Topics:

| topic | code |
|---|---|
| `Baseline` | processing/baseline.py |
| `Blackout` | processing/blackout_gap_detection.py |
| `Schleiss`, `Pastorek`, `Leijnse`, `LeijnseObs`, `Slab` | processing/wet_antenna.py (`Slab` only holds the physical specification of the Leijnse formula and its proof) |
| `KR` | processing/k_R_relation.py |
| `MinMax`, `MinMaxWin` | processing/min_max.py; `MinMaxWin` has Python indices, so that negative windows are covered, and is proved equal to `MinMax` for the others |
| `NearbyRain` | processing/nearby_rain_retrival.py |
| `NearbyWetdry` | processing/wet_dry/nearby_wetdry.py |
| `Haversine`, `HaversineFloat`, `HaversineAcc` | spatial/helper.py; the last two are float64 theorems (range, antipodes, 1 cm accuracy) for any math library meeting the laws of `HaversineFloat_spec.v` |
| `Idw`, `Kriging`, `Grid` | spatial/idw.py, spatial/interpolator.py |
| `Temporal` | util/temporal.py |
| `Stats` | validation/stats.py |
| `Wrapper`, `Deprecated` | processing/xarray_wrapper.py, util/maintenance.py |
| `Mlp` | processing/wet_dry/mlp.py |
| `TfInfer`, `TfWrap`, `TfAffine` | processing/tensorflow_utils/inference_utils.py, run_inference.py |
| `TorchInfer` | processing/pytorch_utils/pytorch_utils.py, run_inference.py |
| `Cache` | model downloads of both, lazy_tf.py |
| `Stft` | processing/wet_dry/stft.py |
| `SpecGram` | the library calls of stft.py: matplotlib's specgram, np.hamming, rolling std (exact arithmetic) |
| `Validator`, `Coverage`, `Io` | validation/validator.py, spatial/coverage.py, io/cmlh5_to_xarray.py |
| `CalcStats` | validation/validator.py `Validator.calc_stats`: index formatting, left join, valid pairs; the correlation is an oracle |
| `Grid64` | `interpolator.py` `_parse_grid_kwargs` in binary64 (`Grid` has the exact version); `Grid64Err`: no new code, its rounding errors |
| `Local` | no new model: locality and reordering of links in `NearbyWetdry` |
| `MetricSym` | no new model: order of pairs, exchange and unit changes in `Stats` |
| `Scale64`, `MetricUnit64` | no new model: float64 operations and the metrics of `Stats` under multiplication by a power of two (C108) |
| `BaselineFloat`, `LinearFloat` | no new model: rounding in `Baseline` |
| `RefFloat` | no new model: rounding in the reference level of `NearbyRain` |
| `Reagg` | no new model: two calls of the function in `Temporal` |
| `KRShape` | no new model: two calls of `calc_R_from_A` with different arguments |
| `LinkEnds` | no new model: neighbours in `NearbyWetdry` and their effect on `NearbyChain` |
| `MetricPool` | no new model: joined records in `Stats` |
| `IdwSym` | no new model: isometries, station order, units and linearity in `Idw` |
| `BaselineSym` | no new model: influence, linearity, order and reversal of the baselines in `Baseline` |
| `Restart`, `SchleissSym` | no new model: memory, scaling and order in `Schleiss`; cutting the record in `Chain` |
| `Shift` | no new model: the offset lemmas for `Baseline`, `Chain`, `NearbyRain`, `NearbyWetdry`, `MinMax` |
| `Chain` | docs/notebooks/Basic CML processing workflow.ipynb (the loop over all CMLs), composing `Baseline`, `Schleiss`, `KR` |
| `ObsChain` | docs/notebooks/Wet antenna attenuation.ipynb (the last processing cell), composing `Baseline`, `Pastorek`, `LeijnseObs`, `Schleiss`, `KR` |
| `Workflow` | docs/notebooks/Basic CML processing workflow.ipynb from raw levels (fill values, gap filling, rolling standard deviation), then `Chain` |
| `RainMap` | the maps of docs/notebooks/Basic CML processing workflow.ipynb and Compare interpolation methods.ipynb: `Workflow` for each link, hourly means, total or one hour, wet fraction of all channels, `Idw` |
| `BlackoutNb` | docs/notebooks/Blackout gap detection examples.ipynb: fill values, `Blackout` in both directions, choice of the gaps to plot |
| `Shading` | the cells of docs/notebooks/Basic CML processing workflow.ipynb and Wet-dry classification methods.ipynb that shade wet periods: `np_roll` of `Blackout`, `nonzero`, `zip` |
| `MlpChain` | the MLP cells of docs/notebooks/Wet-dry classification methods.ipynb: `Mlp`, `np.argmax`, `Baseline` |
| `CnnNb` | docs/notebooks/Use pytorch models.ipynb and Use tensorflow models.ipynb: `prepared` of `Workflow`, median per channel, `TorchInfer`, `TfInfer`; networks are oracles |
| `WaaFloat` | no new code: rise and range of the two wet antenna methods in binary64 (C15, C16) |
| `PastorekFloat` | no new code: range and rise of the wet antenna attenuation of an observed attenuation in binary64 (C17) |
| `Ulp64`, `StatsFloat` | no new code: rounding error facts about binary64 (Flocq), rates and Matthews correlation in binary64 (C51, C52) |
| `SumFloat` | no new code: aggregated sums in binary64 (C48) |
| `FloatErr`, `IdwFloat`, `IdwMono`, `StatsErr`, `RainFloat` | no new code: rounding errors of sums in any order, of IDW values (C39; C41 and C110 without error terms), of the rain metrics (C54, C91) and of the power law (C20) |
| `MinMaxFloat`, `NearbyFloat`, `BaselineErr`, `MetricPoolFloat` | no new code: binary64 versions of C27, C30, C02 and C04, C117 |
| `MetricAffine` | no new code: equality cases, recalibration and triangle inequalities of the metrics of `Stats` (C136) |
| `LinAlg`, `OrdKrige` | the library call of interpolator.py:155-174: pykrige's `OrdinaryKriging` with one variogram for the whole grid, `execute` for all points (exact arithmetic, backends C and vectorized, `n_closest_points=None`); inversion of a matrix over the reals |
| `PosDef`, `PosDef2`–`PosDef5` | no code: the spherical correlation is positive semidefinite in the plane, and strictly for different points (mathematics needed for C133) |
| `KrigeWin` | the same call with `n_closest_points` given: pykrige's moving window (exact arithmetic, backends C and loop); the neighbour search is the argument `query` as in `Idw`; more neighbours than valid stations is not modelled (out-of-bounds read in the C backend) |
| `KrigeDistinct` | no new code: kriging of stations at different places (C133, C134) |
| `KrigeUnit` | no new code: kriging in another unit of length, with a short range (C132) |
| `ChainErr` | no new code: rounding errors of the chain of `Chain` (C138) |
| `MeasErr` | no new code: errors of the measured levels in `Baseline`, `Chain` and `Idw` (C139) |
| `KrigeNan` | no new code: the calls of `OrdKrige` and `KrigeWin` with exclude_nan=False in binary64 (C137) |
| `PathShare` (spec only) | what validator.py:42-86 reports when the weights of poligrain are the exact shares of the path in the pixels: the weights are a hypothesis (`path_weights`), pixels are closed rectangles between ascending edges; rotated or curvilinear grids are not covered |
| `Spline_mono`, `KRMono` | no new code: bounds and order of the ITU coefficients (C131) |
| `RollSum` | the `rolling(...).sum()` of nearby_wetdry.py:209 as bottleneck's `move_sum` computes it (library code, a running sum); proved equal to the window sums of `NearbyWetdry` in exact arithmetic |
| `NearbyChain` | docs/notebooks/Nearby link approach processing example.ipynb, composing `NearbyWetdry` and `NearbyRain` |
| `NearbyNb` | the same notebook, JSON lines 501-504 and 532-534: fill values, gap filling, 15-minute minimum and maximum, then `NearbyChain` (C140) |
| `NearbyRobust` | no new model: wrong and inaccurate levels in `NearbyRain` (C141) |
| `ParamMono` | no new model: two runs with different thresholds or parameters of `NearbyWetdry`, `Blackout`, `Chain`, `NearbyRain` (C142) |
| `MetricStable` | no new model: the rain metrics of two nearly equal series (C143) |
| `IdwPower` | no new model: dependence of the `Idw` values on the exponent (C144) |
| `RainSum` | rain sums, mean rates, accumulation and sorted curve of the notebooks (C145) |
| `ShiftFloat` | binary64 counterpart of the offset theorems for quantised levels (C146) |
| `FillOrder` | fill value rule of docs/notebooks/Get radar rainfall along CML paths.ipynb (its other cells call poligrain and plot); relation of `prepared` of `Workflow` and `rstl` of `NearbyNb` (C147) |
| `NearbyMemory` | (uses the nearby-link modules; C148) |
| `MinMaxLocal` | (uses MinMax_model, KR_model) window, order and zeros of the min/max chain, C149 |
| `MinMaxExact` | (uses MinMax_model) min/max attenuation of quantised levels in binary64 and in exact arithmetic, C150 |
| `IdwSymFloat` | (uses Idw_model) symmetries of inverse distance weighting in binary64, C151 |
| `IdwAcc` | (uses Idw_model) accuracy of inverse distance weighting in binary64, C152 |
| `IdwAccUse` | (uses Idw_model) linearity, exponent and influence of stations in binary64, from C152 (C110, C144) |
| `MetricErr` | (uses Stats_model) float64 rain metrics of two orders or two nearly equal series, bias, triangle inequality (C89, C107, C136, C143) |
| `RainSumFloat` | (uses RainSum_model) rain sums, mean rates and accumulations in binary64 close to the exact ones (C145) |
| `ReaggFloat` | no new code: sums aggregated in two steps in binary64 (C118) |
| `VarFloat` | spatial/interpolator.py:clim_var_param in any arithmetic (the model of `Grid` is over the reals; both agree in exact arithmetic) (C46) |

## 3. Plan per property

| id | what is modelled, how it is proved |
|---|---|
| C01-C04 | loop of `_numba_baseline_constant` on F64; loop invariant giving the value at each index; refutation of the documented NaN behaviour by a witness plus the general equality; causality by induction on the prefix; range in XR |
| C05-C08 | loop state of `_numba_baseline_linear`; invariant "everything before last_dry_i is final"; run decomposition spec; trailing zeros; NaN; error branch shown unreachable because the model has an explicit `Err` there |
| C09-C12 | `np.roll` as list rotation; scan as fold; characterisation of the scan state by the most recent event |
| C13-C15 | recursion of Schleiss with Python `min`; order facts from `numsem`; closed form in XR by induction |
| C16-C17 | real analysis (Rpower, exp), linear interpolation in a monotone table |
| C18-C25 | optional parameters as `option`; elementwise map; real power laws; ITU tables as rational data; not-a-knot spline by exact rational computation, positivity by Bernstein coefficients of each cubic piece |
| C140 | bins by integer division, minimum and maximum by the lemmas for np.min and np.max; gap filling depends only on samples up to the longest gap ahead; composed with C116; whole seconds are exact in binary64 (multiples of 2^9 below 2^62) |
| C141 | counting argument for the middle elements of the sorted levels, and that the rounded mean of two doubles of a range stays in it; order statistics are non-expansive; cases for the clipping in the corrected levels; monotonicity of the rain rate |
| C142 | relation between the two runs kept by every step of the loop over links; characterisations C10 and C11 of the masks; induction over the recursion of the wet antenna attenuation together with its bound waa_max; a counterexample |
| C143 | Minkowski's inequality for the differences of the two runs; counting the pairs whose class can change; two-sample counterexample for the correlation; in float64 from the error bounds of C54 for both runs |
| C144 | the share of a station is its weight over the sum, at most the ratio to any other used weight; distances ordered by the query's contract; a three-station example for the jump; float64 through the exact map (C152) |
| C145 | bins as in C140; exchange of the sums over bins and samples, each sample in exactly one bin; origin of the labels is that of the times; insertion sort sorts and permutes; rounding is monotone |
| C146 | sums, differences and means of few multiples of 2^-q are exact or round alike; every step uses levels only through exact differences or comparisons; refutations by computation |
| C147 | between two measured samples at most max_gap apart every sub-gap is short too, so all is filled, within the range of the measured values; interpolation is linear in the values if the gaps coincide |
| C148 | every window of the shorter record lies inside it after the warm-up, and then equals the shifted window of the longer one |
| C149 | the minimum over the window is computed from recorded values only, so equal windows give equal bits; differences are monotone under rounding and positive if the operands differ (no underflow of differences) |
| C150 | sums and differences of numbers of steps are exact, so is their sum; the quotient of the mean is farther from a half-integer than its rounding error unless it is one, so rounding twice is rounding once; all other steps commute with taking the value |
| C151 | a strictly sorted selection of the k smallest keys among given pairs is unique; the value is a function of the selected list of pairs; squares of differences are the same bits when the differences are equal up to sign, sums of two squares commute, differences on a raster are exact; refutation by computation |
| C152 | squared distances within 6u, distances within 8u, powers by ln/exp bounds; a margin of 2^-40 between distances fixes the order of the computed squares and hence the selection; weighted means with relative weight errors t differ by 2.1 t M; sums as in C39 |
| C131 | second derivatives of the not-a-knot splines of both tables enclosed around rational certificates (as for C24), then Bernstein coefficients of each piece and of its derivative bounded by exact rational computation |
| C26-C27 | sliding minimum, rint = round half to even; negative windows reach an empty slice |
| C28-C31 | rolling median with min_periods; selections; composition |
| C32-C36 | distance matrices, rolling max, medians over neighbours, shifted conditions with NaN padding |
| C37-C38 | real trigonometry: dot product of unit vectors; in binary64 relative errors with a tiny absolute part through products and sums, Lipschitz bounds of sin, cos, atan and of the norm |
| C39-C45 | brute-force nearest-neighbour specification of the k-d tree query; weights; caches as state machines with histories (list of calls); C39 in binary64 by error bounds of sums in any order |
| C46 | real functions |
| C47-C49 | time stamps as integers (ns); bfill/ffill as search in a sorted list |
| C50-C55 | counts over lists; algebra in R; Cauchy-Schwarz |
| C56-C59, C78 | signatures as lists of (name, default) ; Python's binding rules as an independent specification |
| C60-C61 | window extraction; model an arbitrary function |
| C62-C64, C67-C69 | sample lists with addresses, stores as folds of point updates |
| C65-C66, C70-C72, C80 | file system as a finite map, operations as transitions, histories and crash points |
| C73-C75 | parts of stft.py after the spectrogram; the spectrogram is an arbitrary function |
| C130 | the same with matplotlib's spectrogram as the Fourier sum it evaluates, exact arithmetic; samples are numbers or NaN |
| C132 | pykrige's linear system over the reals; `inv` is any function that inverts invertible matrices and raises otherwise (one is built by elimination); weights solve the kriging system or the matrix has a kernel; consequences by uniqueness of the solution |
| C133 | the spherical correlation as a limit of positive combinations of correlations on lines: the triangle function on a line is a limit of sums of products; the plane kernel is the mean over directions and heights, with the integrals as limits of finite sums; then the kriging matrix has no kernel, and the variance of other weights is larger by a quadratic form; strictness: the last station in some directions is ahead of all others for a positive share of the directions, and there its square is seen alone |
| C134 | the window's matrix is the kriging matrix of the selected stations, so each point is a call on these; order invariance for k = n; window weights, filled up with zeros, compete with the optimal ones; the spherical curve is subadditive, so two weights stay in [0, 1] |
| C135 | the fractions at which a path lies in a pixel form an interval; clamped interval bounds telescope along each coordinate, so the shares add up to the share in the grid; C76 turns the call into the sum over the grid |
| C136 | equality in Cauchy-Schwarz (the residual of the regression line is a sum of squares that is 0), behaviour of sums of deviations under affine maps, Minkowski's inequality; concrete runs in binary64 |
| C138 | an exact run is defined by its recursion; strong induction bounds the distance of each computed baseline and wet antenna value from it (means, minima and convex combinations do not amplify errors, each step adds a few roundings); C20 turns the attenuation into rain, tiny rain is compared with a number just below the threshold by monotonicity of the power function |
| C139 | baselines: order and shift (C103, C112); wet antenna: an invariant keeps the error in an interval that depends on the error of the baseline in the event, so that both errors cannot add up; then C138 |
| C137 | a product with NaN is NaN and so is a sum with one; the solver only has to return enough weights |
| C76-C77, C79 | matrices as lists of rows; sets of points |
| C81-C83 | calling conventions of the k-R and wet antenna functions: shapes and scalars as a small inductive type |
| C84-C85, C93-C94 | complex arithmetic on pairs of reals; permittivity in closed form; C93 compares the formula with an independent transfer-matrix specification of plane layers and proves passivity by an energy argument; C94 linear interpolation in an unsorted table |
| C86, C95-C96 | interpolators as state machines, the spatial solver as an oracle |
| C87-C91 | statistics in R: Cauchy-Schwarz, variance decomposition |
| C92 | ownership of samples by grid intervals, search in a sorted list |
| C97-C98 | dataset with named dimension; merge cell by cell; second call on the result of the first |
| C99 | standardisation is invariant under positive affine maps; binary64 witnesses for the dependence |
| C100-C101 | composition of Baseline, Schleiss and KR models; laws of `numsem`, monotone pow; binary64 witnesses |
| C102-C104 | simulation: every model function commutes with adding a constant in exact arithmetic (`XR`); simulation relation for the linear baseline loop; binary64 witness for rounding of ties |
| C105 | two runs related by a bijection of neighbours; medians depend only on the multiset of values |
| C106 | integers below 2^53 are closed under the binary64 operations used; `np.arange` as ceil of a quotient; for other coordinates the rounding errors of start, step, length and products are added up (`Grid64Err`) |
| C107 | counts through permutations of the valid pairs; addition of extended reals is commutative and associative, so sums of the exact model are order independent; rounding to nearest is odd, so errors keep their absolute value; the float64 orders are compared through the exact value (C54) |
| C108 | every operation used by the rain metrics is homogeneous on the extended reals |
| C109-C110 | with different distances the list of used (distance, value) pairs is determined by the set of all pairs; the weighted mean is determined by that list |
| C111-C112 | both baselines read only dry samples (and the first n); linear maps and order are kept by mean and interpolation, by induction over the steps; reversal through the closed form between dry neighbours |
| C113-C114 | a dry step sets the attenuation to min(A, maximum) whatever came before; the baseline after n dry steps is that of the cut record |
| C115 | `where(A >= 0, 0)` is the identity on non-negative values and 0 on all others, missing ones included; the table lookups of C17 and C94 are functions of one attenuation, and composition keeps order |
| C116 | closed form of every output cell; drop, medians, score and reference level read only steps up to t, the flag reads up to t + 2 |
| C117 | valid pairs of joined records are joined; counts are additive, the mediant lies between, rounded division is monotone; in binary64 the error bounds of C54 for the three records |
| C118 | the label of a sample is the label of its fine label; groups of groups are a permutation of the group |
| C119 | rounded product, quotient and power are monotone; exact: power laws of `Rpower` |
| C120 | cells of the four distance matrices are permuted; comparison with a NaN is false; addition theorems of sine and cosine |
| C121 | first and last valid neighbour by search; a comparison with a NaN standard deviation is false; the baseline of an event averages samples of its first window; causality of the chain (C100) |
| C122 | non-negative or missing values are closed under the sums, means and weighted averages of each step; masked stations drop out with `exclude_nan` (C44); a wet flag needs a complete window (C121); sign of zero of a distance computed with Flocq |
| C123 | exact characterisation of the two-sided mask (C11) reduced to "joined to a low level"; reversal exchanges the two scans; plotted gaps by induction on the list of times |
| C124 | backward induction over the record with an invariant that pairs the open start with the next end; the flags of `Workflow` need a complete window, so both ends are dry |
| C125 | rows of C60 give the windows behind a wet flag; NaN propagates through differences and medians; prefix version of C61 with C04; offset lemmas of `Shift` |
| C126 | induction over both frames; the state after the call is part of the result |
| C127 | the input of a step as a function of the link's own losses; offsets through the median; later samples by a binary64 witness |
| C128 | windows of the data set and complete stretches are the same |
| C129 | loop invariant: the count is the number of values in the window, the sum their sum (exact) or within a bound that grows by one step's rounding (binary64) |

## 4. Trusted base

* The Rocq 8.16.1 kernel (and `coqchk`), `vm_compute` for concrete examples.
* Axioms: only those of the standard library that `Print Assumptions` lists
  under each theorem (classical reals; see the section generated at the end).
* The reading of the Python source and of numpy/pandas/xarray/scipy behaviour,
  as documented in the comments of the model definitions.

## 5. Not modelled, and how the theorems are tested

Plotting, the network part of downloads, HDF5 decoding, pykrige's
fitting of variograms and its search for a few closest points, neural network
internals, shapely geometry, numba compilation itself (its documented semantics
are used), warnings and log output except in `Deprecated`.

Sums are added from left to right; numpy's pairwise summation may round
differently.  Claims about sums that are proved for binary64 hold for the
left-to-right order; the others are stated in exact arithmetic.

`RepoTests.v` runs the project's own tests (/repo/pycomlink/tests) on the model:
stats, blackout gaps, inverse distance weighting, grid interpolation, wet antenna
(Schleiss, Pastorek, permittivity), k-R relation, nearby-link rain and wet/dry
detection, argument merging.  The expected values there were recorded from runs
of the real code, so this compares the model with the code.  It needs a
computable library of mathematical functions and a spline solver, both defined in
that file and used nowhere else.  Not replayed: tests that need example files or
neural networks, the Leijnse formula and the variogram (models over the reals).

`tools/mutate.py` applies wrong edits to model definitions in a scratch copy and
rebuilds it.  `seeded/LOG.jsonl` lists every edit, the claim it breaks, the
theorems that failed and those that were tightened because of it.

## 6. Which code is modelled

Generated by `tools/codemap.py` from the line citations in the model files.

| function | lines | model definitions / why not |
|---|---|---|
| io/cmlh5_to_xarray.py:read_cmlh5_file_to_xarray | 7-61 | `Io_model.channel_dataset`, `Io_model.read_cmlh5_file_to_xarray` |
| io/examples.py:get_example_data_path | 7-10 | not modelled: returns a path of the installed package |
| io/examples.py:get_one_cml | 12-15 | not modelled: opens an example file |
| io/examples.py:get_75_cmls | 18-21 | not modelled: opens an example file |
| io/examples.py:get_75_cmls_min_max | 24-27 | not modelled: opens an example file |
| processing/baseline.py:baseline_constant | 16-48 | `Baseline_model.baseline_constant` |
| processing/baseline.py:_numba_baseline_constant | 52-64 | `Baseline_model.numba_baseline_constant` |
| processing/baseline.py:baseline_linear | 67-101 | `Baseline_model.baseline_linear` |
| processing/baseline.py:_numba_baseline_linear | 105-161 | `Baseline_model.lin_state`, `Baseline_model.lin_body`, `Baseline_model.numba_baseline_linear` |
| processing/blackout_gap_detection.py:get_blackout_start_and_end | 7-33 | `Blackout_model.get_blackout_start_and_end` |
| processing/blackout_gap_detection.py:created_blackout_gap_mask_from_start_end_markers | 37-67 | `Blackout_model.mask_body`, `Blackout_model.created_blackout_gap_mask` |
| processing/k_R_relation.py:calc_R_from_A | 15-103 | `KR_model.power_law`, `KR_model.calc_R_from_A` |
| processing/k_R_relation.py:calc_R_from_A_min_max | 106-161 | `KR_model.power_law`, `KR_model.calc_R_from_A_min_max` |
| processing/k_R_relation.py:a_b | 164-264 | `KR_model.pol_v_str_variants`, `KR_model.a_b` |
| processing/min_max.py:_calc_A_min_max | 4-39 | `MinMaxWin_model.zero_level`, `MinMaxWin_model.calc_A_min_max_int`, `MinMax_model.fill_nan`, `MinMax_model.calc_A_min_max` |
| processing/nearby_rain_retrival.py:nearby_determine_reference_level | 6-55 | `NearbyRain_model.nearby_determine_reference_level` |
| processing/nearby_rain_retrival.py:nearby_correct_received_signals | 58-100 | `NearbyRain_model.nearby_correct_received_signals` |
| processing/nearby_rain_retrival.py:nearby_rainfall_retrival | 103-232 | `NearbyRain_model.nearby_rainfall_retrival` |
| processing/pytorch_utils/inference_utils.py:download_and_cache_model | 45-74 | `Cache_model.model_filename`, `Cache_model.download_and_cache_model` |
| processing/pytorch_utils/inference_utils.py:clear_model_cache | 77-90 | `Cache_model.unlink_all` |
| processing/pytorch_utils/inference_utils.py:list_cached_models | 93-106 | `Cache_model.list_cached_models` |
| processing/pytorch_utils/inference_utils.py:_load_model_from_url | 109-118 | `Cache_model.get_model` |
| processing/pytorch_utils/inference_utils.py:_load_model_from_local_path | 121-127 | `Cache_model.get_model` |
| processing/pytorch_utils/inference_utils.py:get_model | 130-160 | `Cache_model.get_model` |
| processing/pytorch_utils/pytorch_utils.py:set_device | 38-41 | not modelled: picks the torch device |
| processing/pytorch_utils/pytorch_utils.py:predict_batch | 45-50 | the network argument of `TorchInfer_model.run_inference` |
| processing/pytorch_utils/pytorch_utils.py:build_dataloader | 54-76 | `TorchInfer_model.build_dataloader` |
| processing/pytorch_utils/pytorch_utils.py:load_model | 80-104 | `Cache_model.load_model` |
| processing/pytorch_utils/run_inference.py:rolling_window | 35-65 | `TorchInfer_model.rolling_window` |
| processing/pytorch_utils/run_inference.py:batchify_windows | 68-106 | `TorchInfer_model.batchify_windows` |
| processing/pytorch_utils/run_inference.py:run_inference | 110-140 | `TorchInfer_model.run_inference` |
| processing/pytorch_utils/run_inference.py:redistribute_results | 143-190 | `TorchInfer_model.redistribute_results` |
| processing/pytorch_utils/run_inference.py:cnn_wd | 193-219 | `TorchInfer_model.cnn_wd` |
| processing/tensorflow_utils/inference_utils.py:get_model_from_json | 19-21 | not modelled: returns a keras function |
| processing/tensorflow_utils/inference_utils.py:get_optimizer_class | 24-26 | not modelled: returns a keras class |
| processing/tensorflow_utils/inference_utils.py:create_samples | 32-68 | `TfInfer_model.link_inputs`, `TfInfer_model.link_samples`, `TfInfer_model.create_samples`, `TfWrap_model.sel_view` |
| processing/tensorflow_utils/inference_utils.py:scale_features | 71-91 | `TfInfer_model.scale_features` |
| processing/tensorflow_utils/inference_utils.py:is_url | 94-104 | `Cache_model.is_url` |
| processing/tensorflow_utils/inference_utils.py:download_and_cache | 107-130 | `Cache_model.download_and_cache` |
| processing/tensorflow_utils/inference_utils.py:resolve_model_paths | 133-162 | `Cache_model.location` |
| processing/tensorflow_utils/inference_utils.py:load_model_from_local | 165-198 | the argument `load` of `TfWrap_model.predict` |
| processing/tensorflow_utils/inference_utils.py:run_inference | 201-216 | the network argument of `TfInfer_model.wet_dry_1d_cnn` |
| processing/tensorflow_utils/inference_utils.py:store_predictions | 219-295 | `TfInfer_model.store_one`, `TfInfer_model.store_predictions` |
| processing/tensorflow_utils/lazy_tf.py:detect_gpu_without_tf | 9-16 | not modelled: runs nvidia-smi |
| processing/tensorflow_utils/lazy_tf.py:get_tf | 18-23 | `Cache_model.get_tf` |
| processing/tensorflow_utils/lazy_tf.py:ensure_tensorflow_installed | 25-37 | `Cache_model.ensure_tensorflow_installed` |
| processing/tensorflow_utils/lazy_tf.py:print_tf_device_info | 39-44 | `Cache_model.get_tf` |
| processing/tensorflow_utils/run_inference.py:wet_dry_1d_cnn | 15-106 | `TfInfer_model.wet_dry_1d_cnn`, `TfWrap_model.merge_prediction`, `TfWrap_model.predict`, `TfWrap_model.cnn_ds` |
| processing/wet_antenna.py:_numba_waa_schleiss_2013 | 29-63 | `Schleiss_model.waa_step`, `Schleiss_model.schleiss_body`, `Schleiss_model.numba_waa_schleiss_2013`, `Schleiss_model.waa_schleiss_2013` |
| processing/wet_antenna.py:waa_schleiss_2013 | 67-110 | `Schleiss_model.waa_schleiss_2013` |
| processing/wet_antenna.py:waa_leijnse_2008_from_A_obs | 114-203 | `LeijnseObs_model.waa_leijnse_2008_from_A_obs` |
| processing/wet_antenna.py:waa_leijnse_2008 | 206-298 | `Leijnse_model.waa_formula`, `Leijnse_model.waa_leijnse_2008` |
| processing/wet_antenna.py:waa_pastorek_2021_from_A_obs | 302-374 | `Pastorek_model.A_rain_table`, `Pastorek_model.waa_pastorek_2021_from_A_obs` |
| processing/wet_antenna.py:waa_pastorek_2021 | 377-421 | `Pastorek_model.waa_pastorek_2021` |
| processing/wet_antenna.py:eps_water | 424-462 | `Leijnse_model.eps_water` |
| processing/wet_dry/mlp.py:get_model_file_path | 7-8 | not modelled: returns a path of the installed package |
| processing/wet_dry/mlp.py:mlp_wet_dry | 23-149 | `Mlp_model.design_offline`, `Mlp_model.design_online`, `Mlp_model.mlp_wet_dry` |
| processing/wet_dry/nearby_wetdry.py:calc_distance_between_cml_endpoints | 8-84 | `NearbyWetdry_model.calc_distance_between_cml_endpoints` |
| processing/wet_dry/nearby_wetdry.py:nearby_wetdry | 87-238 | `NearbyWetdry_model.within_r`, `NearbyWetdry_model.classify_link`, `NearbyWetdry_model.nearby_wetdry` |
| processing/wet_dry/stft.py:stft_classification | 23-196 | `SpecGram_model.psd`, `SpecGram_model.mpl_specgram`, `SpecGram_model.hamming_at`, `Stft_model.spectrogram`, `Stft_model.extend`, `Stft_model.dry_period`, `Stft_model.classify`, `Stft_model.stft_classification` |
| processing/wet_dry/stft.py:find_lowest_std_dev_period | 199-223 | `SpecGram_model.sample_std`, `SpecGram_model.mpl_env`, `Stft_model.find_lowest_std_dev_period` |
| processing/wet_dry/stft.py:nans | 231-235 | `Stft_model.nans` |
| processing/xarray_wrapper.py:xarray_apply_along_time_dim | 7-53 | `Wrapper_model.has_time`, `Wrapper_model.inner` |
| processing/xarray_wrapper.py:xarray_apply_along_time_dim.decorator | 16-51 | `Wrapper_model.has_time`, `Wrapper_model.inner` |
| processing/xarray_wrapper.py:xarray_apply_along_time_dim.decorator.inner | 18-49 | `Wrapper_model.has_time`, `Wrapper_model.inner` |
| processing/xarray_wrapper.py:_get_new_args_dict | 56-76 | `Wrapper_model.new_arg` |
| spatial/coverage.py:calc_coverage_mask | 8-71 | `Coverage_model.calc_coverage_mask` |
| spatial/helper.py:haversine | 17-29 | `Haversine_model.haversine` |
| spatial/idw.py:Invdisttree.__init__ | 69-73 | `Idw_model.tree` |
| spatial/idw.py:Invdisttree.__call__ | 75-124 | `Idw_model.tree_call`, `Idw_model.overwrite_q` |
| spatial/idw.py:_numba_idw_loop | 128-151 | `Idw_model.idw_one` |
| spatial/interpolator.py:PointsToGridInterpolator.__init__ | 26-28 | abstract, does nothing |
| spatial/interpolator.py:PointsToGridInterpolator.__call__ | 30-67 | `Idw_model.reshape`, `Kriging_model.points_to_grid` |
| spatial/interpolator.py:PointsToGridInterpolator._interpol_func | 70-72 | abstract; the argument `interpol` of `Kriging_model.points_to_grid` |
| spatial/interpolator.py:IdwKdtreeInterpolator.__init__ | 76-83 | `Idw_model.settings` |
| spatial/interpolator.py:IdwKdtreeInterpolator._interpol_func | 85-116 | `Idw_model.settings`, `Idw_model.interpol_func`, `Idw_model.overwrite_xy` |
| spatial/interpolator.py:OrdinaryKrigingInterpolator.__init__ | 120-140 | `Kriging_model.kriging`, `OrdKrige_model.vparams` |
| spatial/interpolator.py:OrdinaryKrigingInterpolator._interpol_func | 142-174 | `KrigeWin_model.pykrige_window`, `Kriging_model.krige_func`, `OrdKrige_model.pykrige` |
| spatial/interpolator.py:_parse_grid_kwargs | 177-208 | `Grid64_model.parse_grid_kwargs`, `Grid_model.parse_grid_kwargs` |
| spatial/interpolator.py:clim_var_param | 211-260 | `Grid_model.clim_var_param`, `VarFloat_model.clim_var_param_n` |
| util/maintenance.py:deprecated | 10-46 | `Deprecated_model.deprecated` |
| util/maintenance.py:deprecated.decorator | 20-44 | `Deprecated_model.deprecated` |
| util/maintenance.py:deprecated.decorator.wrapper | 28-42 | `Deprecated_model.deprecated` |
| util/temporal.py:aggregate_df_onto_DatetimeIndex | 4-74 | `Temporal_model.aggregate_df_onto_DatetimeIndex` |
| validation/stats.py:calc_wet_dry_performance_metrics | 136-228 | `Stats_model.nan_index`, `Stats_model.nd_len`, `Stats_model.matthews`, `Stats_model.calc_wet_dry_performance_metrics` |
| validation/stats.py:calc_rain_error_performance_metrics | 231-329 | `Stats_model.nan_index`, `Stats_model.nd_len`, `Stats_model.calc_rain_error_performance_metrics` |
| validation/stats.py:calc_wet_error_rates | 333-342 | `Stats_model.calc_wet_error_rates` |
| validation/validator.py:Validator.__init__ | 15-16 | does nothing |
| validation/validator.py:Validator.calc_stats | 18-27 | `CalcStats_model.calc_stats` |
| validation/validator.py:GridValidator.__init__ | 31-40 | not modelled: stores its arguments |
| validation/validator.py:GridValidator._get_cml_intersection_weights | 42-56 | not modelled: shapely intersections; the weights are an argument of `Validator_model.get_time_series`, specified by `PathShare_spec.path_weights` |
| validation/validator.py:GridValidator.get_time_series | 58-86 | `Validator_model.get_time_series` |
| validation/validator.py:GridValidator.resample_to_grid_time_series | 88-109 | `Validator_model.resample_to_grid_time_series` |
| validation/validator.py:GridValidator.plot_intersections | 111-158 | not modelled: plotting |
| validation/validator.py:PointValidator.__init__ | 162-164 | not modelled: class without function |
| validation/validator.py:PointValidator._get_cml_pair_indices | 166-170 | not modelled: `pass` |
| validation/validator.py:PointValidator.get_time_series | 172-173 | not modelled: `pass` |
| validation/validator.py:calc_wet_dry_error | 180-187 | `Stats_model.calc_wet_dry_error` |

## 7. Axioms per theorem (generated by tools/assumptions.py from `Print Assumptions`)

**No axioms (closed under the global context)** (112 theorems):
`C45_given_grid_kept`, `C46_day_of_year`, `C46_day_of_year_counts_days`, `C47_every_sample_in_its_bin`, `C47_at_most_one_bin`, `C47_rejects`, `C49_naive_index_labels_are_shifted`, `C49_naive_index_refuted`, `C56_merge_is_python_binding`, `C56_python_call`, `C57_unknown_keyword_ignored`, `C57_given_twice_keyword_ignored`, `C57_surplus_ignored`, `C57_missing_passed_on`, `C57_without_time_rejected`, `C58_each_series_separately`, `C58_no_series_skipped`, `C58_other_length_rejected`, `C58_later_results_stretched`, `C58_first_result_fixes_length`, `C58_later_length_rejected`, `C59_blackout_start_end_with_time`, `C59_tuples_never_work`, `C60_rejects`, `C62_predictions_at_window_end`, `C62_no_window_anywhere`, `C63_cells_and_predictions`, `C63_rejects`, `C64_too_many_variables`, `C65_file_name_is_last_component`, `C65_content_of_last_download`, `C65_when_it_downloads`, `C65_other_url_refuted`, `C65_json_and_weights_with_one_name`, `C65_trailing_slash_is_a_directory`, `C65_local_files`, `C66_tf_truncated_file_stays`, `C66_torch_truncated_file_stays`, `C66_torch_model_unusable_until_forced`, `C66_tf_without_crash_complete`, `C66_torch_without_crash_complete`, `C67_windows_and_targets`, `C67_targets_distinct_or_shared`, `C67_rejects`, `C68_predictions_at_target_time`, `C68_rejects`, `C69_batch_size_irrelevant`, `C70_default_listing_misses_models`, `C70_star_listing_finds_them`, `C70_list_cached_models_refuted`, `C70_empty_suffix`, `C70_question_mark`, `C70_question_mark_then`, `C71_urls_go_through_the_cache`, `C71_local_paths`, `C71_others_rejected`, `C72_content_of_last_download`, `C72_when_it_downloads`, `C72_clearing_forces_download`, `C72_second_call_does_not_download`, `C72_subdirectory_stops_clearing`, `C73_negative_bounds`, `C74_mirror_always_fails`, `C74_mirror_type_error`, `C74_mirror_supplied`, `C74_spectrogram_without_frequencies`, `C74_spectrogram_too_long`, `C74_bad_combination`, `C75_find_removed`, `C75_negative_window`, `C76_no_positive_weight`, `C76_no_data`, `C77_union_of_buffers`, `C77_smaller_ygrid`, `C77_cascaded_union_removed`, `C78_transparent`, `C78_ignored`, `C78_error_filter`, `C78_unnamed`, `C78_loop`, `C78_once_filter`, `C79_empty_file`, `C79_ok_or_bad`, `C80_imported_at_most_once`, `C80_installs_only_if_permitted`, `C80_not_permitted`, `C83_leijnse_scalar_rain_raises`, `C92_right_labels`, `C92_left_labels`, `C92_owner_right`, `C92_owner_left`, `C92_rejects`, `C97_link_dimension_must_be_cml_id`, `C97_named_cml_id`, `C97_other_coordinate_is_read_as_cml_id`, `C97_only_foreign_links`, `C97_unknown_coordinate`, `C98_new_variable`, `C98_existing_variable`, `C118_two_steps`, `C118_maximum_is_poolable`, `C118_gap_refuted`, `C118_late_start_refuted`, `C123_plotted_gaps`, `C123_no_gap_refuted`, `C123_documented_choice_refuted`, `C124_shaded_periods`, `C124_open_ends_refuted`, `C124_cleared_ends`, `C124_other_channel_refuted`, `C134_less_than_two_raises`, `C140_bins_exist`.

**`ClassicalDedekindReals.sig_forall_dec`, `ClassicalDedekindReals.sig_not_dec`, `Classical_Prop.classic`, `FunctionalExtensionality.functional_extensionality_dep`** (356 theorems):
`C01_constant_follows_signal_when_dry`, `C02_constant_frozen_during_event`, `C02_float_event_mean`, `C03_constant_nan_flag_is_wet`, `C03_documented_nan_propagation_refuted`, `C04_constant_causal`, `C04_constant_range_one_or_two`, `C04_constant_range_float_refuted`, `C04_float_range`, `C05_linear_between_dry_steps`, `C05_linear_range`, `C05_linear_range_underflow_refuted`, `C06_linear_trailing_wet_is_zero`, `C07_linear_nan_period_is_nan`, `C07_linear_ignore_nan_is_forward_fill`, `C08_linear_never_raises`, `C05_linear_between_dry_steps`, `C09_markers_exact`, `C10_mask_exact`, `C10_every_low_entry_is_marked_refuted`, `C11_two_sided_mask_exact`, `C11_low_neighbour_is_marked_refuted`, `C12_any_markers`, `C13_schleiss_is_least_candidate`, `C13_schleiss_zero_tau`, `C14_schleiss_nan_exact`, `C15_wet_step_in_float`, `C15_wet_period_in_float`, `C16_pastorek_range_and_monotone`, `C16_pastorek_formula`, `C16_pastorek_dry_is_zero`, `C16_pastorek_in_float`, `C16_library_laws_satisfiable`, `C17_waa_from_A_obs_exact`, `C17_negative_observation_raises`, `C17_in_float`, `C17_library_laws_satisfiable`, `C18_only_two_combinations`, `C19_rain_nan_exact`, `C19_pow_assumptions_satisfiable`, `C20_inverts_power_law_exact`, `C20_float_inverts_power_law`, `C20_accuracy_satisfiable`, `C21_rain_monotone`, `C21_rain_monotone_exact`, `C22_a_b_rejects`, `C23_a_b_elementwise`, `C23_a_b_elementwise`, `C24_retrieval_from_frequency_is_total`, `C25_min_max_retrieval_scaled`, `C25_calibrated_coefficient`, `C25_arguments`, `C26_min_max_window`, `C26_negative_window`, `C26_window_from_zero`, `C27_float_no_nan`, `C28_reference_level_is_median`, `C28_reference_level_range`, `C29_corrected_signals`, `C30_retrieval_mixes_exact`, `C30_parameter_combinations`, `C30_outlier_score`, `C30_float_retrieval_mixes`, `C30_float_mix_above_both_refuted`, `C31_no_rain_when_not_wet`, `C31_pow_law_satisfiable`, `C32_neighbour_relation`, `C33_values_and_unclassified`, `C34_interior_rule`, `C35_ends_are_always_wet`, `C37_haversine_total_bounded_symmetric`, `C37_haversine_float_symmetric`, `C37_sine_law_satisfiable`, `C37_float_range`, `C37_trig_laws_satisfiable`, `C37_antipodes_are_nan_refuted`, `C38_haversine_is_great_circle_metric`, `C38_float_is_great_circle`, `C38_accuracy_satisfiable`, `C39_idw_weighted_mean_exact`, `C39_float_range`, `C39_float_range_refuted`, `C40_reproduces_data_exact`, `C40_hit_returns_value`, `C41_only_nearest_values_matter_exact`, `C41_only_returned_values_matter`, `C42_history_with_constant_max_distance`, `C42_search_contract_satisfiable`, `C42_changed_max_distance_is_ignored`, `C43_interpolator_history_independent`, `C44_grid_results`, `C44_invalid_input`, `C44_shape`, `C44_nan_points_have_no_influence`, `C44_all_nan`, `C44_unequal_lengths`, `C46_variogram_exact`, `C46_variogram_bounds_exact`, `C46_same_in_exact_arithmetic`, `C46_positive_in_float`, `C46_library_laws_satisfiable`, `C48_counts_are_conserved_in_float`, `C48_left_to_right_is_exact`, `C48_tenths_are_not_conserved_refuted`, `C50_counts_add_up`, `C50_unequal_shapes`, `C51_rates_in_float`, `C52_matthews_float`, `C52_matthews_close`, `C52_perfect_is_not_one_refuted`, `C53_threshold_is_strict`, `C53_documented_away_from_threshold`, `C53_documented_threshold_refuted`, `C54_only_valid_pairs_matter`, `C54_float_errors_any_order`, `C54_float_errors`, `C54_float_mae_above_rmse_refuted`, `C55_deprecated_rates_agree`, `C81_str_pol_with_several_frequencies_raises`, `C81_documented_expansion_refuted`, `C82_frequency_array_all_or_nothing`, `C82_frequency_array_elementwise`, `C83_pastorek_scalar_rain_raises`, `C83_leijnse_shapes`, `C84_leijnse_zero_rain`, `C86_overwritten_query_points_stale`, `C86_overwritten_coordinates_stale`, `C87_all_pairs_counts_rows`, `C87_number_of_all_pairs_refuted`, `C88_pearson_range`, `C89_bias_float`, `C89_bias_above_mae_refuted`, `C90_rain_metrics_with_threshold_zero`, `C91_float_rain_of_false_and_missed_wet`, `C91_float_mean_above_threshold_refuted`, `C93_leijnse_is_transmission_loss`, `C94_leijnse_lookup`, `C95_solver_sees_valid_points_and_grid`, `C95_nan_points_have_no_influence`, `C95_history_independent`, `C95_sigma_stays_from_earlier_call`, `C96_integer_grid_without_data_raises`, `C96_integer_grid_with_data`, `C96_idw_is_an_instance`, `C98_rerun_on_subset_conflicts`, `C99_depends_on_other_links`, `C99_depends_on_the_future`, `C100_total`, `C100_frequency`, `C100_dry_is_zero`, `C100_clipping_has_no_effect`, `C100_clipping_not_required`, `C100_causal`, `C101_waa_lowers_rain`, `C101_negative_waa_raises_rain`, `C101_rain_below_baseline`, `C101_pow_laws_hold`, `C104_odd_offset_refuted`, `C105_only_neighbours_matter`, `C105_order_of_links`, `C106_integer_coordinates`, `C106_grid_covers_stations_refuted`, `C106_coordinates_never_decrease`, `C106_missing_first_coordinate`, `C106_later_missing_coordinates_ignored`, `C106_no_stations`, `C106_no_ordinates`, `C106_resolution_required`, `C106_float_nearly_covers`, `C106_float_degrees`, `C107_order_of_pairs`, `C107_order_of_pairs_float_refuted`, `C107_order_of_pairs_float_close`, `C107_exchange`, `C108_power_of_two`, `C108_other_factors_refuted`, `C108_tiny_rates_refuted`, `C109_only_distances_matter_exact`, `C109_moved_network_exact`, `C109_order_of_stations_exact`, `C109_ties_depend_on_the_order_refuted`, `C109_unit_of_coordinates_exact`, `C110_linear_and_monotone_exact`, `C110_monotone`, `C110_shift_refuted`, `C110_linear_float`, `C111_constant_ignores_wet_levels`, `C111_linear_ignores_wet_levels`, `C111_constant_idempotent`, `C111_linear_idempotent_refuted`, `C112_constant_monotone`, `C113_dry_step_forgets`, `C114_chain_can_be_restarted`, `C114_restart_in_event_refuted`, `C115_never_missing`, `C115_schleiss_never_missing`, `C115_pastorek_chain_exact`, `C115_leijnse_chain_exact`, `C116_rain_rates`, `C116_pow_law_satisfiable`, `C116_final_after_two_steps`, `C116_last_two_steps_refuted`, `C117_counts_add`, `C117_rates_between`, `C117_matthews_between_refuted`, `C117_float_errors_are_weighted`, `C117_float_mae_between_refuted`, `C118_sums_in_float`, `C118_counts_in_float`, `C118_tenths_refuted`, `C119_longer_link_less_rain`, `C119_longer_link_less_rain_exact`, `C119_threshold`, `C119_only_the_product_matters`, `C119_attenuation_per_length_exact`, `C119_homogeneous_exact`, `C119_exponent_exact`, `C120_ends_do_not_matter`, `C120_classification_and_rain`, `C120_larger_radius`, `C120_missing_coordinate`, `C120_nan_law_satisfiable`, `C120_origin_of_longitudes_exact`, `C120_full_turn_exact`, `C121_only_short_gaps_are_filled`, `C121_total`, `C121_rain_needs_complete_window`, `C121_missing_iff_loss_missing`, `C121_long_average_refuted`, `C121_later_data`, `C121_last_steps_refuted`, `C122_map_exists`, `C122_assumptions_satisfiable`, `C122_unreliable_links_left_out`, `C122_channels_refuted`, `C122_silent_link`, `C122_more_rain_more_map`, `C123_mask_of_raw_levels`, `C123_reversed_record`, `C123_single_scan_refuted`, `C123_threshold`, `C124_workflow_flags`, `C125_total`, `C125_flag_rule`, `C125_wet_needs_window`, `C125_wet_needs_window_online`, `C125_online_is_causal`, `C125_offline_not_causal_refuted`, `C125_flag_is_larger_output`, `C126_timestamps_never_match_refuted`, `C126_pairs_of_the_same_second`, `C126_second_call_refuted`, `C127_flags`, `C127_wet_needs_window`, `C127_links_are_independent`, `C127_later_samples_matter_refuted`, `C128_where_predicted`, `C128_fails_without_data`, `C128_value_needs_window`, `C129_float_running_sum`, `C129_float_window_only_refuted`, `C131_light_rain_exact`, `C132_season_enters_through_range_exact`, `C133_spherical_negative_definite_exact`, `C133_always_works_exact`, `C133_climatological_variogram_works_exact`, `C133_minimum_variance_exact`, `C133_variance_bounds_exact`, `C133_strictly_positive_definite_exact`, `C133_works_exactly_if_exact`, `C133_only_minimum_exact`, `C134_spherical_always_works_exact`, `C134_distinct_places_work_exact`, `C134_variance_not_smaller_exact`, `C136_triangle_with_gaps_refuted`, `C136_constant_series_correlate_refuted`, `C136_perfect_below_one_refuted`, `C136_triangle_float`, `C136_triangle_rounded_refuted`, `C137_missing_station_spreads`, `C137_variance_hides_it`, `C137_nearest_only`, `C138_exact_run_exists`, `C138_float_chain`, `C138_power_laws_satisfiable`, `C139_attenuation_exact`, `C139_float_chain`, `C139_bound_is_sharp`, `C139_idw_exact`, `C140_levels`, `C140_extremes`, `C140_corrected_in_order`, `C140_rain_rates`, `C140_final`, `C141_minority`, `C141_half_refuted`, `C141_rain_errors_exact`, `C141_rain_errors_sharp_exact`, `C142_wet_thresholds`, `C142_blackout_threshold`, `C142_wet_antenna_parameters_exact`, `C142_nearby_parameters_exact`, `C142_outlier_threshold`, `C142_more_wet_more_rain_refuted`, `C143_errors_float`, `C144_power_zero_exact`, `C144_influence_exact`, `C144_nearest_bound_exact`, `C144_nearest_limit_exact`, `C144_continuous_refuted`, `C144_power_zero_float`, `C144_influence_float`, `C144_nearest_bound_float`, `C145_gap_is_dry`, `C145_nested_means_refuted`, `C145_accumulation_grows`, `C145_sums_float`, `C145_sums_float_any_order`, `C145_means_float`, `C145_means_float_any_order`, `C145_accumulation_float`, `C146_baseline`, `C146_chain`, `C146_nearby_classification`, `C146_nearby_rain`, `C146_reference_level`, `C146_mean_of_three_refuted`, `C146_tenths_refuted`, `C146_tenths_flags_refuted`, `C147_rules_agree`, `C147_range_removes_more`, `C147_other_values_pass`, `C147_order_refuted`, `C148_wet_flags_and_scores`, `C148_rain_rates`, `C148_pieces`, `C148_wet_step_before_refuted`, `C148_rain_step_before_refuted`, `C149_only_the_window`, `C149_gaps_refuted`, `C149_zero_iff_quiet`, `C149_quiet_is_dry`, `C149_monotone`, `C150_no_rounding_error`, `C150_even_offset`, `C150_complete_data`, `C150_tenths_refuted`, `C151_only_computed_distances_matter`, `C151_order_of_stations`, `C151_reflections`, `C151_moved_map`, `C151_search_contract_satisfiable`, `C151_moved_tenths_refuted`, `C152_float_map_close`, `C152_same_neighbours`, `C152_accurate_power_exists`.

**`ClassicalDedekindReals.sig_forall_dec`, `ClassicalDedekindReals.sig_not_dec`, `FunctionalExtensionality.functional_extensionality_dep`** (138 theorems):
`C02_constant_event_mean_exact`, `C04_constant_range_exact`, `C05_linear_exact`, `C07_linear_ignore_nan_no_nan_exact`, `C15_schleiss_exponential_exact`, `C24_itu_coefficients_positive`, `C24_itu_coefficients_positive`, `C24_exact_interpolator_exists`, `C27_min_max_no_nan_exact`, `C28_reference_level_range_exact`, `C36_F_is_complete_window_sum_exact`, `C39_query_contract_satisfiable`, `C51_rates_complementary_exact`, `C52_matthews_exact`, `C54_errors_exact`, `C54_real_pairs_exist`, `C60_rows_of_rg_and_rad`, `C60_rows_of_online_models`, `C61_online_models_are_causal`, `C64_scaling_exact`, `C64_features_independent`, `C73_scores_and_flags`, `C73_missing_is_dry`, `C75_lowest_std`, `C75_found`, `C75_no_window`, `C75_slice_shifted_by_one`, `C75_first_window_all_dry`, `C76_bounding_box_is_enough`, `C79_every_link_and_channel`, `C79_bad_link`, `C88_pearson_exact`, `C89_rmse_decomposition_exact`, `C91_rain_of_false_and_missed_wet_exact`, `C98_rerun_is_idempotent`, `C99_units_do_not_matter`, `C102_classification`, `C102_reference_level`, `C102_rain_rate`, `C103_constant_baseline`, `C103_chain`, `C103_linear_baseline`, `C103_linear_baseline_refuted`, `C104_complete_data`, `C104_even_offset`, `C107_order_of_pairs_exact`, `C107_matthews_exchange_exact`, `C108_unit_of_rain_rate_exact`, `C111_linear_idempotent_exact`, `C112_constant_is_linear_exact`, `C112_linear_is_linear_exact`, `C112_constant_monotone_exact`, `C112_linear_monotone_exact`, `C112_linear_reversible_exact`, `C113_scaling_exact`, `C113_monotone_exact`, `C117_sums_add_exact`, `C117_errors_are_weighted_exact`, `C121_filled_on_line_exact`, `C122_fractions_add_exact`, `C125_offset_exact`, `C127_offset_exact`, `C129_running_sum_exact`, `C129_same_as_window_sums_exact`, `C129_infinity_refuted`, `C130_gain_exact`, `C130_offset_refuted`, `C130_dry_period_exact`, `C130_window_scale_exact`, `C130_sampling_rate_exact`, `C130_missing_sample`, `C130_reach`, `C130_dry_scores_exact`, `C130_one_band_is_dry`, `C130_equal_columns_are_dry_exact`, `C130_short_record_is_dry_exact`, `C130_constant_level_is_dry_exact`, `C130_total_power_exact`, `C130_tone_exact`, `C130_default_window`, `C131_coefficients_bounded_and_ordered`, `C131_order_at_low_frequencies_refuted`, `C132_kriging_system_exact`, `C132_assumptions_satisfiable`, `C132_constant_exact`, `C132_reproduces_data_exact`, `C132_linear_exact`, `C132_far_from_stations_exact`, `C132_only_distances_matter_exact`, `C132_order_of_stations_exact`, `C132_only_nugget_ratio_matters_exact`, `C132_unit_of_length_exact`, `C132_short_range_gives_mean_exact`, `C132_variance_exact`, `C132_single_station_raises`, `C132_two_stations_at_one_place_raise_exact`, `C132_negative_rain_refuted`, `C134_assumptions_satisfiable`, `C134_kriging_of_nearest_exact`, `C134_all_stations_exact`, `C134_constant_exact`, `C134_reproduces_data_exact`, `C134_two_nearest_bounds_exact`, `C134_three_nearest_negative_refuted`, `C135_weights_exist`, `C135_weighted_sum_exact`, `C135_uniform_rain_exact`, `C135_between_exact`, `C135_missing_pixel_is_zero_exact`, `C135_along_edge_refuted`, `C135_outside_raises_exact`, `C135_direction_exact`, `C136_correlation_of_one_exact`, `C136_correlation_recalibrated_exact`, `C136_offset_exact`, `C136_best_offset_exact`, `C136_triangle_exact`, `C139_constant_baseline_exact`, `C139_linear_baseline_exact`, `C140_filled_exact`, `C141_reference_errors_exact`, `C143_errors_exact`, `C143_errors_sharp_exact`, `C143_rates_exact`, `C143_correlation_refuted`, `C145_sums_exact`, `C145_reference_exact`, `C145_means_exact`, `C145_sum_below_mean_exact`, `C145_nested_sums_exact`, `C145_accumulation_exact`, `C145_curve_exact`, `C145_curve_order_exact`, `C147_order_available_exact`, `C147_same_gaps_exact`, `C147_measured_exact`, `C147_gap_bound_exact`, `C149_exact_excess`.

**`ClassicalDedekindReals.sig_forall_dec`, `FunctionalExtensionality.functional_extensionality_dep`** (13 theorems):
`C15_exponential_monotone`, `C45_generated_grid_covers_exact`, `C45_resolution_required`, `C45_no_stations`, `C48_sums_are_conserved_exact`, `C77_exact_discs_grow`, `C77_exact_disc_exists`, `C85_water_permittivity`, `C85_double_debye`, `C88_no_variation_means_constant`, `C118_sum_is_poolable_exact`, `C118_mean_refuted_exact`, `C135_ends_inside_exact`.
