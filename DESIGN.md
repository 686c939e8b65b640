# Formal model of ESA-VirES/MagneticModel (eoxmagmod) – design

All source paths below are relative to `/repo/eoxmagmod/eoxmagmod/`.
The model is written in Coq 8.16.1 under `rocq/theories/` (logical name `Verif`).

## 1. Approach

* Shallow embedding: each modelled Python/C function is a Gallina function which
  mirrors it branch by branch; exceptions are values (`result`/`option`), loops are
  structural recursion or recursion on explicit fuel (an out-of-fuel outcome is an
  error value, excluded by a theorem).
* Every definition of the model cites the file and lines it models and states its
  simplifications.
* `*Model.v` files hold the model (no proofs), `*Spec.v` small independent
  specifications, `*Proofs.v` the lemmas and `Prop*.v` only the property theorems,
  each closed by `exact lemma.` and followed by `Print Assumptions` and an `Example`
  that shows a concrete non-trivial instance of the hypotheses.
* A property which is false of the faithful model is recorded as a theorem with the
  suffix `_refuted` (a witness), next to the strongest true variant (`_partial`).

### Numbers

* Code which only *compares* times (interval handling, validity checks, bisection)
  is modelled over an arbitrary decidable total preorder `leb`.  IEEE doubles without
  NaN, compared by `<=`, are such a preorder, so those theorems hold exactly for the
  floating-point program (no rounding is involved).  NaN query times are modelled
  explicitly as a value for which every comparison is false.
* Integer arithmetic is `Z` (C truncating division is `Z.quot`/`Z.rem`); theorems state
  the range in which no 32-bit overflow occurs where it matters.
* Floating-point arithmetic (`+ - * / sqrt sin cos atan2 ...`) is idealised as
  arithmetic on the real numbers `R` of the Coq standard library.  Rounding is not
  modelled unless stated (C14, C90 and C91 use the IEEE double precision rounding of
  Flocq); NaN and infinities appear explicitly where the code
  produces or tests them.

### Trusted base

* Coq's kernel (8.16.1), and the axioms of the Coq standard library reported by
  `Print Assumptions` under each theorem (section 5).
* The reading of the source; nothing is extracted or executed.
* Sections use variables for external functions (e.g. an arbitrary model field);
  all sections are closed, so these are universally quantified in the theorems.

## 2. Properties – what is modelled and how each is proved

The theorems of each property are listed in `MANIFEST.json` with what is missing for the partial ones.

* **C01 Overlap removal yields ordered, non-degenerate, disjoint intervals.** `magnetic_model/util.py` 126-161 over a total preorder, `insert`/`bisect_right` on lists; invariant (sorted, disjoint, non-degenerate) by induction over the input and over the while-loop; fuel bounded by the list length. *(proved)*
* **C02 Overlap removal is first-wins and loses no time.** same model; refinement to the spec `find (first input interval with start <= t < end)` for all t. *(proved)*
* **C03 Interval aggregation computes the pairwise intersection.** `util.py` 164-209 as a two-pointer recursion; proved against the pointwise intersection spec by induction on both lists. *(proved)*
* **C04 Accepted compositions have no time gap.** `coefficients.py` 136-182: stable sort by validity, gap check; coverage proved by induction over the sorted list. *(proved)*
* **C05 Gap-free compositions are accepted.** same model; expected to be refuted (nested intervals): witness, plus the true criterion proved. *(partial)*
* **C06 Composed coefficients: array evaluation equals scalar evaluation.** `coefficients.py` 190-225 with masks over lists of times; pointwise equality by induction over the items. *(proved)*
* **C07 Combined coefficients are the sum of their parts.** `coefficients.py` 318-333; zero padded arrays as lists of pairs of reals; sum spec by index. *(proved)*
* **C08 Validity, degree and minimum degree of combined and composed sets.** constructors' folds; membership in the validity as an intersection/hull; permutation invariance. *(proved)*
* **C09 Scalar-time and array-time model evaluation agree.** `model.py` 121-157; scalar first-match against array last-match: equality when components are exclusive, refuted at shared boundaries. *(partial)*
* **C10 Model evaluation returns NaN exactly outside of the validity.** same model; NaN iff no component is valid. *(proved)*
* **C11 Decomposition preserves the coefficients and the validity.** tree model of leaf/composed/combined coefficients with decompose; induction over the tree. *(partial)*
* **C12 Degree subsetting selects exactly the requested degrees.** `coefficients.py` 369-402 on index lists; membership characterisation. *(proved)*
* **C13 The packed coefficient index is collision-free and in bounds.** index formula in Z/nat; injectivity and surjectivity by nonlinear arithmetic. *(proved)*
* **C14 Array size determines the degree.** `pymm_sphar_common.h` 123-129 with IEEE double precision (Flocq), sizes below 2^50. *(proved)*
* **C15 Time-series coefficients do not depend on the order of the snapshots.** argsort as a stable sort; uniqueness of sorted permutations with distinct keys. *(proved)*
* **C16 Bisection finds the bracketing interval.** `include/bisect.h` loops on fuel; invariant of the binary search; reads tracked by `nth_error`. *(proved)*
* **C17 Piecewise-linear interpolation hits the nodes and is linear in between.** `include/interpolation.h`, `pymm_interp.h` over R on top of the bisection model. *(proved)*
* **C18 Piecewise-constant interpolation holds the last node value.** same; expected to be refuted above the last node with extrapolate=False. *(partial)*
* **C19 Interpolation derivative kind is the slope of the interpolant.** Coquelicot `is_derive` of the C1 interpolant. *(proved)*
* **C20 Batch evaluation of sheval is pointwise.** `pymm_sheval.h` 501-597: state machine with the cached last coordinates; cache invariant by induction over the list of points. *(proved)*
* **C21 Batch evaluation of shevaltemp is pointwise.** `pymm_shevaltemp.h` 464-585, 729-766: state machine with the coefficient buffer and idx_last; invariant; refuted for overlapping sets. *(partial)*
* **C22 Optimised evaluation agrees with the coefficients.** comparison of the coefficient buffer with `__call__`; refuted when sets share (n, m). *(partial)*
* **C23 Batch evaluation of sheval2dfs is pointwise.** `pymm_sheval2dfs.h` 373-520, same method. *(proved)*
* **C24 Legendre functions are the Schmidt semi-normalised ones.** `include/spherical_harmonics.h` 98-168 in closed recursive form over R; independent spec: derivative of Legendre polynomials with the Schmidt factor; induction on the degree. *(proved)*
* **C25 Legendre derivatives are the derivatives.** Coquelicot derivative of the recurrence. *(proved)*
* **C26 The two Legendre algorithms agree.** `shc_legendre_high` 182-252; same values when cos(lat) <> 0. *(proved)*
* **C27 Relative radius powers.** loops as lists; closed form with `pow`. *(proved)*
* **C28 Longitude series are the sines and cosines of the multiples.** `include/fourier_series.h` 54-86; induction with addition theorems. *(proved)*
* **C29 2D Fourier series evaluation.** `include/fourier_series.h` 146-245, `pymm_fourier2d.h`; double sums. *(partial)*
* **C30 Gradient is the derivative of the potential.** `shc_eval_v`, `shc_eval_dv` as sums over n and m; derivatives of finite sums (Coquelicot). The eastward component within 1e-10 of the poles is approximated by the code: `C30_near_pole_refuted`. *(partial)*
* **C31 Azimuthal gradient at the poles.** `shc_eval_dvaz_pole`; limit of the regular formula. *(proved)*
* **C32 The potential is harmonic.** second derivatives; Legendre's differential equation from the recurrences. *(proved)*
* **C33 Field is linear in the coefficients.** linearity of the sums. *(proved)*
* **C34 Evaluation modes are consistent.** equality of the three accumulation loops. *(proved)*
* **C35 Truncation by degree equals dropping coefficients.** splitting of the sums. *(proved)*
* **C36 Cartesian and spherical coordinates round trip.** `include/geo_conversion.h` 228-260; `atan2` defined on R with its characterisation. *(proved)*
* **C37 Geodetic and geocentric coordinates round trip.** `include/geo_conversion.h` 56-112; Ferrari's solution verified algebraically over R, for the points beyond the evolute of the meridian ellipse (inside the code gives NaN). *(proved)*
* **C38 Conversion is consistent across coordinate systems.** `pymm_cconv.h` conversion matrix; from C36/C37. *(proved)*
* **C39 Vector rotations are isometries and inverse to each other.** `pymm_vrot_*.h`; trigonometric identities. *(proved)*
* **C40 Rotated frames are the local frames.** derivatives of `sph2cart`; gradient of the ellipsoid equation. *(proved)*
* **C41 Output coordinate system only rotates the field.** `pymm_sheval.h` 540-597 against `pymm_vrot_*.h`. *(proved)*
* **C42 vrotate composes.** `util.py` 45-81 decision table. *(proved)*
* **C43 Dipole rotation matrix is a rotation.** `dipole_coords.py` 45-87 matrices over R. *(proved)*
* **C44 Dipole-frame models are rotated models.** `model.py` 247-271, `dipole.py`. *(proved)*
* **C45 Decimal year and MJD2000 conversions round trip.** `include/time_conversion.h` over Z and R; case analysis on leap years; 1582 expected to be an exception. *(partial)*
* **C46 Decimal year is strictly increasing and continuous across years.** same. *(partial)*
* **C47 Calendar dates are correct.** `mjd2k_to_date` 43-54; comparison with an independent calendar successor function. *(proved)*
* **C48 Year starts and lengths.** `mjd2k_year_start`, `is_leap_year`, `days_per_year`. *(partial)*
* **C49 Magnetic universal time is the dipole longitude of the Sun.** `magnetic_time.py` 39-75. *(proved)*
* **C50 Solar position angles are within their ranges.** `include/sun_ephemeris.h`, FMOD_FLOOR ranges. *(proved)*
* **C51 Composed model is the weighted sum of its components.** `model_composed.py` 52-127 with arbitrary component field functions. *(proved)*
* **C52 Composed model validity.** `model_composed.py` 42-72. *(proved)*
* **C53 Field-line tracing structure.** `field_lines.py` 42-139 with an arbitrary field function. *(proved)*
* **C54 MIO model switches at the ionospheric height.** `model_mio.py`. *(partial)*
* **C55 MIO external to internal conversion is continuous.** `loader_mio.py` 129-134. *(proved)*
* **C56 WMM secular variation.** `parser_wmm.py`, `loader_wmm.py` from the lines of text to the evaluated array of coefficients, for arbitrary conversions of text to numbers. *(proved)*
* **C57 SHC files.** `parser_shc.py` on lines of text (ASCII), with a line-by-line specification of the format; soundness and completeness; blank lines behind the header are refused (refuted). *(partial)*
* **C58 Broadcasting of times and coordinates.** `util.py` 66-94 on shapes; refuted for times of higher rank. *(partial)*
* **C59 Evaluation stays inside of its buffers.** index bounds of the writes; for the evaluation a second model whose buffers have an end and whose elements have no value before they are written (BufModel), proved equal to the unbounded one by simulation; refuted for degree 0 and for the 2D Fourier buffers. *(partial)*
* **C60 Magnitude, inclination and declination.** `util.py` 84-104. *(proved)*
* **C61 A time series evaluated at a snapshot time returns the snapshot.** `coefficients.py` 469-510 on top of the models of the interpolation and of the packed array. *(proved)*
* **C62 A constant set has the same coefficients at all times.** `SparseSHCoefficientsConstant`, same method. *(proved)*
* **C63 Simplified decimal year conversions.** `time_util.py` 49-71 over R. *(proved)*
* **C64 Potential is the spherical harmonic expansion.** the potential of `sheval` from the coefficients to the sum of solid harmonics with the specification of the Legendre functions of C24. *(proved)*
* **C65 sheval2dfs evaluates the coefficients given by the 2D series.** `pymm_sheval2dfs.h`: equality with `sheval` applied to the array of the values of the 2D series; induction over the set of (n, m). *(partial)*
* **C66 Composed model parameters.** `model_composed.py` parameters as sets; induction over the pushes. *(proved)*
* **C67 Validity and degrees of the MIO primary model.** `model_mio.py` properties; the minimum degree is refuted. *(partial)*
* **C68 IGRF files.** `parser_igrf.py`, `loader_igrf.py` from the lines of text to the evaluated coefficients. *(proved)*
* **C69 EMM files.** `parser_emm.py`, `loader_emm.py`, the combined set of `coefficients.py`; the refusal of incompatible files is refuted. *(partial)*
* **C70 Loading of the SHC files.** `loader_shc.py` on top of C57 with both time scales and combined files; the spline order of the header is refuted. *(partial)*
* **C71 Equatorial coordinates of the Sun.** `sunpos5equat`: closed form of the multiple angles, `atan2` and `asin` characterised, the obliquity bounded to have a positive cosine. *(proved)*
* **C72 Horizontal coordinates of the Sun.** `sunpos5eq2hor`: spherical trigonometry over R; the azimuth by the characterisation of `atan2`. *(proved)*
* **C73 The original implementation of the solar positions.** `sunpos5original`, `date_to_sunposmjd2k`: the calendar of C47 and integer arithmetic for all days of the 400 years. *(proved)*
* **C74 The sub-solar point.** `magnetic_time.py`: from C72. *(proved)*
* **C75 Arrays of solar positions.** `pysunpos.h`, `pysunpos_original.h`, `pymm_aux.h`: recursion over the dimensions. *(proved)*
* **C76 Low level functions combine to the field.** `pymm_spharpot.h`, `pymm_sphargrd.h`: the arrays hold the Schmidt functions, powers, cosines and sines (C24-C28), then the sums of C64/C30 with the least degree. *(proved)*
* **C77 Arrays of spharpot and sphargrd.** `pymm_spharpot.h`, `pymm_sphargrd.h`: recursion over the dimensions; the longest shape. *(proved)*
* **C78 MIO file parser.** `parser_mio.py` over the text model of C57; flat reshape with NumPy's unknown dimension and broadcasting comparison; equivalence with the file format by induction over the rows. *(partial)*
* **C79 MIO models loaded from files.** C78 composed with the loader model (C55); the series of a row by the item positions. *(proved)*
* **C80 MMA models merged from files.** `parser_mma.py`, `loader_mma.py` on the CDF variables; concatenation of the times and columns, then the interpolation theorem of the series (C61, C70). *(proved)*
* **C81 Decimal year of datetime objects.** `datetime_to_decimal_year` with the calendar of the Python class; day numbers of the Gregorian calendar and the C48 theorems give the agreement from 1583 on. *(partial)*
* **C82 Sub-solar point of the quasi-dipole library.** SUBSOL, TMJD, TJUDA, IDBL and DBL of `qdipole/apex.f90` and the loop of `eval_subsol.f90` over real numbers. Proved: the calendar of TMJD (both branches) has the right year and time of day by Euclidean division; the constants of SUBSOL are the polynomials of the Almanac up to multiples of 360 degrees; the direction of the returned point, turned with the Earth, is the one of the Sun. The errors are refuted by bounding the sine of the declination (mean value theorem). *(partial)*
* **C83 Magnetic local time.** COFRM (coefficients of the degree 1 with the full table), DYPOL, SOLGMLON, MAGLOCTM and the loop of `eval_mlt.f90`, with the state which COFRM saves between the calls and the local variables which are not initialised. Proved by an invariant of the saved state and a loop without it; the pole is the unit vector of the coefficients, SOLGMLON gives the angle in the frame of the pole (atan2). The dependence on earlier points is refuted by showing that a quadratic form in the direction of the Sun is positive definite. *(partial)*
* **C84 Quasi-dipole coordinates.** The whole path of `eval_qdlatlon.f90`: LOADAPXSH with the saved file and epoch, CONVRT (flag 4), APXG2Q, SHCALC and ALFBASIS with their recursions over real numbers; files, uninitialised variables and arrays are arguments. Proved by an invariant of the saved state (the coefficients are the interpolated ones, the heights those of the last altitude), the recursions of ALFBASIS against the normalised Legendre functions, and a loop without the state; the multiple angles of CONVRT against the published series. *(partial)*
* **C85 Quasi-dipole base vectors.** The gradients of SHCALC are proved to be the derivatives of the expansion, and the base vectors of APXG2Q to be the derivatives of any latitude and longitude functions of its direction (the derivative of the two equations of orthogonality), divided by the radii of curvature of the ellipsoid. The missing normalisation is refuted with a file with doubled coefficients. *(partial)*
* **C86 Quasi-dipole coordinates: no dependence on the history.** From the loop without the state of C84: any two histories and any uninitialised contents give the same values. Refutations by direct evaluation of two calls. *(partial)*
* **C87 Quasi-dipole functions of Python.** Arrays as a shape and a list of values; the checks, the conversion of the size to an int, the uninitialised outputs and the call of the library are modelled as written. The theorems compose with those of C82 to C86. The refutation takes arrays of 2^31 equal elements without computing them. *(partial)*
* **C88 Conversions of arrays with any memory layout.** A memory of doubles by addresses with allocation, array descriptors with data, shape and strides, and the recursion over the dimensions. Induction over the dimensions: each pass writes one item at an address which differs from those of all others, since the new array is C-contiguous and free before. *(proved)*
* **C89 Evaluation of the models for arrays with any memory layout.** The same memory model; the recursion of the three functions simulates the one over the items (C20, C21, C23), by induction over the dimensions with the invariant that the blocks of the outputs already passed hold the results and the inputs are unchanged. Refuted for a transposed array of positions by evaluating a monopole. *(partial)*
* **C90 Time conversions in double precision.** The conversions with every operation on doubles rounded to nearest (Flocq); monotonicity from that of the rounding, the exact cases from integers below 2^53, the error bounds from half a unit in the last place of each operation. Strict monotonicity refuted by the time -2^-60. *(partial)*
* **C91 Interpolation in double precision.** The interpolation with every operation rounded; relative errors of sums (no underflow) and of products and quotients (with an underflow term) are combined; at the nodes the operations are exact. *(proved)*
* **C92 Resources and failures of the C extension functions.** Each extension function as the sequence of its acquisitions, checks, uses and releases; an oracle decides which steps fail, the executions are a tree. The trees of all functions and options are checked leaf by leaf by a verified computation; shevaltemp with any number of sets is reduced to none by a frame argument (the statements do not depend on the references they do not hold), the parsing and the destruction of the sets by induction. *(partial)*
* **C93 Memory layout of the item-by-item functions.** A memory of doubles and integers with the addresses of the C code; one lemma about the common recursion over the dimensions (each item writes its own block of the new array and leaves the rest, by induction over the dimensions), instantiated for the ten functions and combined with the properties of the values (C16-C19, C24, C25, C27-C29, C71-C73, C77). Refuted for legendre of degree 0. *(partial)*
* **C94 Arithmetic of the 32-bit integers.** The integer expressions of the C code as terms, evaluated on an arbitrary machine which is only required to be exact in the range of the 32 bits (and on two particular ones: stop at an overflow, wrap around). The loops refine those of the models with unbounded integers, by the bounds of every intermediate result; the values then follow from C24, C25, C27 and C64. The limits are tight: above them the first machine stops. The value at the pole with the wrap around by the invariant of the Gauss-normalised rows up to the last row. *(partial)*
* **C95 Refusal of wrong arguments by the extension functions.** The memory-level models of all the functions (StridedModel, StridedEvalModel, NdModel) return Err ValueError exactly if the predicate of ArgSpec on codes and shapes does not hold: a case split over the checks, and an induction showing that the loops over the items never raise ValueError. Refuted parts by the accepted wrong calls. *(partial)*
* **C96 Calls of the extension functions by position and by name.** CallModel models PyArg_ParseTupleAndKeywords over the format strings, the keyword tables and the default variables of all the functions, with the conversions of Python objects as parameters. `conforms` (CallSpec) says against the tables of the documented arguments what a call receives or raises; one generic proof for a parser of a well-formed signature, then a case for each function. Refuted parts by explicit calls. *(partial)*
* **C97 Accepted lists and tuples of coefficients.** TupleModel models the parsers of the coefficient sets over abstract Python objects; equivalences with the predicates of TupleSpec by case splits and by induction on the list. *(partial)*
* **C98 From a SHC file to the field.** FieldModel joins the models of the loading (ShcLoadModel) and of the evaluation (TempModel) with the validity and the masks of eval; the proof joins C70, C57, C64 and C30: the set of the file is one which the evaluation accepts, its coefficients are those of the file, the expansion of the array is that of the file (zero terms), and the gradient is the derivative of the potential, for all latitudes with the poles (GradientProofs). *(partial)*
* **C99 From WMM, IGRF and EMM files to the field.** The field theorem of C98 is proved for a list of up to 16 coefficient sets with different indices and any table of coefficients which is the sum of their values; it is applied to the sets of the WMM, IGRF and EMM loaders (C56, C68, C69). The sets are given the conversion of times of the first set which has one, and this does not change the evaluation. *(partial)*
* **C100 The field of composed and combined SHC files.** FieldModel models the loop over the components with their masks; induction on the components shows which of them is chosen; the components of composed and of combined files are computed by the models of get_nonoverlapping_intervals and aggregate_intersected_intervals; each is evaluated by the theorem behind C98 and C99. *(partial)*
* **C101 The field of the MMA models.** MmaFieldModel joins the loaders of MMA files with the evaluation, for 2C models with the conversion of the locations to the dipole frame and the rotation of the vectors back; the inner evaluation is that of C98, the rotations are those of C43 and C44, the coefficients those of C80. *(partial)*
* **C102 The field in all coordinate systems.** CoordFieldProofs follows the conversion of each location and the rotation and scaling of each result through the evaluation of C98 (two runs of the C update of the state in step, one of them in spherical coordinates), for any list of components; the fields of the loaded models follow from C99, C100 and C101. *(partial)*
* **C103 From MIO files to the field.** MioFieldProofs joins the loader of the MIO files (C79), the evaluation of the models and the switch at the ionosphere (C54), the 2D series (C65), the rotation to the dipole frame and back (C43, C44) and the gradient at all latitudes (GradientProofs, C30). *(partial)*
* **C104 The field is a function of the position.** PositionProofs compares the expansion at two sets of coordinates of a point: off the poles the cosines and sines of all multiples of the longitude are equal, at the poles only the orders 0 and 1 remain and the longitude cancels in the vector in space; PosFieldProofs follows the conversions of the locations and the rotations of the vectors (C38, C20). *(partial)*
* **C105 Composing and combining keep the sets.** ObjModel models the sets as objects in a heap, with the references, the call of a class (__new__, then __init__ of an instance), and evaluations with a limited depth; the invariant that every object stands for a finite tree is kept by every statement but the one refuted. *(partial)*
* **C106 Size of the functions and truncation error.** The derivative of the sum of the squares of the functions telescopes to zero by the differential equation of the Legendre polynomials and the sum is one at the pole; the bounds follow from the inequality of Cauchy and Schwarz (SchmidtSumProofs). The sizes of the field: the components of the gradient in any direction are sums of products with the functions, their slopes and their quotients by the cosine, the squares of which sum up to multiples of n(n+1)/2 (FieldSizeProofs). The models: the coefficients above the maximum degree are zero, so the fields of C98 and C99 are those of the truncated expansions (FieldTruncProofs). *(proved)*
* **C107 Decay of the field with the distance.** The bound of C106 for one radius is compared degree by degree with the one for the other radius; a term of degree 0 without g00 does not contribute (FieldDecayProofs). *(proved)*
* **C108 Change of the field with the coefficients and the time.** The gradient is linear in the coefficients, the eastward component close to the poles included, so the difference of two fields is the field of the differences, bounded by C106; the coefficients of a WMM or EMM file are linear in the decimal year, those of an IGRF or SHC file between two columns; the rotations between the coordinate systems keep the length (FieldStableProofs, FieldRateProofs, IgrfRateProofs, EmmRateProofs, ShcRateProofs, SystemDecayProofs). *(proved)*

## 3. What is modelled

| source | model | not modelled |
|---|---|---|
| `magnetic_model/util.py` | IntervalsModel (126-209), ShapeModel (66-123), SparseModel (`coeff_size`) | – |
| `magnetic_model/coefficients.py` | CoefModel (composed and combined sets, decompose), ObjModel (the same as objects with references), SparseModel, SeriesModel, CombineModel, YearSetModel | `__str__` and the like |
| `magnetic_model/coefficients_mio.py` | MioModel, FourierModel | – |
| `magnetic_model/model.py` | EvalModel (selection by time), TempModel (optimised evaluation), CoordModel (dipole models) | `parameters`, options passed through |
| `magnetic_model/model_composed.py` | ComposedModel | – |
| `magnetic_model/model_mio.py` | MioModel | – |
| `magnetic_model/loader_mio.py` | MioLoadModel | opening of files |
| `magnetic_model/parser_shc.py`, `loader_shc.py` | ShcModel, ShcLoadModel | opening of files; text which is not ASCII |
| `magnetic_model/parser_mio.py` | MioParseModel | opening of files; text which is not ASCII |
| `magnetic_model/parser_mma.py`, `loader_mma.py` | MmaModel | the access to the CDF files; lists of several arrays of degrees and orders |
| `magnetic_model/parser_wmm.py`, `loader_wmm.py` | WmmModel | same |
| `magnetic_model/parser_igrf.py`, `loader_igrf.py` | IgrfModel | same |
| `magnetic_model/parser_emm.py`, `loader_emm.py` | EmmModel | same |
| `magnetic_model/field_lines.py` | TraceModel | – |
| `util.py`, `dipole.py`, `dipole_coords.py` | CoordModel | checks of the types of the arguments |
| `magnetic_time.py`, `solar_position.py` | CoordModel, SunModel | – |
| `time_util.py` | TimeModel, DateModel | – |
| `include/bisect.h`, `pymm_bisect.h` | BisectModel | NumPy array handling |
| `include/interpolation.h`, `pymm_interp.h` | InterpModel | NumPy array handling |
| `include/spherical_harmonics.h`, `pymm_sheval.h` | LegendreModel, ShEvalModel, BufModel (with bounded buffers) | – (the parsing of the Python arguments is in CallModel and TupleModel) |
| `pymm_shevaltemp.h` | TempModel | – (the parsing of the Python arguments is in CallModel and TupleModel) |
| `include/fourier_series.h`, `pymm_fourier2d.h`, `pymm_sheval2dfs.h` | FourierModel | – (the parsing of the Python arguments is in CallModel and TupleModel) |
| `include/geo_conversion.h`, `include/math_aux.h`, `pymm_cconv.h`, `pymm_vrot_*.h` | GeoModel, CoordModel; the arrays in StridedModel | |
| `include/time_conversion.h` | TimeModel; the arrays of `pytimeconv_*.h` in StridedModel | |
| `include/sun_ephemeris.h`, `pysunpos*.h` | SunModel | – (the parsing of the Python arguments is in CallModel and TupleModel) |
| `pymm_sphar_common.h` | SizeModel (IEEE), ShEvalModel, SpharModel | – |
| `pymm_spharpot.h`, `pymm_sphargrd.h` | SpharModel | – (the parsing of the Python arguments is in CallModel and TupleModel) |
| `qdipole/apex.f90` (SUBSOL, TMJD, TJUDA, IDBL, DBL), `qdipole/eval_subsol.f90` | `QdTimeModel`, `QdSunModel` | the 4 byte numbers and all rounding of floating-point numbers; integer overflow; the other routines of `apex.f90` |
| `qdipole/apex.f90` (COFRM, DYPOL, MAGLOCTM, SOLGMLON), `qdipole/eval_mlt.f90` | `QdMltModel` | the coefficients of the degrees above 1, which these routines load but do not use; the 4 byte numbers, rounding and NaN |
| `qdipole/apexsh.f90` (LOADAPXSH, ALLOCATEARRAYS, APXG2Q, SHCALC, ALFBASISINIT, ALFBASIS), `qdipole/apex.f90` (CONVRT, flag 4), `qdipole/eval_qdlatlon.f90` | `QdBasisModel`, `QdApexModel` | the parsing of the text of the file; the inverse expansion (APXQ2G, APXG2ALL); the 4 byte numbers, rounding; NaN other than of the time |
| `pymm_sheval.h`, `pymm_shevaltemp.h`, `pymm_sheval2dfs.h` (arrays and strides) | `StridedEvalModel` | misaligned data and the conversion of other types, the strings of the error messages, failures of allocations |
| `pymm_aux.h` (`_array_to_arrd`, `_get_arrd_item` and the checks of shapes), `pymm_cconv.h`, `pymm_vrot_*.h`, `pytimeconv_*.h` | `StridedModel` | misaligned data and the conversion of other types (made by NumPy before), failures of allocations |
| `quasi_dipole_coordinates.py`, `pyqd_eval_qdlatlon.h`, `pyqd_eval_mlt.h`, `pyqd_eval_subsol.h`, `qdipole/cqdipole.c` | `QdPyModel` | names with NUL, failures of allocations, the conversion of the arguments by NumPy |
| `include/time_conversion.h`, `time_util.py`, `include/interpolation.h`, `pymm_interp.h` (rounding) | `FpTimeModel`, `FpInterpModel` (IEEE double) | overflow, fused multiply-add |
| `pymm_*.h`, `pyqd_*.h`, `pysunpos*.h`, `pytimeconv_*.h`: resources | ResModel (acquisitions, checks, uses and releases of all extension functions) | the values (see the other models) |
| `pymm_bisect.h`, `pymm_interp.h`, `pymm_legendre.h`, `pymm_relradpow.h`, `pymm_loncossin.h`, `pymm_spharpot.h`, `pymm_sphargrd.h`, `pymm_fourier2d.h`, `pysunpos.h`, `pysunpos_original.h`: arrays in memory | NdModel | the conversion of Python objects to arrays (NumPy: the nodes and coefficients are contiguous) |
| `spherical_harmonics.h`, `pymm_legendre.h`, `pymm_relradpow.h`, `pymm_sheval.h` and the rows of `pymm_shevaltemp.h` and `pymm_sheval2dfs.h`: 32-bit integers | `IntModel` | the integers of `pymm_fourier2d.h` and of the Python argument parsing; `npy_intp` and `size_t` do not overflow |
| `pymm_*.h`, `pysunpos*.h`, `pytimeconv.h`, `pyqd*.h` (keywords, formats, defaults, flags) | CallModel | PyArg_ParseTupleAndKeywords itself is modelled from its documentation; the conversions of the objects are parameters |
| `pymm_shevaltemp.h:215-246,371-459`, `pymm_sheval2dfs.h:659-757`, `pymm_aux.h:36-96` | TupleModel | the loading of the arrays is a parameter here (modelled in StridedEvalModel) |
| `magnetic_model/loader_shc.py:58-66`, `magnetic_model/model.py:76-157` (one SHC file) | FieldModel | the reshaping of the times and locations is C58; the default evaluation (`_eval_default`) is not used by SHC files; the single time -inf of a constant set is replaced by 0 |
| `magnetic_model/loader_wmm.py`, `loader_igrf.py`, `loader_emm.py` (`load_model_…`), `model.py:76-157` | FieldModel | as above |
| `magnetic_model/loader_shc.py:49-66` (several files), `coefficients.py:107-118,237-247`, `model.py:76-157` | FieldModel | the refusal of gaps is C05 |
| `loader_mma.py` load_model_*, `model.py` DipoleSphericalHarmomicGeomagneticModel (interpolated method) | MmaFieldModel | method selection (see TempModel); the other options |
| `loader_mio.py:45-76`, `model_mio.py` (from the file to the field) | MioParseModel, MioLoadModel, MioModel | see the rows of these models; `above_ionosphere` given by the caller selects one of the two models |
| C arrays and loops; text files and the string methods `split`, `strip`, `partition` (used by all of the above) | ArrModel, TextModel | non-ASCII text; the conversions of text to numbers are parameters |
Not modelled: the inverse of the quasi-dipole coordinates (APXQ2G and APXG2ALL, not called by the package), the reading of CDF files, the internals of CPython and NumPy (reference counters, allocators), the packaging.  NumPy and the C mathematical functions are
modelled by what they compute on the values, as described in each model.

## 4. Findings

Deviations of the code from its documentation or from the property which a user would
expect, found while modelling.  Those with a theorem are proved of the model; the others are
remarks on the code.

| | where | what | theorem |
|---|---|---|---|
| F1 | `magnetic_model/util.py:83` | `reshape_times_and_coords` subscripts the integer `coords.ndim`: times with more dimensions than the locations raise TypeError | `C58_refuted` |
| F2 | `coefficients.py` ComposedSHCoefficients | the gap check compares neighbours only: nested validity intervals are refused although there is no gap | `C05_gapfree_accepted_refuted` |
| F3 | `model.py` 121-157 | at a time shared by two components the scalar evaluation takes the first, the array evaluation the last one | `C09_scalar_is_array_refuted` |
| F4 | `coefficients.py` CombinedSHCoefficients.decompose | assumes sorted decompositions without overlaps of its items | C11 |
| F5 | `coefficients.py` | Composed(composed) and Combined(combined) with a single argument: the set becomes its own item, every later evaluation of it raises RecursionError | C105_refuted |
| F6 | `model.py` 162-231 | one `convert_time` is used for all sets of the optimised evaluation: sets in decimal years and in MJD2000 are mixed up | `C22_convert_refuted` |
| F7 | `parser_emm.py:58` | the ValueError for incompatible files is constructed but not raised | `C69_incompatible_refuted` |
| F8 | `loader_shc.py:114` | misspelt keyword `spline_oder`: the spline order of the header is ignored | `C70_spline_order_refuted` |
| F9 | `model_mio.py` | MIOPrimary.min_degree is the maximum of the two minima | `C67_min_degree_refuted` |
| F10 | `time_conversion.h` | the year 1582 has 365 days instead of 355 | C45, C46, C48 |
| F11 | `include/bisect.h` | the documentation promises n-1 for NaN, the code returns -1 | C16 |
| F12 | `pymm_shevaltemp.h` | no check of the minimal number of times | `C59_shevaltemp_refuted` |
| F13 | `shc_legendre_low` | degree 0 writes two elements behind the output of legendre, and behind the buffers of every sheval, shevaltemp and sheval2dfs call of degree 0 | `C59_legendre_refuted`, `C59_sheval_refuted`, `C59_workspace_refuted`, `C93_legendre_refuted` |
| F14 | `coefficients.py` | the check of the dimensions of `indices` uses `and` instead of `or`; repeated (n, m) overwrite each other | `C70_twice_refuted` |
| F15 | `pymm_sheval.h`, `pymm_shevaltemp.h`, `pymm_sheval2dfs.h` | the components of a position are read as if they were next to each other, whatever the stride of the last axis: transposed arrays give wrong values (also by `model.eval`, which passes the array of the caller); sheval does not check the size of the last axis; `keywords[9]` is NULL | `C89_strided_refuted`, `C89_short_refuted` |
| F16 | `pymm_shevaltemp.h` | sets sharing (n, m): the coefficients overwrite instead of sum, and a batch depends on the preceding times | `C21_refuted`, `C22_refuted` |
| F17 | `pymm_fourier2d.h:344` | `min_degree1` used twice: heap overflow for a large negative `min_degree2` | `C29_refuted`, `C59_fourier2d_refuted` |
| F18 | `include/interpolation.h` | piecewise constant interpolation without extrapolation returns the last value above the last node instead of NaN | `C18_nan_outside_refuted` |
| F19 | `pymm_relradpow.h` | the documentation of the exponents differs from the code | – |
| F20 | `pymm_sheval2dfs.h` | a failure of the parsing of the coefficient set is ignored | `C59_sheval2dfs_refuted` |
| F21 | `model_mio.py` | MIOPrimary masks the times without broadcasting (IndexError); one time with an array of F10.7 raises IndexError | `C54_*_refuted` |
| F22 | `coefficients.py` decompose | nested trees: coefficients differ at the ends of validity intervals | `C11_decompose_preserves_refuted` |
| F23 | `time_conversion.h` | conversion of NaN and infinities to int is undefined behaviour | – |
| F24 | `time_conversion.h` | dates are wrong before 1 March -4716 | `C47_*` |
| F25 | `geo_conversion.h` | latitudes beyond the poles are not normalised: the result is not that of the point | C104_beyond_pole_refuted |
| F26 | `spherical_harmonics.h` | eastward component within 1e-10 of the poles | `C30_near_pole_refuted` |
| F27 | `geo_conversion.h` | NaN inside of the evolute of the ellipse (43 km from the centre) | C37 |
| F28 | `util.py` vincdecnorm, `cart2sph` | NaN for the zero vector, the origin | C60 |
| F29 | `dipole_coords.py` | the docstring of `convert_to_dipole` names another axis than the code uses | C43 |
| F30 | `pymm_shevaltemp.h` | more than 16 sets are rejected | `C22_too_many_refuted` |
| F31 | `pymm_sheval2dfs.h` | `_f2d_coefset_destroy` leaks `coefset->offset` | `C92_sheval2dfs_refuted` |
| F32 | `model_mio.py` | F10.7 given for the leading dimensions only | `C54_f107_refuted` |
| F33 | `parser_shc.py` | blank lines behind the header are refused | `C57_blank_line_refuted` |
| F34 | `loader_shc.py` | a file with one time ignores further columns; a spline order argument for it raises TypeError | `C70_columns_refuted` |
| F35 | `sun_ephemeris.h` | the original algorithm converts `dtt` with 1.1574e-5 instead of 1/86400 (a relative error of 6.4e-6) | `C73_original` |
| F36 | `pymm_spharpot.h` | the keyword of the argument `rrp` is `rpp`, so that the documented call `spharpot(..., rrp=...)` fails; the labels of the error messages are taken from the wrong positions (one is NULL) | `C96_names_refuted` |
| F37 | `parser_mio.py` | a file of three rows of the same degree and order is accepted (NumPy broadcasting), with one external and two internal series; a reversed degree range in the header is replaced by what fits the size (NumPy's unknown dimension) | `C78_sound_refuted` |
| F38 | `loader_mma.py` | a file which begins at the last time of the previous one is accepted: the time occurs twice and, if it is the last one, the extrapolation divides zero by zero | `C80_distinct_times_refuted` |
| F39 | `time_util.py` | `datetime_to_decimal_year` counts in the proleptic Gregorian calendar, `mjd2000_to_decimal_year` in the Julian calendar before 1582: the same date has different decimal years | `C81_agrees_refuted` |
| F40 | `time_util.py` | `datetime_to_decimal_year` raises ValueError for every time of the year 9999 because the start of the next year does not exist | `C81_last_year_refuted` |
| F41 | `qdipole/eval_subsol.f90` | the day of the year is calculated with INT of the time, which cuts towards zero: before 2000 the sub-solar point of the next day is returned | `C82_before_2000_refuted` |
| F42 | `qdipole/apex.f90` | the constant -79.549 of the mean longitude of the Sun is not 280.461 - 360 = -79.539 of the formula in the comment: 0.01 degree too small | `C82_almanac_refuted` |
| F43 | `qdipole/apex.f90` | SUBSOL executes STOP for years before 1601 and after 2100: the Python process ends | `C82_terminates` |
| F44 | `qdipole/eval_mlt.f90` | the pole of the dipole is only recalculated when the time differs by more than a day from the one of the last calculation: the magnetic local time of a point of an array depends on the points before it | `C83_own_pole_refuted` |
| F45 | `qdipole/apex.f90` | MAGLOCTM adds or subtracts 24 hours only once: for longitudes of 720 degrees and more the value is not below 24 | `C83_range_refuted` |
| F46 | `qdipole/apex.f90` | COFRM executes CALL EXIT for times before 1900: the Python process ends; within the day before 1900 it depends on the order of the points | `C83_terminates_partial`, `C83_before_1900_refuted` |
| F47 | `qdipole/eval_qdlatlon.f90` | the coefficients are only interpolated again when the time differs by more than 1/365.25 of a year: the coordinates of a point of an array depend on the times of the points before it | `C84_own_time_refuted` |
| F48 | `qdipole/apexsh.f90` | a file of coefficients which cannot be opened or is too short ends the Python process | `C84_unreadable` |
| F49 | `qdipole/apexsh.f90` | the base vectors are not divided by the length of the vector of the expansion, which is only near to one | `C85_factor_refuted` |
| F50 | `qdipole/apexsh.f90` | the coefficients are kept by the name of the file: a file which has changed is not read again | `C86_changed_file_refuted` |
| F51 | `qdipole/eval_qdlatlon.f90` | with a time which is not a number (or within a day of -9999.9) nothing is loaded: the result is that of uninitialised variables or of the last file of an earlier call | `C86_nan_refuted` |
| F52 | `pymm_cconv.h` | `convert` with equal coordinate types returns the input array itself: a change of the result changes the input | `C88_new_array_refuted` |
| F53 | `pyqd_eval_*.h`, `qdipole/cqdipole.c` | the number of the elements is converted to a 32 bit `int`: with 2^31 or more elements some or all outputs are uninitialised memory | `C87_size_refuted`, `C87_times_refuted` |
| F54 | `include/time_conversion.h` | by rounding, a time shortly before the start of a year gets the decimal year of the next one and the year fraction 1 (not the fraction of its own decimal year), and a time shortly before 2000-01-01 the hour 24 of the previous day | `C90_strict_refuted` |
| F55 | `pymm_legendre.h`, `pymm_sheval*.h`, `pyqd_eval_*.h` | `Py_BuildValue("N...")` consumes the references also when it fails: the arrays are released a second time at the label `exit` | `C92_tuple_refuted` |
| F56 | `pymm_*.h`, `pyqd_eval_qdlatlon.h` | a failure of `PyObject_IsTrue` (-1) is taken for a truth value: the value is returned with the exception set (`SystemError`) | `C92_flag_refuted` |
| F57 | `pymm_sheval.h:298,301` | the label of `scale_gradient` is `keywords[9]`, the terminating NULL: a wrong shape is reported by formatting a NULL string | `C92_scale_refuted` |
| F58 | `pymm_sheval2dfs.h:247` | the status of the parsing of the set is ignored (F20): the evaluation dereferences NULL, or returns a value with the exception set if there are no points | `C92_sheval2dfs_set_refuted` |
| F59 | `pymm_spharpot.h:101-107` | the labels passed with the arrays are those of other arguments (`keywords[3]`, `[5]` and the terminating NULL `[6]`); without effect, the label is not used (`pymm_aux.h:102-107`) | (reading) |
| F60 | `include/spherical_harmonics.h:118` | the product of two `int` overflows from the degree 23172: close to the poles legendre and sheval return wrong values (3 instead of 1 for n = 23172, m = 0 with the wrap around) | `C94_legendre_refuted`, `C94_legendre_overflow_refuted`, `C94_sheval_pole_refuted` |
| F61 | `pymm_sheval.h:629` | the `int` number of terms overflows from the degree 46340: MemoryError up to 65534, then too small buffers, behind the end of which shevaltemp and sheval2dfs write | `C94_sheval_refuted`, `C94_sizes_refuted`, `C94_bounds_refuted` |
| F62 | `pymm_shevaltemp.h:742,762`, `pymm_sheval2dfs.h:511` | `abs()` of a `ptrdiff_t` is calculated in 32 bits: the rows of the degrees from 65536 are those of other coefficients | `C94_example_row` |
| F63 | `include/spherical_harmonics.h:209-244`, `:295-335` | the `int` index of the degrees from 65534 and the counter of the degree `INT_MAX` overflow | `C94_legendre_overflow_refuted`, `C94_relradpow_refuted` |
| F64 | `pymm_fourier2d.h`, `pytimeconv.h`, `pyqd` (eval_mlt) | other functions whose documented call fails: `fourier2d(coeff0=...)` (the keyword is `coeff`), `decimal_year_to_mjd2000(decimal_year=...)` (`time_mjd2k`), and `eval_mlt` takes no third argument `fname` | `C96_names_refuted` |
| F65 | `pymm_interp.h`, `pymm_sheval*.h`, `pyqd` (eval_qdlatlon) | an error of `PyObject_IsTrue` is not checked: the flag is taken as true (false by eval_qdlatlon) and the function continues with the exception set | `C96_flags_refuted`, `C96_flags_unnoticed` |
| F66 | `magnetic_model/coefficients.py:451-459`, `pymm_aux.h` | a spline order equal to, but not of the type, int (2.0, numpy.int64(2)) is accepted by the constructor and refused by the evaluation | `C97_order_refuted` |
| F67 | `pymm_sheval2dfs.h` | the documentation describes a tuple of five items; six are needed, and an integer scale is refused | `C97_2dfs_documented_refuted`, `C97_2dfs_scale` |
| F68 | `pymm_shevaltemp.h`, `pymm_interp.h` | the documentation names 2 as the only spline order (1 is accepted as well), and a constant INTERP1 which does not exist | `C97_accepted`, (reading) |
| F69 | `loader_mma.py` | the models of the solar magnetic frame (`load_model_swarm_mma_2f_sm_*`) are evaluated as if their coefficients were in the geographic frame (the source has a FIXME) | none |

## 5. Assumptions

`Print Assumptions` reports for the theorems nothing but these axioms of the Coq standard
library (those of its classical real numbers):

* E: `functional_extensionality_dep` (Coq.Logic.FunctionalExtensionality)
* F: `sig_forall_dec` (Coq.Reals.ClassicalDedekindReals)
* N: `sig_not_dec` (Coq.Reals.ClassicalDedekindReals)
* C: `classic` (Coq.Logic.Classical_Prop)

No axioms, parameters or admitted proofs are added.  (A check of the whole development, as
opposed to single theorems, also lists the abstract types and operations of
`Coq.Reals.Rdefinitions` – `RbaseSymbolsImpl`, `RinvImpl` – and the `Under_rel` module of
`Coq.ssr.ssrunder`, which are sealed library modules.)

Assumptions **none (closed under the global context)**: `C01_overlap_removal_ordered`, `C02_overlap_removal_first_wins`, `C03_aggregation_is_intersection`, `C03_aggregation_of_one`, `C04_accepted_is_covered`, `C04_gap_is_rejected`, `C04_validity_is_hull`, `C05_gapfree_accepted_partial`, `C05_gapfree_accepted_refuted`, `C06_array_call_is_scalar_call`, `C06_scalar_call_first_valid`, `C06_scalar_call_none_valid`, `C07_combined_flattens`, `C07_combined_is_sum`, `C07_combined_order_independent`, `C08_combined_validity`, `C08_composed_validity`, `C08_mixed_rejected`, `C08_order_independent`, `C09_agree_if_consistent_partial`, `C09_scalar_is_array_partial`, `C09_scalar_is_array_refuted`, `C105_alone_combined`, `C105_alone_composed`, `C105_combined`, `C105_composed`, `C105_history_partial`, `C105_refuted`, `C10_array_nan`, `C10_array_shape`, `C10_array_value`, `C10_scalar_nan`, `C10_scalar_value`, `C10_tree_array_nan`, `C10_tree_scalar_nan`, `C11_decompose_covers`, `C11_decompose_flat`, `C11_decompose_preserves_partial`, `C11_decompose_preserves_refuted`, `C11_decompose_unique_partial`, `C11_model_value_partial`, `C12_degree_subset`, `C13_coeff_size`, `C13_index_in_bounds`, `C13_index_injective`, `C13_index_layout`, `C13_index_surjective`, `C14_common_degree`, `C15_order_independent`, `C15_sorted_series`, `C16_bisect_brackets`, `C16_bisect_in_bounds`, `C16_bisect_nan`, `C16_bisect_position`, `C47_before_first_day`, `C47_epoch`, `C47_next_date`, `C47_no_overflow`, `C47_valid_date`, `C48_year_length_partial`, `C48_year_length_refuted`, `C48_year_of_day`, `C48_year_start_date`, `C52_bounds`, `C52_intersection`, `C52_ordered`, `C57_blank_line_refuted`, `C57_complete`, `C57_leading_comments_partial`, `C57_line_terminators`, `C57_sound`, `C58_array`, `C58_broadcast_partial`, `C58_refuted`, `C58_rejected`, `C62_constant_validity`, `C62_constant_value`, `C66_parameters`, `C67_degree`, `C67_min_degree_refuted`, `C67_validity`, `C92_flag_refuted`, `C92_no_silent_failure`, `C92_partial`, `C92_refuted`, `C92_scale_refuted`, `C92_sheval2dfs_partial`, `C92_sheval2dfs_refuted`, `C92_sheval2dfs_set_refuted`, `C92_tuple_refuted`, `C94_bounds_refuted`, `C94_rows_partial`, `C94_sizes_partial`, `C94_sizes_refuted`, `C97_2dfs_accepted`, `C97_2dfs_documented_refuted`, `C97_2dfs_refused`, `C97_2dfs_scale`, `C97_accepted`, `C97_constructor`, `C97_order_partial`, `C97_pending`, `C97_refused`.

Assumptions **F**: `C108_emm_rates`, `C108_rates`, `C68_degrees`, `C97_order_refuted`.

Assumptions **E, F**: `C108_igrf_rates`, `C108_shc_rates`, `C17_array_element`, `C17_array_raises`, `C17_linear_after`, `C17_linear_before`, `C17_linear_between`, `C17_linear_nan`, `C17_linear_node`, `C17_no_out_of_bounds`, `C18_after_partial`, `C18_before_partial`, `C18_constant_partial`, `C18_nan_outside_refuted`, `C19_total`, `C27_external`, `C27_internal`, `C45_decimal_round_trip_partial`, `C45_decimal_round_trip_refuted`, `C45_mjd_round_trip`, `C46_continuous_partial`, `C46_continuous_refuted`, `C46_fraction_of_decimal_year`, `C46_increasing`, `C46_inverse_monotone_refuted`, `C46_whole_year`, `C46_year_fraction`, `C47_hours`, `C56_degrees`, `C56_secular_variation`, `C56_wmm_files_only`, `C59_relradpow`, `C61_value_at_snapshot`, `C63_simple_fraction`, `C63_simple_increasing`, `C63_simple_round_trip`, `C68_igrf_files_only`, `C68_igrf_values`, `C69_emm_files_only`, `C69_emm_values`, `C69_incompatible_refuted`, `C69_refused`, `C70_columns_refuted`, `C70_combined`, `C70_combined_validity`, `C70_constant_validity`, `C70_loaded_partial`, `C70_spline_order_refuted`, `C70_twice_refuted`, `C70_validity`, `C70_values`, `C73_dates`, `C73_day_after`, `C73_day_before`, `C78_complete`, `C78_sound_partial`, `C78_sound_refuted`, `C80_distinct_times_refuted`, `C80_refused`, `C80_two_sets`, `C80_values`, `C81_agrees_partial`, `C81_agrees_refuted`, `C81_defined`, `C81_increasing`, `C81_last_year_refuted`, `C81_refused`, `C81_start_of_year`, `C88_times`, `C91_constant`, `C93_bisect`, `C93_interp`, `C93_relradpow`, `C94_relradpow_partial`, `C94_relradpow_refuted`, `C95_bisect`, `C95_interp`, `C95_relradpow`, `C95_times`, `C96_by_name`, `C96_calls`, `C96_flags_partial`, `C96_flags_refuted`, `C96_flags_unnoticed`, `C96_functions`, `C96_names_partial`, `C96_names_refuted`, `C96_order`, `C98_coefficients`, `C99_emm_coefficients`, `C99_igrf_coefficients`, `C99_wmm_coefficients`.

Assumptions **E, F, N**: `C26_tables`, `C28_loncossin`, `C29_refuted`, `C29_shape`, `C29_value_partial`, `C39_inverse`, `C39_isometry`, `C42_compose_any`, `C42_unsupported`, `C43_rotation`, `C53_step_length`, `C55_degrees`, `C59_fourier2d_refuted`, `C59_legendre_refuted`, `C59_loncossin`, `C60_norm`, `C79_external`, `C79_internal`, `C88_cart2sph`, `C88_sph2cart`, `C88_sph2geod`, `C93_errors`, `C93_fourier2d_partial`, `C93_legendre_refuted`, `C93_loncossin`, `C94_legendre_overflow_refuted`, `C95_fourier2d`, `C95_legendre`, `C95_loncossin`, `C95_vrot_cart2sph`, `C95_vrot_sph2cart`, `C95_vrot_sph2geod`.

Assumptions **C, E, F, N**: `C100_combined_partial`, `C100_composed_partial`, `C101_dipole_partial`, `C101_geographic_partial`, `C102_arrays`, `C102_determined`, `C102_emm_partial`, `C102_igrf_partial`, `C102_mma_partial`, `C102_one_time`, `C102_shc_partial`, `C102_wmm_partial`, `C103_external_partial`, `C103_internal_partial`, `C104_beyond_pole_refuted`, `C104_one_field`, `C104_position_partial`, `C106_emm`, `C106_field`, `C106_functions`, `C106_gradient`, `C106_igrf`, `C106_shc`, `C106_systems`, `C106_truncation`, `C106_unit`, `C106_wmm`, `C107_emm`, `C107_external`, `C107_external_field`, `C107_external_systems`, `C107_field`, `C107_igrf`, `C107_internal`, `C107_shc`, `C107_systems`, `C107_wmm`, `C108_emm`, `C108_field`, `C108_gradient`, `C108_igrf`, `C108_shc`, `C108_systems`, `C108_wmm`, `C14_full_size`, `C14_largest_degree`, `C19_derivative`, `C20_batch_pointwise`, `C20_shape`, `C21_batch_pointwise_partial`, `C21_refuted`, `C21_shape`, `C22_arrays_partial`, `C22_convert_refuted`, `C22_paths_agree_partial`, `C22_refuted`, `C22_too_many_refuted`, `C23_batch_pointwise`, `C23_shape`, `C24_legendre_schmidt`, `C25_legendre_derivative`, `C26_low_is_high`, `C30_all_latitudes_partial`, `C30_east_error`, `C30_field_error`, `C30_gradient_derivative_partial`, `C30_near_pole_refuted`, `C30_potential_exists`, `C31_pole_continuous`, `C31_pole_limit`, `C32_laplace`, `C33_linear`, `C33_scale`, `C34_modes`, `C34_outputs`, `C35_padding`, `C35_truncation`, `C36_cartesian_round_trip`, `C36_spherical_round_trip`, `C36_spherical_round_trip_pole`, `C37_cartesian_geodetic`, `C37_domain`, `C37_geodetic_cartesian`, `C37_geodetic_spherical`, `C37_spherical_geodetic`, `C38_compose`, `C38_identity`, `C38_same_point`, `C40_geodetic_frame`, `C40_normal`, `C40_spherical_frame`, `C41_input_system`, `C41_output_potential`, `C41_output_rotation`, `C42_compose`, `C43_axis`, `C43_inverse`, `C43_radius`, `C43_to_dipole`, `C44_rotated_model`, `C49_dipole_longitude`, `C49_range`, `C50_original_ranges`, `C50_ranges`, `C51_constant`, `C51_nested`, `C51_no_components`, `C51_order`, `C51_single`, `C51_sum`, `C53_start`, `C53_structure`, `C54_f107_refuted`, `C54_few_times_refuted`, `C54_models`, `C54_radius`, `C54_scalar_time_refuted`, `C54_switch_partial`, `C54_times_refused`, `C54_value_partial`, `C55_radial_continuous`, `C59_legendre_partial`, `C59_sheval2dfs_partial`, `C59_sheval2dfs_refuted`, `C59_sheval_partial`, `C59_sheval_refuted`, `C59_shevaltemp_partial`, `C59_shevaltemp_refuted`, `C59_workspace_partial`, `C59_workspace_refuted`, `C60_incdec`, `C64_potential_expansion`, `C65_value_partial`, `C71_equatorial`, `C71_hour_angle`, `C72_horizontal`, `C72_refraction`, `C72_same_sun`, `C73_original`, `C74_default`, `C74_subsolar_point`, `C75_arrays`, `C75_original_arrays`, `C76_gradient`, `C76_potential`, `C76_sheval`, `C77_sphargrd_pointwise`, `C77_sphargrd_shape`, `C77_spharpot_pointwise`, `C77_spharpot_shape`, `C82_almanac_refuted`, `C82_before_2000_refuted`, `C82_position_partial`, `C82_terminates`, `C83_before_1900_refuted`, `C83_history`, `C83_own_pole_refuted`, `C83_range_partial`, `C83_range_refuted`, `C83_terminates_partial`, `C83_time_partial`, `C84_coordinates_partial`, `C84_own_time_refuted`, `C84_same_coordinates`, `C84_unreadable`, `C85_base_vectors_partial`, `C85_factor_refuted`, `C86_changed_file_refuted`, `C86_history_partial`, `C86_nan_refuted`, `C87_coordinates_partial`, `C87_empty`, `C87_errors`, `C87_library_partial`, `C87_mlt_error`, `C87_mlt_partial`, `C87_size_refuted`, `C87_states`, `C87_subsol_error`, `C87_subsol_partial`, `C87_times_refuted`, `C87_unreadable`, `C88_convert`, `C88_errors`, `C88_new_array_refuted`, `C88_same_coordinates`, `C89_errors`, `C89_sheval2dfs_partial`, `C89_sheval_partial`, `C89_shevaltemp_partial`, `C89_short_refuted`, `C89_strided_refuted`, `C90_decimal_round_trip_now_partial`, `C90_decimal_round_trip_partial`, `C90_decimal_year_error`, `C90_decimal_year_error_now`, `C90_fraction_error`, `C90_fraction_range`, `C90_hours`, `C90_hours_since_2000`, `C90_inverse_nondecreasing_partial`, `C90_mjd_error`, `C90_mjd_round_trip`, `C90_mjd_round_trip_now`, `C90_nondecreasing`, `C90_range`, `C90_simple_error`, `C90_simple_fraction`, `C90_simple_inverse_error`, `C90_simple_nondecreasing`, `C90_simple_years`, `C90_strict_refuted`, `C90_year_start`, `C90_year_start_inverse`, `C91_after`, `C91_array_element`, `C91_array_raises`, `C91_before`, `C91_between`, `C91_derivative`, `C91_nan`, `C91_node`, `C93_legendre_partial`, `C93_sphargrd`, `C93_spharpot`, `C93_sunpos`, `C93_sunpos_original`, `C94_legendre_partial`, `C94_legendre_refuted`, `C94_potential_partial`, `C94_sheval_far_partial`, `C94_sheval_partial`, `C94_sheval_pole_refuted`, `C94_sheval_refuted`, `C95_convert`, `C95_incomplete_sets_refuted`, `C95_sheval2dfs_partial`, `C95_sheval2dfs_refuted`, `C95_sheval_partial`, `C95_sheval_refuted`, `C95_shevaltemp_partial`, `C95_shevaltemp_refuted`, `C95_sphargrd`, `C95_spharpot`, `C95_sunpos`, `C95_sunpos_original`, `C98_array_partial`, `C98_scalar_partial`, `C99_emm_partial`, `C99_igrf_partial`, `C99_wmm_partial`.
