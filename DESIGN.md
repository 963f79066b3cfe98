# Formal model of MaRC: design

`/repo` is the C++ source of MaRC (map projections of planetary images).
It is only read as text; it is never built, run or changed.  This directory
holds a Rocq (Coq 8.16.1) model of it, function by function, and
machine-checked theorems about the model.

Layout of `rocq/theories` (logical name `Verif`), per area `X`:

| file | content |
|------|---------|
| `X_Model.v`  | definitions that follow the C++ line by line, each citing file and lines; no proofs |
| `X_Spec.v`   | small independent specification used in the statements |
| `X_Proofs.v` | lemmas and proofs |
| `X_Props.v`  | only the property theorems (`exact lemma`), an `Example` showing a case that meets the hypotheses, and `Print Assumptions` |

## 1. Trusted base

* The Coq 8.16.1 kernel (no `Admitted`, no axioms of our own, no kernel check
  switched off, no plugins of our own).
* Axioms listed by `Print Assumptions`: see section 5.  Only axioms of the Coq
  standard library occur: the real numbers
  (`ClassicalDedekindReals.sig_forall_dec`, `ClassicalDedekindReals.sig_not_dec`,
  `FunctionalExtensionality.functional_extensionality_dep`) and
  `Classical_Prop.classic`.  Flocq and Coquelicot are used as libraries; they
  add no axioms of their own.
* The reading of the C++ text.  Nothing connects model and code except the
  citations in the comments.

## 2. Modelling conventions

* **Outcomes.**  A C++ function that may throw or run into undefined behaviour
  returns `outcome A := Ok a | Throw e | UB u`.  Undefined behaviour (out of
  range float to integer conversion, out of range element access, dereference
  of an empty optional) is a separate result, never silently given a value.
* **Unsigned integers** (`std::size_t`): `Z` with every operation reduced
  modulo 2^64.
* **Doubles, mode F**: where NaN, infinities, comparisons or conversions
  decide the property, `double` is Flocq's IEEE-754 `binary_float 53 1024`
  (one NaN; NaN payloads are not observable in the code), `float` is
  `binary_float 24 128`.
* **Doubles, mode R**: for geometry and averaging a `double` is a real number
  (`R`), so rounding and overflow are not modelled.  Where NaN matters in this
  mode, the type is `num := NaN | Num r`.  Division by zero and square roots of
  negative numbers are excluded by explicit hypotheses or are explicit
  outcomes.  Every property proved in mode R says so.
* **In/out parameters** (`double & data`) become an argument and a result.
* **Virtual functions and external libraries** (CFITSIO, file system, libm,
  fmt) are function arguments (oracles) quantified over in the theorems.

## 3. Plan per property

Mode: F = IEEE floats, R = reals, Z = integers, L = lists/state machines.

| property | what is modelled | how it is proved |
|---|---|---|
| C70, C71 | scanner rules of the expression state (longest match), operator precedence machine, table of symbols (L, F) | both directions against an inductive grammar with one level per precedence; induction over histories |
| C64, C65, C69, C90-C92 | semantic actions for angles, latitudes, radii, integers (R, F, Z) | case analysis; rounding bounds |
| C63, C73 | progress output, fallback command line parser (L) | invariants over steps |
| C01-C03 | `invert_samples`, `invert_lines` on lists; `std::reverse`, `std::swap_ranges` as element operations (L) | index characterisation by induction over lines, laws by list extensionality |
| C04 | size check with wrapped product; accesses outside the list give `UB` (Z) | guard lemma; refutation with wrapping dimensions |
| C05, C06, C08 | `extrema` with `option binary64` fields and `std::optional` comparison rules (F) | induction over the history; refutation for a leading NaN |
| C07 | `extrema::update(extrema)` (F) | case analysis; refuted for an empty target |
| C09 | `Map_traits` clipping and conversion, `extrema` constructor (F) | exact condition for `UB` per type |
| C10, C11, C13, C14 | `make_map`, `plot`, `get_extrema` for all six map types (F, L) | induction over plotted points; conversion bounds from Flocq; refuted for 64-bit |
| C12 | same | proved for limits that are exact in the map type, refuted otherwise |
| C15 | `Notifier` as a state machine over events (L) | induction over histories |
| C16 | `make_map_planes` loop (L) | refutation, plus what holds for the first plane |
| C17-C21 | compositors over images that are functions of the incoming `data` (R with NaN) | induction over the image list; refutations with a failing image that overwrites `data` |
| C22-C25 | `PhotoImage` constructor, `read_data`, weights, `validate_parameters` (Z, F) | bounds by `lia`; refutations by wrap-around and by the inverted search |
| C26, C27 | `BilinearInterpolation::interpolate` (R with NaN) | case analysis; refutation of convexity |
| C28 | `PhotoImageFactory::make` data path (L) | list reasoning |
| C29, C30 | `Mathematics.h` (R; `almost_equal` also F) | algebra |
| C31 | `root_find` loops with fuel 100 for an arbitrary function (R) | loop invariant |
| C32 | `Validate.h` (R with NaN) | case analysis |
| C33, C34 | `Vector.h`, `Matrix.h`, `Geometry.cpp` (R) | sums over index lists; trigonometric identity |
| C35-C40 | `OblateSpheroid` (R) | real analysis |
| C41-C45 | `ViewingGeometry`, `GLLGeometricCorrection` (R with NaN) | real analysis; refutation for retrograde bodies |
| C78-C82 | `finalize_setup`, `rot_matrices` (both), `latlon2pix` (R with NaN) | exact rotation of the chosen root; refutations for inconsistent and off-meridian setups |
| C46-C52, C83-C87 | projections' `plot_map`/`plot_grid`/constructors (Z, R; memory safety of grids also F) | loop unrolling lemmas; real analysis |
| C53-C56, C88 | `scale_and_offset`, `VirtualImage`, latitude, longitude and cosine planes (F for scaling and ranges, R for contents; log10, pow, fmod are arguments with stated accuracy) | rounding monotonicity, case analysis per type; refutations |
| C57 | FITS image writer as a state machine (Z, L) | invariant over histories of writes |
| C58, C59 | `map_parameters::merge` (L) | case analysis, induction over merges, refutations |
| C60, C61 | factories' limits (F) | induction over settings; refutation |
| C62 | `MapCommand::execute` with a file-system state (L) | case analysis over failure points |
| C63 | `Progress::Console` (Z, L) | induction over notifications |
| C64-C70, C90-C93 | semantic actions of `parse.yy`, `Radii::validate` (R, L) | case analysis, induction over expressions/entries |
| C96-C99 | the whole scanner, the rules of the grammar (L) | predictive parser proved complete and sound; longest match by cases over start conditions; entries against an independent description of files |
| C100-C104 | the parts put together (`Run_Model`): parser, constructors, plot_map, factories and `execute` with one set of external functions (`outside`) (F) | C66, C89 and the loops of plot_map combined; error bounds of the roundings from the input to the file; a computable instance is run in the examples |
| C105, C106 | photos in `Run_Model`: the image entry, `photo_of`, `photo_make_of` (F) | the calls on the viewing geometry followed member by member; the answer of a photo with all options (`PhotoRead_Proofs.read_finds`) and C100 combined; the viewing geometry itself is an argument (`x_geometry`) |
| C107 | mosaics in `Run_Model`: `photos_of`, `composite`, `mosaic_make` (F; `long double` is the argument `x_long`) | what the photos have is folded by the compositors up to the first NaN left behind; refutation by running the program |
| C108, C109 | headers: `populate_map_parameters`, `make_planes`, `write_grid` from the input text (F) | C58, C66 and C89 combined; every card accounted for, in order |
| C110 | `Mercator.cpp` in `Run_Model`, from the input text (F; `root_find` is the argument `x_find`) | error bounds of the roundings of the ordinate and of the longitudes, C100 for the elements |
| C111 | grids in `Run_Model`: `make_grid`, `plot_grid` of the cylindrical projections and `write_grid`, from the input text (F) | the loops take exact steps (intervals are multiples of 1/1024 degree), C49's painting lemmas with doubles, error bounds of rows and columns |
| C114 | `PolarStereographic.cpp` `plot_map` in `Run_Model`, from the input text (F; `root_find`, `atan2` and `hypot` are arguments) | offsets are exact half-integers, relative error bounds of the radius, C100 for the elements |
| C115 | `PolarStereographic.cpp` `plot_grid` and `write_grid` in `Run_Model`, from the input text (F) | C111's exact loops, painting lemmas of `dots`, error bounds of the dots |
| C116 | `Orthographic.cpp` constructor and `plot_map`, `Mathematics.h` `quadratic_roots` (`Roots_Model`, exact IEEE operations) in `Run_Model`, from the input text (F) | the functions of `<cmath>` are arguments with the stated accuracy (`close_library`, shown to hold of the rounded real functions); error bounds of the roots, of the point and of its angles; only spheres or views from above the equator, sub-observer latitudes up to 89 degrees, centers that are not given as latitude and longitude (`plain_view`): tilted views of flattened bodies are wrong (C52_tilted_refuted), the pole branch and surface points in the middle of the map have no error bound yet (C52, C85, C86 treat them in real numbers) |
| C117 | `OblateSpheroid.cpp:47-200` in doubles (`Body_Model`, exact IEEE operations) (F) | the functions of `<cmath>` are arguments with the stated accuracy (`good_library`, shown to hold of the rounded real functions); a calculus of error bounds relative to a scale (`scaled`), the mean value theorem for the latitudes, C35 to C38 for the geometry in real numbers; products and sums are not contracted into fused operations |
| C118-C121 | planes MU, MU0, PHASE and planetographic latitudes in `Run_Model` (F) | C117, C100 for the elements; the cells of simple cylindrical maps as in C102 and C103, of orthographic maps as in C116 |
| C122 | the assertions of `MuImage.cpp`, `Mu0Image.cpp`, `CosPhaseImage.cpp` in `Virtual_Model` and `Run_Model` (F) | Taylor bounds of the sine and the cosine at one double, rounding to it, the contraction of the arc tangent; C117 where the cosine keeps away from 1 |
| C125 | planes of planetographic latitudes of orthographic maps in `Run_Model` (F) | C116 for the cells, `normal_latitude` as in C123 |
| C126 | `marc` (F) from arguments and texts to planes of cosines | C112 composed with C119 and C121; the entry means what `Parse_Spec` says |
| C127 | `Setters_Model`: `PhotoImageParameters`, the setter of `ViewingGeometry` | `latest`: the last call that says something about a member |
| C128 | `marc` (F) from arguments and texts to planes of angles of simple cylindrical maps with limits | C112 composed with C102 and C123; `middle_latitude`, `middle_longitude`, `normal_latitude` |
| C129 | `marc` (F) from arguments and texts to headers, grids and orthographic planes of angles | C112 composed with C108, C111, C115 and C116 |
| C130 | `marc` (F) from arguments and texts to planes of angles of Mercator and polar stereographic maps | C112 composed with C110 and C114 |
| C123, C124 | `SimpleCylindrical.cpp` with planetographic latitudes in `Run_Model`, from the input text (F) | `normal_latitude` says which normal a latitude has; Lipschitz bounds of the conversions both ways, error bounds of the even spacing, C117, C118 |
| C94, C95 | `input_file::read`, `PhotoImageFactory::make`, reading from the photo it makes; CFITSIO given by its answers (L, Z; the view in R) | index arithmetic; the round trip of C78 for the line of sight |
| C112, C113 | `marc.cpp` as a whole in `Program_Model`: configuration file, command line, input files, commands on a file system (F) | C96-C99 for the characters, C73 for the command line, induction over files and commands; C104 carried to the whole program |
| C71-C73 | `calc.cpp`, `marc.cpp`, `command_line.cpp` (L) | induction over lists |

## 4. Findings

Each is proved as a `*_refuted` theorem about the model.

* C04: `samples * lines` wraps modulo 2^64 in the inversion size check
  (utility.h:45, 78), so absurd dimensions pass and the image is overrun.
* C06: `extrema<int64_t>::in_range` compares after rounding the bound to
  `double`; 2^63 is inside [0, 2^63-1].
* C07: `extrema::update(extrema)` on unset extrema sets the maximum but never
  the minimum (`if (minimum > rhs.minimum)` with an empty optional).
* C08: a NaN fed first makes both extrema NaN for ever.
* C09: `Map_traits<T>::minimum` clips from below only and `maximum` from above
  only: DATA_MIN 40000 on a 16-bit map is an undefined conversion.
* C11: `make_map` on a 64-bit map without a user maximum always performs the
  undefined conversion of 2^63 to `int64_t`.
* C12: DATA_MIN/DATA_MAX are converted to the map type first: on an integer
  map DATA_MIN 10.5 lets 10.25 through and DATA_MAX 10.5 rejects 10.25.
* C16: the "no data mapped" warning is not issued for an empty plane that
  follows a plane with data (the extrema are shared).
* C17, C21: `PhotoImage::read_data` tests `std::isnan(data)` before reading its
  pixel (PhotoImage.cpp:135-140), so a NaN left by an earlier image makes every
  later image of a mosaic report "no data".
* C20: an image failing in interpolation has already overwritten `data`, so the
  only contributor's datum is lost in the averaging strategies.
* C107: the same shows in files: an averaged mosaic is blank where one photo has
  a value and a later one a NaN pixel, although AVERAGING NONE shows the value.
* C113: `get_config_filename` uses XDG_CONFIG_HOME also when it is empty or a relative path (`marc.cpp:160-161`);
  the XDG specification it refers to says `$HOME/.config` for an empty one and that relative ones are ignored.  With
  an empty one the file `/marc` is read.
* C109: DATA_OFFSET and DATA_SCALE are parsed and then ignored (`transform_data_`
  is always false, src/MapCommand_t.cpp:84-105, as a comment there admits), although
  doc/MaRC_input.texi:428-435 documents BZERO and BSCALE cards; no map of photos has them.
* C108 (observed): BUNIT is written for computed planes only, and then for the
  array as a whole: a mosaic without units beside a plane of latitudes is
  labelled `deg`, and the BUNIT of photos is never written without computed planes.
* C22, C25: nibble checks subtract in `std::size_t`; NIBBLE_RIGHT 3 on a 2-pixel
  wide image is accepted and the image is read out of bounds.
* C24, C19: with sky removal `scan_samples` searches for body (`true`) instead
  of sky and finds the pixel itself, so every weight is 0 and the weighted
  average degenerates to the last datum.
* C27: bilinear interpolation averages four one-dimensional interpolations, one
  of which (bottom pair along z) extrapolates; results may exceed all four
  pixels and do not reproduce the pixel at its own position.
* C29: `quadratic_roots(a, 0, 0)` reports the roots 0 and 0/0.
* C31: bracketed `root_find` divides by a zero slope when an iterate is exactly
  a root with vanishing slope estimate (x^3 on [-1, 1]); the iterate becomes NaN,
  no later test recovers, and the search ends in `runtime_error`.
* C39: `ellipse_intersection` asserts `k.second < k.first` (OblateSpheroid.cpp:299);
  a tangent line of sight, or a body behind the observer, aborts the program in
  the default build (assertions enabled) instead of reporting a miss or a hit.
  The documented range of `mu` ("to sub-observation point") differs from the
  computation, which measures it from the body's centre.
* C41: `range`, `km_per_pixel`, `focal_length`, `scale`, `arcsec_per_pixel` and
  `emi_ang_limit` accept NaN (comparisons with NaN are false); the pair setters
  store the latitude before rejecting the longitude; a range between the polar
  and the equatorial radius is accepted; `emi_ang_limit` throws `domain_error`
  where `invalid_argument` is documented.
* C43: `pix2latlon` computes `lon -= sub_observ_lon` for retrograde bodies where
  `+=` is needed (ViewingGeometry.cpp:942-945); every longitude is off by twice
  the sub-observer longitude.
* C78: if position angle, sub-observer latitude and center offset contradict each
  other, `rot_matrices` finds no root and returns `false`, which
  `finalize_setup` ignores; the view is used with null matrices.
* C79: for a position given at the optical axis the twist angle is computed from
  `range_b`, whose x component is always 0, so the camera never turns out of the
  observer's meridian; every position off that meridian is missed.
* C80: in the same setup an observer nearer to the polar axis than the point
  looked at gets an image rotated by 180 degrees.
* C81: `latlon2pix` and `pix2latlon` pass coordinates relative to the optical axis
  (or body center) to the Galileo lens correction, which expects image
  coordinates; a point on the optical axis moves by about 0.8 pixels.
* C82: with `LAT_CENTER`/`LON_CENTER` and no body center, `pix2latlon` computes with
  NaN and fails its assertion; REMOVE_SKY aborts the program.
* C75: `magnitude` of a one-element vector is the element, sign included; the
  general template adds to a `const` variable and cannot be instantiated.

* C48: LO_LON 360 with HI_LON 0 gives an empty interval (`lo - 2pi` = `hi`), and
  -360..360 covers the body twice.
* C49: `SimpleCylindrical::plot_grid` converts `std::round(...)` to `size_t` before any
  check; a grid meridian west of a map whose western edge is east of the prime
  meridian (e.g. 90..180 with interval 10) makes the conversion undefined.  An
  interval of 0, or any positive one below 2^-47, makes the latitude loop endless
  (the parser passes 0 when only one of the two intervals is given, see C66).
  Observed in reading, not a theorem: a full retrograde map never draws the prime meridian
  (its column is `samples`), a prograde one does.
  Polar: `plot_grid` runs each longitude line over 0..360 degrees of latitude, which draws
  the opposite meridian too (wrong when 180 is not a multiple of the interval); it
  uses `samples - 1` where `plot_map` uses `samples` and ignores the sense of longitudes.
* C50, C51: the position of a cell depends on `root_find`.  `C50_found_partial` and
  `C51_found_partial` use the modelled `root_find` over the reals and bound the
  error of each cell by a few units of rounding; there `tan` at its pole is some positive
  number, as at the double nearest to pi/2 (`libm_pole`).  The other theorems named
  `_partial` assume a finder whose answers are solutions (`exact_finder`).  `C::pi` is
  taken to be the number pi.
* C84: the exponents in `rho_coefficient` (PolarStereographic.cpp:47-48) are the
  reverse of the usual ones, and `distortion` is not proportional to the local scale
  for any body that is not a sphere.
* C52: `CB = diff * zz * sin(2 * sub_observ_lat)` has the wrong sign
  (Orthographic.cpp, `plot_map`): in a tilted view of an oblate body the chosen point is not
  the one under the cell.  Spheres, equatorial and polar views are right.
* C86: the visibility test compares longitudes corrected by one turn only; a requested
  center at longitude -360 is rejected for an observer above longitude 350.
* C87: latitude lines of retrograde bodies are drawn at longitudes increased by twice the
  sub-observer longitude (Orthographic.cpp:489, `mm -= pi - sub_lon`); longitude lines are
  right.  The visibility test uses the right longitude, so half a line is lost too.
* C49 (orthographic): `std::round` of a huge sample number is converted to `ssize_t`; with a
  tiny KM_PER_PIXEL or a huge center this is undefined, hence the bounds 2^62 in C87.
  Grid points are rounded to cell numbers while cell `i` is centered at `i + 0.5`, so grid
  lines are half a cell off the map (stated in `marks_at`, which asks for the nearest number).
* Modelling limits of C86 and C87: over the reals `tan` has no value at a pole, so the
  poles themselves and polar views are left out; polar views force the position angle to pi
  (north) or 0 (south) and the longitude to 0, which `oriented` states.
* C54: `scale_and_offset` truncates log10 of the range, so ranges between 3.3 and 10 (16 bits)
  get a scale ten times too large; the offset only repairs one end.  Equal limits take
  log10(0) = -infinity and convert it to `int`.  For 64 bits the test against
  `numeric_limits<uint64_t>::max()` allows widths for which the scale becomes 10^-1.
  Only the five computed planes use the function and they fit (C53).
* C56: `LatitudeImage` rejects latitudes outside +-90 degrees but reports NaN as data.
* C57: `image::write` refuses when `fpixel >= max_elements`; with one element per plane the
  first element of the last plane is refused.
* C59: `merge` takes a wider BITPIX only into parameters that are not the user's, but the
  accumulated parameters have plane number 0 and count as the user's: the first plane decides.
  Within a mosaic every photo overwrites BITPIX, so the last one decides.
* C61: `MosaicImageFactory::make` merges into empty extrema, which never sets a minimum (C07), and
  dereferences it if every photo has a minimum (set by DATA_RANGE).  DATAMIN and DATAMAX of the files are
  read only when the photo is made, after its limits were looked at.
* C62: BITPIX is checked after the old map file was removed and a new one created.
* C72: a configuration file with errors is ignored if `errno` happens to be ENOENT after parsing;
  `execute` never returns anything but 0 (`C89_success`), so the exit status 1 never occurs.
* C89: a failed write of a plane or grid is printed and ignored; `execute` returns 0.
* Model of `execute`: checksums written on closing an array, the keywords CFITSIO writes on its
  own and HISTORY texts about parameters are left out; the BLANK card holds the value before its
  conversion to the map type (the conversion is exact or undefined in `make_map`).
* C63: the percentage is the integer part of a rounded quotient and product, so 29 of 100 shows 28.
* C73 (branch without Argp): an empty argument vector (`argc == 0`) reads `argv[0]`, a null pointer;
  a lone `-` is refused as an unknown option.
* C64, C90: `std::abs(x) > 360` is false for NaN, so NaN is accepted; a result of exactly 360 is possible
  (0 E on a prograde body).
* C69: `Radii::validate` tests `< 0` for "not given" but `> 0` for "valid", so 0 is neither; it does not
  compare the flattening with two given radii.  In doubles `pol / (1 - f)` may overflow, and the infinite
  equatorial radius is accepted.
* C91: `from_string` does not check that the whole text was read: `SAMPLES: 1E3` is one sample.
* C92: DATA_BLANK without DATA_TYPE was meant to be warned about, but `bitpix()` throws before.
* C70: the pattern of numbers includes the sign, and the longest match wins: `3-2` is two numbers and a
  syntax error, `3 -2` too, `-2^2` is 4.  Function names are looked up with their case although the
  scanner ignores case elsewhere: `SIN(1)` is an error.  Unknown names are never entered into the
  table, so variables and assignments (grammar rules exist) are unreachable.  A NaN divisor is accepted.
* Model of the parser: the LALR automaton Bison generates for `expr` is replaced by an operator
  precedence machine (unfinished rules as frames, reductions decided by the declared precedences).
  That the generated automaton does the same is not proved.
* Model of the grammar: `derives` gives what the rules of `parse.yy` derive, with their values; rules that
  begin with the same keyword are written once.  Trusted: the parser Bison generates accepts a text exactly
  if the grammar derives it, and reduces by the rules of the derivation (there is only one, C96).  Flex is
  modelled by its documented choice of the longest match, then of the first rule.  The model's parser
  was run (in Coq) on all sample input files of `/repo`: it reads all but `tests/bad/test_data_min_max.marc`,
  where LATITUDE lacks its colon, so that file is wrong in more than the way it is meant to be.
* C97: a name follows MAP:, BODY:, IMAGE: and FLAT_FIELD: only after a blank or line end: `MAP:foo` gives the
  string `:foo` (the longest match) and a syntax error.  A carriage return before a line end matches no rule but
  the last, so files with CR LF are refused.  After MAP: a comment of one word (`#note`) is as long a match as
  the name pattern, which comes first, and is taken for the name.  The blank after AUTHOR: is part of the value.
* C66: the user file's DATA_MIN and DATA_MAX are stored by `if (!minimum) default_minimum = ...` with the
  test inverted, so given limits are lost; one grid interval without the other makes the other 0
  instead of 10; nibble values of the user file are held in `unsigned int` and lose multiples of 2^32.
* C67: `graphic_lat` is set by `LATITUDE: GRAPHIC` planes and reset only after `SIMPLE_C`, so a later
  LATITUDE or SIMPLE_C without a type is graphic, also in the next map file.
* C68: `PLANE:` without a number does not advance the expected number; a plane numbered 1 may come second.
* Observed in the same actions (modelled, `vcall`s and `means` follow the code): FOCAL_LENGTH and SCALE
  that are not positive are silently ignored; NaN map centers count as not given.
* Model of the semantic actions: they run on the tree of entries (`reads_as` ties texts to trees) in the
  order of Bison's reductions.
* C94: `input_file::read` accepts images of more than two axes, but passes an array of two coordinates to
  `fits_read_pixll`, which reads one per axis: a read past the array for every such file.
  `naxes[0] * naxes[1]` is a signed product that overflows for large headers before any check.
* Model of source images: CFITSIO is given by a status per call, the axes, the physical values of pixels
  and the values of DATAMIN and DATAMAX; that it reads one coordinate per axis is taken from its documentation.

* `Run_Model`: the record `outside` holds what stays open when the parts are joined: libm, the constants, the
  functions of OblateSpheroid, `root_find` and `quadratic_roots` in doubles (they are modelled over the reals
  elsewhere; C116 and C117 have `quadratic_roots` and `OblateSpheroid.cpp:47-200` in doubles, but not `M`, `N`,
  `first_eccentricity` and `ellipse_intersection`), files and ready viewing geometries.  C102 to C104 need of it only the values of the constants, an
  exact `fmod` and the accuracy of `log10` and `pow` stated in `Virtual_Spec`.
* C100, C103: LO_LON and HI_LON are used as given but for their order: LO_LON 360 with HI_LON 0 gives a map of
  no width (HI_LON below LO_LON takes 360 degrees off LO_LON), and LO_LON 360 with HI_LON -360 one whose
  longitudes run the other way.  The theorems say what such maps hold (`longitude_ends`).
* C101: in maps of more than one plane scale and zero of a computed plane are only in the HISTORY; a reader that
  goes by BSCALE and BZERO takes the numbers of integer maps unscaled.  `scaled_by` states where they are.

* C122: the planes MU, MU0 and PHASE assert that the computed cosine is between -1
  and 1 (MuImage.cpp:47, Mu0Image.cpp:45-47, CosPhaseImage.cpp:54-56).  Rounding
  exceeds 1: on a sphere, sin(8 deg)^2 + cos(8 deg)^2 is 1 + 2^-52 in doubles even if
  every function of `<cmath>` is correctly rounded, so a map with a cell centered on
  the sub-solar point at 8 degrees north aborts in the default build (assertions
  enabled).

## 5. Axioms per theorem

What `Print Assumptions` lists for the theorems of MANIFEST.json; all are axioms of the Coq standard
library (`Reals`, `FunctionalExtensionality`, `Classical_Prop`).

* no axioms (closed under the global context) — 37 theorems:
  C01_invert_samples_mirrors, C02_invert_lines_mirrors, C03_inversion_laws, C04_inversion_size_check_refuted,
  C04_inversion_size_check_partial, C15_counts_bounded, C21_prior_content_partial, C22_reads_inside_partial,
  C23_success_not_nan, C24_weight_partial, C25_nibbles_partial, C25_nibbles_refuted, C26_four_pixels,
  C28_flat_field, C28_flat_field_mismatch, C46_every_cell_once, C50_every_cell_once, C51_every_cell_once,
  C52_offsets, C55_fails_alike, C57_writes_partial, C57_refused_unchanged, C57_array_size, C57_refuted,
  C72_success, C72_later, C72_exception, C72_not_ready, C73_total, C73_meaning, C73_files, C92_other_maps,
  C94_read, C94_defined, C94_refuted,
  C127_settings, C127_throws.
* `sig_forall_dec` — 2 theorems:
  C33_dimensions, C33_checked_access.
* `functional_extensionality_dep`, `sig_forall_dec` — 37 theorems:
  C10_stores_unique, C17_first_read_partial, C17_photo_images_answer, C17_first_read_refuted,
  C18_unweighted_partial, C18_count_partial, C19_weighted_partial, C19_sky_removal_refuted,
  C20_single_partial, C20_single_refuted, C21_prior_content_refuted, C22_reads_inside_refuted,
  C24_weight_refuted, C26_interpolation, C27_between_partial, C27_at_pixel_refuted, C27_between_refuted,
  C30_comparisons_real, C31_bracketed_search, C31_bracket_invariant_partial, C31_search_succeeds_refuted,
  C32_angles_real, C33_index_formulas, C33_algebra, C55_converts_back, C56_longitude, C64_direction,
  C69_accepted, C69_described, C69_validate_refuted, C74_newton_result, C77_mosaic_has_data_partial,
  C90_direction, C91_integers_partial, C91_sizes_partial, C91_refuted, C92_integer_maps.
* `functional_extensionality_dep`, `sig_forall_dec`, `sig_not_dec` — 9 theorems:
  C29_quadratic_roots_partial, C29_quadratic_roots_refuted, C34_rotations, C34_direction, C37_centric_radius,
  C38_cosine_range, C75_magnitude_partial, C75_magnitude_refuted, C76_bracketed_result.
* `classic`, `functional_extensionality_dep`, `sig_forall_dec`, `sig_not_dec` — 212 theorems:
  C05_extrema_of_history, C05_extrema_order_independent, C06_range_test_partial, C06_is_valid,
  C06_range_test_int64_refuted, C07_merge_maximum, C07_merge_minimum_partial, C07_merge_minimum_refuted,
  C08_nan_ignored_partial, C08_nan_first_refuted, C09_construction_partial, C09_nan_rejected,
  C09_minimum_conversion_undefined_iff, C09_maximum_conversion_undefined_iff, C09_construction_refuted,
  C09_setters_partial, C10_map_contents_partial, C10_crossed_limits_rejected,
  C11_no_undefined_conversion_partial, C11_int64_refuted, C12_limits_select_partial,
  C12_limits_select_refuted, C13_reported_extremes_partial, C13_keywords_of_all_planes_partial,
  C14_blank_value, C14_misfit_blank_rejected, C14_float_nan_iff_unmapped, C15_observers, C16_warning_partial,
  C16_warning_refuted, C30_comparisons_double, C32_angles_double, C35_radii_validated,
  C36_latitude_conversions, C36_graphic_is_normal, C38_cosines, C39_intersection_partial,
  C39_intersection_refuted, C40_curvature, C41_setters_partial, C41_nan_refuted, C41_pair_refuted,
  C41_pair_stored, C41_positions_stored, C41_positions_refuted, C42_visible, C43_roundtrip_partial,
  C43_retrograde_refuted, C44_lens, C45_mask, C47_uniform, C48_interval, C48_interval_refuted,
  C49_simple_cylindrical_doubles, C49_mercator_doubles, C49_polar_doubles, C49_orthographic_doubles,
  C49_simple_cylindrical, C49_mercator, C49_polar, C49_polar_refuted, C49_west_of_map_refuted,
  C49_small_interval_refuted, C50_forward, C50_conformal, C50_found_partial, C50_cells_partial,
  C50_symmetric_partial, C51_radius, C51_conformal, C51_found_partial, C51_distance_partial,
  C51_layout_partial, C52_disc, C52_surface_partial, C52_tilted_refuted, C53_planes_fit, C54_rejects,
  C54_floating, C54_scale_partial, C54_fits_partial, C54_refuted, C56_longitude_double, C56_latitude,
  C56_latitude_double, C56_nan_refuted, C58_user_values_stay, C58_command, C59_refuted, C59_agreeing_partial,
  C59_rule_partial, C60_first_setting, C60_nan, C60_defaults, C61_refuted, C61_maximum_partial,
  C61_unlimited, C62_partial, C62_refuted, C63_display, C63_prefix, C63_percentage, C63_planes, C64_doubles,
  C64_not_a_number, C65_range, C65_kind, C66_user_file_partial, C66_internal, C66_refuted, C67_alone_partial,
  C67_refuted, C68_numbers, C68_position_refuted, C69_doubles, C70_meaning, C70_no_value, C70_division,
  C70_text_partial, C70_refuted, C70_no_variables, C71_functions, C71_variables, C71_putsym,
  C78_center_pixel_partial, C78_inconsistent_refuted, C79_axis_pixel_partial, C79_axis_pixel_refuted,
  C80_north_center_partial, C80_north_axis_partial, C80_north_axis_refuted, C81_lens_refuted,
  C82_sky_removal_refuted, C83_mercator_distortion, C84_polar_distortion_sphere,
  C84_polar_distortion_refuted, C85_accepts, C86_visible_partial, C86_visible_refuted, C87_grid_partial,
  C87_grid_drawn, C87_retrograde_refuted, C88_cosines, C89_success, C89_complete_partial, C89_refuted,
  C89_null_refuted, C90_doubles, C93_null_pointers, C95_photo, C95_limits, C95_unopened, C95_answers_partial,
  C95_sees_partial, C96_one_meaning, C96_several_files, C97_layout, C97_refuted, C98_entries, C99_joined,
  C100_elements, C101_computed, C102_latitudes, C103_longitudes, C104_whole_body, C105_photo_of_entry,
  C106_photo_elements, C106_plain, C107_mosaic_of_entries, C107_mosaic_elements, C107_clean,
  C107_single_refuted, C108_headers, C109_refuted, C110_mercator, C111_simple_cylindrical, C111_mercator,
  C112_success, C112_order, C112_entries, C112_simple_cylindrical, C112_problem, C112_faulty, C112_options,
  C113_partial, C113_refuted, C114_polar, C115_polar_grid, C116_orthographic, C117_body, C118_cosines,
  C119_cylindrical, C120_graphic, C121_orthographic, C122_assertion_refuted, C122_assertion_partial,
  C123_latitudes, C123_longitudes, C123_normal, C124_cosines, C125_orthographic, C126_cylindrical,
  C126_orthographic, C128_latitudes, C128_longitudes, C128_graphic,
  C129_headers, C129_grid, C129_polar_grid, C129_orthographic, C130_mercator,
  C130_polar.

## 6. Not modelled

Code under `/repo` that has no counterpart in the model:

* Generated code: the scanner and parser tables Flex and Bison make of `src/lexer.ll` and `src/parse.yy` (see
  section 4 for what is trusted of them), error messages with positions (`yyerror`, `YY_USER_ACTION`).
* Logging and messages: `lib/marc/Log.*`, `src/strerror.h`, the formatters (`details/format.h`,
  `vector_formatter.h`, `matrix_formatter.h`), HISTORY texts.
* `src/FITS_file.cpp`: checksums (349-365), the creation of the internal `fitsfile` handle, deleters.
  `src/FITS_image.cpp` 124-187, `src/FITS_image_t.cpp` 25-41: thin wrappers that write one keyword each; the
  model has their effect as `put_card` and its variants.
* `src/MapCommand.cpp` 96-127 (a static assertion on the sizes of the FITS types) and 439-446 (number of
  digits, for messages).
* `src/command_line.cpp`: the branch that uses Argp (40-95); the fallback is modelled.
* `src/marc.cpp` 168-182: the warning about `~/.marc`.  In `Program_Model` the actions for a file with a syntax error
  are not modelled (`main` returns -1 after it; if it is the configuration file and errno happens to be ENOENT, the
  model ends as `untold`), names of map files are different files when they differ as strings, and photos are those
  found at the start.
* `lib/marc/ViewingGeometry.cpp` 41-88: a debug dump.
* Constructors that only store their arguments; destructors; move and copy.
* libm, CFITSIO, the file system, the clock and allocation failures other than those named, which are
  arguments of the theorems.
* Concurrency: the program has none.
