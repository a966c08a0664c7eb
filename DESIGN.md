# Formal model of spectrocrunch: design

Source: `/repo` (woutdenolf/spectrocrunch, pinned commit). The model lives in
`rocq/theories`, logical name `Verif`, Coq 8.16.1, standard library only.

## Layout and conventions

Every modelled area X has these files:

* `XModel.v` - executable Gallina functions that mirror the Python functions
  branch by branch. Definitions cite the file and lines they model and
  name their simplifications. No proofs here.
* `XSpec.v` - the vocabulary of the statements, written without the model's
  helpers wherever possible.
* `XProofs.v` (and `X...Proofs.v`) - lemmas.
* `XProps.v` - only property theorems (closed by `exact lemma.`), each followed by
  `Print Assumptions`, and beside them `Example`s that show a concrete case meets
  the hypotheses.

Shared: `Base.v` (`result`, exceptions), `Text.v` (characters), `ZList.v`,
`QcTac.v` (exact rationals), `NumpyModel.v`.

Python exceptions are values: `result A := Ok a | Err e` (`Base.v`). Error
branches are part of the statements. Where a property is false of the code as
written, it is refuted by a theorem `..._refuted` with a concrete witness, and
the strongest true part is proved beside it; the claim is then `partial`.
Recursion that is not structural runs on fuel; theorems show that the fuel given
by the top-level definition is enough, so that no statement depends on it.

### Data representation

| Python | model |
|---|---|
| int, length, index | `Z` or `nat` (unbounded) |
| float | `Qc` (exact rational; rounding error is not modelled), `option` or constructors for nan and infinities where the code branches on them |
| str | `list ascii` (code points above 255 are left out) |
| list, tuple, 1D array | `list A` |
| n-D array | shape plus a function of the index, or nested lists |
| dict (insertion ordered) | association list |
| set | list in unspecified order: statements hold for every order |
| exception | `Err e` |
| object with mutable attributes | record; methods are `state -> result (state * out)` |
| context manager / signal / crash point | programs or event lists with an interpreter |

## Trusted base

* Coq 8.16.1's kernel, including `vm_compute`'s reduction machine for witnesses.
* `Print Assumptions` under each property theorem. Every theorem is "Closed under
  the global context", except all theorems `C22_*` (Fourier transform), `C74_*` and
  `C75_*` (polarization), the numerical ones of `C84_*` (`C84_transmission`,
  `C84_range`, `C84_detector`, `C84_efficiency`, `C84_efficiency_range`,
  `C84_air_refuted`) and those of `C85_*` (geometry) over Coq's
  reals, which depend on these axioms of the standard library:
  * `ClassicalDedekindReals.sig_not_dec`
  * `ClassicalDedekindReals.sig_forall_dec`
  * `FunctionalExtensionality.functional_extensionality_dep`
  * `Classical_Prop.classic` (`C74_*`, `C75_*`, part of `C84_*` and `C85_*`; the
    standard library's sine, arctangent, square root and bounds of the exponential use it)
* `coqchk -o` on all files also lists what the loaded standard library modules
  contain, without any theorem here depending on it:
  `Coq.Reals.Rdefinitions.RbaseSymbolsImpl.*` and `RinvImpl.*` (module
  parameters of the real numbers), `Coq.ssr.ssrunder.Under_rel.*` (opaque
  module of the ssreflect rewriting library).
* No axioms, functors, module types or plugins of our own; nothing admitted.
* The reading of the Python source: the model is hand written; the tie to the
  code is the cited lines. Python, numpy, scipy, h5py, pyparsing, `re`, the
  operating system and the file system are not verified; where their behaviour
  matters it is modelled by small functions (named in the headers below) or
  passed as a function argument.
* Floating point: all numeric statements are about exact arithmetic.

## Tests with wrong programs

`seeded/LOG.jsonl` has one line per edit of a definition in a scratch copy.
A script rebuilds what depends on the file, admits each lemma whose proof no
longer compiles, and lists under `theorems_failed` the theorems that then
depend on an admitted lemma. So a listed theorem has a proof that broke. This
does not show that its statement is false for the edited definition: a proof
can also break because it follows the text of the definition. Only an edit with
an empty list is certain to have passed all theorems. Edits that were meant to
leave the results unchanged carry a `note` and are not counted as detected bugs.


## Properties: what is modelled and how it is proved

The statement of each property is in `properties.jsonl`; the theorems are in `<area>Props.v`.

| Id | title | area | model | method |
|---|---|---|---|---|
| C01 | Bounded dictionary never exceeds its limit and evicts oldest first | Cache | `LimitedSizeDict` as an association list with `setitem` and the eviction loop | refinement to the last k of the first-insertion order, induction over the assignments |
| C02 | Nested caching contexts share one value and leave nothing behind | Cache | `Cache._store` as an association list; enter/read/exit/raise as a small program syntax with an interpreter | structural induction on programs; refutation for raising bodies |
| C03 | Content hashes do not depend on dictionary or set order | Hash | `calchash` over an inductive value type, the digest is a function argument | induction on values, permutation lemma for sorting by hash |
| C04 | Content hashes separate different structures | Hash | as C03 | collision witness; injectivity on the fragment where it holds |
| C05 | Lookup table stays sorted, unique and keeps the right values | Lut | `unique2lists`, `sort2lists`, `LUT.add/replace` on lists of rationals | invariant over sequences of operations, refinement to a finite map |
| C06 | Lookup table interpolation is exact at the points and bounded in between | Lut | `LUT.__call__` with scipy's linear `interp1d` as a segment search | induction on the table, rational arithmetic |
| C07 | Sorting and merging paired lists loses and invents nothing | ListTools | listtools functions | permutation, sortedness and stability by induction |
| C08 | List rearrangements are permutations with the documented effect | ListTools | `move`, `swap`, `roll` with Python's negative indices | list lemmas; refutations |
| C09 | Advanced list indexing agrees with array indexing | ListTools | `listadvanced*`, `where` | pointwise `nth_error` characterisation |
| C10 | Flattening visits every leaf once, in order | ListTools | `flatten` on a rose tree | structural induction |
| C11 | Integer/base conversion round-trips | IntegerBase | `int2base`/`base2int` on digit lists, recursion on fuel shown sufficient | strong induction on the number |
| C12 | ROI clipping stays inside the array and selects what slicing selects | Roi | `cliproi` per dimension | case analysis with `lia` |
| C13 | Merging intervals preserves exactly the covered points | Roi | `mergeroi1d` over any total order | induction on the sorted list |
| C14 | Class registry resolves names and aliases to registered classes only | ClassFactory | registry as two association lists, class creations as events | induction over the history |
| C15 | Indexing a lazily generated stack equals indexing the full stack | Indexing | `getitem` over the numpy model of `NumpyModel.v` | refinement to stack-then-index |
| C16 | Expanding an index gives one entry per dimension and the same selection | Indexing | `expand` on index token lists | list induction |
| C17 | Recorded axis transpositions compose correctly | Indexing | `op_transpose` and the chain of operators | composition of permutations |
| C18 | Slicing a big array into blocks covers every element exactly once | Slicing | `slice_generator`, `find_slice_axis` | the blocks concatenate to `seq` |
| C19 | Operator products behave as function composition | Linop | operator syntax of math/linop.py, evaluation over rationals extended with inf and nan | case analysis, `field` |
| C20 | Simplifying clip operators preserves their meaning | Linop | clip operators | case analysis over the kinds of limits |
| C21 | Frequency shifting is undone by inverse shifting | Ft | index arithmetic of fftshift, ifftshift, fftfreq | list rotations |
| C22 | The discrete Fourier transform is inverted by its inverse | Ft | DFT sums over an abstract number type, instantiated with pairs of Coq reals | geometric sums of roots of unity |
| C23 | Straight-line fit is the least-squares optimum | Fit | closed-form line fits on rational lists | normal equations, completing the square |
| C24 | Direct linear solver satisfies the equations | Mat | Cramer's rule with determinants by Laplace expansion | multilinearity and alternation of the expansion |
| C25 | Weight, mole and volume fractions convert consistently | Stoich | stoichiometry.py on rational lists | sums by induction, `field` |
| C26 | Density computed from any kind of fraction is the same | Stoich | as C25 | as C25 |
| C27 | Adding components preserves totals and proportions | Stoich | `add_frac`, `Mixture.addcompounds`, `Compound.addelements` | as C25 |
| C28 | Elemental composition of a mixture is the weighted composition of its parts | Stoich | composition maps of compounds and mixtures | sums over association lists |
| C29 | Chemical formulas parse to the right stoichiometry | Formula | the pyparsing grammar as recursive descent on characters | agreement with an independent grammar (relation) in both directions |
| C30 | Image transformations form a group acting on coordinates | Transform | `LinearMapping` with its kinds and 3x3 rational matrices | `ring`, `field` |
| C31 | Setting a transformation makes it that transformation | Transform | setters and getters | case analysis over the kinds |
| C32 | Padding and cropping keep pixels aligned with their axes | Align | `transform_axes`, `pad`, `crop`, `dest_imgsize` | list arithmetic |
| C33 | All datasets of a stack get the same alignment transformation | Align | the loop over datasets with in-place change of frame | induction over the images; refutations |
| C34 | Pairwise alignment accumulates to the first image | Align | `store_transformation` folded over images | induction over the images |
| C35 | Axis location returns the nearest point | Axis | `Axis.locate` for all kinds of axes | argmin by induction |
| C36 | Regular axes keep their defining relations under modification | Axis | setters of regular axes | arithmetic series |
| C37 | Segmented axes list every segment exactly once | Axis | `AxisSegments` | arithmetic series |
| C38 | Enlarging an axis to new limits covers the limits minimally | Axis | `newstart`, `newend`, `newlimits` | ceiling lemmas |
| C39 | A task never publishes a partial result and never redoes a finished one | Task | task runner with failure points and interference of others, over the files of ProcModel | induction over operations |
| C40 | Generated output names are new and increase | Name | counters and the searches for a free name, on characters | pigeonhole for termination |
| C41 | Incrementing a name only changes its counter | Name | `locate_number`, `increment`, `regex`, `match` | list-of-characters lemmas |
| C42 | XIA file names round-trip | Xia | name printer and the backtracking regular-expression parser | character lemmas |
| C43 | Detector selection keeps exactly the requested detectors | Xia | detector selection | character lemmas |
| C44 | Plot data keeps a consistent set of signals | Plot | NXdata attribute bookkeeping as a state machine | invariant over operations |
| C45 | Finding or creating a process is idempotent | Proc | finding or creating NXprocess groups | case analysis over the search |
| C46 | Re-entrant opening of a file closes once, after the last user | Open | re-entrant open counter over programs of nested contexts | structural induction on programs |
| C47 | Opening mode decides creation and truncation as documented | Mode | mode table over a small file-system state | finite case analysis |
| C48 | Path joining, splitting and relative paths are consistent | Path | posixpath functions and the path methods on characters | list prefix lemmas |
| C49 | Cleanup after termination happens exactly once and handlers are restored | Signal | signal/exit event machine | induction over event lists |
| C50 | Result group names round-trip and sort detectors | Group | detector names, parsing and printing | character lemmas |
| C51 | Cropping keeps exactly the bounding box of valid data | Grid | mask counts per dimension, arrays as shape plus function | hull lemmas |
| C52 | Grid processing in slices equals processing at once | Grid | slice-wise against whole processing | pointwise equality |
| C53 | Colours encode normalised values reversibly | Scalar | `NormalizedToRGB` on rounded rationals | bit arithmetic, `lia` |
| C54 | Outlier detection is invariant and flags only far values | Scalar | median and MAD | sorting lemmas, for any sort |
| C55 | Interpolating floor/ceil look-ups return neighbouring samples | Scalar | floor/ceil search | list induction |
| C56 | Rounding to digits bounds the value from the documented side | Scalar | rounding to digits, lcm | integer division lemmas |
| C57 | Operators that compare equal act the same | Linop | operator equality | case analysis |
| C58 | Error propagation of linear least squares | Fit | covariance matrix of linear least squares | matrix identities |
| C59 | Peak-shape fractions and ratios convert back and forth | Peak | conversion between fractions and ratios | `field` |
| C60 | Setting the fraction of some components rebalances the others | Stoich | `setfraction` | evaluation; the code always raises |
| C61 | Transforming an image samples the pixel given by the change of frame | Transform | `transformimage` | matrix identities; refutations |
| C62 | Exact key points give the transformation back | Transform | `fromkeypoints`, lstsq and svd are parameters with their specification as hypotheses | least-squares uniqueness |
| C63 | Simplifying an axis keeps its points | Axis | `simplify`, `factory` | arithmetic series |
| C64 | Axis equality is pointwise within the precision | Axis | `__eq__` | case analysis |
| C65 | Interpolation coordinates of an axis | Axis | `interpolate` | list induction |
| C66 | The mode of an HDF5 file object limits what its users can do to the file | Mode | what opening an HDF5 device does to the file | finite case analysis over modes |
| C67 | Grouping XIA files loses no file | Xia | grouping of names in nested dictionaries | induction over the files |
| C68 | Weighted means lie between the values | Scalar | `weightedsum` | rational arithmetic |
| C69 | Shapes are cut to the largest common size | Merge | `match_shapes` on lists of naturals | gcd/lcm lemmas |
| C70 | Tiles hold their own scan and never overlap | Merge | `tile_indices`, `tile_h5datasets` as boxes of an array | ranks and index arithmetic |
| C71 | Stacking scans keeps every point in its place | Merge | `stack_h5datasets` as virtual data sets (functions of the index) | ranks and index arithmetic |
| C72 | Expression text evaluates to its meaning | Expr | text-level parser with the stack of pushed tokens, evaluator over an arbitrary arithmetic | induction on expression trees, fuel shown sufficient |
| C73 | Expression task applies the template to the signal | Expr | template fields, renaming, look-up of signals | invariant of the renaming |
| C74 | Conversions between Jones vectors, Stokes vectors and polarization parameters agree | Polar | `PolarModel.v`: Jones and Stokes vectors over any arithmetic with cos, sin, arctan2 and root | instantiated with Coq's reals; closed forms of the coherency matrix and of the Stokes vector, polar form of a complex number from arctan2 |
| C75 | Rotation and scattering act alike on Jones and Stokes vectors and keep states physical | Polar | rotation, Thomson and Compton scattering, Jones to Mueller matrix | closed forms of the rotated and scattered vectors; scattering keeps the state physical by a polynomial identity |
| C76 | Moving a file or directory never loses data | Disk | `DiskModel.v`: a tree of files, directories and links, path resolution of the operating system, move, mkdir and the generic helpers | a tree is what `peek` shows at each path; one lemma for an edit at a path, stability of resolution when directories are added |
| C77 | Removing a node removes that node and nothing else | Disk | remove and linkdest, with Python's recursion limit | `removed` per case of the node; induction on the limit for cyclic links |
| C78 | Copies equal their source, links point where they were told, temporary nodes leave no trace | Disk | copy, link, relpath, renameremove and the end of temp | composition of the lemmas for removing, copying and renaming; relpath undone by the lexical join and by the resolution |
| C79 | Noise propagation gives the moments of the random variables it models and its inverses undo it | Noise | `NoiseModel.v`: a random variable as mean and variance, noisepropagation.py | sums over finite distributions: mass, mean and second moment of independent sums, of n-fold sums by induction and of mixtures |
| C80 | The full-field simulation: backward undoes forward, and its transmission is that of the sample | Noise | propagation through sample, scintillator, lens and camera, calcnoise.py | each stage returns a sound number and is undone by its backward direction; composition; closed form of mean and variance of the camera |
| C81 | Quadrics are zero exactly on the surface they are named after and follow a change of frame | Quadric | `QuadricModel.v`: quadrics.py on numpy matrices, with assignment to slices | entries of the built matrix, then the double sum of the form split into corner, border and diagonal; change of frame by exchanging finite sums |
| C82 | Constrained least squares hands the solver an equivalent quadratic program | Quadric | lsqlin.py up to the call of the solver (`LsqProofs.v`) | the stacked inequalities are the constraints row by row; objective = half of loss minus constant, so minimisers agree |
| C83 | A peak is located at its first maximum or at the centre of mass around it | Center | `CenterModel.v`: center.py but the Gaussian fits | invariant `good` of the running maximum; growth of the window by induction on the remaining room; sums over windows shifted and reversed |
| C84 | The filters of a detector are kept, listed and applied by their role | Det | `DetModel.v` (attenuators of detectors/base.py as a dictionary, state of SolidState), `DetOptics.v` (absorbance to efficiency over Coq's reals) | the regular expression equals its description; lookups after assignment and removal; greatest number by induction; exp of a sum as product |
| C85 | Detector distance, motor position, solid angle and sample angles determine each other | Geom | `GeomModel.v`: the cone of a detector, the angles of a flat sample and the linear motor over Coq's reals | field and nonlinear arithmetic with the squared hypotenuse; cos of arctangent for the cone; sign squared is one |
| C86 | The signals of a diode convert into each other | Diode | `DiodeModel.v`: operators and conversions of detectors/diode.py over `LinopModel.v`, unit kinds, normalisation and dark calibration | each operator reduced to slope and offset, then field; medians by their characterisation (OutlierProofs) |
| C87 | The gain of a diode | Diode | `DiodeModel.v`: GainRounder with exact logarithms, setters, gainfromresponse | digits in base b bound the logarithm, squares decide the rounding; a list of equal ratios has that median |
| C88 | The charge per photon of a diode and its calibration | Charge | `ChargeModel.v`: line weights, transmissions, detection rates, charge per photon, calibrations and fit | sums over lines by induction; lines through C23 of `FitProofs.v` |
| C89 | Assigning to a lazily assembled stack is assigning to the stack | Setitem | `SetitemModel.v`: setitem of utils/indexing.py over `NumpyModel.v` and `IndexingModel.v`, numpy assignment with repeated elements (the last value remains) | the loop is a sequence of visits whose coordinates embed in those of the stack (core lemmas of C15 on arrays of coordinates); order by the lexicographic order of the coordinates |
| C90 | A spec command is read as its words say | Scan | `ScanModel.v`: cmd_parser of io/spec.py, regular expressions as lists of all matches in the order of backtracking | every match is a layout in words; two layouts agree on all words but the last, and the preferred last word is the longest |
| C91 | The positions of the pixels of a scan | Specgrid | `SpecgridModel.v`: zapline_*, ascan_*, getdimensions, the sizes of getimages, zapimage_submap up to its failing attribute | field equations; dictionary lemmas on top of C90 |
| C92 | XANES scans and their repeats | Xanes | `XanesModel.v`: extractxanesinfo, extractxanesginfo with its flags as a list of booleans | loop invariant giving each flag in closed form; ranges of different sums are disjoint; permutation by induction over the prefix |
| C93 | Inherited parameters | Param | `ParamModel.v`: nodes of pipelines/parameters.py in a heap; getitem, setitem, delete, update, pop, clear | `ParamData.v`, `ParamState.v`: the first map on the path to the root is the inductive relation `sees`; deletion by induction over the depth that is left |
| C94 | Rearranging the tree of parameters | Param | `ParamModel.v`: parent setter, branch, remove, insert_before, insert_after | `ParamProofs.v`, `ParamLinks.v`, `ParamChains.v`, `ParamMoves.v`: `linked` is an invariant of the change of one parent; the ancestors of every node follow by induction over `chain` |
| C95 | Changes of parameters since the last reset | Param | `ParamModel.v`: changed, reset_state, annotated keys; the hash of all maps is kept as these maps | `ParamChange.v`: equality of dictionaries with distinct keys is equality of lookups; recursion as for deletion |
| C96 | Stacks of images are read and written along the stack dimension | Stackio | `StackioModel.v`: alignSource and alignDest for arrays, on the numpy model; the loop of align.doalign that copies | `StackioProofs.v`: one integer and two full slices select an image; invariant of the two nested loops: what has been copied so far |
| C97 | Aligned stacks are saved in a new place unless they may be overwritten | Stackname | `StacknameModel.v`: paths in an HDF5 file, h5_prepare, glob and the names of image files | `StacknameProofs.v`: pigeon hole principle for the numbered places; creating datasets succeeds exactly when there is room; digits of equal width are ordered like their values |
| C98 | Alignment by correlation of Fourier transforms finds a displacement | Alignfft | `AlignfftModel.v`: alignFFT on the discrete Fourier transform of `FtModel.v` with real and complex numbers, fcentroid of center.py | `AlignfftPeak.v`, `AlignfftPlane.v`: the correlation is a convex combination of points of the unit circle, so its modulus is at most the energy (Parseval) and smaller unless neighbouring frequencies have the same phase; `AlignfftLine.v`: the correlation is symmetric about its maximum, so the centroid is the maximum |
| C99 | Operations on lazy functions are the operations on their values | Lazyfunc | `LazyfuncModel.v`: Function of lazy.py over arbitrary values and operators, with Python's choice of the method (reflected operators) | `LazyfuncProofs.v`: induction over expressions; `LazyfuncSpec.v` defines the value of an expression directly |
| C100 | Alignment on a marker finds the displacement of the marker | Alignsimple | `AlignsimpleModel.v`: alignSimple on the model of center.py; images with nan, integer images, the three kinds of fill value | `AlignsimpleProofs.v`: the flat index is ordered row by row; the displaced maximum stays the first maximum; the square of the centroid is the smallest with a low pixel, so it is the same in both images |
| C101 | Resampling on encoder positions keeps the motor grid and covers the lines | Resample | `ResampleModel.v`: _encoder of nxresample on the model of axis.py, the shape and the pieces of the resampled map | `ResampleProofs.v`: on C38_newlimits; the symmetry of the centred limits gives the same number of points at both sides; order along the direction of the scan covers increasing and decreasing encoders |
| C102 | Shells and fluorescence lines | Shellline | `ShelllineModel.v`: FluoLine and Shell of xrayspectrum.py over arbitrary tables of xraylib; comparison of utils/comparable.py | `ShelllineProofs.v`: order on strings; closed form of the loop of shrink; sorted composites |
| C103 | X-ray spectra | Xspectrum | `XspectrumModel.v`: Spectrum and its lines of xrayspectrum.py with exact numbers; `__iadd__` on a model of memory in which arrays are shared and changed in place; profiles, noise and plots are not modelled | `XspectrumProofs.v`: insertion sort, partition into groups, first maximum; the sum of spectra by induction over the lines of the second with separation of the arrays |
| C104 | Quantitative XRF geometries keep their devices in agreement and normalise with them | Quantitative XRF geometry | geometries/qxrf.py: QXRFGeometry (constructor, attributes with _update_devices, state, equality, xrfnormop, quantinfo, I0op, Itop) in QxrfModel.v on the diodes of DiodeModel.v | consistency is preserved by every update, hence by all sequences of assignments; the normalisation is that of the I0 diode (C86) with the chosen arguments; operators by composition of linear operators |
| C105 | Calibration data of diodes are completed consistently and devices follow from the motors | Calibration data and instruments | geometries/qxrf.py: _validate_data, _check_device, _set_diode_gain, _calibrate_prepare; instruments/configuration.py: _devicename, counters, metadata, datalocation, units of ID21 in QxrfModel.v | tables are followed through their lookups: each step keeps all lookups but that of a missing rate, also when both identifiers are the same; induction over the motors |
| C106 | Quantities made of numbers, quantities and arrays keep their meaning | Units | `UnitsModel.v`: utils/units.py with units as dimension and size, arrays of one dimension | `UnitsProofs.v`: the magnitude is the unique number with the same physical value; induction over arrays and over the list of units |
| C107 | Samples of discrete spectra are means weighted with the intensities | Discrete spectra | `EmspectrumModel.v`: Discrete and Dark of sources/emspectrum.py on the lookup tables of `LutModel.v`; numbers that are not finite are None | `EmspectrumProofs.v`: sums over the points of a table are sums over the data added to it, by induction over the points with the data of each line removed; monotonicity of weighted sums |
| C108 | Full-field images are dark subtracted sums over the exposure time, relative to flat images | Full-field import | `FullfieldModel.v`: fullfield/import_id21.py and the loop of process/nxfullfield.py on images with exact pixels; opened files are given | `FullfieldProofs.v`: blocks of sums; libraries are followed through their lookups by induction over the files; axes as arithmetic progressions |
| C109 | Merging lazy expressions keeps their value | Lazy images | `NxlazyModel.v`: functions and expressions of process/nxlazy.py for one pixel, with numbers that may be infinite or NaN | `NxlazyProofs.v`: reductions of concatenated lists; the arguments of an expression are those of the expressions that were added |
| C110 | Sums of detectors and groups of detectors after fitting | Sums of detectors | `SumdetModel.v`: plan of the sums, the addition of results, the corrections, sorting and export of process/nxpymca.py | `SumdetProofs.v`: the loop of additions with, for each group and result, the expressions added so far as invariant; `SumdetPlanProofs.v`: plans of distinct detectors, the total by a pigeonhole argument; `SumdetSort.v`: export commutes with permutations, by induction over expressions |
| C111 | Axes of a scene: ranges, flips, origins and limits | Axes of scenes | SceneModel: state of each data axis (offset, scaling, order), items as limits or coordinates, datatransform, datarange, setdatarange, flips, origins, display limits with half a pixel around images, aspect ratios, scene_modifyaxes. Magnitudes in one unit per axis; divisions by zero of numpy are an error | minima and maxima of folded lists characterised by extremes, affine maps (field), reflection of the limits; general _refuted theorems for flipping twice, originzero twice, resets, single pixels, y unit, decreasing axes |
| C112 | Channels and colour scaling of a scene | Colour scaling of scenes | ScenescaleModel: the channels setting (list changed in place, tuple, default), data and labels of channels, limits of a scene with nan, selfscale, scene_globalscaling; the percentiles are parameters | case analysis, nth_error of folded columns, ring; general _refuted theorems for two channels and for fractions of the scene |
| C113 | Files of an XRF scan are grouped per detector | Files of XRF scans | ParsexiaModel: exclusion, detector numbers, choice between sum, correction and raw files, sorting by file name as scan name, detector, scan number and line, and grouping of xrf/parse_xia.py; the result of PyMca's parseFiles and the files found on disk are parameters | sorted lists by detector are concatenations of their filters, chunks of equal length by induction; general _refuted theorems for several scan names and for few files |
| C114 | Elapsed time and progress | Progress | TimingModel: hms and ProgressLogger of utils/timing.py with exact numbers; a time difference is days and seconds | floor characterised by inequalities; case analysis |
| C115 | Grids of signals: items, values and stack dimensions | Grids of signals | H5gridModel: shape, integer items, values (assignment with broadcasting), stack dimensions and in-place operations of process/h5regulargrid.py; signals are functions of indices | induction over shapes and positions in lists with an inserted element; general _refuted theorems for values along the second dimension, stack dimensions of one signal, in-place operations |
| C116 | Images of a stack for display | Stacks of images for display | ScenedataModel: set_items (with the index list shared between items), image axes, transposition, displaydata (numpy assignment with its broadcasting) and the pairing of files, numbers and labels of visualization/scene_data.py; a grid is names, sizes, stack dimensions and a function of indices; locating values is a parameter (AxisModel for the default) | induction over items with the unchanged dimensions as invariant; selections of shapes by induction over dimensions; channels by counting; general _refuted theorems |
| C117 | Stacks of scans keep each scan with its position and fit their axes | Tasks that merge, stack and align | StacktaskModel: sources by name, nested entries, titles, order by positioner, axes, reference image and transformation of process/nxmerge.py, nxstack.py and nxalign.py; NXdata groups are values, unknown positions None; the merging of datasets itself is in MergeModel | induction over sources and dependencies; sorted pairs of positions and indices are a permutation; general _refuted theorems |
| C118 | Spectra saved in SPEC format can be read back | Spectra in SPEC format | McafileModel: array2SpecMca (chunks of 16), header of save and the channels, energies and calibration of read in io/mca.py; a text is a list of tokens (no number formatting), header lines are parsed values | layout by induction over chunks; an independent reader (McafileSpec) recovers the spectrum; header loop by induction |
| C119 | Tasks are made with the class of their method and exactly their parameters | Creation of tasks | MaketaskModel: create_task and nxpathtotask of process/utils.py, the parameters setter and __init__ of process/basetask.py (with nxprocess.py), nxwrap.py, nxprocesswrap.py and nxreplace.py; parameters are association lists, the sets of each class are arguments | lookups through defaults, filter and removal; case analysis of classes; general _refuted theorems |
| C120 | Tiling through strides writes copies of the source and nothing else | Tiled arrays | TilearrayModel: tile of utils/arraytricks.py; memory is a function of offsets, the strided views are the lists of their writes | membership in the lists of writes; quotient and remainder; a write list is a function when places are distinct |
| C121 | The default plot of a result is the first plot with the requested signal and can be reached from the root | Default plots | DefaultplotModel: set_default of process/nxutils.py on the NXdata groups of PlotModel, and mark_default of io/nxfs.py on lists of names and classes | induction over plots and over the groups above a plot; general _refuted theorems |
| C122 | Preparing spectra sums all detectors corrected for dead time, each one once | Prepared spectra | McapreModel: _matching_names, _mca_add, _mca_dtcor, _mca_link, _open_livetime and the cases of _execute of process/nxblissmcapre.py; pixels and channels are numbered, blocks are sets of them, numbers are rationals with None for inf and nan | a block writes a value that does not depend on what was there; induction over detectors; bounds of truncation; general _refuted theorems |
| C123 | Fitting several detectors gives the sum of all their results and the counters as they are | Fits of several detectors | BlissfitModel: detectors, counters and _execute of process/nxblisspymca.py; the fit is any function, signals are lists of rationals in groups | value of a signal after each addition by lookups in association lists; induction over detectors; general _refuted theorem for counters |
| C124 | The signals of a result are grouped by detector, with one set of axes | Signals of results by group | GriddataModel: regulargriddata of process/nxresult.py on lists of plots, with Group of GroupModel; axes and signals are of any type | induction over plots in both directions (what is accepted, what is sufficient); error kinds; general _refuted theorem |
| C125 | A batch calls the selected jobs in order and a pipeline stops at the first task that is not done | Batches and sequences of tasks | BatchModel: context of pipelines/batch.py and run_sequential of pipelines/run.py; calls raise or not, tasks are done or not depending on the tasks before | induction over jobs and tasks; Python indices; general _refuted theorems |
| C126 | Changing the amount of one compound in a layer keeps the ratios of the others | Amount of a compound in a layer | FfsetupModel: setters and getters of FFsetup of fullfield/estimate_id21.py on fractions by name, normalised when they are read back as in materials/mixture.py | sums over association lists; field; general _refuted theorem |
| C127 | A table of cross sections has the shape of the elements followed by that of the energies | Tables of cross sections | CsutilsModel: eval of materials/csutils.py; arrays are a shape and values in C order, xraylib and xraylib_np are any functions | index arithmetic on concatenated rows by induction over elements |

## What is proved and what is missing

* **C01** (proved; `limited_dict_keeps_newest_insertions`, `unlimited_dict_drops_nothing`, `limited_dict_constructor_same_as_assignments`, `limited_dict_negative_limit_raises`). A negative limit makes every assignment raise KeyError; stated separately.
* **C02** (partial; `cache_generated_once_and_dropped_partial`, `nested_context_reuses_outer_value`, `forced_read_outside_context_raises`, `cache_survives_exception_refuted`). Normal exit proved for all programs of nested contexts and reads; the exceptional exit is violated by the code (no try/finally): the stale value is kept, refuted with a witness. Generators that open contexts themselves are not modelled.
* **C03** (partial; `hash_ignores_enumeration_order_partial`, `hash_fails_only_on_deep_nesting`, `hash_order_of_bytes_and_text_keys_refuted`, `hash_of_empty_sequences_refuted`, `hash_of_complex_integer_refuted`). Proved when the keys of each plain dictionary have pairwise different hashes. Violated for dictionaries holding b'a' and 'a' as keys, for empty list vs empty tuple, and for the documented 1 == 1+0j.
* **C04** (partial; `hash_separates_ordered_values_partial`, `hash_separates_plain_dictionaries_partial`, `hash_confuses_dict_and_list_refuted`, `hash_confuses_set_and_list_refuted`). Violated: a dictionary collides with the list of its keys and values, a set with a sorted list. What is separated is proved relative to a digest without collisions on the digested texts.
* **C05** (partial; `C05_table_content`, `C05_only_empty_fails`, `C05_unequal_lengths_refuted`). Proved for every sequence of add/replace calls with as many y as x values (numbers as exact rationals, units fixed). Refuted without that condition: a call with fewer y values silently changes other entries.
* **C06** (partial; `C06_interpolation`, `C06_empty_table`, `C06_empty_table_refuted`). Proved for all reachable tables over exact rationals (linear interpolation of scipy modelled). Refuted after a failed add/replace of empty arrays on an empty table: the table then raises TypeError instead of returning the default.
* **C07** (proved; `sort2lists_sorts_pairs_stably`, `sort2lists_empty_only`, `unique2lists_add_sums`, `unique2lists_first_wins`, `unique2lists_first_raises_only_when_empty`, `sumrepeats_sums`, `sumrepeats_preserves_total`). Empty input: sort2lists yields an empty tuple and unique2lists (not adding) raises ValueError; both stated.
* **C08** (partial; `move_permutes`, `move_puts_element_there_partial`, `move_to_last_refuted`, `swap_exchanges_two`, `swap_permutes`, `swap_twice_restores`, `roll_permutes`, `roll_positions_partial`, `roll_negative_refuted`). Violated by the code for a move target counted from the back and for rolling by a negative distance (abs() makes it roll the same way); both refuted with a witness, the non-negative cases proved.
* **C09** (partial; `bool_indexing_selects_true_positions_partial`, `bool_indexing_wrong_length_refuted`, `int_indexing_is_pointwise`, `int_indexing_raises_out_of_range`, `where_lists_matching_positions`). Violated for a boolean index whose length differs from the list: it is accepted and truncated instead of raising. Everything else proved.
* **C10** (proved; `flatten_lists_leaves_in_order`, `flatten_of_flat_list`, `unique_everseen_keeps_first_occurrences`). 
* **C11** (partial; `C11_writes_positional_notation`, `C11_reads_positional_notation`, `C11_unknown_symbol_raises`, `C11_roundtrip_partial`, `C11_string_roundtrip`, `C11_negative_roundtrip_refuted`, `C11_single_symbol_diverges`, `C11_no_symbols_raises`). Proved for all non-negative integers and all alphabets of at least two distinct one-character symbols, in both directions. Refuted for negative integers: the minus sign written by int2base makes base2int raise ValueError.
* **C12** (partial; `C12_clip_inside`, `C12_clip_pointwise`, `C12_inside_unchanged`, `C12_clip_idempotent`, `C12_dimension_error`, `C12_selects_like_slice_partial`, `C12_region_beyond_end_refuted`). Inside, unchanged, idempotent: proved for all sizes and limits. 'Selects what slicing selects' holds when the lower limit is below the length and is refuted otherwise: a region beyond the end is clipped to the last element.
* **C13** (proved; `C13_merge_same_points`, `C13_merge_same_half_open_points`, `C13_merge_sorted_disjoint`, `C13_merge_idempotent`, `C13_merge_limits_from_input`). For any total order and any list of intervals, also reversed ones.
* **C14** (partial; `C14_lookup_partial`, `C14_unknown_raises`, `C14_own_name`, `C14_alias_stays_reachable_refuted`, `C14_any_letter_case_refuted`). Complete characterisation of every lookup after any sequence of class creations (single inheritance, one root, ASCII case folding). Refuted: inherited aliases are taken over by subclasses; mixed-case spellings are not found.
* **C15** (partial; `C15_getitem_partial`, `C15_empty_ellipsis_refuted`, `C15_single_dimension_refuted`, `C15_broadcast_refuted`, `C15_no_shape_refuted`). Any number of arrays, any shapes, any axis, any mix of slices, numbers, lists, new axes and Ellipsis, with lists of equal length. Refuted for an Ellipsis that stands for no dimension, for one-dimensional stacks indexed by a non-tuple, for broadcast lists and for empty selections without a given shape.
* **C16** (partial; `C16_expand_in_place`, `C16_expand_again`, `C16_too_many_indices_raise`, `C16_expand_same_selection_partial`, `C16_nonchanging_selects_all`, `C16_empty_ellipsis_refuted`, `C16_two_ellipses_refuted`). Proved for tuples with at most one Ellipsis; an Ellipsis standing for no dimension raises and a second Ellipsis is left in the result (refuted).
* **C17** (proved; `C17_recorded_operations`, `C17_transpositions_compose`, `C17_move_axis`, `C17_move_back`). Any sequence of index and transpose operations on arrays of any rank.
* **C18** (partial; `C18_every_element_once`, `C18_in_order`, `C18_block_size`, `C18_blocks_maximal`, `C18_size_limit_refuted`). Coverage, order and maximality for every shape and limit. The size limit itself is refuted when the dimensions that are never cut already exceed it.
* **C19** (partial; `C19_product_is_composition_partial`, `C19_associative_partial`, `C19_identity_neutral`, `C19_inverse`, `C19_power`, `C19_negative_power_raises`, `C19_power_zero_refuted`, `C19_power_of_product_refuted`). Products of any length with finite slopes and offsets. Refuted: power zero is the constant 1, and powers of products drop all factors but the first.
* **C20** (partial; `C20_merge_clips`, `C20_exchange_partial`, `C20_inverse_unclipped`, `C20_zero_slope_refuted`). All limits including missing, NaN and infinite ones, slopes other than zero. With slope zero the exchange divides by zero and gives NaN (refuted).
* **C21** (proved; `C21_shift_back`, `C21_shift_moves`, `C21_frequency_axis`). arrays of any number of dimensions; both conventions
* **C22** (proved; `C22_roundtrip`, `C22_resampled`, `C22_paths_agree`, `C22_linear`, `C22_rotation`, `C22_roundtrip_2d`, `C22_resampled_2d`, `C22_refused`). exact complex numbers (pairs of Coq reals, stdlib Reals axioms); floating point rounding not modelled; np.fft modelled from its documented sum
* **C23** (proved; `C23_optimal`, `C23_defined`, `C23_line`, `C23_origin_optimal`, `C23_origin_defined`, `C23_nan`, `C23_refused`, `C23_errors`, `C23_origin_errors_refuted`). Exact rationals. Also proved: nan points are left out, and the reported errors equal those of the matrix form for three or more points. Refuted side claim: through the origin the closed-form error differs from the matrix form (np.var subtracts the mean residual).
* **C24** (proved; `C24_solves`, `C24_decides`, `C24_refused`). General Cramer's rule for any size over exact rationals; numpy's det is modelled by the Laplace expansion.
* **C25** (proved; `C25_convert`, `C25_roundtrip`, `C25_third`, `C25_scaled`). Exact rationals instead of floats; all six conversions.
* **C26** (proved; `C26_densities`). Also the molar mass from mass fractions.
* **C27** (proved; `C27_add_frac`, `C27_addcompounds`, `C27_addelements`, `C27_refused`, `C27_elements_refused`). For add_frac itself and for mixtures (all kinds of fractions) and compounds (mass and mole).
* **C28** (proved; `C28_fractions`, `C28_listed_twice`, `C28_massfractions`, `C28_tocompound`, `C28_compound`, `C28_molefractions_refuted`). Everything in the statement holds. In addition: the elemental mole fractions of a mixture are not those of the mixture as one compound (C28_molefractions_refuted): the atoms of each compound are weighted as one.
* **C29** (partial; `C29_formula`, `C29_terminates`, `C29_accepted`, `C29_rejected`, `C29_truncated_refuted`). Proved for every formula and every string, except that the code violates the last clause: text after a formula is silently dropped (parseString without parseAll), C29_truncated_refuted.
* **C30** (partial; `C30_combine`, `C30_associative`, `C30_mixed`, `C30_inverse_defined`, `C30_inverse`, `C30_inverse_twice`, `C30_frame`, `C30_frames`, `C30_frame_inplace`, `C30_coordinates`, `C30_coordinates_combine`, `C30_coordinates_shape`, `C30_homogeneous_refuted`, `C30_kinds`). Everything is proved for the maps of the plane. The code's coordinate functions agree on points with third coordinate 1; C30_homogeneous_refuted shows that chaining them through a perspective (third coordinate not 1) is wrong for a translation, which ignores that coordinate. Numbers are exact.
* **C31** (partial; `C31_translation`, `C31_linear`, `C31_affine`, `C31_projective`, `C31_rigid`, `C31_identity`, `C31_isidentity`, `C31_fromtransform`, `C31_affine_refuted`, `C31_kind_refuted`, `C31_angle_refuted`, `C31_rigid_refuted`). Setting keeps the unaffected part and stores what was set; false as stated: getaffine never returns what setaffine set, setlinear on a rigid mapping and setprojective on a non-projective one keep a kind that cannot represent it, setrigid fails on a translation, getrigid loses the sign of the angle and fails on a projective mapping.
* **C32** (partial; `C32_image`, `C32_axes_partial`, `C32_overcrop_refuted`). Image part for every box; axes for every box that touches the image (with at least two points when padding). A box that does not touch the image gives an image but a ValueError for the axis (C32_overcrop_refuted). The transformation between padding and cropping is not part of these theorems.
* **C33** (partial; `C33_reapply_partial`, `C33_align_partial`, `C33_onepass_partial`, `C33_kinds_refuted`, `C33_onraw_refuted`, `C33_frame_refuted`, `C33_roi_refuted`). Proved for translations (the only kind for which align does not fail, C33_kinds_refuted), except pairwise alignment on raw images without padding or cropping, where the reference dataset gets another transformation (C33_onraw_refuted). The interpolation, the align kernels and the polygons that give padding and centring are parameters.
* **C34** (partial; `C34_pairwise_partial`, `C34_accumulated`, `C34_fixed`, `C34_order_refuted`). Proved for translations; for other kinds the pairwise transformations are combined in the wrong order (C34_order_refuted, C34_accumulated states what is stored).
* **C35** (proved; `C35_nearest`, `C35_nearest_array`, `C35_own_point`, `C35_index`, `C35_empty`, `C35_string`, `C35_category`). Axis.locate on exact coordinates: first nearest point, own index on a strictly monotonic axis, integer indices on integer axes when asked, first most similar string (similarity ratios are an argument), first equal category or an error.
* **C36** (partial; `C36_construct`, `C36_construct_inc`, `C36_zapscan`, `C36_sequence_partial`, `C36_inc_sequence_partial`, `C36_points_refuted`, `C36_points_inc_refuted`, `C36_step_refuted`). Values stay consistent under any sequence of the implemented setters. Refuted: assigning start, end or step size adds one point each time; the inherited setters for the step of AxisRegular and the end of AxisRegularInc change the attribute but not the values.
* **C37** (partial; `C37_segments`, `C37_stepsizes`, `C37_endstep_refuted`, `C37_endstep_three_refuted`, `C37_stepsizes_rounded`, `C37_stepsizes_zero`). Number of points, limits, equal steps and step size setter proved for every number of segments with at least one step each. Refuted: the step size at the end is that of the second segment, so one segment raises IndexError and three give a wrong value.
* **C38** (partial; `C38_newstart`, `C38_newend`, `C38_newlimits_partial`, `C38_single_refuted`). Minimal covering on the grid of the axis proved for each limit separately and for both when the new start lies before the last point. Refuted when the new start leaves a single point: the step is lost and the new end raises.
* **C39** (partial; `C39_dependencies`, `C39_no_redo_partial`, `C39_run_partial`, `C39_alone_partial`, `C39_again_partial`, `C39_name_clash_refuted`, `C39_removed_refuted`, `C39_removed_output_refuted`). Every failure point (exception or signal after any number of chunks) and every interleaving with others that add members to the entry. Hypotheses: random temporary names unrelated to the output and to results of the same parameters, names without braces or newlines, stored parameters keep their hash. The refutations show what happens when the temporary name is related to an output. Not covered: the directory on disk next to the output, default plots, a dependency graph as a whole (a dependency is a checksum and a predicate on the file).
* **C40** (partial; `C40_prepare_partial`, `C40_sequence_partial`, `C40_sequence_unique`, `C40_sequence_distinct`, `C40_sequence_start`, `C40_first_free_partial`, `C40_next_entry_partial`, `C40_nonexisting_partial`, `C40_braces_refuted`, `C40_nonexisting_braces_refuted`, `C40_next_entry_refuted`, `C40_unlock_refuted`). Counters and searches for a free name: the result is the first free name of the numbered sequence. Partial: names without braces and non-negative counters; refutations show that a brace in the name makes the search endless, that the default entry name is not checked, and that unlocking locks.
* **C41** (partial; `C41_decompose`, `C41_decompose_unique`, `C41_increment_partial`, `C41_unnumbered_partial`, `C41_negative`, `C41_compose_partial`, `C41_compose_refuted`, `C41_braces_refuted`, `C41_match`, `C41_match_total`, `C41_increment_matches_partial`, `C41_matchfunc_refuted`). A name splits at its last number into three parts and is rebuilt by them, incrementing changes only the number; matching decides exactly the numbered family. Partial: names without braces and non-negative counters; refutations for braces, for losing and regaining digits, and for the match function that ignores its name.
* **C42** (partial; `C42_spectrum`, `C42_counter`, `C42_label_xia`, `C42_label_detector`, `C42_label_double`, `C42_label_plain`, `C42_radix_refuted`, `C42_empty_refuted`, `C42_sort`, `C42_sort_error`, `C42_order`). Spectra round-trip for every non-empty radix without slash or newline. Counters round-trip when the name of no earlier counter occurs after an underscore; a radix containing one is refuted. Sorting proved in full (order, permutation, stability, error).
* **C43** (partial; `C43_files`, `C43_files_all`, `C43_files_error`, `C43_selection_unique`, `C43_denotes_unique`, `C43_notation`, `C43_short_label_refuted`, `C43_counters`, `C43_counters_all`, `C43_counters_error`, `C43_counters_end_refuted`, `C43_number`). Spectra: exact selection for every pair of lists; xia5 is not the same as 5 (refuted). Counters: exact for detectors of two digits and numbers below 100; 0 also selects 100 and S0 selects sum (refuted).
* **C44** (partial; `C44_history_partial`, `C44_shape_partial`, `C44_add_partial`, `C44_remove_partial`, `C44_default`, `C44_sort`, `C44_again_refuted`, `C44_only_refuted`, `C44_link_refuted`, `C44_scalar_refuted`). Proved for every sequence of operations that never adds a listed name again, never links something missing and never removes the only signal; each of these three cases is refuted, as is the check of the dimensions after a signal without dimensions.
* **C45** (partial; `C45_twice_partial`, `C45_result_partial`, `C45_preserved`, `C45_served_partial`, `C45_occupied`, `C45_history_partial`, `C45_history_refuted`, `C45_stored_parameters_refuted`, `C45_checksum_partial`, `C45_checksum_refuted`, `C45_root_entry_partial`). The same request returns the same process, another one gets a matching unused name, and existing processes stay as they are, over every file and every sequence of requests. Partial: names without braces and parameters whose hash survives storing (a refutation shows a duplicate otherwise); across entries a later request may return another process (refuted), within one entry it may not (proved).
* **C46** (partial; `C46_history`, `C46_fuel`, `C46_balanced`, `C46_outermost_partial`, `C46_calls_partial`, `C46_lost_refuted`, `C46_hidden_refuted`, `C46_mode_refuted`). For every program of nested contexts, exceptions, failing openings and closings and waiting calls: one opening and one closing per outermost context, calls only after closing, nothing left behind. Every waiting call is made exactly once only when none before it raises: a raising one makes the rest disappear (refuted). The mode of an inner context is ignored (refuted).
* **C47** (partial; `C47_effective`, `C47_restricted`, `C47_readonly_partial`, `C47_only`, `C47_no_new`, `C47_existing`, `C47_new`, `C47_keeps`, `C47_round_trip_partial`, `C47_missing`, `C47_directory`, `C47_exclusive`, `C47_denied`, `C47_parent`, `C47_x_overwrites_refuted`, `C47_x_read_refuted`, `C47_w_overwrites_refuted`, `C47_link_refuted`, `C47_block_refuted`). Effect and errors of every mode on files, directories, chains of links, missing files and parents, without permission, over a model of the operating system's open. Paths in an exclusive mode cannot be read and empty existing files in mode w, paths in mode w empty files whatever is asked, and errors inside the block are reported as errors of the file (refuted).
* **C48** (partial; `C48_norm`, `C48_walk_unique`, `C48_canonical`, `C48_fixed`, `C48_child`, `C48_child_absolute`, `C48_parts`, `C48_root`, `C48_split_join`, `C48_sibling`, `C48_iterup`, `C48_common`, `C48_common_other`, `C48_relative`, `C48_relative_given`, `C48_relative_refuted`, `C48_device_known`, `C48_device_extension`, `C48_device_local`, `C48_detach`, `C48_node_child`, `C48_node_sibling`, `C48_detach_refuted`, `C48_node_child_refuted`, `C48_node_parent_refuted`, `C48_factory_refuted`, `C48_no_device`). Proved for every local path: norm, child, parent, name, sibling, iterup, common, relpath. Refuted: relative paths between the roots / and //; HDF5 locations of files without an extension; node names holding the separator after a dot; nodes whose path begins with the path of the file; files whose name extends the name of the current one. Proved for HDF5 paths outside these cases.
* **C49** (partial; `C49_once_partial`, `C49_at_least_once_partial`, `C49_suppress_partial`, `C49_setup_refuted`, `C49_teardown_refuted`, `C49_teardown_twice_refuted`, `C49_nested_refuted`, `C49_enter_refuted`, `C49_restore_refuted`, `C49_resend_refuted`, `C49_handler_partial`). Tear-down once with restored handlers for signals delivered in the block (any number, any order), at least once for signals anywhere after entering. Partial: set-up and tear-down do not raise and no signal while entering; refutations for each of those cases, and for a resent signal with default disposition, which does not end the block.
* **C50** (partial; `C50_make`, `C50_group_unique`, `C50_same`, `C50_print`, `C50_copy`, `C50_label`, `C50_equal`, `C50_text`, `C50_distinct`, `C50_error`, `C50_s_refuted`, `C50_prefix_refuted`, `C50_negative_refuted`, `C50_order_refuted`). Round trip, equality and hashing proved for non-negative detectors, sums and free names. Refuted: names starting with S raise, doubled prefixes and negative numbers are not read back, groups cannot be ordered (the sort key is a method).
* **C51** (partial; `C51_mask`, `C51_mask_error`, `C51_indices`, `C51_region`, `C51_found`, `C51_empty`, `C51_sliced`, `C51_within`, `C51_crop`, `C51_axes`, `C51_keeps`, `C51_user`, `C51_nothing_refuted`, `C51_negative_refuted`, `C51_user_negative_refuted`, `C51_nan_refuted`, `C51_user_end_refuted`, `C51_full_refuted`). Proved in full for stack dimensions counted from the front: exact hull of the chosen lines, slices and whole array agree, nothing valid is lost, cutting and axes exact. Refuted: stack dimension counted from the end, a NaN that is not the object np.nan, slicing when nothing is valid, user regions that count from the end when slicing.
* **C52** (partial; `C52_slice`, `C52_slice_error`, `C52_sliced`, `C52_sliced_error`, `C52_replace`, `C52_axes`, `C52_axes_refuted`, `C52_whole_refuted`). Proved for every elementwise operation, shape and stack dimension. Refuted: axes with a stack dimension counted from the end. Operations that look beyond the slice are shown to differ.
* **C53** (proved; `C53_encode`, `C53_monotone`, `C53_onto`, `C53_colour`). Over exact rationals in the unit interval.
* **C54** (partial; `C54_median`, `C54_median_unique`, `C54_length`, `C54_far_partial`, `C54_zero`, `C54_zero_refuted`, `C54_invariant`, `C54_half`, `C54_fixed`, `C54_fixed_cutoff`, `C54_sort`). Exactly the far values are flagged when the median absolute deviation is not zero; when it is zero nothing is flagged, however far (refuted). Invariance also for negative factors. The sort of numpy is any function that sorts; the invariance with a fixed number needs that it only looks at comparisons.
* **C55** (partial; `C55_floor`, `C55_ceil`, `C55_floor_inside`, `C55_ceil_inside`, `C55_floor_outside`, `C55_ceil_outside`, `C55_error`, `C55_array_refuted`). Proved for a single request; a request of several points returns a map object instead of numbers in Python 3 (refuted).
* **C56** (proved; `C56_ceil`, `C56_floor`, `C56_round`, `C56_fixed`, `C56_unit`, `C56_tie`, `C56_significant`, `C56_significant_exists`, `C56_relative`, `C56_zero`, `C56_lcm`, `C56_lcm_positive`, `C56_lcm_defined`, `C56_lcm_error`). Over exact rationals and any number of digits; significant digits too. The least common multiple of a list with at most one zero.
* **C57** (partial; `C57_equal_single_partial`, `C57_equal_product_refuted`, `C57_equal_reflexive_refuted`). Holds for single operators that are not lambdas; refuted for products because the comparison ignores the right factors.
* **C58** (proved; `C58_propagation`). np.linalg.inv is modelled exactly; floating-point near-singularity is outside the model. For square systems with given variances they must not be zero.
* **C59** (partial; `C59_fractions_restored`, `C59_ratios_restored`, `C59_ratios`, `C59_refused`, `C59_no_gaussian_refuted`, `C59_switched_off_refuted`). Holds when the Gaussian part is enabled and its fraction is not zero; refuted otherwise with concrete shapes. The shape integrals are parameters.
* **C60** (partial; `C60_setfraction_refuted`). The code violates it: on Python 3 every call that leaves other components raises TypeError (np.asarray(dict.values()) is a zero-dimensional object array). A compound given instead of a list of compounds is not modelled.
* **C61** (partial; `C61_image_partial`, `C61_affine`, `C61_projective`, `C61_stretch_refuted`, `C61_perspective_refuted`). True for translations, rigid and similarity mappings and for affine mappings with equal diagonal; for other affine mappings the transposed matrix samples the wrong pixel, and a perspective whose linear part is the identity is applied as a shift. Interpolation and borders are not modelled.
* **C62** (partial; `C62_translation`, `C62_outliers`, `C62_similarity`, `C62_affine`, `C62_rigid_partial`, `C62_rigid_refuted`, `C62_refused`). np.linalg.lstsq and svd are parameters assumed to return a least-squares solution and a singular value decomposition. The rigid case is right exactly when V is symmetric (the code uses V instead of its transpose); with ten or more key points the trimmed centroids are not covered for the rigid case.
* **C63** (partial; `C63_exact`, `C63_shape_partial`, `C63_precision_refuted`). Exact with zero tolerance; with a tolerance only the number of points and the two ends are kept, deviations add up beyond the tolerance.
* **C64** (partial; `C64_equal`, `C64_symmetric_refuted`). Pointwise characterisation proved; equality is not symmetric because only the precision of the left axis is used.
* **C65** (partial; `C65_interpolate`, `C65_single_refuted`). Proved for at least two points; an axis with one point raises IndexError.
* **C66** (partial; `C66_modes_partial`, `C66_keeps_partial`, `C66_no_new_partial`, `C66_new_mode_refuted`, `C66_truncates_refuted`, `C66_exists_refuted`). Holds for the modes r, r+ and a. A device in mode w is emptied at every opening of a node, one in mode x cannot be read and w- is refused (refuted). The contents of the HDF5 file are not modelled here, only what happens to the file.
* **C67** (partial; `C67_group`, `C67_groupmaps`, `C67_grouplines`, `C67_groupmaps2`, `C67_error`, `C67_detectors_sound`, `C67_detectors`, `C67_detectors_one`, `C67_detectors_refuted`). Grouping by radix, map and line proved in full. Grouping by detector is sound, and complete when no two files share detector and label or all do; with two lines and two detectors it loses files (refuted).
* **C68** (partial; `C68_weighted`, `C68_between`, `C68_mean`, `C68_one`, `C68_error`, `C68_broadcast_refuted`, `C68_list_refuted`). Proved for as many weights as values when one of them is a numpy array. An array with one weight gives the sum instead of the mean and two lists raise (refuted).
* **C69** (partial; `C69_equal`, `C69_common`, `C69_error`, `C69_nothing`, `C69_keep_refuted`, `C69_scalar_refuted`). Proved for all shapes. Refuted: with keep_shapes_when_equal the shape that needs no change is returned as () when another one changes; a scalar shape gets a dimension.
* **C70** (partial; `C70_boxes`, `C70_order`, `C70_error`, `C70_tile`, `C70_detector_refuted`, `C70_more_refuted`). Proved for scans without detector dimensions that fill the scan or are a single row with complete lines. Refuted: interrupted scans with detector dimensions fail with TypeError (the detector slices are appended twice); scans with more points than expected fail.
* **C71** (partial; `C71_stack`, `C71_detector`, `C71_single`, `C71_pixels_refuted`, `C71_rows_refuted`, `C71_short_refuted`, `C71_mesh_refuted`). Proved for scans without detector dimensions (complete or interrupted) and for complete scans with detectors. Refuted: interrupted scans with detectors mix pixels of different points; multi-row sources lose points in the middle; one scan stopped in its first line makes the merge fail; the map of mesh scans is never used.
* **C72** (partial; `C72_eval`, `C72_unknown_function_refuted`, `C72_unknown_variable_refuted`, `C72_sign_refuted`, `C72_malformed_refuted`, `C72_in_place_refuted`). Proved for all trees, white space and arithmetics, except nanone/nanzero applied directly to a variable, where the array is changed in place (C72_in_place_refuted). Also refuted: unknown functions and variables are worth zero instead of an error, a sign binds stronger than a power, the grammar accepts '2---'. The functions themselves (numpy) are parameters of the arithmetic.
* **C73** (partial; `C73_process`, `C73_general`, `C73_no_data`, `C73_other`, `C73_unique`, `C73_absent`, `C73_several`, `C73_fourth_refuted`, `C73_only_data`, `C73_only_data_refuted`). Proved for at most three names besides {} and, more generally, as long as no generated name is reserved. Refuted: the fourth name becomes var_e which is Euler's number; a template with {} only is not applied.
* **C74** (partial; `C74_to_stokes`, `C74_coherency`, `C74_coherency_back`, `C74_not_hermitian`, `C74_jones_roundtrip`, `C74_stokes_roundtrip`, `C74_lossy_error`, `C74_lossy`, `C74_fully_polarized`, `C74_degrees`, `C74_physical`, `C74_decompose`, `C74_set_intensity`, `C74_set_jones_intensity`, `C74_params`, `C74_params_form`, `C74_params_back`, `C74_params_error`, `C74_phase_refuted`). Proved over Coq's reals for all states, except that a Jones vector without first component loses the phase of the second (C74_phase_refuted). A state with the handedness 'none' but dop > dolp comes back left handed (C74_params_form). Exact arithmetic: the tolerances of np.allclose are not modelled.
* **C75** (partial; `C75_rotate_form`, `C75_thomson_form`, `C75_compton_form`, `C75_rotate_commutes`, `C75_rotate_twice`, `C75_rotate_keeps`, `C75_rotate_angle`, `C75_thomson_wave`, `C75_thomson_commutes`, `C75_thomson_intensity`, `C75_compton_intensity`, `C75_thomson_physical`, `C75_compton_physical`, `C75_compton_forward`, `C75_mueller_partial`, `C75_mueller_refuted`). Proved over Coq's reals, except the Mueller matrix of a Jones matrix: right for symmetric matrices (C75_mueller_partial), wrong for a rotation, where the intensity becomes negative (C75_mueller_refuted: np.kron(M, M^H) should be np.kron(M, conj M)).
* **C76** (partial; `C76_move`, `C76_files`, `C76_error`, `C76_refuses`, `C76_runs`, `C76_force`, `C76_across`, `C76_mkdir`, `C76_force_itself_refuted`, `C76_link_refuted`). Proved for moves without force through any links on one file system, and for moves with force or across file systems on paths without links. Not true of the code: with force, a destination that is the source loses it (C76_force_itself_refuted), and a destination or, across file systems, a source that is a link loses what the link points to (C76_link_refuted).
* **C77** (partial; `C77_recursive`, `C77_one`, `C77_missing`, `C77_link`, `C77_loop_refuted`, `C77_inside_refuted`). Proved, except that links in a cycle cannot be removed recursively (C77_loop_refuted) and that a link inside its own target raises after its target is gone (C77_inside_refuted). Recursive removal of a link is proved for one link to a file or directory.
* **C78** (partial; `C78_copy`, `C78_copy_force`, `C78_copy_keeps`, `C78_link`, `C78_link_followed`, `C78_temp_renamed`, `C78_temp_dropped`, `C78_temp_replaces`, `C78_temp_nothing`, `C78_temp_nameless`, `C78_copy_link_refuted`, `C78_copy_link_force_refuted`, `C78_copy_force_itself_refuted`). Proved for destinations whose directory exists; that nothing existing changes without force is proved for all. Not true of the code: a link cannot be copied, since copy passes the method linkdest instead of its result (C78_copy_link_refuted), and with force the destination is gone by then; a forced copy onto itself loses the data. Relative link targets, hard links and the option dereference are not modelled.
* **C79** (proved; `C79_compound`, `C79_repeat`, `C79_bernouilli`, `C79_reverse_add`, `C79_reverse_sub`, `C79_reverse_mult`, `C79_reverse_div`, `C79_back`, `C79_forth`, `C79_repeat_back`, `C79_poisson`, `C79_selection`, `C79_cascade`). Exact for distributions with finitely many values. reverse_mult and reverse_div are shown to undo the first-order formulas, which is what the code states.
* **C80** (partial; `C80_chain`, `C80_camera`, `C80_dark_refuted`, `C80_transmission`, `C80_nodark_refuted`, `C80_flux`, `C80_flat_refuted`, `C80_frames`, `C80_frames_refuted`). Not true of the code: the dark noise has a variance that grows with the square of the exposure time (C80_dark_refuted), a measurement without dark frames cannot be normalised (C80_nodark_refuted), flatfromflux forgets the frame time (C80_flat_refuted) and the number of flat frames ignores the time of a flat frame (C80_frames_refuted). Absorption, yields and quantum efficiency are parameters; the absorbance is not modelled.
* **C81** (partial; `C81_plane`, `C81_ellipsoid`, `C81_sphere`, `C81_cylinder`, `C81_point_refuted`, `C81_errors`, `C81_frame`, `C81_compose`). Not true of the code in one point: the cylinder documents a point of the space on the axis, but a point with n coordinates gives a surface in n+1 dimensions (C81_point_refuted). Everything else is proved over exact rationals for all dimensions.
* **C82** (partial; `C82_program_partial`, `C82_solution_partial`, `C82_nonneg`, `C82_norm`, `C82_single_refuted`, `C82_sparse`, `C82_sparse_entry`, `C82_column_refuted`, `C82_row_refuted`). The equivalence holds except that a single inequality is refused (C82_single_refuted), and a sparse matrix whose last columns or rows are empty loses variables or is refused (C82_column_refuted, C82_row_refuted). The solver itself (cvxopt) is outside the model.
* **C83** (partial; `C83_extrema`, `C83_maximum`, `C83_minimum`, `C83_nothing`, `C83_window`, `C83_window_error`, `C83_centroid`, `C83_within`, `C83_symmetric`, `C83_square`, `C83_centroid_image_partial`, `C83_axes_refuted`). Not true of the code for images: the centroid adds the offset along the columns to the row and the other way round (C83_axes_refuted; C83_centroid_image_partial gives what is computed). One dimension and the extrema are proved. The fits of a Gaussian are not modelled.
* **C84** (partial; `C84_names`, `C84_lists`, `C84_atmosphere`, `C84_atmosphere_refuted`, `C84_material`, `C84_named`, `C84_refused`, `C84_detector_filter`, `C84_next`, `C84_overwrite_refuted`, `C84_unnamed_refuted`, `C84_cover_refuted`, `C84_remove_beam`, `C84_remove_detector`, `C84_atmosphere_stays_refuted`, `C84_restored_refuted`, `C84_transmission`, `C84_range`, `C84_detector`, `C84_efficiency`, `C84_efficiency_range`, `C84_air_refuted`). Not true of the code in these points: a filter without a name gets the greatest number in use and replaces that filter (C84_overwrite_refuted, C84_unnamed_refuted, C84_cover_refuted); include_atmosphere of the detector filters is inverted, so the air is left out of the efficiency (C84_atmosphere_refuted, C84_air_refuted) and stays when filters are removed (C84_atmosphere_stays_refuted); a restored solid state detector has lost two attributes (C84_restored_refuted). The rest is proved; exact arithmetic over Coq's reals.
* **C85** (partial; `C85_solidangle`, `C85_distance`, `C85_cone`, `C85_monotone`, `C85_behind`, `C85_errors`, `C85_angles`, `C85_angles_sign`, `C85_angles_set`, `C85_motor`, `C85_set_distance`, `C85_set_position`, `C85_calibrated`, `C85_set_solidangle`, `C85_motor_errors`, `C85_unknown_refuted`, `C85_restored`, `C85_built`, `C85_preset`, `C85_preset_distances`, `C85_preset_sign_refuted`, `C85_preset_unit_refuted`, `C85_zerodistance`, `C85_distance_unset`, `C85_unsaved`). Not true of the code in these points: without a position the distance is a dictionary instead of None and the geometry cannot be saved (C85_unknown_refuted); the presets refuse or ignore a sign (C85_preset_sign_refuted) and take a plain zero distance in mm whatever the unit (C85_preset_unit_refuted). The rest is proved over Coq's reals. The fit of calibrate_fit is not modelled.
* **C86** (partial; `C86_conversions_partial`, `C86_counts_partial`, `C86_response`, `C86_response_errors`, `C86_no_oscillator`, `C86_normalise_to_flux`, `C86_normalise_to_counts`, `C86_normalise_errors`, `C86_dark_from_rate`, `C86_dark_from_current`, `C86_offset_from_dark`, `C86_counts_to_current_refuted`, `C86_dark_from_counts_refuted`). Not true of the code: counts cannot be converted to current or voltage, since op_countstocurrent multiplies a method and countstovoltage passes an argument too many (C86_counts_to_current_refuted), so that calibratedark with counts raises NotImplementedError (C86_dark_from_counts_refuted). Energies and weights are fixed, arrays are treated element by element, units are kinds (SI values).
* **C87** (partial; `C87_round_to_power`, `C87_setting_kept`, `C87_round_to_power_of_base`, `C87_round_to_multiple`, `C87_no_rounding`, `C87_no_setting`, `C87_resistance_and_current`, `C87_set_resistance`, `C87_set_resistance_of_current`, `C87_set_current`, `C87_set_current_of_resistance`, `C87_unknown_voltage`, `C87_gain_recovered_partial`, `C87_never_none`, `C87_negative_gain_refuted`, `C87_gain_from_counts_refuted`). Not true of the code: gainfromresponse never returns None (C87_never_none), gives negative or NaN gains from unusable responses (C87_negative_gain_refuted), and cannot take counts (C87_gain_from_counts_refuted). The rest is proved; logarithms are exact.
* **C88** (partial; `C88_weights`, `C88_default_weights`, `C88_weights_mismatch`, `C88_sample_weights`, `C88_charge_one_line_partial`, `C88_charge_target`, `C88_charge_many_lines_refuted`, `C88_simple_many_lines_refuted`, `C88_solidangle`, `C88_solidangle_direct_refuted`, `C88_fit_response`, `C88_fit_negative_dark`, `C88_flux_range`, `C88_fit_fixed_dark`, `C88_fit_no_points`). Not true of the code: n lines detected directly are counted n times when their charges are equal (C88_charge_many_lines_refuted); simple calibration with n lines gives n times the charge (C88_simple_many_lines_refuted); the calibration of the solid angle has no effect without secondary target (C88_solidangle_direct_refuted). The calibrations of thickness and optics (numerical root finding) are not modelled; weights that sum to zero are not modelled.
* **C89** (partial; `C89_setitem_partial`, `C89_other_arrays`, `C89_unknown_method`, `C89_order_refuted`, `C89_lists_apart_refuted`, `C89_add_twice_refuted`, `C89_newaxis_refuted`, `C89_broadcast_refuted`). Proved for indices without np.newaxis that satisfy `placed`, lists of equal length, numbers and values of the shape of the selection. Not true of the code otherwise: C89_order_refuted (values written to the wrong elements), C89_lists_apart_refuted, C89_add_twice_refuted, C89_newaxis_refuted, C89_broadcast_refuted. After an error in the loop the earlier assignments remain; the model only tells that there is an error.
* **C90** (partial; `C90_command`, `C90_nothing_else`, `C90_unambiguous`, `C90_cut_short_refuted`, `C90_fraction_refuted`, `C90_not_understood_refuted`). Completeness, soundness and uniqueness are proved for all texts; the layout must have a space after the name and an end after the last word. Not true of the code: C90_cut_short_refuted, C90_fraction_refuted, C90_not_understood_refuted. ASCII only: \d and \s also match other Unicode characters.
* **C91** (partial; `C91_zapline_values`, `C91_zapline_range`, `C91_ascan_values`, `C91_ascan_range`, `C91_ascan_pixelsize`, `C91_no_pixels`, `C91_zapline_pixelsize_refuted`, `C91_one_pixel_refuted`, `C91_dimensions_partial`, `C91_ascan_dimensions_refuted`, `C91_mesh_dimensions_refuted`, `C91_capital_refuted`, `C91_image_sizes_partial`, `C91_slow_size_refuted`, `C91_image_of_one_column_refuted`, `C91_submap_refuted`). Proved: values, ranges, scan sizes, pixel size of step scans, dimensions of a zapimage, numbers of points of an image. Not true of the code: C91_zapline_pixelsize_refuted, C91_one_pixel_refuted, C91_ascan_dimensions_refuted, C91_mesh_dimensions_refuted, C91_capital_refuted, C91_slow_size_refuted, C91_image_of_one_column_refuted, C91_submap_refuted.
* **C92** (partial; `C92_listed_partial`, `C92_entries`, `C92_groups`, `C92_groups_unique`, `C92_file_partial`, `C92_sum2_first_refuted`, `C92_sum2_drops_refuted`, `C92_few_repeats_refuted`, `C92_in_between_refuted`). The list is proved for files in which every scan that counts is a zapline or a SUM with a number of repeats; the grouping is proved for all lists and options. Not true of the code: C92_sum2_first_refuted, C92_sum2_drops_refuted, C92_few_repeats_refuted, C92_in_between_refuted.
* **C93** (partial; `C93_get`, `C93_get_missing`, `C93_keys`, `C93_items`, `C93_contains`, `C93_set`, `C93_delete`, `C93_update_recursive`, `C93_pinned_refuted`, `C93_pop`, `C93_pop_refuted`, `C93_clear_refuted`, `C93_dictionary_refuted`, `C93_stuck_refuted`, `C93_fromdict_refuted`, `C93_isinherited_refuted`). All trees; values are numbers (equality of content hashes as equality of numbers), nodes as values are not modelled. Not true of the code: C93_pinned_refuted, C93_pop_refuted, C93_clear_refuted, C93_dictionary_refuted, C93_stuck_refuted, C93_fromdict_refuted, C93_isinherited_refuted.
* **C94** (partial; `C94_parent`, `C94_parent_none`, `C94_parent_below`, `C94_parent_self`, `C94_branch`, `C94_root`, `C94_down`, `C94_remove`, `C94_remove_tree`, `C94_before`, `C94_after`, `C94_before_tree_partial`, `C94_before_hanging_refuted`, `C94_before_ancestor_refuted`, `C94_after_tree`, `C94_new`, `C94_new_top_refuted`, `C94_new_after_refuted`). All trees and nodes. Inserting a node with everything below it before x is proved where it does what it says (C94_before_tree_partial); the remaining cases are C94_before_hanging_refuted and C94_before_ancestor_refuted. Also not true of the code: C94_new_top_refuted, C94_new_after_refuted.
* **C95** (partial; `C95_reset`, `C95_changed`, `C95_values`, `C95_set`, `C95_annotated`, `C95_new_refuted`, `C95_mark_refuted`, `C95_deleted_refuted`, `C95_inherited_refuted`, `C95_dictionary_refuted`, `C95_marks`). All trees without dictionaries as values and all later states; different contents are taken to have different hashes. Not true of the code: C95_new_refuted, C95_mark_refuted, C95_deleted_refuted, C95_inherited_refuted, C95_dictionary_refuted.
* **C96** (partial; `C96_source`, `C96_size`, `C96_read`, `C96_read_outside`, `C96_write`, `C96_write_outside`, `C96_prepare`, `C96_copy_partial`, `C96_single_image_refuted`, `C96_profile_refuted`, `C96_dimension_refuted`, `C96_list_refuted`). All stacks with three dimensions. Datasets with one or two dimensions are accepted but not read as images: C96_single_image_refuted, C96_profile_refuted, C96_dimension_refuted. Arrays of different shapes are accepted in a list: C96_list_refuted. What an array holds after it got another shape is arbitrary in the model.
* **C97** (partial; `C97_names`, `C97_new`, `C97_overwrite_partial`, `C97_overwrite_other`, `C97_overwrite_none`, `C97_extension_refuted`, `C97_some_exist_refuted`, `C97_group_refuted`, `C97_files_distinct`, `C97_files_ordered`, `C97_files_new_partial`, `C97_files_end`, `C97_files_replaced_refuted`, `C97_files_extension_refuted`, `C97_files_loop_refuted`). All files and names; HDF5 is modelled as a list of objects with paths, globbing without special characters, the logarithm for the width is exact. Not true of the code: C97_extension_refuted, C97_some_exist_refuted, C97_group_refuted, C97_files_replaced_refuted, C97_files_extension_refuted, C97_files_loop_refuted.
* **C98** (partial; `C98_line_partial`, `C98_plane_partial`, `C98_previous`, `C98_flat_refuted`, `C98_faint_refuted`, `C98_rigid_refuted`, `C98_nan`, `C98_errors`, `C98_other_reference`). All images of any size; exact real numbers instead of floating point. The exact translation needs two neighbouring frequencies in each direction and a sum of squares above 1: without texture the translation is wrong (C98_flat_refuted), and a zero correlation counts as 1 (C98_faint_refuted). Rigid and similarity alignment return a constant: C98_rigid_refuted. Displacements by a fraction of a pixel are not covered.
* **C99** (partial; `C99_called_partial`, `C99_lazy`, `C99_eager`, `C99_fails`, `C99_divmod_refuted`, `C99_and_refuted`, `C99_not_refuted`, `C99_name`). All expressions of the supported operators over any values. A comparison of a value with a lazy function is turned around by Python, so its meaning needs that x<y is y>x (mirrored). divmod, and/or with a value on the left, and not do not do what the property says: C99_divmod_refuted, C99_and_refuted, C99_not_refuted. Attributes other than the operators and the composition of functions are not modelled.
* **C100** (partial; `C100_max`, `C100_min`, `C100_displaced`, `C100_centroid`, `C100_previous`, `C100_previous_first`, `C100_unsupported`, `C100_nothing`, `C100_integers`, `C100_error`, `C100_zero_refuted`, `C100_nan_refuted`, `C100_other_reference`). All images of any size with exact numbers. The Gaussian fit is an arbitrary procedure, so nothing is said about its marker. The minimum and maximum do not ignore missing pixels marked by zero (C100_zero_refuted), nor by a nan other than np.nan in a centroid (C100_nan_refuted). The displacement of the centroid needs the whole square around the maximum in both images; displacements by a fraction of a pixel are not covered.
* **C101** (partial; `C101_centred_partial`, `C101_offset_partial`, `C101_range_partial`, `C101_undisturbed`, `C101_pieces`, `C101_crop_refuted`, `C101_plain_refuted`, `C101_single_refuted`, `C101_nothing`). All equidistant axes of two points or more and all measured lines, with exact numbers. The latest begin must come before the expected last point (C38_single_refuted); the interpolation itself is not modelled. With crop the first and last position may be outside of a line by less than one step (C101_crop_refuted); an offset given as a plain number is an error (C101_plain_refuted), and so is an axis of one point (C101_single_refuted).
* **C102** (partial; `C102_expand_letter`, `C102_expand_case`, `C102_expandall`, `C102_expandall_empty`, `C102_split_refuted`, `C102_shrink`, `C102_shrink_order`, `C102_shrink_empty`, `C102_round_trip`, `C102_pymca`, `C102_line_name`, `C102_line_iupac`, `C102_line_from_name`, `C102_line_from_code`, `C102_line_unknown`, `C102_linename_unknown`, `C102_line_unknown_code`, `C102_equality_refuted`, `C102_all_lines`, `C102_select_energy`, `C102_select_shell`, `C102_energy_own`, `C102_energy_composite`, `C102_radrate_own`, `C102_radrate_composite`, `C102_shell`, `C102_shell_missing`, `C102_group`, `C102_group_plain`, `C102_group_refuted`, `C102_yield`, `C102_lines_stored`, `C102_yield_refuted`, `C102_shell_from_code`, `C102_shell_from_name`, `C102_shell_unknown`, `C102_line_less`). All names, tables and orders of iteration. The data of xraylib are parameters and Shell.factory is represented by the names it returns. Splitting shells loses the others (C102_split_refuted), two names of one line are unequal although both equal its code (C102_equality_refuted), K lines from O and P are in group K (C102_group_refuted) and asking for the yields of the lines changes the yield of the shell (C102_yield_refuted).
* **C103** (partial; `C103_weights`, `C103_sum_sources`, `C103_probabilities`, `C103_probabilities_density`, `C103_probabilities_type`, `C103_rates`, `C103_rates_type`, `C103_sorted`, `C103_sorted_stable`, `C103_np_max`, `C103_lines_total`, `C103_power`, `C103_power_type`, `C103_compton`, `C103_no_angle`, `C103_dict_refuted`, `C103_energysource_refuted`, `C103_groupspectra_refuted`, `C103_groups`, `C103_lineinfo`, `C103_channel`, `C103_channel_low`, `C103_channel_back`, `C103_channel_mono`, `C103_channels`, `C103_energies`, `C103_limits`, `C103_no_limits`, `C103_calibration`, `C103_sum`, `C103_sum_type`, `C103_sum_function`, `C103_sum_frozen`, `C103_shared_refuted`, `C103_half_refuted`). Profiles, plots, noise and division by a zero sum of weights are not modelled; numbers are exact; lines with several values outside of scattering are not described by lineinfo.
* **C104** (partial; `C104_devices_agree`, `C104_new_devices_agree`, `C104_failures_change_nothing_partial`, `C104_geometries`, `C104_one_geometry`, `C104_positions`, `C104_state`, `C104_equal`, `C104_equal_refuted`, `C104_reference_partial`, `C104_normalise_to_flux`, `C104_normalise_to_counts`, `C104_normalise_without_diode`, `C104_number_as_flux_refuted`, `C104_quantification_refuted`, `C104_quantification_without_geometry`, `C104_flux_before_sample`, `C104_flux_after_sample`, `C104_flux_errors`). Refuted: without default exposure time a geometry is not equal to itself (NaN); the ValueError of the reference setter is unreachable (TypeError of pint); a plain number as flux reference is always counts; quantinfo fails for every geometry (no getxrfdistance); a failing assignment of XRF geometries loses the previous ones. Missing: weights and energies (fixed), plots, reading of spec files, shared devices.
* **C105** (partial; `C105_validated_data`, `C105_currents_at_id21_refuted`, `C105_response_for_gain`, `C105_close`, `C105_gain`, `C105_different_gains_refuted`, `C105_usage_unknown`, `C105_device_used`, `C105_unused_device_refuted`, `C105_dark_is_optional_refuted`, `C105_prepared`, `C105_device_from_motors`, `C105_counters`, `C105_metadata_refuted`, `C105_location`). Refuted: currents without unit at ID21 (unit Hz), differing gains below 1e-8 are not seen, a device of another class is not replaced and an unused device not removed when resetting, calibrate_diodes needs the optional dark, metadata lost in the state and ignored by equality. Missing: reading spec files, the fits of the calibration, units other than those of the dimensions.
* **C106** (partial; `C106_magnitude`, `C106_magnitudes`, `C106_magnitudes_of_a_quantity`, `C106_magnitude_refused`, `C106_number_taken_in_unit`, `C106_numbers_taken_in_unit`, `C106_quantity_in_unit`, `C106_quantities_in_unit`, `C106_quantity_in_unit_refused`, `C106_array`, `C106_array_refused`, `C106_array_of_one`, `C106_scalar_restored`, `C106_array_of_array`, `C106_empty_array_refuted`, `C106_quantity_scalar`, `C106_quantity_default`, `C106_quantity_array`, `C106_quantity_numbers`, `C106_quantity_quantities`, `C106_quantity_mixed`, `C106_quantity_number_first`, `C106_units_when_not_present_refuted`, `C106_like_units`, `C106_like_number`, `C106_like_quantity`, `C106_like_other_dimension`, `C106_like_different_units`, `C106_first_unit`, `C106_first_unit_array`, `C106_no_unit`, `C106_operator_numbers`, `C106_operator_quantities`, `C106_operator_dimensions`, `C106_operator_number_right`, `C106_operator_symmetry_refuted`). Refuted: empty lists raise StopIteration or IndexError, dimensionless quantities behind a plain number get the given units, a number on the left of a quantity is refused by operators while a number on the right is accepted. Missing: arrays of more than one dimension and of dimension zero, sets, uncertainties, conversions that are not proportional (spectroscopy, temperature).
* **C107** (partial; `C107_lines`, `C107_intensities`, `C107_number_of_lines`, `C107_total`, `C107_created`, `C107_ratios`, `C107_sample`, `C107_sample_between`, `C107_sample_constant`, `C107_sample_empty_table`, `C107_sample_dark`, `C107_no_intensities_refuted`, `C107_ratios_zero_refuted`, `C107_sample_zero_refuted`, `C107_no_lines_given`, `C107_dark`, `C107_dark_lines_refuted`, `C107_dark_add_refuted`, `C107_dark_operator_refuted`). Refuted: without intensities the ratios and samples are not finite, a dark spectrum has one line, adding to a dark spectrum gives None and its method adds lines. Missing: units of the lines other than a given conversion, intensities with another unit, floating point rounding.
* **C108** (partial; `C108_rebin`, `C108_rebin_conserves`, `C108_rebin_zero`, `C108_raw`, `C108_intensity`, `C108_recovered`, `C108_no_image`, `C108_not_exposed`, `C108_axis`, `C108_axis_region`, `C108_axis_zero`, `C108_axes`, `C108_axis_outside_refuted`, `C108_axis_reversed`, `C108_header_region`, `C108_no_header_region`, `C108_header_region_refuted`, `C108_library`, `C108_no_data`, `C108_no_data_error`, `C108_normalized`, `C108_not_normalized`, `C108_order`, `C108_flats_refuted`, `C108_no_flat`). Refuted: a region that ends outside the image gives axes longer than the image, an incomplete region in a header is an IndexError, a key without flats (or with one flat when taken before and after) stops the process with a TypeError. Missing: reading files and headers, the negative logarithm, broadcasting of images of different shape, floating point rounding.
* **C109** (partial; `C109_sum`, `C109_max`, `C109_nansum`, `C109_value`, `C109_mean_refuted`, `C109_infinite_refuted`). merging of sums, sums without NaN and maxima, and the value of expressions built step by step; merging means changes the value (refuted), and infinities in sums without NaN (refuted); shapes of images and reading of files are not modelled
* **C110** (partial; `C110_groups_partial`, `C110_all`, `C110_text_refuted`, `C110_empty_refuted`, `C110_repeated_refuted`, `C110_added`, `C110_total`, `C110_function`, `C110_value`, `C110_sum`, `C110_sorted`, `C110_rows`). plan of the sums for detectors given by number, results of one and two levels of sums, their values and corrections, sorting and export; sums given by name in a list, empty groups and repeated detectors are refuted; fitting and the writing of files are not modelled
* **C111** (partial; `C111_axes`, `C111_range`, `C111_range_degenerate`, `C111_flip`, `C111_flip_order`, `C111_flip_increasing`, `C111_flip_twice_refuted`, `C111_flip_mirrored_refuted`, `C111_originzero`, `C111_originzero_total`, `C111_originzero_twice_refuted`, `C111_reset_refuted`, `C111_originreset_refuted`, `C111_limits`, `C111_pixel`, `C111_single_refuted`, `C111_empty`, `C111_yunit_refuted`, `C111_aspect_transpose`, `C111_aspect`, `C111_modify_x`, `C111_modify_y`, `C111_modify_decreasing_refuted`). The axes, new ranges, single flips, display limits, pixel positions, aspect ratios and scene_modifyaxes are proved. The *_refuted theorems show that a mirrored axis cannot be flipped back while keeping its order, that originzero is only right without an earlier offset, that resetting the range moves the second axis by one, that resetting the origin negates the offset, that images of one row or column have no limits, that the unit text of y is the one of x and that a decreasing axis is ignored without a flip. Units of one axis are not mixed; rounding and drawing are not modelled.
* **C112** (partial; `C112_channels`, `C112_channels_list`, `C112_channels_list_total`, `C112_channels_default_refuted`, `C112_channels_setting_refuted`, `C112_channels_tuple`, `C112_data`, `C112_data_error`, `C112_data_plain`, `C112_label`, `C112_vmin`, `C112_vmax`, `C112_vminmax_none`, `C112_selfscale`, `C112_global_low`, `C112_global_high_refuted`, `C112_global_high_any_refuted`, `C112_global_refuted`, `C112_global_total`, `C112_absolute`, `C112_unscaled`, `C112_global_empty`). Channels given as lists, data of channels, limits of scenes, scaling of one image and scaling with a lower fraction are proved. The *_refuted theorems show that images with two channels fail by default, that reading two channels changes the setting, that an upper fraction alone fails and that with both fractions the upper limit is at their sum. Percentiles (ptrim) and colorbar units are not modelled.
* **C113** (partial; `C113_detectors`, `C113_scans_refuted`, `C113_all`, `C113_number_partial`, `C113_few_refuted`, `C113_detnums`, `C113_sum`, `C113_single`, `C113_nothing`, `C113_corrected`, `C113_raw`). With one scan name and equally many files per detector the groups are the files of each detector; no file is lost. C113_scans_refuted: with as many scan names as detectors the groups are scans instead of detectors. C113_few_refuted: fewer files than detectors is an error. The number of groups is only bounded from below, and the example shows it can be larger. The files found on disk are a parameter; the code searches them by a mask with the data directory and the scan name, whether outname and the scan name given to PyMca match that mask is not modelled. PyMca and the writing of files are not modelled.
* **C114** (partial; `C114_time`, `C114_progress`, `C114_finished`, `C114_fine`, `C114_start_refuted`, `C114_error`, `C114_days_refuted`). Times, proportions, the end and fine steps are proved with exact numbers. C114_start_refuted: printing before the first step is a ZeroDivisionError; C114_days_refuted: whole days of elapsed time are forgotten. Rounding and logging are not modelled.
* **C115** (partial; `C115_item`, `C115_outside`, `C115_values_partial`, `C115_values_fail_refuted`, `C115_values_transposed_refuted`, `C115_stack`, `C115_signal_stack_refuted`, `C115_signal_range_refuted`, `C115_signal_default_refuted`, `C115_inplace_refuted`). Items, errors of indices and the stack dimensions of grids of signals are proved. The values are the items when the stack dimension is the first; C115_values_*_refuted: with the second dimension they fail or are transposed. C115_signal_*_refuted: the stack dimensions of the grid of one signal are shifted although no axis was added. C115_inplace_refuted: in-place operations return None. Slices (see the properties on indexing), files, negative dimensions and operations with arrays are not modelled here.
* **C116** (partial; `C116_items`, `C116_image`, `C116_all_items`, `C116_all_items_refuted`, `C116_list_refuted`, `C116_default_refuted`, `C116_display`, `C116_display_total`, `C116_shape`, `C116_order`, `C116_names_refuted`, `C116_spectra_partial`, `C116_spectra_refuted`). Items given as values or tuples, their images, channels and labels, the order and shape of the axes and spectra with labels for each file are proved. The *_refuted theorems show that without items a grid with two stack dimensions cannot be displayed, that lists are not accepted as items, that the default -1 of the second stack axis is the first image when its coordinates are positive and not integers, that the names given for the axes are ignored and that without labels only the first file is used. With one image axis the transposition is not modelled; instruments, units, interpolation and reading of files are not modelled.
* **C117** (partial; `C117_sources`, `C117_entries`, `C117_order`, `C117_order_nan`, `C117_incomplete_refuted`, `C117_dropped_refuted`, `C117_fscan2d`, `C117_l2scan`, `C117_other_scan`, `C117_title_errors`, `C117_first_entry`, `C117_shape_refuted`, `C117_no_shape_refuted`, `C117_axes`, `C117_no_positioner_refuted`, `C117_reference_names`, `C117_reference_unknown`, `C117_reference_as_given`, `C117_reference_fraction`, `C117_reference_end_refuted`, `C117_raw_none`, `C117_raw_both`, `C117_raw_one`). Grouping, ordering, titles, sizes of axes and parameters of the alignment are proved in general; violations of the statement are stated as _refuted theorems. Values of floats are rationals and the sort is stable (numpy's default may order equal positions differently).
* **C118** (partial; `C118_layout`, `C118_scan`, `C118_scan_saved`, `C118_channels`, `C118_calibration_refuted`, `C118_saved_unreadable_refuted`, `C118_read`, `C118_bad_channels`). Layout, reader, header and the reading without calibration are proved for all spectra; reading with a calibration is refuted in general. Formatting of numbers and the reading of files by PyMca are not modelled.
* **C119** (partial; `C119_kept`, `C119_filtered`, `C119_missing_refuted`, `C119_known_class`, `C119_unknown_class`, `C119_no_output`, `C119_process`, `C119_path_refuted`, `C119_replace`, `C119_other_nan_refuted`, `C119_process_known`, `C119_given_twice`). Proved for all parameters, with the required, optional and default parameters of each class as arguments; violations of the statement are _refuted theorems. Dependencies and the parent of the output are only present or not.
* **C120** (partial; `C120_rows`, `C120_columns`, `C120_diagonal`, `C120_contiguous`, `C120_wrong_rank`, `C120_wrong_shape`, `C120_one_dimension_refuted`). Proved for all shapes, repetitions and strides with distinct places; sources with one dimension are refuted. Strides are in elements and the first element is at offset 0.
* **C121** (partial; `C121_selected`, `C121_no_name`, `C121_first_refuted`, `C121_marked`, `C121_signal`, `C121_lost_refuted`). Proved for all lists of plots and all depths; violations of the statement are _refuted theorems. Time stamps are left out; a path is the list of its groups.
* **C122** (partial; `C122_matching`, `C122_matching_once_refuted`, `C122_sum`, `C122_integer_refuted`, `C122_dtcor`, `C122_dtcor_twice_refuted`, `C122_link`, `C122_link_refuted`, `C122_errors`, `C122_no_livetime`, `C122_no_livetime_dtcor`, `C122_events_refuted`, `C122_counter_refuted`). Proved for all detectors, counts, live times and blocks over exact rationals; violations of the statement are _refuted theorems. Files, links, rounding and copies of counters are left out.
* **C123** (partial; `C123_classes`, `C123_configurations`, `C123_errors`, `C123_sum`, `C123_counters_refuted`, `C123_counter_shapes`). Proved for every fit function and all detectors, configurations and counters; violations of the statement are part of C123_sum (lost signals, sums of mass fractions) and _refuted theorems. Files, renaming of outputs and broadcasting of shapes are left out.
* **C124** (partial; `C124_groups`, `C124_sound`, `C124_double`, `C124_axes`, `C124_no_axes_refuted`, `C124_other`, `C124_data`, `C124_name`). Proved for all lists of plots and every comparison of axes; violations of the statement are C124_no_axes_refuted and C124_name. Reading of files is left out.
* **C125** (partial; `C125_all`, `C125_selected`, `C125_number_refuted`, `C125_range_refuted`, `C125_printed`, `C125_sequential`). Proved for all jobs, options and tasks; violations of the statement are _refuted theorems. Parsing of the command line, logging and run_parallel are left out.
* **C126** (partial; `C126_set`, `C126_restore`, `C126_errors`, `C126_above_refuted`, `C126_thickness`, `C126_full_thickness`, `C126_missing`). Proved for all fractions and percentages over exact rationals; the violation is C126_above_refuted. Conversions between mass, mole and volume fractions are those of C25; cost functions and optimisation are left out.
* **C127** (partial; `C127_array`, `C127_number`, `C127_shapes`). Proved for all shapes and values, given that xraylib_np agrees with xraylib when it returns. Units, data frames and applypost=False are left out.

## Testing the theorems against wrong programs

`seeded/LOG.jsonl` has one line per edit of a model definition that a realistic
bug would make: the definition, the edit, the claim it breaks, the theorems that
stop proving, and the theorems that were tightened because of it. Edits that
change nothing observable (equivalent programs) are marked as such in the edit.

## Which parts of the code are modelled

From the header of each model file:

* `AlignModel.v`: Model of src/spectrocrunch/align/align.py: padding and cropping of aligned images and of their axes, and the loop that calculates and applies the transformations.
* `AlignfftModel.v`: Model of src/spectrocrunch/align/alignFFT.py and of what it uses of math/center.py. Numbers are exact real numbers (no rounding). Images are the two-dimensional arrays the image sources return, a pixel is a number or nan (None). Not modelled: the method "fit" (a least squares fit of scipy), numpy's broadcasting between images of different shapes (ValueError here), the log-polar transform behind rotations and scaling, plots and prints.
* `AlignsimpleModel.v`: Model of src/spectrocrunch/align/alignSimple.py on the model of math/center.py. Images are two-dimensional arrays of numbers and nan; integers tells whether the dtype is an integer (then no pixel is nan). The Gaussian fits (center._fit) are arbitrary procedures.
* `AxisModel.v`: Axes of a data grid: /repo/src/spectrocrunch/process/axis.py Simplifications, for the whole file: - an axis of type "quantitative" carries exact rationals in one unit; unit conversion (pint) is not modelled, nor are the name and the title; - floating point rounding is not modelled; - an axis object is the value of its attributes: a setter returns the axis after the assignment.
* `BatchModel.v`: Model of src/spectrocrunch/pipelines/batch.py (which jobs are executed) and run_sequential of pipelines/run.py. Parsing of the command line, logging and the text of the list of jobs are left out: a job is its name, a call raises or not.
* `BlissfitModel.v`: Model of src/spectrocrunch/process/nxblisspymca.py: fit of the spectra of all detectors and sum of the results. A signal is the list of its values (rationals); the fit is a function of configuration and detector that gives the signals by group. Files, links, the renaming of outputs and broadcasting of shapes are left out.
* `CacheModel.v`: Model of src/spectrocrunch/utils/cache.py
* `CenterModel.v`: Model of src/spectrocrunch/math/center.py. A value is a number or nan (None). One-dimensional data are lists (numpy: data.flat), two-dimensional data have a shape and a value at each position; data with a single row or column, or without values, are one-dimensional to the code. A result that is not finite is None. Not modelled: the Gaussian fits (_fit); foptimize takes any procedure.
* `ChargeModel.v`: Model of the charge per photon in detectors/diode.py (583-950), of the normalised line weights in materials/utils.py (20-70), and of the calibration against another diode (diode.py 1762-1858). One source with any number of lines; exact numbers. Transmissions, the charge per diode photon and the spectrum of a secondary target are functions.
* `ClassFactoryModel.v`: Model of src/spectrocrunch/utils/classfactory.py
* `CsutilsModel.v`: Model of src/spectrocrunch/materials/csutils.py (eval): tables of cross sections of elements and energies. An array is its shape and its values in C order; atomic numbers, energies and values are of any type; units, data frames and applypost=False are left out (lines 20-21, 69-70 and 75).
* `DefaultplotModel.v`: Model of the default plot: src/spectrocrunch/process/nxutils.py:set_default and src/spectrocrunch/io/nxfs.py:Path.mark_default. NXdata groups are those of PlotModel. A path is the list of its groups (name and NX_class, None without class) from the path up to the root.
* `DetModel.v`: Model of src/spectrocrunch/detectors/base.py: the attenuators of a detector (class Material) and the state of SolidState. A is an attenuator: a material with a thickness in cm (numbers and quantities are the same to the code after units.umagnitude). Names are texts of ASCII characters. Not modelled: the conversion to and from PyMca and fisx, texts for the user. The numbers (absorbance and so on) are in DetOptics.v.
* `DiodeModel.v`: Model of src/spectrocrunch/detectors/diode.py: conversions between flux, current, voltage, counts per second and counts of a PN-diode, its gain, and its calibration. Operators are those of math/linop.py (LinopModel.v). The energies and their weights are fixed, they only enter through the charge per sample photon (see ChargeModel.v). Numbers are exact in SI units and arrays are treated element by element; pint's DimensionalityError is a TypeError.
* `DiskModel.v`: Model of the file operations of src/spectrocrunch/io/localfs.py (mkdir, move, copy, remove, link, linkdest) and of the generic ones in src/spectrocrunch/io/fs.py (_copy_move_prepare, _move_copyrenamedel, _mkdir_prepare, randomnode, renameremove, temp). A disk is a tree of files, directories and symbolic links; a Path object is its normalised absolute path, a list of names (C48 covers the text of paths). The functions os_* model the operating system: links are followed in every directory of a path, at most [maxlinks] of them. An operation gives a result and the disk that is left, also when it raises. [device] tells on which file system a directory is. Not modelled: hard links, permissions, concurrency, the option dereference, a copy of a directory into itself (Python copies until the path is too long; here it is refused). The root directory cannot be changed.
* `EmspectrumModel.v`: Model of src/spectrocrunch/sources/emspectrum.py: discrete and dark spectra, which are lookup tables of intensities. Lines are in keV (the unit of the first data), intensities are plain numbers; numbers are exact and None stands for a number that is not finite (nan, inf).
* `ExprModel.v`: Model of src/spectrocrunch/process/nxexpression.py: the expression parser (113-275) and the task that evaluates an expression for every signal (18-110). The grammar is that of 126-199 with the behaviour of pyparsing: white space is skipped before every token (not inside a number), alternatives are tried in order without going back once one of them matched, and what a parse action pushed stays on the stack when the alternative fails later. Values (arrays, numbers) and the numpy functions are parameters, collected in [alg]. Variables are values already read; the cases of a variable that is a path or data set (255-265) are not modelled.
* `FfsetupModel.v`: Model of src/spectrocrunch/fullfield/estimate_id21.py 15-63 (FFsetup): the amount of one compound in a layer. A layer is the fractions of its compounds by name (mass fractions or volume fractions, conversions between them are in StoichModel) and its thickness; numbers are rationals, a division by zero is ZeroDivisionError (numpy gives inf or nan).
* `FitModel.v`: Model of the straight-line fits and of the error propagation of linear least squares in src/spectrocrunch/math/fit1d.py. Numbers are exact; None is a value that is not finite (inf or nan). Standard deviations are modelled by their squares.
* `FormulaModel.v`: Model of src/spectrocrunch/materials/compoundfromformula.py (FormulaParser). A string is a list of ASCII characters; every other character behaves as one that occurs nowhere in the grammar. The pyparsing primitives used are modelled from their documentation: Word, Literal, Combine (no white space inside), Optional, MatchFirst, OneOrMore (greedy, no backtracking), Group; blanks (space, tab, newline, return) are skipped before a token. Numbers are exact. Python's recursion limit is not modelled.
* `FtComplexModel.v`: The complex numbers over Coq's real numbers, as the number type of FtModel. This is mathematics, not a model of the repository: floating point rounding is not modelled.
* `FtModel.v`: Model of src/spectrocrunch/math/ft.py. Numbers are exact; complex numbers are an abstract type with the operations the code uses.
* `FullfieldModel.v`: Model of src/spectrocrunch/fullfield/import_id21.py and src/spectrocrunch/process/nxfullfield.py: dark, flat and data images. An image has a number of rows and columns and exact pixel values; a result that is not finite (division by zero) is None. Opening files, the conversion of header values to numbers ([number]) and broadcasting of images of different shape are not modelled; the negative logarithm of the transmission is not taken.
* `GeomModel.v`: Model of src/spectrocrunch/geometries/base.py (FlatSample, Centric), geometries/xrf.py (LinearMotor, LinearXRFGeometry and its presets) and CentricCone.solidangle_calc of detectors/base.py 386-409. Numbers are real numbers, lengths are in cm and areas in cm^2 (pint keeps track of other units: a length that is a plain number gets the unit of the place). Random variables are replaced by their mean. The fit of calibrate_fit and the calibration files are not modelled.
* `GridModel.v`: Model of regular grids processed as a whole or slice by slice, and of cropping: src/spectrocrunch/process/regulargrid.py 39-81 (sliceinfo), src/spectrocrunch/process/nxregulargrid.py 73-125 (_execute_grid, _prepare_process), 160-200, src/spectrocrunch/process/h5regulargrid.py 52-62 (position of the axis of signals), src/spectrocrunch/process/nxcrop.py 22-112, nxreplace.py 6-17. Arrays are functions of the index with a shape; data types (and rounding to them), the files that hold the arrays and logging are not modelled.
* `GriddataModel.v`: Model of src/spectrocrunch/process/nxresult.py 79-126 (regulargriddata): the signals of a result by group. Axes and signals are of any type, axes with their comparison; files are left out.
* `GroupModel.v`: Model of src/spectrocrunch/process/nxresult.py 7-72 (Group) with the comparisons of src/spectrocrunch/utils/comparable.py and utils/hashable.py. Numbers are integers (a float makes "{:02d}" raise, which is not modelled); text is ASCII.
* `H5gridModel.v`: Model of src/spectrocrunch/process/h5regulargrid.py: the values, the items and the stack dimensions of grids of signals. Signals are arrays of one shape; files, slices (utils/indexing.py, modelled in IndexingModel) and negative dimensions are not modelled here.
* `HashModel.v`: Model of src/spectrocrunch/utils/hashing.py and io/target.py:calc_checksum
* `IndexingModel.v`: Model of src/spectrocrunch/utils/indexing.py
* `IntegerBaseModel.v`: Model of src/spectrocrunch/utils/integerbase.py
* `LazyfuncModel.v`: Model of src/spectrocrunch/math/lazy.py: Function with Python's dispatch of operators. V are the values that are not lazy; binary and unary are Python's operators on them, show is str. The operators of these values do not know Function (they return NotImplemented), which excludes numpy arrays on the left. Args are the positional and keyword arguments of a call.
* `LinopModel.v`: Model of src/spectrocrunch/math/linop.py on dimensionless scalars (arrays are treated element by element by the code). Numbers are exact; signed zeros are not distinguished.
* `ListToolsModel.v`: Model of src/spectrocrunch/utils/listtools.py
* `LutModel.v`: Model of src/spectrocrunch/utils/lut.py (numbers as exact rationals, one fixed unit for x and one for y).
* `MaketaskModel.v`: Model of the creation of tasks: process/utils.py, the parameters of process/basetask.py (with process/nxprocess.py 15-18), process/nxwrap.py, process/nxprocesswrap.py and process/nxreplace.py. Dependencies and the parent of the output are only present or not.
* `MatModel.v`: Square systems of linear equations: src/spectrocrunch/math/linalg.py. Numbers are exact; np.linalg.det is the determinant (Laplace expansion).
* `McafileModel.v`: Model of src/spectrocrunch/io/mca.py: spectra in the SPEC format. A text is a list of tokens; a number is the token of its value ("%.8g " and its rounding are not modelled). The reading of files (io/spec.py, PyMca) is not modelled: the header lines and the numbers it returns are arguments.
* `McapreModel.v`: Model of src/spectrocrunch/process/nxblissmcapre.py: preparation of XRF spectra. A detector is a name with its counts by pixel and channel and its counters; numbers are rationals, None is inf or nan. Pixels and channels are numbered (the blocks of slice_generator are sets of them); rounding of floats is left out. Files, links and types of groups are left out: an output is a name with its values.
* `MergeModel.v`: Model of merging scans into virtual data sets: src/spectrocrunch/process/h5merge.py 31-52 (match_shapes), 55-61 (layout_slicing), 64-65 (max_shape), 68-91 (tile_indices), 94-159 (stack_h5datasets), 162-217 (tile_h5datasets), 334-345 (shape_map of a mesh), and src/spectrocrunch/math/utils.py 73-77 (lcm) on numpy integers. The elements of a virtual data set are those of the selection in the source, both in C order, as HDF5 maps them. Data types, links, groups and files are not modelled. numpy integer division by zero gives 0 (with a warning), as division of nat does here.
* `ModeModel.v`: Model of the opening modes: src/spectrocrunch/io/localfs.py:23-105 and the part of src/spectrocrunch/io/h5fs.py that decides in which mode an HDF5 file is opened (299-346, 391-420). The operating system's open() is part of the model (os_open): Linux, Python 3 text files, without encoding, new-line translation and buffering (a write is in the file at once), and nobody else changing the files in between.
* `NameModel.v`: Model of src/spectrocrunch/io/target.py (names with a counter) and of the places that search a free name: io/fs.py:Path.nonexisting_name, io/nxfs.py:Path.next_nxentry_name. The file system is an oracle `ex` telling which names exist in the parent; names are taken literally (a name with a path separator or ".." is not resolved).
* `NoiseModel.v`: Model of src/spectrocrunch/math/noisepropagation.py and of the full-field chain that uses it: materials/multilayer.py propagate, materials/scintillators.py propagate, materials/lenses.py propagate, detectors/area.py propagate and simulation/calcnoise.py. A random variable is its expected value and its variance, exact rationals; Python keeps the standard deviation, the square root of the variance. A negative variance has no standard deviation: Python goes on with nan or a complex number, here that is Err ValueError. One number per call: arrays are applied element by element (propagate_broadcast). Absorption, transmission, light yield and quantum efficiency are parameters; division by zero is ZeroDivisionError (numpy: inf or nan with a warning). Not modelled: units, correlations between variables made in one call (the package uncertainties).
* `NumpyModel.v`: The part of numpy that the modelled code relies on: n-dimensional arrays, indexing (slices, integers, lists, np.newaxis, Ellipsis), np.stack, np.transpose. This is a model of a library, not of the repository.
* `NxlazyModel.v`: Model of src/spectrocrunch/process/nxlazy.py: lazy expressions of images, for one pixel. The functions that reduce a list (sum, nansum, nanmean, nanmax) get a generator (unpackargs=False), the others get their arguments, as in process/nxpymca.py. Floating point rounding and reading of files are not modelled.
* `OpenModel.v`: Model of src/spectrocrunch/io/fs.py:79-146 (File.open, File._closectx, onclose): re-entrant opening of one file object and the calls that wait until it is closed. The code that uses the file is a program; opening and closing the real file (_fopen of the subclass) succeed or raise as given with each context. Handles are numbered in the order of opening; they count as true (onclose tests "if self._handle", open "is None"). Threads and generators that are suspended inside a context are left out.
* `ParamModel.v`: Parameters that are inherited along a tree of nodes (pipelines/parameters.py): the links of the nodes and how they are rearranged, the values that are seen, set and deleted at a node, and the record of what was changed. Python objects are numbers into a list of cells. Keys are numbers: they are only compared. A value is a number, the equality of content hashes (hashing.hashequal, C03 and C04) being the equality of numbers; the only other value is a SubNode, which can only exist empty (see setitem). Nodes as values of parameters, names and the texts of __repr__ and tree are not modelled.
* `ParsexiaModel.v`: Model of src/spectrocrunch/xrf/parse_xia.py: parse_xia_esrf. XiaCorrect.parseFiles and correctFiles of PyMca and the globbing of its output are parameters: the parsed files and the files found. File names compare as (directory and scan name, detector, scan number, line), the first being represented by its rank.
* `PathModel.v`: Model of the path operations of src/spectrocrunch/io/fs.py:Path, for local paths (io/localfs.py) and HDF5 paths (io/h5fs.py), with Python's posixpath functions they call. The separator is "/" everywhere (Linux), so that _sep_in and _sep_out (437-450) change nothing. The current directory is a parameter.
* `PeakModel.v`: Model of the conversion between the two descriptions of the detector peak shape in src/spectrocrunch/detectors/xrf.py. Numbers are exact. The integrals over the peak shape (square roots and error functions of the energy) are parameters.
* `PlotModel.v`: Model of src/spectrocrunch/io/nxfs.py:_NXdata: the signals of a plot group. The group is the list of its members (a data set with its shape, a soft link with the shape of what it points to, or a group), and its attributes signal, auxiliary_signals and axes. Attributes of data sets, time stamps and values are left out; the file is opened in mode "a". Which exception h5py raises when a name is taken or nothing is given to create a data set from depends on its version (ValueError and TypeError here).
* `PolarModel.v`: Model of src/spectrocrunch/sources/polarization.py: Jones and Stokes vectors, their conversions, rotation and scattering. Numbers are exact and of any type with the operations of [arith]; complex numbers are pairs. Angles are in degrees as in the code; cos_deg x is np.cos(np.radians(x)). np.allclose in the check that a matrix is Hermitian (300, 649) and the tolerance of to_jones are exact here. Plots, printing and logging are not modelled.
* `ProcModel.v`: Model of finding and creating NXprocess groups: src/spectrocrunch/io/nxfs.py Path.nxprocess, find_nxprocess, iter_nxprocess, nxentry, _init_nxclass and _NXprocess.set_config/checksum. A file is the list of the groups below its root, a group the list of its members, both in the order in which h5py enumerates them (by name). Names are taken literally (no path separators). Only the first level below the root is considered for NXentry groups. Time stamps, program names and sequence numbers are left out. A dependency is given by its checksum.
* `QuadricModel.v`: Model of src/spectrocrunch/math/quadrics.py and math/lsqlin.py. Matrices are numpy arrays (NumpyModel) with exact entries; points and parameters are lists of numbers. Division by zero (numpy: inf or nan) is Err ZeroDivisionError. Of lsqlin, the quadratic program that is handed to cvxopt is modelled, with the shape checks of cvxopt.solvers.qp; the solver itself, the option dictionary, the initial values x0 and cvxopt matrices as input are not.
* `QxrfModel.v`: Model of src/spectrocrunch/geometries/qxrf.py (QXRFGeometry: devices that belong together, normalisation of XRF, calibration data) and of the devices and counters of src/spectrocrunch/instruments/configuration.py. The energies and weights are fixed. A diode is that of DiodeModel.v with the attributes this class gives it. Values are exact and in SI units; arrays are treated element by element. Objects are values: sharing a device between geometries is not modelled. pint's DimensionalityError is a TypeError. The plots and the reading of spec files are left out.
* `ResampleModel.v`: Model of src/spectrocrunch/process/nxresample.py on the model of process/axis.py: the encoder positions at which the lines of a map are interpolated (_encoder), the new shape and the order in which the map is processed. Units are those of the motor and the encoder; the interpolation itself (scipy.interpolate.griddata) is not modelled.
* `RoiModel.v`: Model of src/spectrocrunch/utils/roi.py
* `ScalarModel.v`: Model of small numerical functions, over exact rationals: src/spectrocrunch/visualization/colormap.py 7-22 (NormalizedToRGB) and 29-47, src/spectrocrunch/math/statistics.py 8-40 (outlierdetection), src/spectrocrunch/math/interpolate.py 27-60 (interp1d_floor, interp1d_ceil), src/spectrocrunch/math/utils.py 16-43, 62-80 (rounding, weightedsum, lcm). Floating point rounding, infinities and NaN inputs are not modelled.
* `ScanModel.v`: Model of src/spectrocrunch/io/spec.py 160-559: cmd_parser. The patterns are words separated by \s+; re.match with its backtracking is the list of all matches in the order in which they are tried. Numbers are exact. Characters are ASCII.
* `SceneModel.v`: Model of the geometry of scenes: visualization/scene.py (class Scene, the limits of Image and Scatter) and scene_modifyaxes of process/scenevis.py. Every data axis has one unit in which all magnitudes are expressed; rounding and drawing are not modelled. Where numpy divides by zero (with a warning, giving inf or nan) the model gives [Err not_finite].
* `ScenedataModel.v`: Model of src/spectrocrunch/visualization/scene_data.py: items, axes and data of ImageBase, files of XanesSpec. A grid is its axis names and sizes, its stack dimensions and its pixels; instruments, units, interpolation and the reading of files are not modelled.
* `ScenescaleModel.v`: Model of the colour scaling and the channels of the images of a scene: visualization/scene.py (Image.channels, labels, data, selfscale, Scene.vminmax) and scene_globalscaling of process/scenevis.py. [None] is nan. The percentiles of Image.vminmax, colorbar_units and rounding are not modelled. Python 3 is assumed (range is no list).
* `SetitemModel.v`: Model of src/spectrocrunch/utils/indexing.py 961-1045: setitem. The arrays are numpy arrays kept in numbered places (selector(arg) is a view of the array of place arg). When an error is raised in the loop the earlier assignments have been done; the model only tells that there is an error.
* `ShelllineModel.v`: Model of the shells and fluorescence lines of src/spectrocrunch/materials/xrayspectrum.py (FluoLine, Shell), of the tables of src/spectrocrunch/patch/xraylib.py on which they rely and of the comparison of src/spectrocrunch/utils/comparable.py. The data of the external library xraylib are parameters. Strings are ASCII. Dictionaries are association lists in the order in which they are iterated; a Python set is iterated in an arbitrary order, which is a parameter where it could matter.
* `SignalModel.v`: Model of src/spectrocrunch/utils/signalhandling.py:HandleTermination. Python delivers a pending signal between two steps of the main thread by calling the installed handler there; a handler can itself be interrupted. The environment is a list with one entry for each possible delivery point, in the order in which these points are reached; an entry tells, for each place in the code, which signal (if any) arrives. Signals whose handler was not installed from Python (getsignal returns None) are not modelled.
* `SlicingModel.v`: Model of src/spectrocrunch/math/slicing.py. Lengths are unbounded (no overflow of cumprod) and the number of megabytes is exact.
* `SpecgridModel.v`: Model of src/spectrocrunch/io/spec.py 19-156 (zapline_*, ascan_*, zapimage_submap), 865-911 (getdimensions) and the sizes of 921-995 (getimages). Floats are exact rationals; start and end are Python floats, so that a division by 0 raises. Text is ASCII.
* `StackioModel.v`: Model of src/spectrocrunch/align/alignSource.py and alignDest.py for stacks of images that are arrays (numpy arrays or HDF5 datasets), and of the loop of align/align.py that copies the images when nothing has to be transformed. Files with one image each are not here. An HDF5 dataset is read and written like a numpy array.
* `StacknameModel.v`: Model of src/spectrocrunch/align/alignDest.py: where the aligned stacks are saved in an HDF5 file or in a directory with one file per image. An HDF5 file is a list of objects with their path (names from the root); the groups on the way to an object exist as well. "." in a path is not modelled. Opening the file and creating directories are not modelled.
* `StacktaskModel.v`: Model of src/spectrocrunch/process/nxmerge.py, nxstack.py and the parameters of nxalign.py. NXdata groups and entries are values; reading and writing of files and the merging of datasets (process/h5merge.py, modelled in MergeModel) are not modelled here.
* `StoichModel.v`: Model of src/spectrocrunch/materials/stoichiometry.py and of the composition part of materials/compound.py, mixture.py and multielementbase.py. Numbers are exact. Dividing by zero (numpy: warns, the result is not finite) is ZeroDivisionError here. Broadcasting of one-element arrays is not modelled: lengths that differ are refused.
* `SumdetModel.v`: Model of src/spectrocrunch/process/nxpymca.py: detectors and groups of detectors, their sums and corrections after fitting, the order of the images and the export of the results.
* `TaskModel.v`: Model of src/spectrocrunch/process/basetask.py:Task.run and process/nxprocess.py:Task: the output of a task is an NXprocess that is made under a temporary name and then renamed. The file is that of ProcModel.v; other programs may add members to the entry between two operations on the file (one batch for each operation). An operation on the file is atomic, and so is the evaluation of the name of the output. The directory on disk that goes with the output, logging and default plots are left out; what set_default does is only whether it raises.
* `TilearrayModel.v`: Model of src/spectrocrunch/utils/arraytricks.py: tiling of an array into memory seen through strides. A memory is a function of offsets, the destination a shape with strides (its first element at offset 0), the source a shape with its elements.
* `TimingModel.v`: Model of src/spectrocrunch/utils/timing.py: hms, strseconds and ProgressLogger. Times in exact seconds; floating point rounding is not modelled.
* `TransformModel.v`: Model of src/spectrocrunch/align/transform.py: linear mappings of the image plane (change-of-frame matrices), how they are set, combined, inverted, and applied to coordinates and images. Numbers are exact (no dtype, no rounding, no nan).
* `UnitsModel.v`: Model of src/spectrocrunch/utils/units.py: quantities made of numbers, quantities and arrays of them. A unit is its dimension and its size in base units; two units are the same when both agree. Arrays have one dimension and numbers are exact; numpy arrays of dimension 0 and uncertainties are not modelled. pint's DimensionalityError is a TypeError.
* `XanesModel.v`: Model of src/spectrocrunch/io/spec.py 1009-1118: extractxanesinfo and extractxanesginfo. A spec file is the list of its scans: the number of the key, the command and the number of lines. int(text) is modelled for texts of digits, everything else is a ValueError.
* `XiaModel.v`: Model of src/spectrocrunch/io/xiaedf.py, the names of XIA files (21-135, 175-197), the selection of detectors (270-415) and the grouping of files (418-575). Regular expressions are run by backtracking as Python's re does: greedy repetitions try the longest text first.
* `XspectrumModel.v`: Model of the class Spectrum of src/spectrocrunch/materials/xrayspectrum.py (650-1371) and of its lines (495-645): weights, units, sums of spectra, lines and groups of lines, channels. Numbers are exact; values are numbers or one-dimensional arrays, one number per source energy. Profiles of peaks, noise and plots are not modelled.

## Not modelled

Nothing is claimed about: plotting, GUI and notebook code, scenes, third-party
fits and tables (PyMca, fisx, xraylib), OpenCL/SIFT/elastix kernels, detectors,
sources and optics other than the functions named above, the numerical accuracy
of floating point, units (pint), HDF5/EDF binary formats, SPEC and Excel files,
pipelines (sequences of tasks), timing and multi-process interleavings of file
locks.
