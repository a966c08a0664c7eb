{"id": "C01", "title": "Bounded dictionary never exceeds its limit and evicts oldest first", "statement": "After any sequence of assignments to a LimitedSizeDict created with a size limit, the dictionary holds at most that many keys, each key once; every key it holds maps to the value last assigned to it; and the keys it holds are the most recently inserted ones (re-assigning an existing key does not refresh its age). Without a limit nothing is ever dropped.", "quantifier": "every limit, every initial state reachable, every sequence of assignments", "why_tests_cant": "the eviction behaviour depends on the whole insertion history, which has no bound", "anchors": ["src/spectrocrunch/utils/cache.py:LimitedSizeDict"]}
{"id": "C02", "title": "Nested caching contexts share one value and leave nothing behind", "statement": "Inside a caching context the subject is generated exactly once and every read of it returns that one value; nested contexts for the same subject reuse the outer value; when the outermost context is left normally, nothing stays cached, so a later context generates afresh. The same should hold when the body raises.", "quantifier": "every nesting/sequence of enter, read and exit events over any number of subjects, with exceptions at any point", "why_tests_cant": "nesting depth, order and exception points are unbounded", "anchors": ["src/spectrocrunch/utils/cache.py:Cache.cachectx", "src/spectrocrunch/utils/cache.py:Cache.getcache"]}
{"id": "C03", "title": "Content hashes do not depend on dictionary or set order", "statement": "The content hash of a nested structure of numbers, strings, None, lists, tuples, sets, dictionaries and ordered dictionaries does not change when any plain dictionary or set inside it, at any depth, is enumerated in another order, and lists and tuples with the same content hash alike.", "quantifier": "every nested structure (up to the recursion limit) and every enumeration order of its dictionaries and sets", "why_tests_cant": "the enumeration order is a runtime accident; all permutations at all depths must agree", "anchors": ["src/spectrocrunch/utils/hashing.py:calchash", "src/spectrocrunch/utils/hashing.py:mergehash"]}
{"id": "C04", "title": "Content hashes separate different structures", "statement": "Two structures whose contents differ (different keys, values, nesting or container kind) get different content hashes, assuming the underlying digest is injective.", "quantifier": "every pair of nested structures", "why_tests_cant": "an injectivity claim over an infinite domain", "anchors": ["src/spectrocrunch/utils/hashing.py:calchash", "src/spectrocrunch/io/target.py:calc_checksum"]}
{"id": "C05", "title": "Lookup table stays sorted, unique and keeps the right values", "statement": "After any sequence of add and replace operations a lookup table lists its points in strictly increasing order of x; with add, the y of an x is the sum of everything added for it; with replace the newest value wins and other points keep their value.", "quantifier": "every table and every sequence of add/replace calls with any number of points in any order", "why_tests_cant": "depends on arbitrary interleavings of points and repeated keys", "anchors": ["src/spectrocrunch/utils/lut.py:LUT.add", "src/spectrocrunch/utils/lut.py:LUT.replace", "src/spectrocrunch/utils/listtools.py:unique2lists", "src/spectrocrunch/utils/listtools.py:sort2lists"]}
{"id": "C06", "title": "Lookup table interpolation is exact at the points and bounded in between", "statement": "Evaluating a lookup table at one of its x values returns the stored y; between two consecutive points the result is the linear interpolation and lies between the two y values; left of the first and right of the last point it returns the end value; an empty table returns its default.", "quantifier": "every non-empty strictly sorted table and every evaluation point", "why_tests_cant": "the evaluation point and table are arbitrary numbers", "anchors": ["src/spectrocrunch/utils/lut.py:LUT.__call__", "src/spectrocrunch/utils/lut.py:LUT.interpolate"]}
{"id": "C07", "title": "Sorting and merging paired lists loses and invents nothing", "statement": "sort2lists returns the same pairs ordered by the first list, keeping the order of equal keys; sumrepeats/unique2lists return each distinct key once, in order of first appearance, and (when adding) the sum of the values over all its occurrences, so the total is preserved.", "quantifier": "every pair of equally long lists", "why_tests_cant": "order, duplicates and length are arbitrary", "anchors": ["src/spectrocrunch/utils/listtools.py:sort2lists", "src/spectrocrunch/utils/listtools.py:unique2lists", "src/spectrocrunch/utils/listtools.py:sumrepeats"]}
{"id": "C08", "title": "List rearrangements are permutations with the documented effect", "statement": "Moving an element to another position, swapping two elements and rolling a list only permute it; swapping twice restores the list; moving the element at position i to position j puts it there and keeps the others in order, with either position counted from the front or the back; rolling by n places at every position i the element from position (i+n) modulo the length, for negative n too.", "quantifier": "every list, every pair of valid positions, every roll distance of either sign", "why_tests_cant": "positions and lengths are arbitrary", "anchors": ["src/spectrocrunch/utils/listtools.py:move", "src/spectrocrunch/utils/listtools.py:swap", "src/spectrocrunch/utils/listtools.py:roll"]}
{"id": "C09", "title": "Advanced list indexing agrees with array indexing", "statement": "Indexing a list by an integer, a slice, a list of integers or a list of booleans returns exactly the elements an array indexed the same way returns, and raises on out-of-range integers.", "quantifier": "every list and index", "why_tests_cant": "all combinations of index kinds, signs and lengths", "anchors": ["src/spectrocrunch/utils/listtools.py:listadvanced", "src/spectrocrunch/utils/listtools.py:listadvanced_int", "src/spectrocrunch/utils/listtools.py:listadvanced_bool", "src/spectrocrunch/utils/listtools.py:where"]}
{"id": "C10", "title": "Flattening visits every leaf once, in order", "statement": "Flattening a nested list yields its non-list leaves in left-to-right order, whatever the nesting; flattening a flat list changes nothing; strings are leaves.", "quantifier": "every finite nesting of lists", "why_tests_cant": "nesting depth and width are unbounded", "anchors": ["src/spectrocrunch/utils/listtools.py:flatten", "src/spectrocrunch/utils/listtools.py:unique_everseen"]}
{"id": "C11", "title": "Integer/base conversion round-trips", "statement": "Writing a number in a base with a digit alphabet and reading it back with the same alphabet returns the number, for every non-negative number and every alphabet of at least two distinct symbols; negative numbers should round-trip too.", "quantifier": "every integer and every alphabet", "why_tests_cant": "infinitely many numbers and alphabets", "anchors": ["src/spectrocrunch/utils/integerbase.py:integerbase.int2base", "src/spectrocrunch/utils/integerbase.py:integerbase.base2int"]}
{"id": "C12", "title": "ROI clipping stays inside the array and selects what slicing selects", "statement": "Clipping a region of interest (with negative and missing limits allowed) to an array shape gives limits inside the array, never enlarges a region that was already inside, and clipping an already clipped region changes nothing.", "quantifier": "every array length and every pair of limits", "why_tests_cant": "all sign/None combinations at all sizes", "anchors": ["src/spectrocrunch/utils/roi.py:cliproi"]}
{"id": "C13", "title": "Merging intervals preserves exactly the covered points", "statement": "Merging a list of intervals yields intervals that are sorted, pairwise disjoint and cover exactly the same points as the input.", "quantifier": "every finite list of intervals", "why_tests_cant": "number and overlap pattern of the intervals are arbitrary", "anchors": ["src/spectrocrunch/utils/roi.py:mergeroi1d"]}
{"id": "C14", "title": "Class registry resolves names and aliases to registered classes only", "statement": "A class registered under a name is found under that exact name and under every alias in any letter case; a name nobody registered raises; registering a class never makes an earlier registration under another name unreachable.", "quantifier": "every sequence of class registrations and every lookup string", "why_tests_cant": "depends on the whole registration history", "anchors": ["src/spectrocrunch/utils/classfactory.py:factory", "src/spectrocrunch/utils/classfactory.py:register"]}
{"id": "C15", "title": "Indexing a lazily generated stack equals indexing the full stack", "statement": "Indexing the stack of arrays produced by a generator along any stacking axis gives the same elements in the same shape as first building the full array and then indexing it, while only the needed arrays are generated.", "quantifier": "every number of arrays, array shapes, stack axis and index tuple", "why_tests_cant": "index kinds, dimensions and the stack axis combine without bound", "anchors": ["src/spectrocrunch/utils/indexing.py:getitem", "src/spectrocrunch/utils/indexing.py:expand", "src/spectrocrunch/utils/indexing.py:extract_axis"]}
{"id": "C16", "title": "Expanding an index gives one entry per dimension and the same selection", "statement": "Expanding an index (ellipsis, missing trailing dimensions, new axes) yields an index with exactly one entry per array dimension plus the new axes, leaves the given entries in place, fills with full slices only, and expanding again changes nothing; too many indices raise.", "quantifier": "every index tuple and every number of dimensions", "why_tests_cant": "position of the ellipsis and new axes is arbitrary", "anchors": ["src/spectrocrunch/utils/indexing.py:expand", "src/spectrocrunch/utils/indexing.py:nonchanging"]}
{"id": "C17", "title": "Recorded axis transpositions compose correctly", "statement": "Applying a chain of recorded transpositions equals applying them one by one; merged transpositions equal their composition; undoing returns the original axis order.", "quantifier": "every number of dimensions and every sequence of transpositions", "why_tests_cant": "arbitrary chains of permutations of arbitrary size", "anchors": ["src/spectrocrunch/utils/indexing.py:op_transpose", "src/spectrocrunch/utils/indexing.py:operators", "src/spectrocrunch/utils/listtools.py:listadvanced_int"]}
{"id": "C18", "title": "Slicing a big array into blocks covers every element exactly once", "statement": "The slices produced for block-wise processing, concatenated, cover every index along the slicing axis exactly once and in order, each block having at most the requested size.", "quantifier": "every shape, axis and block size", "why_tests_cant": "sizes not divisible by the block size at every boundary", "anchors": ["src/spectrocrunch/math/slicing.py:slice_generator", "src/spectrocrunch/math/slicing.py:find_slice_axis"]}
{"id": "C19", "title": "Operator products behave as function composition", "statement": "Multiplying operators gives the operator that applies the right factor first, products are associative, the identity is neutral, and for invertible linear operators the product with the inverse is the identity; integer powers equal repeated products (power zero being the identity).", "quantifier": "every operator expression built from linear operators, identities and clips, and every input", "why_tests_cant": "expression depth and inputs are unbounded", "anchors": ["src/spectrocrunch/math/linop.py:Operator", "src/spectrocrunch/math/linop.py:LinearOperator", "src/spectrocrunch/math/linop.py:Identity"]}
{"id": "C20", "title": "Simplifying clip operators preserves their meaning", "statement": "When a product of a clip with another clip or a linear operator is simplified (limits merged or the order exchanged), the simplified operator returns the same value as the unsimplified composition for every input.", "quantifier": "every pair of clip limits (missing limits included), every linear operator and input", "why_tests_cant": "limits, signs and infinities combine without bound", "anchors": ["src/spectrocrunch/math/linop.py:Clip", "src/spectrocrunch/math/linop.py:NaNClip", "src/spectrocrunch/math/linop.py:CommutativeOperator"]}
{"id": "C21", "title": "Frequency shifting is undone by inverse shifting", "statement": "For every length, shifting an array to put the zero frequency in the centre and shifting back restores it; the shifted frequency axis is strictly increasing; every frequency index occurs once.", "quantifier": "every array length, even and odd", "why_tests_cant": "parity-dependent boundaries at every length", "anchors": ["src/spectrocrunch/math/ft.py:fftshift", "src/spectrocrunch/math/ft.py:ifftshift", "src/spectrocrunch/math/ft.py:fftfreq"]}
{"id": "C22", "title": "The discrete Fourier transform is inverted by its inverse", "statement": "Transforming an array with the direct transform and back with the inverse transform (each with its own normalisation) returns the array, for every length; the transform is linear and a circular shift of the input multiplies the coefficients by the corresponding phases.", "quantifier": "every length and every array over a field with a primitive root of unity", "why_tests_cant": "holds for every size and value, which numeric tests only sample with tolerance", "anchors": ["src/spectrocrunch/math/ft.py:_dft", "src/spectrocrunch/math/ft.py:fft", "src/spectrocrunch/math/ft.py:ifft"]}
{"id": "C23", "title": "Straight-line fit is the least-squares optimum", "statement": "The slope and intercept returned by the closed-form straight-line fit minimise the sum of squared residuals over all lines; points that lie on a line are fitted exactly; the fit through the origin is optimal among lines through the origin.", "quantifier": "every non-degenerate set of points", "why_tests_cant": "optimality quantifies over all lines and all data", "anchors": ["src/spectrocrunch/math/fit1d.py:linfit2", "src/spectrocrunch/math/fit1d.py:linfit_zerointercept2"]}
{"id": "C24", "title": "Direct linear solver satisfies the equations", "statement": "When the determinant is not zero, the values returned by the Cramer solver satisfy every equation of the system.", "quantifier": "every system it accepts", "why_tests_cant": "coefficients are arbitrary numbers", "anchors": ["src/spectrocrunch/math/linalg.py:cramer"]}
{"id": "C25", "title": "Weight, mole and volume fractions convert consistently", "statement": "Converting fractions between mass, mole and volume gives fractions that are non-negative and sum to one; converting there and back returns the normalised input; going through a third kind equals the direct conversion; scaling all inputs by a common factor changes nothing.", "quantifier": "every number of components, all positive molar masses and densities and non-negative not-all-zero fractions", "why_tests_cant": "number of components and values are arbitrary", "anchors": ["src/spectrocrunch/materials/stoichiometry.py:frac_mole_to_weight", "src/spectrocrunch/materials/stoichiometry.py:frac_weight_to_mole", "src/spectrocrunch/materials/stoichiometry.py:frac_volume_to_mole", "src/spectrocrunch/materials/stoichiometry.py:frac_mole_to_volume"]}
{"id": "C26", "title": "Density computed from any kind of fraction is the same", "statement": "The density computed from mass fractions, from mole fractions and from volume fractions of the same mixture agree, and lies between the smallest and the largest component density.", "quantifier": "every mixture with positive densities and molar masses", "why_tests_cant": "number of components and values are arbitrary", "anchors": ["src/spectrocrunch/materials/stoichiometry.py:density_from_massfrac", "src/spectrocrunch/materials/stoichiometry.py:density_from_molefrac", "src/spectrocrunch/materials/stoichiometry.py:density_from_volumefrac"]}
{"id": "C27", "title": "Adding components preserves totals and proportions", "statement": "Adding new components with given fractions preserves the total amount, gives each new component exactly its requested share, keeps the ratios between the old components, and is rejected when the new fractions exceed one.", "quantifier": "every composition and every list of new fractions", "why_tests_cant": "arbitrary component counts and values", "anchors": ["src/spectrocrunch/materials/stoichiometry.py:add_frac", "src/spectrocrunch/materials/mixture.py:Mixture.addcompounds", "src/spectrocrunch/materials/compound.py:Compound.addelements"]}
{"id": "C28", "title": "Elemental composition of a mixture is the weighted composition of its parts", "statement": "The elemental mass fractions of a mixture sum to one and equal the mass-fraction-weighted sum over its compounds; collapsing the mixture to a single compound preserves elemental mass fractions, molar mass and density; listing a compound twice equals listing it once with the summed fraction.", "quantifier": "every mixture of compounds sharing any elements", "why_tests_cant": "composition lists and sharing patterns are unbounded", "anchors": ["src/spectrocrunch/materials/mixture.py:Mixture", "src/spectrocrunch/materials/compound.py:Compound"]}
{"id": "C29", "title": "Chemical formulas parse to the right stoichiometry", "statement": "Parsing a chemical formula gives for each element the sum over its occurrences of the product of all multipliers applying to it (nested groups included); text that is not a formula is rejected rather than silently truncated.", "quantifier": "every formula in the grammar, any nesting, and every string", "why_tests_cant": "nesting depth and repetition are unbounded", "anchors": ["src/spectrocrunch/materials/compoundfromformula.py:FormulaParser"]}
{"id": "C30", "title": "Image transformations form a group acting on coordinates", "statement": "Combining transformations with before/after equals applying the coordinate maps one after the other; inverse undoes a transformation on every point; changing frame twice equals changing frame by the combination; mixing pure translations with matrix transformations gives the same map as writing the translation as a matrix.", "quantifier": "every pair of transformations of any kind and every point", "why_tests_cant": "coefficients and points are arbitrary numbers", "anchors": ["src/spectrocrunch/align/transform.py:LinearMapping"]}
{"id": "C31", "title": "Setting a transformation makes it that transformation", "statement": "After setting the translation, linear, affine, rigid or projective part, the object reports that part, keeps the unaffected part, and has a kind able to represent it.", "quantifier": "every kind of transformation and every value set", "why_tests_cant": "all kind/setter combinations with arbitrary values", "anchors": ["src/spectrocrunch/align/transform.py:LinearMapping.setlinear", "src/spectrocrunch/align/transform.py:LinearMapping.setaffine", "src/spectrocrunch/align/transform.py:LinearMapping.setrigid", "src/spectrocrunch/align/transform.py:LinearMapping.setprojective"]}
{"id": "C32", "title": "Padding and cropping keep pixels aligned with their axes", "statement": "After alignment with padding or cropping, each output axis has exactly as many points as the output image has pixels, a pixel that survives keeps its original axis value, and padded axis values continue the axis with its end spacing.", "quantifier": "every image size and every (positive or negative) extension on each side", "why_tests_cant": "all sign combinations of four extensions", "anchors": ["src/spectrocrunch/align/align.py:align.transform_axes", "src/spectrocrunch/align/align.py:align.dest_imgsize", "src/spectrocrunch/align/align.py:align.pad", "src/spectrocrunch/align/align.py:align.crop"]}
{"id": "C33", "title": "All datasets of a stack get the same alignment transformation", "statement": "When several datasets are aligned on one reference dataset, image i of every dataset is transformed by the same transformation, and re-applying a stored alignment gives the same result again.", "quantifier": "any number of datasets and images, any stored transformation and frame change", "why_tests_cant": "depends on how many datasets were processed before", "anchors": ["src/spectrocrunch/align/align.py:align.execute_transform", "src/spectrocrunch/align/align.py:align.doalign"]}
{"id": "C34", "title": "Pairwise alignment accumulates to the first image", "statement": "With pairwise alignment on raw images the transformation stored for image i is the composition of all pairwise transformations up to i, so it maps image i onto image 0; with a fixed reference each image keeps its own transformation and the reference the identity.", "quantifier": "every number of images and every sequence of pairwise transformations", "why_tests_cant": "unbounded chains", "anchors": ["src/spectrocrunch/align/align.py:align.store_transformation", "src/spectrocrunch/align/align.py:align.doalign"]}
{"id": "C35", "title": "Axis location returns the nearest point", "statement": "Locating a value on an axis returns the index of an axis point at minimal distance, the first such when tied; locating an axis point of a strictly monotonic axis returns its own index.", "quantifier": "every axis and every value", "why_tests_cant": "values and axes are arbitrary", "anchors": ["src/spectrocrunch/process/axis.py:Axis.locate"]}
{"id": "C36", "title": "Regular axes keep their defining relations under modification", "statement": "A regular axis with start, end and number of intervals has intervals+1 equidistant values from start to end; changing start, end or step size keeps the number of points or the step size as documented and the values consistent.", "quantifier": "every axis and every sequence of modifications", "why_tests_cant": "arbitrary sequences of setter calls", "anchors": ["src/spectrocrunch/process/axis.py:AxisRegular", "src/spectrocrunch/process/axis.py:AxisRegularInc"]}
{"id": "C37", "title": "Segmented axes list every segment exactly once", "statement": "A segmented axis with limits and interval counts has one more point than the total number of intervals, contains every limit, is equidistant inside each segment with the reported step size, and reports the last segment's step size at the end.", "quantifier": "every number of segments, limits and counts", "why_tests_cant": "segment count and sizes are arbitrary", "anchors": ["src/spectrocrunch/process/axis.py:AxisSegments"]}
{"id": "C38", "title": "Enlarging an axis to new limits covers the limits minimally", "statement": "Computing new axis limits with a given step returns limits on the axis grid that contain the requested limits and exceed them by less than one step; points already on the axis are kept.", "quantifier": "every regular axis and every requested limit", "why_tests_cant": "rounding boundaries at arbitrary values", "anchors": ["src/spectrocrunch/process/axis.py:Axis.newstart", "src/spectrocrunch/process/axis.py:Axis.newend", "src/spectrocrunch/process/axis.py:AxisRegular.newlimits"]}
{"id": "C39", "title": "A task never publishes a partial result and never redoes a finished one", "statement": "Running a task executes it only when its dependencies are done and its output does not exist yet; at whatever point execution fails, no output exists under the final name; when it succeeds, the output exists under the final name with the computed content; running again changes nothing.", "quantifier": "every dependency graph, every prior output state and every failure point", "why_tests_cant": "failure can strike between any two file operations", "anchors": ["src/spectrocrunch/process/basetask.py:Task.run", "src/spectrocrunch/process/nxprocess.py:Task"]}
{"id": "C40", "title": "Generated output names are new and increase", "statement": "Asking for a not yet existing output name returns the given name when free and otherwise the first free one in the increment sequence, never an existing one, and always terminates.", "quantifier": "every name and every finite set of existing names", "why_tests_cant": "the set of existing names is arbitrary", "anchors": ["src/spectrocrunch/io/target.py:Name", "src/spectrocrunch/io/target.py:increment", "src/spectrocrunch/io/nxfs.py:Path.next_nxentry_name", "src/spectrocrunch/io/fs.py:Path.nonexisting_name"]}
{"id": "C41", "title": "Incrementing a name only changes its counter", "statement": "Incrementing a name by n changes only the last number in it, adds n to its value, keeps at least its zero padding, keeps prefix and suffix, and the result is recognised as the same name with another counter; incrementing by m then n equals incrementing by m+n.", "quantifier": "every string and increment", "why_tests_cant": "arbitrary strings with digits anywhere", "anchors": ["src/spectrocrunch/io/target.py:locate_number", "src/spectrocrunch/io/target.py:increment", "src/spectrocrunch/io/target.py:regex", "src/spectrocrunch/io/target.py:match"]}
{"id": "C42", "title": "XIA file names round-trip", "statement": "A file name built from radix, map number, line number and label parses back to the same four parts, whatever underscores and digits the radix contains; sorting orders files by radix, map, line and label.", "quantifier": "every radix, map number, line number and label in the convention", "why_tests_cant": "radix strings are arbitrary", "anchors": ["src/spectrocrunch/io/xiaedf.py:xiafilename", "src/spectrocrunch/io/xiaedf.py:XiaNameParser.parse", "src/spectrocrunch/io/xiaedf.py:xiasortkey"]}
{"id": "C43", "title": "Detector selection keeps exactly the requested detectors", "statement": "Selecting detectors by inclusion and exclusion lists keeps exactly the files of detectors that are included (or all when no inclusion is given) and not excluded, whatever notation (number, digits, full label) is used, and keeps file order.", "quantifier": "every list of files and every inclusion/exclusion list", "why_tests_cant": "arbitrary lists in mixed notations", "anchors": ["src/spectrocrunch/io/xiaedf.py:xiadetectorselect_files", "src/spectrocrunch/io/xiaedf.py:xiadetectorselect_tostring", "src/spectrocrunch/io/xiaedf.py:xiadetectorselect_counterfiles"]}
{"id": "C44", "title": "Plot data keeps a consistent set of signals", "statement": "After any sequence of adding, removing, selecting and sorting signals in a plot group, every listed signal exists and is listed once, exactly one of them is the default, and a removed signal is no longer listed.", "quantifier": "every sequence of signal operations", "why_tests_cant": "depends on the whole operation history", "anchors": ["src/spectrocrunch/io/nxfs.py:_NXdata.add_signal", "src/spectrocrunch/io/nxfs.py:_NXdata.default_signal", "src/spectrocrunch/io/nxfs.py:_NXdata.remove_signal", "src/spectrocrunch/io/nxfs.py:_NXdata.sort_signals"]}
{"id": "C45", "title": "Finding or creating a process is idempotent", "statement": "Requesting a process with the same name pattern, parameters and dependencies twice returns the same process; requesting with other parameters returns another one with a matching, unused name and never alters an existing process.", "quantifier": "every file content and every sequence of requests", "why_tests_cant": "arbitrary histories of requests", "anchors": ["src/spectrocrunch/io/nxfs.py:Path.nxprocess", "src/spectrocrunch/io/nxfs.py:Path.find_nxprocess"]}
{"id": "C46", "title": "Re-entrant opening of a file closes once, after the last user", "statement": "However often open contexts of the same file object are nested, the underlying file is opened once and closed when the outermost context ends, and close callbacks run exactly once, after closing.", "quantifier": "every nesting of open contexts and exceptions inside them", "why_tests_cant": "unbounded nesting and exception points", "anchors": ["src/spectrocrunch/io/fs.py:File.open", "src/spectrocrunch/io/fs.py:File._closectx"]}
{"id": "C47", "title": "Opening mode decides creation and truncation as documented", "statement": "For each opening mode and each state of the file and its parent directory (missing, file, directory, link), opening either succeeds with the documented effect on the content or raises the documented error, and a read-only mode never modifies anything.", "quantifier": "every mode and every file system state", "why_tests_cant": "the file system state space is unbounded", "anchors": ["src/spectrocrunch/io/localfs.py:Path._fopen", "src/spectrocrunch/io/localfs.py:Path._openparams_defaults"]}
{"id": "C48", "title": "Path joining, splitting and relative paths are consistent", "statement": "Splitting a path into device, parent and name and joining again gives the path; the common part of two paths is a prefix of both; the relative path from one to the other, resolved against the first, gives the second.", "quantifier": "every pair of paths of any depth", "why_tests_cant": "path depth and components are arbitrary", "anchors": ["src/spectrocrunch/io/fs.py:Path", "src/spectrocrunch/io/fs.py:Path.relpath", "src/spectrocrunch/io/fs.py:Path.common"]}
{"id": "C49", "title": "Cleanup after termination happens exactly once and handlers are restored", "statement": "Whatever mix of normal exit, exceptions and termination signals ends a protected block, the tear-down function runs exactly once and afterwards the original signal handlers are installed again.", "quantifier": "every interleaving of signals with entry, body and exit, including errors in set-up and tear-down", "why_tests_cant": "signal arrival points are schedule dependent", "anchors": ["src/spectrocrunch/utils/signalhandling.py:HandleTermination"]}
{"id": "C50", "title": "Result group names round-trip and sort detectors", "statement": "A result group built from a detector number, name or sum label is printed so that parsing the printed name gives the same group back; two spellings of the same detector are equal and hash alike.", "quantifier": "every detector number and name", "why_tests_cant": "arbitrary names and numbers", "anchors": ["src/spectrocrunch/process/nxresult.py:Group"]}
{"id": "C51", "title": "Cropping keeps exactly the bounding box of valid data", "statement": "Automatic cropping computes, over all stacked images, which pixels are valid in every image, and returns along each image dimension the smallest index range containing every line with a valid pixel (or, when only full lines are wanted, every line with the maximal number of valid pixels): nothing selected is lost, both ends of the range are selected lines, and slice-wise and whole-array computation give the same range.", "quantifier": "every stack of images and every validity pattern", "why_tests_cant": "arbitrary sizes and patterns", "anchors": ["src/spectrocrunch/process/nxcrop.py:Task.calccroproi"]}
{"id": "C52", "title": "Grid processing in slices equals processing at once", "statement": "Applying a per-element operation to a regular grid slice by slice along the stack dimension gives the same array as applying it to the whole grid, and the output shape and axes match.", "quantifier": "every grid shape, stack dimension and slice operation", "why_tests_cant": "grid sizes and dimensions are arbitrary", "anchors": ["src/spectrocrunch/process/nxregulargrid.py:Task._execute_grid", "src/spectrocrunch/process/regulargrid.py:RegularGrid"]}
{"id": "C53", "title": "Colours encode normalised values reversibly", "statement": "Encoding a value between 0 and 1 as red/green/blue gives three bytes from which the value is recovered within one part in 2^24, and larger values never get a smaller code.", "quantifier": "every value in the unit interval", "why_tests_cant": "2^24 codes and all reals in between", "anchors": ["src/spectrocrunch/visualization/colormap.py:NormalizedToRGB"]}
{"id": "C54", "title": "Outlier detection is invariant and flags only far values", "statement": "Outlier detection flags exactly the values whose distance from the median exceeds the chosen multiple of the median absolute deviation; shifting all data or scaling by a positive factor flags the same positions; with a fixed number of outliers exactly that many are flagged.", "quantifier": "every data list and cut-off", "why_tests_cant": "arbitrary data", "anchors": ["src/spectrocrunch/math/statistics.py:outlierdetection"]}
{"id": "C55", "title": "Interpolating floor/ceil look-ups return neighbouring samples", "statement": "Floor (ceil) interpolation returns the value at the last axis point not above (first not below) the requested point, and the fill value outside the axis.", "quantifier": "every sorted axis and every request", "why_tests_cant": "arbitrary axes and requests", "anchors": ["src/spectrocrunch/math/interpolate.py:interp1d_floor", "src/spectrocrunch/math/interpolate.py:interp1d_ceil"]}
{"id": "C56", "title": "Rounding to digits bounds the value from the documented side", "statement": "Rounding up (down) to n digits returns a multiple of 10^-n that is not below (not above) the value and differs from it by less than 10^-n; least common multiples are divisible by both arguments and divide every common multiple.", "quantifier": "every rational value, every digit count (negative too) and every pair of integers", "why_tests_cant": "arbitrary numbers", "anchors": ["src/spectrocrunch/math/utils.py:ceil_ndigits", "src/spectrocrunch/math/utils.py:floor_ndigits", "src/spectrocrunch/math/utils.py:lcm"]}
{"id": "C57", "title": "Operators that compare equal act the same", "statement": "Two operators that compare equal give the same result for every input, and every operator compares equal to itself.", "quantifier": "every pair of operators and every input", "why_tests_cant": "pairs of arbitrarily long products and all inputs", "anchors": ["src/spectrocrunch/math/linop.py:Operator.__eq__"]}
{"id": "C58", "title": "Error propagation of linear least squares", "statement": "The covariances of the parameters of a linear least-squares problem equal the error covariances propagated through the least-squares estimator, for variances and for a full covariance matrix, for square and rectangular systems; the computation fails exactly when the columns are linearly dependent.", "quantifier": "every matrix, every error description", "why_tests_cant": "systems of any size", "anchors": ["src/spectrocrunch/math/fit1d.py:lstsq_cov", "src/spectrocrunch/math/fit1d.py:lstsq_std"]}
{"id": "C59", "title": "Peak-shape fractions and ratios convert back and forth", "statement": "Converting the detector response from area fractions (of the total) to ratios (to the Gaussian) and back restores the shape, and the other way around; impossible fractions are refused.", "quantifier": "every peak shape with a Gaussian part, at every energy", "why_tests_cant": "continuous parameters", "anchors": ["src/spectrocrunch/detectors/xrf.py:XRFDetector.convert", "src/spectrocrunch/detectors/xrf.py:XRFDetector._fcalc_ratios_single", "src/spectrocrunch/detectors/xrf.py:XRFDetector._fcalc_fractions_single"]}
{"id": "C60", "title": "Setting the fraction of some components rebalances the others", "statement": "Setting the fractions of some components of a mixture gives these components the requested fractions and rescales the others proportionally so that everything sums to one; unknown components are refused.", "quantifier": "every mixture, every selection of its components and all fractions", "why_tests_cant": "arbitrary mixtures and fractions", "anchors": ["src/spectrocrunch/materials/multielementbase.py:MultiElementBase.setfraction"]}
{"id": "C61", "title": "Transforming an image samples the pixel given by the change of frame", "statement": "The transformed image has at every pixel the value that the original image has at the position given by the change-of-frame map (old position = C applied to the new position), for every kind of transformation; kinds that cannot be applied are refused.", "quantifier": "every transformation of any kind, every image and every pixel", "why_tests_cant": "only a rotation by a small angle and translations are compared by tests; the coefficients are arbitrary numbers", "anchors": ["src/spectrocrunch/align/transform.py:LinearMapping.transformimage"]}
{"id": "C62", "title": "Exact key points give the transformation back", "statement": "When the key points of two images correspond exactly by a translation, rigid, similarity or affine transformation and are enough to determine it, the transformation computed from them is that one.", "quantifier": "every transformation and every number and position of key points", "why_tests_cant": "coefficients, number and positions of the key points are arbitrary", "anchors": ["src/spectrocrunch/align/transform.py:LinearMapping.fromkeypoints"]}
{"id": "C63", "title": "Simplifying an axis keeps its points", "statement": "Replacing an axis by its simplest representation (number, regular or segmented) keeps the number of points and every point: exactly when the tolerance is zero, and within the tolerance otherwise.", "quantifier": "every list of axis values and every tolerance", "why_tests_cant": "value patterns and segment counts are arbitrary", "anchors": ["src/spectrocrunch/process/axis.py:Axis.simplify", "src/spectrocrunch/process/axis.py:Axis.factory"]}
{"id": "C64", "title": "Axis equality is pointwise within the precision", "statement": "Two quantitative axes are equal exactly when they have the same number of points and each pair of points is undefined in both or differs by at most the precision; the comparison never fails and is symmetric.", "quantifier": "every pair of axes", "why_tests_cant": "arbitrary values including undefined ones", "anchors": ["src/spectrocrunch/process/axis.py:Axis.__eq__"]}
{"id": "C65", "title": "Interpolation coordinates of an axis", "statement": "The old and new coordinates handed to an interpolation increase along a strictly monotonic axis of either direction and keep the distance between any two coordinates.", "quantifier": "every strictly monotonic axis and every set of new coordinates", "why_tests_cant": "arbitrary axes", "anchors": ["src/spectrocrunch/process/axis.py:Axis.interpolate"]}
{"id": "C66", "title": "The mode of an HDF5 file object limits what its users can do to the file", "statement": "An HDF5 file object in mode r never changes the file, in mode r+ never makes a new one, in mode a never empties one, in mode x (w-) refuses an existing one but can read what it made, and in mode w opening a node inside does not empty the file again, whatever mode the node is opened in.", "quantifier": "every combination of the mode of the file object and the mode asked for", "why_tests_cant": "the restrictions of two classes are applied one after the other; the tests use mode a", "anchors": ["src/spectrocrunch/io/h5fs.py:h5Device._openparams_defaults", "src/spectrocrunch/io/h5fs.py:Path._openparams_defaults", "src/spectrocrunch/io/localfs.py:Path._openparams_defaults"]}
{"id": "C67", "title": "Grouping XIA files loses no file", "statement": "Grouping files by radix, map and line puts every file in the group of its own radix, map and line, in sorted order, and loses none; grouping by detector and label does the same.", "quantifier": "every list of file names, every number of radices, maps, lines and detectors", "why_tests_cant": "loss depends on how the files interleave after sorting", "anchors": ["src/spectrocrunch/io/xiaedf.py:xiagroup", "src/spectrocrunch/io/xiaedf.py:xiagroupmaps", "src/spectrocrunch/io/xiaedf.py:xiagroupmaps2", "src/spectrocrunch/io/xiaedf.py:xiagrouplines", "src/spectrocrunch/io/xiaedf.py:xiagroupdetectors"]}
{"id": "C68", "title": "Weighted means lie between the values", "statement": "The weighted sum of several values with as many non-negative weights, not all zero, is the mean weighted by them, hence between the smallest and largest value; without weights (or with a single number as weight) it is the plain mean, and a single value is returned as it is.", "quantifier": "every list of values and weights", "why_tests_cant": "arbitrary values, weights and lengths", "anchors": ["src/spectrocrunch/math/utils.py:weightedsum"]}
{"id": "C69", "title": "Shapes are cut to the largest common size", "statement": "Matching several shapes leaves shapes of equal size alone and otherwise cuts each one at its last dimension only, all to the largest size common to such cuts; it fails exactly when that size is zero.", "quantifier": "every list of shapes of every dimension", "why_tests_cant": "the least common multiple and the division depend on all shapes together", "anchors": ["src/spectrocrunch/process/h5merge.py:match_shapes", "src/spectrocrunch/process/h5merge.py:layout_slicing"]}
{"id": "C70", "title": "Tiles hold their own scan and never overlap", "statement": "Merging scans as tiles gives a mosaic in which every complete line of scan i appears, point by point, in tile i and nowhere else; tiles never overlap and what is not covered holds the fill value.", "quantifier": "every number of scans, every shape of the scans, mosaic and dimension", "why_tests_cant": "index arithmetic between four orderings of dimensions", "anchors": ["src/spectrocrunch/process/h5merge.py:tile_indices", "src/spectrocrunch/process/h5merge.py:tile_h5datasets", "src/spectrocrunch/process/h5merge.py:max_shape"]}
{"id": "C71", "title": "Stacking scans keeps every point in its place", "statement": "Stacking scans gives one image per scan, reshaped with the fast axis last, where the point with number k of the scan (fast axis first) stands at its coordinates with all its detector pixels; points of incomplete lines hold the fill value.", "quantifier": "every number of scans, points, scan and detector dimensions", "why_tests_cant": "index arithmetic between orderings of dimensions, interrupted scans", "anchors": ["src/spectrocrunch/process/h5merge.py:stack_h5datasets", "src/spectrocrunch/process/h5merge.py:layout_slicing", "src/spectrocrunch/process/h5merge.py:MergedBlissMesh"]}
{"id": "C72", "title": "Expression text evaluates to its meaning", "statement": "Whatever the white space, a text written from an expression tree (numbers, pi, e, variables, functions, signs, brackets where needed, sums and products grouping from the left, powers from the right) is accepted by the expression parser and evaluates to the mathematical meaning of the tree, or to an error when the tree has no value.", "quantifier": "all expression trees, all ways to put white space, all arithmetics", "why_tests_cant": "The parser works with a stack filled while backtracking; a test covers a few texts, not every nesting.", "anchors": ["src/spectrocrunch/process/nxexpression.py:MathParser.BNF", "src/spectrocrunch/process/nxexpression.py:MathParser.eval", "src/spectrocrunch/process/nxexpression.py:MathParser._eval_stack"]}
{"id": "C73", "title": "Expression task applies the template to the signal", "statement": "The expression task gives for each processed signal the value of its template where {} is the signal's data and {name} the data of the only signal in the grid with that name, or of the sibling of the processed signal otherwise; a template without {} is refused; skipped signals give nothing and copied ones stay unchanged.", "quantifier": "all templates, all orders in which the set of names is iterated, all grids", "why_tests_cant": "The renaming of variables to letters depends on the set iteration order and on the number of names.", "anchors": ["src/spectrocrunch/process/nxexpression.py:Task._parse_expression", "src/spectrocrunch/process/nxexpression.py:Task._process_data", "src/spectrocrunch/process/nxexpression.py:Task._prepare_signal", "src/spectrocrunch/process/nxexpression.py:Task._extract_variable_names"]}
{"id": "C74", "title": "Conversions between Jones vectors, Stokes vectors and polarization parameters agree", "statement": "The Stokes vector of a Jones vector is (|V0|^2+|V1|^2, |V0|^2-|V1|^2, 2Re, 2Im of V1 conj V0) and is fully polarized; Stokes and coherency matrix determine each other; a fully polarized Stokes vector converted to a Jones vector (any phase) and back is unchanged, and a Jones vector converted to Stokes and back with its own phase is unchanged; a partly polarized state is refused unless loss is allowed, and then only its polarized part is kept; the polarized and unpolarized part add up to the state; dop^2 = dolp^2 + docp^2 and a state is physical iff dop <= 1; setting an intensity gives that intensity and changes nothing else; a state is determined by intensity, dop, dolp, polarization angle and handedness, and is rebuilt from them.", "quantifier": "for all Jones vectors, all Stokes vectors with positive intensity and all parameters", "why_tests_cant": "Tests compare random vectors within a tolerance; vectors with a zero component, zero circular part or an angle on a branch cut of arctan2 have measure zero and are not drawn.", "anchors": ["src/spectrocrunch/sources/polarization.py:Jones.coherency_matrix", "src/spectrocrunch/sources/polarization.py:Jones.to_stokes", "src/spectrocrunch/sources/polarization.py:Stokes.to_jones", "src/spectrocrunch/sources/polarization.py:Stokes.from_params", "src/spectrocrunch/sources/polarization.py:Stokes.decompose"]}
{"id": "C75", "title": "Rotation and scattering act alike on Jones and Stokes vectors and keep states physical", "statement": "Rotating or Thomson scattering a Jones vector and converting to Stokes gives the same as converting first; rotations add up, keep intensity and degrees of polarization and turn the polarization angle; the intensity of the scattered Stokes vector is the intensity computed from the differential cross-section, for Thomson and Compton; scattering a physical state gives a physical state; Compton scattering in the forward direction is Thomson scattering; the Mueller matrix of a Jones matrix acts on Stokes vectors as the Jones matrix acts on Jones vectors.", "quantifier": "for all states, all azimuth and polar angles and all positive energies", "why_tests_cant": "Tests draw a few random states and angles; that a scattered state is never over-polarized is an inequality over all states, and the Mueller conversion is not called by any test.", "anchors": ["src/spectrocrunch/sources/polarization.py:Jones.rotate", "src/spectrocrunch/sources/polarization.py:Jones.thomson_scattering", "src/spectrocrunch/sources/polarization.py:Stokes.rotate", "src/spectrocrunch/sources/polarization.py:Stokes.thomson_scattering", "src/spectrocrunch/sources/polarization.py:Stokes.compton_scattering", "src/spectrocrunch/sources/polarization.py:Stokes.jones_to_mueller", "src/spectrocrunch/sources/polarization.py:MuellerMatrixCompton"]}
{"id": "C76", "title": "Moving a file or directory never loses data", "statement": "Moving without force puts exactly what was at the source at the destination (inside it when the destination is a directory, in its place with rename), and every file of the disk is afterwards found once with its own content; an existing destination is refused and nothing changes; on any other failure at most empty directories were added. With force the old destination is replaced by the source and nothing else changes. Moving to another file system gives the same disk as moving within one. Making a directory only adds directories.", "quantifier": "for all trees of files, directories and links and all paths, through links or not", "why_tests_cant": "Tests move one file and one directory in a temporary directory of one file system; a destination that is the source, a link, or on another file system is not tried.", "anchors": ["src/spectrocrunch/io/localfs.py:Path.move", "src/spectrocrunch/io/localfs.py:Path.mkdir", "src/spectrocrunch/io/fs.py:Path._copy_move_prepare", "src/spectrocrunch/io/fs.py:Path._move_copyrenamedel", "src/spectrocrunch/io/fs.py:Path._mkdir_prepare"]}
{"id": "C77", "title": "Removing a node removes that node and nothing else", "statement": "A recursive removal of a file or directory removes exactly its subtree, through whatever links it is reached; a removal that is not recursive removes a file, a link (not its target) or an empty directory and refuses a directory with content; something that does not exist is not an error; a recursive removal of a link removes the link and what it points to.", "quantifier": "for all trees and paths", "why_tests_cant": "Tests remove one link and one directory; links in a cycle or inside their target are never made.", "anchors": ["src/spectrocrunch/io/localfs.py:Path.remove", "src/spectrocrunch/io/localfs.py:Path.linkdest", "src/spectrocrunch/io/localfs.py:Path.islink"]}
{"id": "C78", "title": "Copies equal their source, links point where they were told, temporary nodes leave no trace", "statement": "A copy leaves the source and everything else as it was and gives the destination the same tree; without force nothing that exists is changed, also when the copy fails; with force only the destination is replaced. A link made to a path leads to that path, for the class and for the operating system. A temporary node ends up at its final name when that is free or force is given, otherwise it is removed and the existing node is kept; without a name it is removed. Links can be copied too.", "quantifier": "for all trees, sources, destinations and names", "why_tests_cant": "Tests copy a small tree once and use one temporary file; the combinations of links, force and existing destinations are not covered, and copying a link fails on every call.", "anchors": ["src/spectrocrunch/io/localfs.py:Path.copy", "src/spectrocrunch/io/localfs.py:Path.link", "src/spectrocrunch/io/localfs.py:Path.linkdest", "src/spectrocrunch/io/fs.py:Path.renameremove", "src/spectrocrunch/io/fs.py:Path.temp", "src/spectrocrunch/io/fs.py:Path.relpath"]}
{"id": "C79", "title": "Noise propagation gives the moments of the random variables it models and its inverses undo it", "statement": "For independent finite distributions, compound(N,X) returns the exact mean and variance of the sum of N copies of X, repeat those of a fixed number of copies, bernouilli those of a 0/1 variable. reverse_add and reverse_sub return the moments of the other term, reverse_mult and reverse_div undo first-order propagation, the backward direction of compound and repeat undoes the forward one and fails where no variance exists. A selected part of a Poisson process is a Poisson process, and a cascade of processes is one process.", "quantifier": "every distribution with finitely many values, every number of terms, all rational means and variances", "why_tests_cant": "Tests compare with Monte Carlo samples or with one set of parameters; agreement in distribution for every process cannot be sampled.", "anchors": ["src/spectrocrunch/math/noisepropagation.py:compound", "src/spectrocrunch/math/noisepropagation.py:repeat", "src/spectrocrunch/math/noisepropagation.py:reverse_add", "src/spectrocrunch/math/noisepropagation.py:reverse_mult", "src/spectrocrunch/math/noisepropagation.py:bernouilli", "src/spectrocrunch/math/noisepropagation.py:poisson"]}
{"id": "C80", "title": "The full-field simulation: backward undoes forward, and its transmission is that of the sample", "statement": "For every sample, scintillator, lens and camera with positive efficiencies, the noisy forward chain succeeds, its mean equals the noiseless result, and the backward chain returns the photons (mean and variance) that came in. The transmission derived from simulated data, flat and dark frames is the sample transmission; flux and flat convert into each other; the dark current contributes Poisson noise; the number of data and flat frames fills the requested time.", "quantifier": "all setups, photon numbers, exposure times and frame numbers, with and without noise", "why_tests_cant": "Tests run a few detector configurations to a tolerance; the inverse must hold for every configuration and both number types.", "anchors": ["src/spectrocrunch/simulation/calcnoise.py:id21_ffsetup.propagate", "src/spectrocrunch/simulation/calcnoise.py:id21_ffsetup.measurement", "src/spectrocrunch/simulation/calcnoise.py:transmission", "src/spectrocrunch/simulation/calcnoise.py:id21_ffsetup.getnframes", "src/spectrocrunch/detectors/area.py:AreaDetector.propagate", "src/spectrocrunch/materials/scintillators.py:Scintillator.propagate", "src/spectrocrunch/materials/lenses.py:Lens.propagate", "src/spectrocrunch/materials/multilayer.py:Multilayer.propagate"]}
{"id": "C81", "title": "Quadrics are zero exactly on the surface they are named after and follow a change of frame", "statement": "The matrix built for a plane, ellipsoid or cylinder is symmetric and its quadratic form at any point is the defining polynomial of that surface (signed distance to the plane, sum of squared scaled offsets minus one, the same without the coordinate along the axis); a cylinder takes a point of the space on its axis, as documented; a change of frame gives the same value at corresponding points, keeps symmetry and composes; mismatching lengths raise.", "quantifier": "all dimensions, points, normals, semi-axes, axes and frame matrices", "why_tests_cant": "tests check a few points in two or three dimensions; the identity is polynomial in unboundedly many coordinates", "anchors": ["src/spectrocrunch/math/quadrics.py:plane", "src/spectrocrunch/math/quadrics.py:ellipsoid", "src/spectrocrunch/math/quadrics.py:cylinder", "src/spectrocrunch/math/quadrics.py:change_of_frame"]}
{"id": "C82", "title": "Constrained least squares hands the solver an equivalent quadratic program", "statement": "For every matrix (dense or sparse), right-hand side, regularisation, inequalities, equalities and bounds, the quadratic program given to the solver has as feasible points exactly the admissible ones and the same minimisers as the regularised sum of squares; the nonnegative and unconstrained variants are its special cases; a sparse matrix gives the program of its dense counterpart.", "quantifier": "all matrix sizes and contents, all combinations of constraints", "why_tests_cant": "tests compare a handful of numerical solutions to a tolerance; the equivalence concerns every feasible point", "anchors": ["src/spectrocrunch/math/lsqlin.py:lsqlin", "src/spectrocrunch/math/lsqlin.py:lsqnonneg", "src/spectrocrunch/math/lsqlin.py:lsqnorm", "src/spectrocrunch/math/lsqlin.py:scipy_sparse_to_spmatrix"]}
{"id": "C83", "title": "A peak is located at its first maximum or at the centre of mass around it", "statement": "The extremum functions return the first of the greatest (least) numbers, ignoring NaN, and raise when there are none; the centroid is taken over the widest symmetric window (square in an image) around the maximum that stays above nine tenths of it, is the centre of mass of that window in the coordinates of the data (row first for images), lies inside the window for nonnegative data and is the maximum itself for a symmetric peak.", "quantifier": "all data of any size, with NaN, and all thresholds", "why_tests_cant": "the window depends on every value around the peak; tests use one Gaussian-like image symmetric in its axes", "anchors": ["src/spectrocrunch/math/center.py:fmax", "src/spectrocrunch/math/center.py:fmin", "src/spectrocrunch/math/center.py:foptimize", "src/spectrocrunch/math/center.py:fcentroid"]}
{"id": "C84", "title": "The filters of a detector are kept, listed and applied by their role", "statement": "Attenuators are sorted into beam filters (the word beamfilter in any case and a number), the detector material, the atmosphere and detector filters; the lists of filters contain exactly the attenuators of their role in order, with the atmosphere if it is asked for; adding a filter keeps all others (one without a name gets a fresh one) and names of another role raise; removing a group removes exactly that group; a restored detector behaves as the original; the transmission of filters is the product of their transmissions and lies in (0,1], and the efficiency is the product of the transmissions before and after the sample (air included) and the attenuation by the detector, in [0,1].", "quantifier": "all dictionaries of attenuators, names, materials, thicknesses and energies", "why_tests_cant": "tests add at most one filter of a kind and never ask for the atmosphere; names and numbers of filters are unbounded", "anchors": ["src/spectrocrunch/detectors/base.py:addbeamfilter", "src/spectrocrunch/detectors/base.py:isdetectorfilter", "src/spectrocrunch/detectors/base.py:nextbeamfilter", "src/spectrocrunch/detectors/base.py:filter_transmission", "src/spectrocrunch/detectors/base.py:efficiency", "src/spectrocrunch/detectors/base.py:attenuators"]}
{"id": "C85", "title": "Detector distance, motor position, solid angle and sample angles determine each other", "statement": "Active area, distance and solid angle of a detector are found back from one another (solid angle of the cone to the rim, monotone in area and distance); the distance follows from the motor position through the sign and the zero distance, and distances, positions and solid angles that are set are read back in their unit; calibrating with a distance makes it the distance at the current position; the angles with the normal follow from those with the surface and tell reflection from transmission; a geometry can be saved and restored, an unknown distance is None, and the presets accept every keyword of the general geometry in its unit.", "quantifier": "all areas, distances, solid angles, positions, units, zero distances and angles", "why_tests_cant": "tests go round one setup with a tolerance; the inverse functions must agree for every real number", "anchors": ["src/spectrocrunch/detectors/base.py:solidangle_calc", "src/spectrocrunch/geometries/base.py:FlatSample", "src/spectrocrunch/geometries/base.py:Centric", "src/spectrocrunch/geometries/xrf.py:LinearMotor", "src/spectrocrunch/geometries/xrf.py:LinearXRFGeometry"]}
{"id": "C86", "title": "The signals of a diode convert into each other", "statement": "For a diode with gain, oscillator (slope, offset), dark current and charge per photon, the conversions between flux, current, voltage, counts per second and counts are consistent: current = charge*flux + dark, voltage = resistance*current, rate = slope*voltage + offset, counts = rate*time, each conversion inverts the opposite one, and responsetoflux/fluxop give the flux from a response in any unit. Counts without time and unknown units are refused. The operator for XRF normalisation maps the counts of a flux F during t to F t/(Fref tref). Calibration in the dark sets the dark current (or the oscillator offset) so that the median dark response is predicted, and never to a negative value.", "quantifier": "all diodes with nonzero resistance, slope and charge, all fluxes, times, units and dark data", "why_tests_cant": "tests round-trip a few settings; counts to current/voltage and dark calibration with counts raise in the code", "anchors": ["src/spectrocrunch/detectors/diode.py:PNdiode.responsetoflux", "src/spectrocrunch/detectors/diode.py:PNdiode.fluxop", "src/spectrocrunch/detectors/diode.py:PNdiode.xrfnormop", "src/spectrocrunch/detectors/diode.py:PNdiode.calibratedark", "src/spectrocrunch/detectors/diode.py:PNdiode.calibrateF0", "src/spectrocrunch/detectors/diode.py:Oscillator.op_voltagetocps"]}
{"id": "C87", "title": "The gain of a diode", "statement": "Resistance times maximal current is the maximal voltage; setting one of them sets the gain to the nearest setting of the amplifier and reads back. The rounder chooses the setting m*base^n nearest on a logarithmic scale (even n when two are as near) or the nearest multiple of m, keeps exact settings and refuses non-positive gains. The gain is recovered from responses after and before the amplifier, and None is returned when they are not usable.", "quantifier": "all gains, rounders with base at least 2, all lists of responses", "why_tests_cant": "logarithms hide ties and signs; the unusable case is never reached in the code", "anchors": ["src/spectrocrunch/detectors/diode.py:GainRounder.__call__", "src/spectrocrunch/detectors/diode.py:PNdiode.Rout", "src/spectrocrunch/detectors/diode.py:PNdiode.Imax", "src/spectrocrunch/detectors/diode.py:PNdiode.gain", "src/spectrocrunch/detectors/diode.py:PNdiode.gainfromresponse"]}
{"id": "C88", "title": "The charge per photon of a diode and its calibration", "statement": "Line weights are normalised to one in the given proportions; the weights at the sample are proportional to weight times transmission and sum to one. The charge per sample photon is the sum over the detected lines of rate times charge, divided by the transmitted fraction. After a calibration with charge C (simple or with the solid angle) the charge per sample photon is C. Fitting currents against fluxes recovers the dark current and the charge of data on a line, uses only fluxes within the limits, keeps a fixed dark current, and replaces a negative dark current by zero.", "quantifier": "all numbers of source lines, weights, transmissions and data", "why_tests_cant": "tests use one line, for which the wrong sums over lines agree", "anchors": ["src/spectrocrunch/detectors/diode.py:PNdiode._chargepersamplephoton", "src/spectrocrunch/detectors/diode.py:PNdiode._detection_rates", "src/spectrocrunch/detectors/diode.py:PNdiode._calibrate_chargepersamplephoton", "src/spectrocrunch/detectors/diode.py:PNdiode.samplelineweights", "src/spectrocrunch/detectors/diode.py:NonCalibratedPNdiode.calibrate", "src/spectrocrunch/materials/utils.py:reshape_spectrum_lines"]}
{"id": "C89", "title": "Assigning to a lazily assembled stack is assigning to the stack", "statement": "For every stack of arrays along an axis, every index and every value: setitem changes the arrays so that the stack of the changed arrays is what numpy makes of the stack with stack[index] = value (or +=, -=, *=, /=, &=, |= for the other methods), it changes no other array and no shape, and a method that does not exist changes nothing. Proved for indices without np.newaxis whose integers and lists are next to each other or at the front (or whose stacking axis has a list), numbers and values of the shape of the selection. The code violates the rest: with an integer for the stacking axis and a list further on the values are written to the wrong elements without an error (the transposition for reading is applied where its inverse is needed), two lists around a slice for the stacking axis raise, += with a list that selects an array twice adds twice, np.newaxis and values that must be broadcast raise.", "quantifier": "all arrays, stacks, axes, indices (integers, slices, lists, Ellipsis), values, methods and element operations", "why_tests_cant": "The wrong order needs at least three dimensions with equal lengths to pass without an error; tests compare a few random indices of small shapes.", "anchors": ["src/spectrocrunch/utils/indexing.py:setitem", "src/spectrocrunch/utils/indexing.py:prepare_getitem", "src/spectrocrunch/utils/indexing.py:extract_axis"]}
{"id": "C90", "title": "A spec command is read as its words say", "statement": "For every text: when it consists of the words of a zapimage (in its two orders), puzzle, mesh, zapenergy SUM/SUM2, zapline or ascan command, with white space between them and a space after the name, cmd_parser.parse returns exactly the motors, positions, numbers of pixels or steps and the exposure time with its unit that these words say, whatever follows; conversely everything that is returned other than the unknown command was written in the text in this way, and a text has at most one meaning. The code violates the statement for the last word, which need not be read to its end (an exposure time of 1e-3 is read as 1 ms, 0.5 ms of a zapimage as 0 ms), and does not understand numbers in scientific notation, numbers that end in a point, motors with a digit (except in puzzle), a tab after the name and leading spaces.", "quantifier": "all texts (of ASCII characters), all layouts of words, all numbers in decimal notation", "why_tests_cant": "The regular expressions backtrack; tests parse one well-formed command of each kind.", "anchors": ["src/spectrocrunch/io/spec.py:cmd_parser.parse", "src/spectrocrunch/io/spec.py:cmd_parser.match", "src/spectrocrunch/io/spec.py:cmd_parser.patternzapimage", "src/spectrocrunch/io/spec.py:cmd_parser.patternzapline"]}
{"id": "C91", "title": "The positions of the pixels of a scan", "statement": "For every start, end and number of pixels: zapline_values are the centres of equal cells that fill the interval, ascan_values are equally spaced from start to end, range, scan size and pixel size are those of these positions, the dimensions of a scan give each motor of the command its range and every other motor its position, and the sizes listed for an image are those of its grid. Proved for values, ranges and scan sizes, the pixel size of step scans, the dimensions of a zapimage and the numbers of points of an image. The code violates the rest: zapline_pixelsize divides by n - 1 and is never the distance of the pixels (ZeroDivisionError for one pixel, which also ends getimages), getdimensions raises KeyError for every ascan and mesh over a motor that is asked for, ignores motors with a capital letter, getimages reports the size of the fast axis for the slow axis, and zapimage_submap never returns (AttributeError).", "quantifier": "all rational positions, all numbers of pixels, all commands in the sense of C90, all lists of motors", "why_tests_cant": "Tests check the grids for one case and do not call getdimensions, getimages or zapimage_submap.", "anchors": ["src/spectrocrunch/io/spec.py:zapline_values", "src/spectrocrunch/io/spec.py:zapline_range", "src/spectrocrunch/io/spec.py:zapline_pixelsize", "src/spectrocrunch/io/spec.py:zapline_scansize", "src/spectrocrunch/io/spec.py:ascan_values", "src/spectrocrunch/io/spec.py:zapimage_submap", "src/spectrocrunch/io/spec.py:spec.getdimensions", "src/spectrocrunch/io/spec.py:spec.getimages"]}
{"id": "C92", "title": "XANES scans and their repeats", "statement": "For every spec file: extractxanesinfo lists the individual scans with one repeat and the sums with the number of repeats of their command, in the order of the file, within the requested numbers; extractxanesginfo groups each sum with the individual scans directly before it, at most as many as it has repeats, and lists what is not grouped on its own, so that each scan occurs exactly once (sums only when they are kept; individual scans a second time when they are kept). The code violates the rest of what is intended: a SUM2 scan replaces the scan before it whatever that was (IndexError when it is the first), and a group can have fewer scans than the sum has repeats or scans that were made before another measurement.", "quantifier": "all lists of scans, all options, all limits and skip lists", "why_tests_cant": "There are no tests of the grouping; the options interact over the whole list.", "anchors": ["src/spectrocrunch/io/spec.py:spec.extractxanesinfo", "src/spectrocrunch/io/spec.py:spec.extractxanesginfo"]}
{"id": "C93", "title": "Inherited parameters", "statement": "For every tree of parameter nodes and every node: a key has the value that the node stores itself or else that of the nearest ancestor that stores the key, and is missing otherwise; iteration, length, items and membership agree with this, without repetition and with the node's own keys first; setting a key changes exactly what is seen for that key at the node and at the nodes below it down to where the key is stored again; deleting a key makes the node and everything below it see the value of the parent; a recursive update is seen everywhere below; all of this leaves the tree and all other values as they were. The code violates the expectations of a dictionary: a value equal to the inherited one is not stored and follows later changes of the ancestor; pop and popitem leave an inherited key in place, so that clear never ends; a key cannot be set to a dictionary, and after the attempt cannot be set at all, there and below; fromdict(override=False) and isinheritedkey raise.", "quantifier": "all trees (finite, acyclic), all nodes, keys and values; values that are nodes are not modelled", "why_tests_cant": "The value at a node depends on the whole path to the root; tests use one small tree.", "anchors": ["src/spectrocrunch/pipelines/parameters.py:BaseNode.__getitem__", "src/spectrocrunch/pipelines/parameters.py:BaseNode.__setitem__", "src/spectrocrunch/pipelines/parameters.py:BaseNode.__delitem__", "src/spectrocrunch/pipelines/parameters.py:BaseNode.update_recursive", "src/spectrocrunch/pipelines/parameters.py:BaseNode.iter"]}
{"id": "C94", "title": "Rearranging the tree of parameters", "statement": "For every tree and every pair of nodes: giving a node another parent, branching, removing a node (alone or with what is below it), and inserting a node before or after another (alone or with what is below it) always succeed, keep the children in agreement with the parents, never create a cycle and never touch what the nodes store; the ancestors of every node afterwards are exactly those before with the moved node taken out and put in at its new place, a node at the top that is taken out alone being replaced by a new empty one; a new empty node put before another changes no value that is seen. The code violates the description when a node that has a parent elsewhere is inserted before x with everything below it (x goes to the other tree and its place is left), when it is a higher ancestor of x at the top (the parent of x is cut off from its own), when a new node is to be inserted before a node at the top (nothing happens and None is returned) and when a new node is to be inserted after a node (AttributeError).", "quantifier": "all trees, all nodes x and n", "why_tests_cant": "Moving a node below itself first moves another one; tests insert at fixed places in one tree.", "anchors": ["src/spectrocrunch/pipelines/parameters.py:Node.parent", "src/spectrocrunch/pipelines/parameters.py:Node._newparent", "src/spectrocrunch/pipelines/parameters.py:Node.remove", "src/spectrocrunch/pipelines/parameters.py:Node.insert_before", "src/spectrocrunch/pipelines/parameters.py:Node.insert_after", "src/spectrocrunch/pipelines/parameters.py:Node.branch"]}
{"id": "C95", "title": "Changes of parameters since the last reset", "statement": "For every tree: resetting a node (and recursively all below it) changes no value, marks exactly these nodes as unchanged and leaves the others as they were; later, whatever happened in between, a node is unchanged exactly if its ancestors and itself store, one by one, the same as at the time of the reset, so that an unchanged node sees the same values; setting a key makes exactly the node and everything below it changed, unless it already had the value; the annotated keys are the keys, with those stored at the node itself told apart. The code violates the intention in that a node counts as changed when an empty node was put above it or when a key that it overrides changed, that a key which was set and set back stays marked, that a key whose own value was deleted is not marked although it now has the inherited value, that AnnotatedKey.inherited raises, and that an attempt to store a dictionary breaks the record of everything below.", "quantifier": "all trees whose values are not nodes or dictionaries, all nodes, all later states", "why_tests_cant": "The record depends on all ancestors and survives rearrangements; tests change one key at a time.", "anchors": ["src/spectrocrunch/pipelines/parameters.py:BaseNode.changed", "src/spectrocrunch/pipelines/parameters.py:BaseNode.reset_state", "src/spectrocrunch/pipelines/parameters.py:BaseNode.__hash__", "src/spectrocrunch/pipelines/parameters.py:BaseNode._changekey", "src/spectrocrunch/pipelines/parameters.py:AnnotatedKey"]}
{"id": "C96", "title": "Stacks of images are read and written along the stack dimension", "statement": "An image source made of arrays tells the number and the size of the images along the stack dimension; reading image i gives exactly the pixels with coordinate i along it, writing an image changes exactly those pixels of that dataset, a destination has the asked shape and type after it was prepared or a ValueError is raised, and aligning without transformation copies every stack.", "quantifier": "all arrays of any shape and values, all stack dimensions, numbers of stacks, image indices and destinations", "why_tests_cant": "Tests use one stack dimension and arrays with three dimensions; the copy of a smaller array is silent.", "anchors": ["src/spectrocrunch/align/alignSource.py:alignSource.__init__", "src/spectrocrunch/align/alignSource.py:alignSource.initshape", "src/spectrocrunch/align/alignSource.py:alignSource.readimg", "src/spectrocrunch/align/alignSource.py:alignSource.readimgas", "src/spectrocrunch/align/alignDest.py:alignDest.destshape", "src/spectrocrunch/align/alignDest.py:alignDest.nparray_prepare", "src/spectrocrunch/align/alignDest.py:alignDest.h5ext_prepare", "src/spectrocrunch/align/alignDest.py:alignDest.writeimg", "src/spectrocrunch/align/align.py:align.copyimg"]}
{"id": "C97", "title": "Aligned stacks are saved in a new place unless they may be overwritten", "statement": "Without overwriting, the datasets are created together in the first of /, /entry1, /entry2, ... where none of them exists, the search for it ends and nothing else in the file changes; with overwriting, existing datasets of the right shape and type are used. Image files of different images have different names in the order of the images, and no existing file is replaced unless asked.", "quantifier": "all HDF5 files, names, extensions, shapes, types, directories and numbers of images", "why_tests_cant": "What exists beforehand is arbitrary; tests start with a new directory and one or two files.", "anchors": ["src/spectrocrunch/align/alignDest.py:alignDest.h5_composesetname", "src/spectrocrunch/align/alignDest.py:alignDest.h5_datasetsexist", "src/spectrocrunch/align/alignDest.py:alignDest.h5_nonexistingsetnames", "src/spectrocrunch/align/alignDest.py:alignDest.h5_datasetscheck", "src/spectrocrunch/align/alignDest.py:alignDest.h5_prepare", "src/spectrocrunch/align/alignDest.py:alignDest.singlefile_composefilename", "src/spectrocrunch/align/alignDest.py:alignDest.singlefile_datasetsexist", "src/spectrocrunch/align/alignDest.py:alignDest.singlefile_nonexistingdestination", "src/spectrocrunch/align/alignDest.py:alignDest.singlefile_prepare", "src/spectrocrunch/align/alignDest.py:alignDest.singlefile_getfabiohandle"]}
{"id": "C98", "title": "Alignment by correlation of Fourier transforms finds a displacement", "statement": "An image whose pixels are those of the reference, displaced periodically by a number of rows and columns that is less than half the image, is aligned with exactly that translation, for every subpixel sampling and both ways to locate the maximum of the correlation; missing pixels count as zero, the previous image as reference is the image itself as reference, and transformations that are not supported or images that are not numbers raise an exception.", "quantifier": "all images of one row, one column or more, all displacements, samplings and fill values", "why_tests_cant": "Tests move one test image with a tolerance; the maximum of an interpolated correlation is a statement about all real phases.", "anchors": ["src/spectrocrunch/align/alignFFT.py:alignFFT.fft_handle_missing", "src/spectrocrunch/align/alignFFT.py:alignFFT.ftmodulus", "src/spectrocrunch/align/alignFFT.py:alignFFT.ifft_interpolate", "src/spectrocrunch/align/alignFFT.py:alignFFT.cc_maximum", "src/spectrocrunch/align/alignFFT.py:alignFFT.determine_shift", "src/spectrocrunch/align/alignFFT.py:alignFFT.execute_alignkernel", "src/spectrocrunch/align/alignFFT.py:alignFFT.set_reference", "src/spectrocrunch/math/center.py:fcentroid"]}
{"id": "C99", "title": "Operations on lazy functions are the operations on their values", "statement": "An expression built from lazy functions and values with the arithmetic and comparison operators is a lazy function exactly when it contains one; calling it with any arguments gives the value of the expression in which every lazy function is called with these arguments, including the exception of the first operand or operation that fails, and expressions without lazy functions are computed at once.", "quantifier": "all expressions, functions, arguments and types of values", "why_tests_cant": "Tests call two or three expressions; nesting of operators with functions on either side is unbounded.", "anchors": ["src/spectrocrunch/math/lazy.py:Function._binary_op", "src/spectrocrunch/math/lazy.py:Function._unitary_op", "src/spectrocrunch/math/lazy.py:Function.__call__", "src/spectrocrunch/math/lazy.py:Function.__rsub__", "src/spectrocrunch/math/lazy.py:Function.__rdivmod__", "src/spectrocrunch/math/lazy.py:Function.__not__"]}
{"id": "C100", "title": "Alignment on a marker finds the displacement of the marker", "statement": "Alignment on the maximum, the minimum or the centroid gives the translation from the marker of the reference to the marker of the image, ignoring missing pixels; an image that shows the scene of the reference displaced by whole pixels, with nothing greater entering it, is aligned by exactly that displacement and then equals the reference wherever both exist; the previous image as reference is that image as reference, and images without a marker and transformations that are not translations are errors.", "quantifier": "all images, fill values, displacements and references", "why_tests_cant": "Tests move a few blobs with a tolerance; ties, missing pixels and every displacement need a statement over all images.", "anchors": ["src/spectrocrunch/align/alignSimple.py:alignSimple.execute_alignkernel", "src/spectrocrunch/align/alignSimple.py:alignSimple.handle_missing", "src/spectrocrunch/align/alignSimple.py:alignSimple.getxy", "src/spectrocrunch/align/alignSimple.py:alignSimple.set_reference", "src/spectrocrunch/align/alignSimple.py:alignMax", "src/spectrocrunch/align/alignSimple.py:alignMin", "src/spectrocrunch/align/alignSimple.py:alignCentroid"]}
{"id": "C101", "title": "Resampling on encoder positions keeps the motor grid and covers the lines", "statement": "For a scan of equidistant motor positions, the encoder positions at which a map is resampled are the expected ones, motor position times resolution plus an offset; the offset that is not given centres them on the measured ones and then as many points are added at both sides; without crop they cover the begin and the end of every measured line with the smallest number of points, with crop they are within every line; lines that are where they are expected leave the axis unchanged; and every pixel of the new map is computed exactly once.", "quantifier": "all equidistant axes, resolutions, offsets and measured lines, increasing or decreasing, and all shapes", "why_tests_cant": "Tests resample one simulated map; rounding to the grid and directions need all combinations.", "anchors": ["src/spectrocrunch/process/nxresample.py:Task._encoder", "src/spectrocrunch/process/nxresample.py:Task._process_indices", "src/spectrocrunch/process/nxresample.py:Task._prepare_process", "src/spectrocrunch/process/axis.py:Axis.newlimits"]}
{"id": "C102", "title": "Shells and fluorescence lines", "statement": "A main shell stands for its shells (K alone, otherwise 2n-1 numbered ones), a list of names is expanded to the ordered set of what they stand for, and shrinking replaces the shells of a main shell by its letter exactly when all are there, independently of the order of iteration, so that expanding what was shrunk gives the shells back. A line made from a code has the longest of its names and prefers IUPAC names; a line made from a name keeps it; unknown names and codes are errors. Energies and radiative rates come from the line itself or from the smallest composite with a negative code that has one. Lines are selected by energy and by shell, and grouped in KA, KB or their shell; the yields of the lines of a shell sum up to its yield. Violated: splitting a shell should keep the others; two names of a line should be equal; lines of K from O and P should be in group KB; asking for the yields of the lines should not change the yield of the shell.", "quantifier": "all lists of names that begin with a letter from K to Z, all orders of iteration, all tables of shells, lines and composites, all energies and rates", "why_tests_cant": "Tests use the tables of xraylib for a few elements and never split a shell.", "anchors": ["src/spectrocrunch/materials/xrayspectrum.py:FluoLine", "src/spectrocrunch/materials/xrayspectrum.py:Shell", "src/spectrocrunch/utils/comparable.py:Comparable"]}
{"id": "C103", "title": "X-ray spectra", "statement": "Weights are divided by their sum and multiply the lines with as many values; adding sources keeps the lines; cross sections become probabilities with the density, over 4 pi unless differential, and rates are kept, anything else is an error; sorted lines are in the order of their largest energy and keep their order otherwise; the areas of the lines sum up to the converted values; the power is the sum of energy times rate; Compton scattering adds a constant to the inverse energy; every line is in exactly its group; peaks have the names of their lines, areas that sum up, and one label per group on a largest peak; an energy is in its nearest channel, with the inverse; the channels are those between the limits; the sum of two spectra is line by line and keeps the second, spectra of different type are an error, functions of the geometry are evaluated with their own. Violated: spectrum_dict should give the intensity at every energy; the energy of the source and the spectra of the groups should be found; a sum should not share arrays with the second spectrum; a sum that fails should not change the first.", "quantifier": "all lists of lines, values, weights and geometries, all gains and limits, all arrays in memory with distinct arrays for distinct lines", "why_tests_cant": "Tests plot a few spectra, never add three spectra, and do not call spectrum_dict, energysource or groupspectra.", "anchors": ["src/spectrocrunch/materials/xrayspectrum.py:Spectrum", "src/spectrocrunch/materials/xrayspectrum.py:ComptonLine", "src/spectrocrunch/materials/xrayspectrum.py:RayleighLine", "src/spectrocrunch/materials/xrayspectrum.py:Line"]}
{"id": "C104", "title": "Quantitative XRF geometries keep their devices in agreement and normalise with them", "statement": "After any sequence of attribute assignments that succeeds, and after construction, the I0 diode has the optics, the source of its secondary target and the calibration mode of the geometry and every XRF geometry has its source; a failing assignment changes nothing; state and back gives the same object, which is equal to itself; the reference is a flux or counts and other units are a ValueError; the counts of the I0 diode belonging to flux f during t are normalised to f t/(Fref tref) with explicit or default times and references; the flux operators give the flux before or after the sample, divided by the common beam filter transmission on demand; quantification information is made for every geometry.", "quantifier": "all registries, sequences of assignments, devices, diodes that work, times, references and numbers of geometries", "why_tests_cant": "The assignments interact through updates and their order, default and explicit arguments combine in many ways, and failures in the middle of an assignment are not provoked by tests.", "anchors": ["src/spectrocrunch/geometries/qxrf.py:QXRFGeometry"]}
{"id": "C105", "title": "Calibration data of diodes are completed consistently and devices follow from the motors", "statement": "Calibration data get the units of the instrument, rates are kept or made of amounts and exposure time, wrong dimensions are refused; the gain of a diode comes from the current or else the flux unless in the dark; a gain that is asked must be that of the data; devices in use are verified, created or replaced, unused devices removed when resetting; the dark flag is optional; the device of an instrument is the one indicated by the first motor near a position with a device, or else the default; counters are those included and not excluded; the metadata type belongs to the state of an instrument; the location of data is sample/sample_dataset/subdir.", "quantifier": "all data, motors, units, identifiers (also equal ones), devices, gains and configurations", "why_tests_cant": "The data can come from parameters, counters or motors with or without units in all combinations; the errors are at combinations of options that are not used by the tests.", "anchors": ["src/spectrocrunch/geometries/qxrf.py:QXRFGeometry._validate_data", "src/spectrocrunch/instruments/configuration.py:InstrumentInfo"]}
{"id": "C106", "title": "Quantities made of numbers, quantities and arrays keep their meaning", "statement": "The magnitude in a unit times the size of the unit is the physical value, for numbers only when the unit is that of numbers and for quantities only when the dimensions agree, otherwise there is a TypeError; arrays take the unit of their first element and keep all physical values; units are given to plain numbers only; a value made like another has its units; the first unit of a list with the right dimension is used; the arguments of a binary operator get the same units. Refuted: empty lists, dimensionless quantities behind a plain number get the given units, operators refuse a number on the left of a quantity.", "quantifier": "all units with a size, all numbers, all lists of numbers and quantities, all lists of units", "why_tests_cant": "the order of the elements and the mixture of numbers and quantities matter: tests use homogeneous arrays", "anchors": ["src/spectrocrunch/utils/units.py:Quantity", "src/spectrocrunch/utils/units.py:magnitude", "src/spectrocrunch/utils/units.py:umagnitude", "src/spectrocrunch/utils/units.py:asqarray", "src/spectrocrunch/utils/units.py:quantity_like", "src/spectrocrunch/utils/units.py:unitsto", "src/spectrocrunch/utils/units.py:binary_operator"]}
{"id": "C107", "title": "Samples of discrete spectra are means weighted with the intensities", "statement": "A discrete spectrum made of any sequence of lines and intensities has these lines sorted without repetition, the sum of the intensities of equal lines and the total of all; the ratios are proportional to the intensities and add up to one; the sample of a lookup table is the weighted mean of the table at the given lines, lies between the bounds of the table for non-negative intensities, is the constant of a constant table and the default for an empty table or a dark spectrum. Refuted: without intensities all ratios and samples are not finite, a dark spectrum has one line, adding to a dark spectrum gives None and its method adds lines nevertheless.", "quantifier": "all lists of lines and intensities, all lookup tables, all unit conversions", "why_tests_cant": "tests sample a few lines without repetition and never dark spectra to which lines are added", "anchors": ["src/spectrocrunch/sources/emspectrum.py:Discrete", "src/spectrocrunch/sources/emspectrum.py:Dark"]}
{"id": "C108", "title": "Full-field images are dark subtracted sums over the exposure time, relative to flat images", "statement": "Rebinning adds all pixels of a bin and conserves the total of the pixels that fill bins; the raw image is the rebinned region of interest; the image of a list of files is the sum of their pixels minus the number of frames times the mean dark frame of the same exposure time (or the default dark current), divided by the total exposure time, and equals the intensity for data that is linear in it; the values of the image axes are the mean pixel coordinates of the bins and as many as the image has pixels; files are grouped by key for the region of the first file, flats are split in before and after by name, slices are sorted by key and relative to the flat or to the mean of both flats. Refuted: a region that ends outside the image gives axes longer than the image, an incomplete region in a header is an IndexError, a key without flats (or with one, when taken before and after) stops the process with a TypeError.", "quantifier": "all images, rebin factors, regions, lists of files with any header values, all exposure times and numbers of frames", "why_tests_cant": "tests use one image shape, complete sets of flat images and regions inside the image", "anchors": ["src/spectrocrunch/fullfield/import_id21.py:execrebin", "src/spectrocrunch/fullfield/import_id21.py:procraw", "src/spectrocrunch/fullfield/import_id21.py:darklibrary", "src/spectrocrunch/fullfield/import_id21.py:axesvalues", "src/spectrocrunch/fullfield/import_id21.py:dataflatlibrary", "src/spectrocrunch/fullfield/import_id21.py:getnormalizedimage", "src/spectrocrunch/process/nxfullfield.py:Task"]}
{"id": "C109", "title": "Merging lazy expressions keeps their value", "statement": "Adding a lazy sum to a lazy sum, or a lazy maximum to a lazy maximum, merges their arguments without changing the value; for sums that skip NaN this holds for finite values and NaN.", "quantifier": "all argument lists and nested expressions, all values", "why_tests_cant": "The images of a project are small and the tests never compare merged expressions with the nested ones.", "anchors": ["src/spectrocrunch/process/nxlazy.py:Function.merge", "src/spectrocrunch/process/nxlazy.py:LazyStackSlice.appendarg", "src/spectrocrunch/process/nxlazy.py:LazyStackSlice.data"]}
{"id": "C110", "title": "Sums of detectors and groups of detectors after fitting", "statement": "The results of the fits of single detectors are replaced by those of their groups and of the total of the groups: peak areas are added, weights averaged, of chi squared the largest is taken, after normalising to the flux and correcting the dead time of each detector; the exported images are in the order of the stack values.", "quantifier": "all numbers of detectors, groups, results and images, all values", "why_tests_cant": "The number of ways to group detectors and to combine the options is too large, and the tests use at most two groups of distinct detectors.", "anchors": ["src/spectrocrunch/process/nxpymca.py:Task._prepare_adddetector", "src/spectrocrunch/process/nxpymca.py:Task._add_detectors", "src/spectrocrunch/process/nxpymca.py:Task._apply_postcorrect_xrf", "src/spectrocrunch/process/nxpymca.py:Task._sort_stacks", "src/spectrocrunch/process/nxpymca.py:Task._exportgroups"]}
{"id": "C111", "title": "Axes of a scene: ranges, flips, origins and limits", "statement": "The axes displayed as x and y are always different and transposing exchanges them. Setting the range of an axis maps the lowest coordinate to the first value, the highest to the second and interpolates in between, whatever the range was before. Flipping an axis mirrors what is displayed and leaves the axis with the order asked for. All coordinates are within the display limits and pixel i of n pixels is in the middle of interval i of n. The origin can be put at the lowest coordinate, and ranges and origins can be reset. The parameters of scene_modifyaxes give the axes the order asked for.", "quantifier": "for all scenes with any number of images and scatter items, any scaling, offset and order of the axes", "why_tests_cant": "The effects are only visible in a drawing, combinations of transposing, flipping and moving origins are many, and the errors appear from the second operation on.", "anchors": ["src/spectrocrunch/visualization/scene.py:Scene.setdatarange", "src/spectrocrunch/visualization/scene.py:Scene._flipaxis", "src/spectrocrunch/visualization/scene.py:Scene.origin", "src/spectrocrunch/visualization/scene.py:Scene.displaylim", "src/spectrocrunch/process/scenevis.py:scene_modifyaxes"]}
{"id": "C112", "title": "Channels and colour scaling of a scene", "statement": "An image shows one or three channels: a list of channels in its order, or the first ones by default, with zero data for missing channels. Reading the channels does not change the settings. The limits of a scene are per channel the lowest minimum and highest maximum of its images. Scaling by fractions of the range puts the lower and upper colour limit at those fractions of the range, for one image and for the whole scene.", "quantifier": "for all images, channel settings, numbers of channels and fractions", "why_tests_cant": "Colour limits are hardly looked at in tests; images with two channels, and scaling of scenes with an upper fraction, are special cases of a large parameter space.", "anchors": ["src/spectrocrunch/visualization/scene.py:Image.channels", "src/spectrocrunch/visualization/scene.py:Image.selfscale", "src/spectrocrunch/visualization/scene.py:Scene.vminmax", "src/spectrocrunch/process/scenevis.py:scene_globalscaling"]}
{"id": "C113", "title": "Files of an XRF scan are grouped per detector", "statement": "The files of a fluorescence scan are grouped so that every group has the files of one detector, no file is lost and there are as many groups as detectors. The detectors are those of the data that are not excluded, without the statistics. The sum of at least two detectors is one group; a single detector is not summed. Without files there is an error or nothing to do.", "quantifier": "for all lists of files, detectors, exclusions and combinations of summing, correcting and fitting", "why_tests_cant": "Tests use one scan name and complete scans; grouping by consecutive equal parts goes wrong for other combinations.", "anchors": ["src/spectrocrunch/xrf/parse_xia.py:parse_xia_esrf"]}
{"id": "C114", "title": "Elapsed time and progress", "statement": "A time is given as hours, minutes and seconds with less than 60 minutes and seconds that add up to the whole seconds. The time left is in proportion to what is left to do, nothing is left at the end and finishing all fine steps is one step. The elapsed time is the time since the start.", "quantifier": "for all times, numbers of steps and fine steps", "why_tests_cant": "Progress is only logged, and long running times or a first message before any step do not occur in tests.", "anchors": ["src/spectrocrunch/utils/timing.py:hms", "src/spectrocrunch/utils/timing.py:ProgressLogger.printprogress"]}
{"id": "C115", "title": "Grids of signals: items, values and stack dimensions", "statement": "An item of a grid of signals is the item of the signal selected by the stack dimension. The values of the grid are its items for any stack dimension. The stack dimensions are the axis of the signals and the stack axis of the signals themselves. In-place operations change the items and keep the grid.", "quantifier": "for all numbers of signals, shapes, stack dimensions and indices", "why_tests_cant": "Tests use the first dimension as stack dimension; square shapes hide transpositions.", "anchors": ["src/spectrocrunch/process/h5regulargrid.py:NXRegularGrid", "src/spectrocrunch/process/h5regulargrid.py:NXSignalRegularGrid", "src/spectrocrunch/process/regulargrid.py:RegularGrid.other_dims"]}
{"id": "C116", "title": "Images of a stack for display", "statement": "Each item of a stack of images is located along each of its stack axes and labelled by the stack dimension; missing positions are the last ones. Displaying gives, for each channel asked for, the image and label of that item and nothing for None, with the image axes in the order of the instrument. Without items all images are displayed, the names given for the axes are used, and spectra are taken from all files.", "quantifier": "for all grids, numbers of dimensions, items and selections of channels", "why_tests_cant": "Tests display nothing; grids with a second stack axis and several files are rare and transpositions are hidden by square images.", "anchors": ["src/spectrocrunch/visualization/scene_data.py:ImageBase.set_items", "src/spectrocrunch/visualization/scene_data.py:ImageBase.displaydata", "src/spectrocrunch/visualization/scene_data.py:ImageBase.transpose", "src/spectrocrunch/visualization/scene_data.py:XanesSpec.listoflists", "src/spectrocrunch/visualization/scene_data.py:XanesSpec.__iter__"]}
{"id": "C117", "title": "Stacks of scans keep each scan with its position and fit their axes", "statement": "Merging and stacking tasks collect all NXdata groups of the previous tasks by name in order. When the positions of the stack positioner are known they are sorted and every group is reordered with them, so that each source stays with its position; with an unknown position nothing is reordered. The shape of the scans is parsed from the title of the first entry (fscan2d, l2scan, other commands), the shape parameter of the user is used when given, a group that is missing in one of the scans does not prevent the stacking of the others, and the axes of each stack have the sizes of the stacked data, with or without positioner. For the alignment the reference image is given by name, index, None or a fraction of the stack and is always an image of the stack; images are transformed by multiplier and offset when one of them is given. Known violations: the shape parameter is ignored, a title that is not understood gives a KeyError without group \"parameters\", an incomplete group gives an IndexError, sources beyond the number of entries are dropped, several sources without positioner get only two axes, and the fraction 1 is beyond the last image.", "quantifier": "for all numbers of tasks, groups, sources and positions, all titles and references", "why_tests_cant": "The test data has complete groups with one position for each scan and titles of one command; the order of sources within each group and the sizes of axes without positioner are not compared.", "anchors": ["src/spectrocrunch/process/nxmerge.py:Task._stack_sources", "src/spectrocrunch/process/nxmerge.py:Task._shape_parser", "src/spectrocrunch/process/nxstack.py:Task._execute", "src/spectrocrunch/process/nxalign.py:Task._prepare_reference", "src/spectrocrunch/process/nxalign.py:Task.rawcalc"]}
{"id": "C118", "title": "Spectra saved in SPEC format can be read back", "statement": "A spectrum of any length is written in lines of 16 numbers, every line but the last continued with a backslash, so that a reader of the format recovers the spectrum and the position behind it; the header has the number of channels and the first and last channel. Reading a saved file gives its channels and the energies of its calibration. Known violations: in Python 3 the calibration is read into an array without dimensions, so that every file with a calibration, hence every saved file, gives a TypeError; a file with one channel is read as channel 0.", "quantifier": "for all spectra, channels and header lines", "why_tests_cant": "Files are only written in the tests, for spectra of one length; a length that is a multiple of 16 and files with a calibration are not read back.", "anchors": ["src/spectrocrunch/io/mca.py:array2SpecMca", "src/spectrocrunch/io/mca.py:save", "src/spectrocrunch/io/mca.py:read"]}
{"id": "C119", "title": "Tasks are made with the class of their method and exactly their parameters", "statement": "The class of a task follows from its method for each of the known methods; otherwise the given class is used, otherwise there is a TaskException. A task keeps given parameters that are required or optional, adds defaults (the name is the method), removes all others, and raises MissingParameter exactly when a required one is missing; it needs dependencies or a parent of its output. Each path of a file can become a task: an NXprocess with its parameters and any other path as it is. Replacing values changes all equal values and no others, also for nan. Known violations: a missing method gives a KeyError, a path that is not an NXprocess always gives an AttributeError, since the property outputparent of nxwrap.Task has no setter, and a nan other than the object np.nan replaces nothing.", "quantifier": "for all parameters, classes, paths and data", "why_tests_cant": "Tests make tasks with complete parameters from NXprocess paths only; nxwrap.Task is never constructed and nan is always np.nan.", "anchors": ["src/spectrocrunch/process/utils.py:create_task", "src/spectrocrunch/process/utils.py:nxpathtotask", "src/spectrocrunch/process/basetask.py:Task.parameters", "src/spectrocrunch/process/nxwrap.py:Task", "src/spectrocrunch/process/nxreplace.py:Task._process_data"]}
{"id": "C120", "title": "Tiling through strides writes copies of the source and nothing else", "statement": "For a source of n rows and c columns and a destination with any strides that give different elements different places, tiling writes reps copies below each other, beside each other or on the diagonal: element (i, j) becomes source element (i mod n, j), (i, j mod c), or (i mod n, j mod c) when both are in the same block; every other element of memory keeps its value. Shapes that do not fit and arrays with more than two dimensions are ValueErrors; arrays with fewer dimensions are handled. Known violation: a source with one dimension, which the checks allow, always fails.", "quantifier": "for all shapes, repetitions, strides and memories", "why_tests_cant": "Writing through overlapping strided views can touch memory outside of the destination, which comparisons of the destination with numpy's tile do not show.", "anchors": ["src/spectrocrunch/utils/arraytricks.py:tile"]}
{"id": "C121", "title": "The default plot of a result is the first plot with the requested signal and can be reached from the root", "statement": "Setting the default of a result makes the requested signal the signal of every plot that has it, without changing other plots, and marks one of these plots as default; without a name it takes the signal of the first plot and this plot. Marking a plot writes its relative path to all groups above it up to the entry and the entry to the root, so that the plot is found from each of them; marking a signal marks its plot with this signal. Known violations: the last plot with the signal is marked and not the first one, a first plot without signal gives an AttributeError, and a plot in a group without NX_class is lost: no group above it points to it.", "quantifier": "for all lists of plots and all depths of groups", "why_tests_cant": "Test files have one plot with each signal name and a class for each group.", "anchors": ["src/spectrocrunch/process/nxutils.py:set_default", "src/spectrocrunch/io/nxfs.py:Path.mark_default"]}
{"id": "C122", "title": "Preparing spectra sums all detectors corrected for dead time, each one once", "statement": "The detectors with a name that matches a pattern are each used once. With summation every pixel and channel of the result is the sum over these detectors of the counts times the preset time divided by the live time of the pixel, however the data are cut in blocks; without summation each detector gives its own corrected spectra under its name with the suffix; without correction each detector is linked under its own name. The live time comes from the live time counters or from events and trigger count rate, and a detector without them is a RuntimeError. Known violations: a detector that matches two patterns is added twice or gives an error, integer live and preset times truncate the sum for each detector, the live time from events is always one, two detectors cannot be linked, and counters with the same name of two detectors have the same output.", "quantifier": "For all numbers of detectors, patterns, pixels and channels, all counts, live times and blocks", "why_tests_cant": "Tests use one pattern, floating point live times and detectors with a live time counter", "anchors": ["src/spectrocrunch/process/nxblissmcapre.py:Task", "src/spectrocrunch/math/slicing.py:slice_generator"]}
{"id": "C123", "title": "Fitting several detectors gives the sum of all their results and the counters as they are", "statement": "Results of type mca are detectors and all others counters. With one configuration all detectors are fitted with it, with one for each detector every detector with its own; another number of configurations, or no detector, is a RuntimeError. The result has every signal of every detector, summed over the detectors, with mass fractions that do not depend on the number of detectors, and the counters unchanged. Known violations: signals that the first detector does not have are lost, mass fractions are summed like peak areas, and counters are multiplied with the number of detectors.", "quantifier": "For all numbers of detectors, configurations, counters and signals and all values, whatever the fit gives", "why_tests_cant": "Tests fit one detector, or the sum of the detectors", "anchors": ["src/spectrocrunch/process/nxblisspymca.py:Task", "src/spectrocrunch/io/nxfs.py:add_signal"]}
{"id": "C124", "title": "The signals of a result are grouped by detector, with one set of axes", "statement": "The signals of a result are the signals of all plots that are not links, by the group of the plot, in order; two plots of the same group, and plots with different axes, are a RuntimeError; the axes are those of the plots and the stack dimension is that of the parameters, or of the first plot that has one. Results of other programs and other groups are a ValueError. Known violations: when the first plot has no axes, the axes of the next one are taken for both, and a plot with a name that starts with S (sulphur) is a ValueError.", "quantifier": "For all numbers of plots, signals and axes, all names and every comparison of axes", "why_tests_cant": "Tests read results that were written by the same code, with one order of plots", "anchors": ["src/spectrocrunch/process/nxresult.py:regulargriddata", "src/spectrocrunch/process/nxresult.py:Group"]}
{"id": "C125", "title": "A batch calls the selected jobs in order and a pipeline stops at the first task that is not done", "statement": "Without options all jobs of a batch are called in order, until one raises; with numbers the jobs with these numbers, starting from one, in the order of the numbers, and a number that is not the number of a job is left out; with a first and a last number the jobs between them; printing the number or the list of jobs calls nothing. Running tasks one after the other runs them in order up to the first one that is not done or raises, and gives true exactly when all are done. Known violations: zero and negative numbers call jobs from the end, and a range of jobs is a TypeError.", "quantifier": "For all numbers of jobs and tasks, all options, whatever raises and whatever is done after earlier tasks", "why_tests_cant": "Tests run pipelines that succeed and never use the options of a batch", "anchors": ["src/spectrocrunch/pipelines/batch.py:context", "src/spectrocrunch/pipelines/run.py:run_sequential"]}
{"id": "C126", "title": "Changing the amount of one compound in a layer keeps the ratios of the others", "statement": "Setting the percentage of a compound of a layer, by mass or by volume, gives fractions between zero and one that sum to one, with this percentage for the compound and unchanged ratios of the other compounds; setting the present percentage changes nothing, so that plots and optimisations can restore the layer. Hundred percent is a ValueError, and a compound that is alone or not there an error. The thickness of a compound is its volume fraction of the thickness of the layer, both ways. Known violation: more than hundred percent is accepted and gives negative fractions.", "quantifier": "For all layers, compounds, percentages and thicknesses", "why_tests_cant": "Tests do not cover the estimation of full-field experiments", "anchors": ["src/spectrocrunch/fullfield/estimate_id21.py:FFsetup", "src/spectrocrunch/materials/mixture.py:change_fractions"]}
{"id": "C127", "title": "A table of cross sections has the shape of the elements followed by that of the energies", "statement": "Evaluating a cross section for atomic numbers and energies gives, when one of them is an array, an array whose shape is the shape of the atomic numbers followed by the shape of the energies, in which each pair has its own value and zero when xraylib raises a ValueError; an array and a number give the shape of the array, two numbers a number. The result is the same with or without xraylib_np when this agrees with xraylib.", "quantifier": "For all atomic numbers, energies, shapes and cross sections", "why_tests_cant": "Tests use a few shapes with one installed xraylib", "anchors": ["src/spectrocrunch/materials/csutils.py:eval"]}
