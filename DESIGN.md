# Formal model of DCC-Lab/RayTracing

This directory holds a Rocq (Coq 8.16.1) model of the computational core of
`/repo/raytracing` and machine-checked proofs about it. `properties.jsonl` lists
the properties (C01...), `MANIFEST.json` maps them to theorems,
`rocq/theories` holds the development, `seeded/LOG.jsonl` the mutation log.

## Modelling style

* The model is a shallow embedding, function by function. Every definition
  cites the file and lines it mirrors.
* **Numbers.** All model code is written over a type class `Num T` (arithmetic,
  comparisons, `inf`, conversion from integers). Two instances are used:
  - `XR`: real numbers extended with `+inf`, `-inf` and `NaN` (exact
    arithmetic). Theorems that need field laws are about this instance.
    *Rounding is not modelled there.*
  - `float`: Coq primitive IEEE-754 binary64. Witnesses of `_refuted` theorems
    are evaluated with it, so they are bit-exact runs of the model.
  Theorems stated `forall (T : Type) (N : Num T)` need no arithmetic law at all
  and therefore hold for IEEE doubles bit for bit.
* **Exceptions** are values: `res A := Ok a | Err e`. Python's `/` on floats is
  `pdiv`, which returns `Err ZeroDivisionError` on a zero divisor.
* **Python ints** passed where floats are expected are treated as floats.
* **Mutation and aliasing.** Rays live in a heap (`list ray`, objects are
  indices), because a trace contains the same ray object several times and
  tracing mutates `isBlocked`. Groups, their element objects and their
  last-trace cache live in an object store (`Store*.v`) used for the
  history/aliasing properties; elsewhere elements are values.
* Python `list` slicing, negative indices, generators and shared iterators are
  modelled explicitly where a property depends on them.

## Not modelled

* matplotlib and tkinter: curves, labels, boxes and check boxes are modelled as
  the data given to them (`Figures.v`, `Labels.v`, `Overlap.v`, `Visibility.v`,
  `Outline.v`, `Viewer.v`), colours and line styles only where a property is
  about them, the windows themselves not at all.
* The text of warnings and docstrings. When warnings are shown is modelled
  (`Modes.v`), and which are raised where a property depends on it.
* The network: the answer of PyPI is an input of `Version.v`.
* Pickle byte formats (pickling is the identity on object graphs).
* OS process scheduling: worker results are collected by `starmap` in argument
  order; each worker gets a copy of its input.
* Floating-point rounding in the exact-arithmetic theorems.
* `Rays.display`, `showChromaticAberrations` and `printModuleClasses`: they only
  plot or print what modelled functions return.

## Property plan

| Property | Model | How proved |
|---|---|---|
| C01 | `mul_matrix`, `mul_ray` over XR | induction over the element list |
| C02 | `mul_matrix` incl. vertices/indices | case analysis + `ring` |
| C03 | all constructors | `field`, induction over chains |
| C04 | `Matrix.__init__` generic | case analysis, all `Num` |
| C05 | `append/pop/insert/setitem/flip` as state transitions | invariant over op histories; empty group refuted |
| C06 | same | invariant over op histories |
| C07 | same, exceptions keep the mutated state | append proved; pop/insert refuted by witness |
| C08 | `transferMatrix(upTo)` | induction over the element list |
| C09 | `ThickLens`, `DielectricInterface`, `Space` | `field`, including infinite radii |
| C10, C11 | heap trace, nested groups | induction on the element tree |
| C12, C13 | heap trace, generic `Num` | induction; exit check refuted |
| C14 | XR trace | induction, `lra`/`nra` |
| C15 | heap trace | refuted by witness + frame theorem (only `isBlocked` of the input may change) |
| C16, C17 | object store with cache (`Store.v`) | refuted by witness; refinement of the cache-free trace for unused groups, history theorems for flat paths and for unblocked rays through nested paths |
| C18 | `traceManyThrough`, progress counter | induction over the list |
| C19 | strided split/gather | permutation theorem, order refuted |
| C20 | `opticalInvariant` | conservation by determinant; refuted for index != 1 at z=0 and for clipped rays |
| C21-C25 | cardinal points, conjugates | `field`; `backwardConjugate` refuted for index != 1 |
| C26 | `intermediateConjugates`, `transferMatrices` | loop invariant; the flattened list is the leaves of the tree |
| C27, C28 | flips | `field`, induction over groups |
| C29 | `fromFocusToFocus`, `ToFocus` | proved for vertices at the edges, refuted otherwise |
| C30, C31 | System2f/4f, Objective | computation + `field` |
| C32-C35 | `apertureStop`, chief/marginal rays, pupil (also at infinity) | loop invariants; blocked probe refuted |
| C36-C38 | search loops with fuel | termination theorem for a threshold predicate; divergence refuted; post-conditions |
| C39 | `lagrangeInvariant` | from C20 and C33 |
| C40 | `subPath` | list lemmas; index loss refuted |
| C41-C44 | `mul_beam` with complex pairs | complex algebra over R |
| C45-C47 | `LaserCavity` | complex square root characterisation |
| C48-C52 | `Rays` state machines | invariants over op histories; refutations |
| C53 | `Ray.along`/`at` | induction over traces |
| C54 | `Axicon` | algebra; refuted for blocked rays |
| C55, C56 | preferences file and objects, crash points | refinement / refutations |
| C57 | Sellmeier formulas | interval bounds per glass; poles refuted |
| C58 | `findByName` | string induction |
| C59 | `lensSurfaces`, `matrixGroup` | induction over the surfaces |
| C60 | list index model | proved for in-range non-negative, refuted for negative |
| C61, C62 | surfaces, largestDiameter | computation; refutations |
| C63, C65, C70 | object store | refuted by witness; frame theorems over operation histories |
| C64 | utils | `lra`; boundary refuted |
| C66 | `mul_ray` | refuted by witness |
| C67 | beam splitting | induction on N |
| C68 | `rearrangeRayTraceForPlotting` | list induction |
| C69 | save/load | state machine with pickling as identity |
| C71 | Sellmeier and polynomial formulas | monotonicity of each term, interval bounds per glass |
| C72 | `rayCountHistogram`, `np.histogram` | counting lemmas over the bins |
| C73 | the 328 classes of thorlabs.py and eo.py, constructors with their checks | verified interval arithmetic at the reference wavelength; 96 lenses refuted |
| C74, C75 | same, any wavelength | verified interval arithmetic over grids, indices monotone between grid points (C71) |
| C76 | `focalShifts` | list induction; lists of wavelengths and eo lenses refuted |
| C77 | `findByIndex` | list induction; a name listed twice refuted |
| C78 | `abbeNumber` | verified interval arithmetic |
| C79 | `__eq__` against tracing, `transferMatrix`, `flipOrientation` | induction on nesting; two witnesses |
| C80 | the text of a Zemax file, numbers included | parser correctness by induction on digits, lines and surfaces |
| C81, C82 | `Objective` with its apertures, olympus.py, nikon.py | the trace through the seven elements solved for all rays |
| C83 | `SurfacePair`, `Surface` and `SurfacesGraphic` as lists of Bezier control points; the curves are compared with the circle by a polynomial inequality | proved |
| C84 | the lens objects of the two catalogues, their flips and surfaces; by the data for the radii, for any number of flips by induction | refuted for lenses with a plane surface, proved otherwise |
| C85 | `GraphicOf` for all classes and the loop of `graphicsOfElements`; by induction over the elements | refuted for matrices and objectives, proved otherwise |
| C86 | `reportEfficiency` with the random numbers as a stream; the printed numbers as a record; by the invariance of the optical invariant and induction over the rays | refuted for large objects and no light, proved otherwise |
| C87 | `NA` (with any sine), `hasApertureStop`, `hasFieldStop`; from the theorems on axial ray and field search | refuted without a stop, proved otherwise |
| C88 | `LambertianRays` with exact cosine and floor; rejection loops over a stream of random numbers, with the access functions of RandomRays; by induction over histories | refuted for N = 1, 3 and M = 1, proved otherwise |
| C89 | The state machine of `design`, `objectHeight` and `display` (parameters only); invariants over histories | refuted after the first figure, proved before it |
| C90 | The same state machine, with the list of the caller as a result | refuted, proved that nothing else changes |
| C91 | `rayTraceLines` over the traces of the ray model; colours as a list or a string | refuted for one colour or a name, proved otherwise |
| C92 | `beamTraceLines`, `beamWaistAnnotations` and the displays of laser paths and cavities over the beam model; by induction over the pieces of the path | refuted in glass and for axicons, lines proved |
| C93 | The dictionaries of `setLinesFromRaysList`, with the lines and the way of writing numbers as parameters; refinement to a log of writes, by induction over the list | refuted for positions written alike, proved otherwise |
| C94 | `setGraphicsFromRaysList`, `graphicsOfConjugatePlanes` over the model of subPath and intermediateConjugates; from C26 and C40 | refuted (shared keys, colour, unsymmetric lenses, KeyError), proved otherwise |
| C95 | `maxRayHeight`, both `displayRange`, set_ylim over the model of the graphics; induction over the elements and the images | refuted (ObjectRays, beams), proved for the path itself |
| C96 | the same with `LensGraphic` | refuted (rays below the axis), proved for symmetric rays |
| C97 | `pointsOfInterest` of the elements and of the figure, the dictionary of labels with the way of writing numbers as a parameter; on doubles "%.3f" is modelled and proved to read as the nearest decimal | refuted (no power, -0.000), proved otherwise |
| C98 | `createFigure` up to the marks, lines and arrows of the graphic; from C21-C23 | refuted (Objective, no vertices, Space), proved otherwise |
| C99 | the filters and registries of the warnings module with the three modes; invariant over all histories of events | refuted (hints, environment), proved what is shown |
| C100 | isoformat/strptime with the date as an invertible parameter, the decision, the sequence of imports by induction; release numbers and their order | refuted (whole second, two days, order), proved otherwise |
| C101 | trees of classes, induction over the tree | refuted (inner classes), proved for leaves |
| C102 | labels, boxes cut at the display, rounds of moves with the boxes of the beginning of the round; invariant "moved sideways" over all rounds, exact analysis of two labels | refuted (overlap, edge, crash, axes units, doubles), proved in part |
| C103 | groups of graphics and lines with their flags; invariant over all sequences of clicks | refuted (labels), proved otherwise |
| C104 | marks over the model of stops and fields of C32-C38 | refuted (raise, hang, object), proved otherwise |
| C105 | the four texts as strings over the decimal formatting of Format.v; parsing lemmas | refuted (wavelength, weak lenses, afocal by rounding), proved otherwise |
| C106 | from the specification of focuses and conjugates | proved |
| C107 | the group of three elements as a composed optic | proved |
| C108 | induction over the list | proved |
| C109 | cyclic invariance of the discriminant and of fixed points of the Moebius map | refuted (power threshold), proved otherwise |
| C110 | spheres around the vertices; the thickness between two spheres is monotone between axis and edge; interval arithmetic over the data at the edge | refuted (three lenses, plane surfaces), proved otherwise |
| C111 | the group of space and mirror matrices is multiplied out; trace of the round trip against g1 g2; the mode is the fixed point of the Moebius map | refuted for weak mirrors, proved for resonators with power |
| C112 | q-parameter through [Space s; Lens f], in exact arithmetic | proved |
| C113 | imaginary and real part of q against the two columns of the matrix that the rays see | proved |
| C114 | the conjugate matrix against the rays traced through the path and the space behind it | proved |
| C115 | every operation of the model commutes with the change of unit: arithmetic of XR, constructors, products, groups (induction on nested groups), traces on the heap of rays, search of the aperture stop, conjugates, flips | proved, and refuted where fixed tolerances enter |
| C116 | the loop with precision and maxHeight as parameters: bracket invariant with every constant a multiple of the precision, unbounded growth of the steps, and a simulation between the loop in one unit and in another | proved, and refuted for coarse precisions and edges close to maxHeight |
| C117 | several objects and one file as a state machine (append, save, load); the file is absent, torn or pickled; invariant over operation sequences; the waiting loop over arbitrary answers of the operating system | proved, and refuted for random sources, tuples and interrupted saves |
| C118 | induction over the list of elements: an inductive relation whose steps are calls of forwardConjugate on Space and one element, against forwardConjugate of the whole group | proved |
| C119 | an interpreter of matplotlib's path codes as the specification; induction over the list of curves for the strokes and for the number of contours; labels as means of distinct points | proved, and refuted for Graphic.length |
| C120 | composition of the theorems on entrance pupils and focal lengths with the matrix up to the stop; induction on the elements for the rays that get through; limits of the probing ray for distant objects | proved, and refuted for the distance of the object |
| C121 | rounding error of each operation from the executable specification of binary64 (`binary_round_aux` is within half a unit in the last place); induction on the elements met, running bound of the absolute terms; columns of group matrices are traces of two rays | proved |
| C122 | object model (`Store.v`): every operation that does not raise leaves the list of objects that the Python list operation gives; induction on the elements added | proved |
| C123 | error of the computed determinant from the rounding library of C121; induction on the elements appended; witness by computation with primitive floats | refuted for large distances, proved within the rounding bound |
| C124 | quotients of close doubles from the rounding library; the matrix of the group from C121, the check of the determinant from C123; witness by computation with primitive floats | refuted for the focal plane, proved within the rounding bound |
| C125 | `Viewer.v`: the dictionary of the viewer, with the loop variable that is first a name and then a lens | invariant of the loop over any list of names; labels of the catalogue are distinct by computation |
| C126 | `CommandLine.v`: discovery of the examples, parsing of -e, dispatch | sorting is invariant under permutation; induction over the numbers; witness for -e 0 |
| C127 | bytes, codecs, universal newlines, strip and re.split of `ZMXReader.__init__` (`ZemaxText.v`) | decoders proved inverse to the RFC encoders in both directions (induction over the bytes), lines and words by induction |
| C128 | same | refuted by witness: UTF-16 without the mark and UTF-8 with it are not read |
| C129 | `Ray.__eq__` and the heap trace | simulation of two heaps, induction on the element tree; blocked rays refuted by witness |
| C130 | `GaussianBeam`, `mul_beam`, traces of beams and `LaserCavity.eigenModes` over the systems of `Units.v` | every operation commutes with the change of unit, induction on the element tree; cavities refuted by two runs in doubles |
| C131 | the heap trace, axicons included, and `chiefRay`, `marginalRays`, over the reals and over primitive floats | any relation of numbers kept by the steps of a trace is kept by traces (induction on the element tree); rounding to nearest is symmetric |
| C132 | the cache shared by rays and beams, with the identity of beams, rays and returned lists (`MixedTrace.v`) | invariant of stores and worlds over any session; changed beams and lists refuted by witness |
| C133 | settings of the object through histories, `ObjectRays` as drawn (`ObjectFan.v`) | induction over histories; positions by induction over the grid of rays; bound on tan; documentation refuted by witness |
| C134 | `magnification`, `isImaging` (`Optics.v`) | from the ray matrix and its determinant; tolerance refuted by witness |
| C135 | `fan`, `fanGroup`, `UniformRays`, `LampRays` | position of each ray in the list; lists determined by their description; single heights and doubles refuted by witness |
| C136 | sessions of `MixedTrace.v` (shared one-place caches, object identity) | invariant on all caches, induction on calls, nesting and elements |
| C137 | `fieldOfView`, `fieldStop`, `apertureStop`, `imageSize` of `Imaging.v` on the camera space, lens, space, aperture | search theorems of `FieldMore.v` with the chief ray computed for all distances, both branches of the aperture stop |
| C138 | `Imaging.v` on the 4f relay with diaphragm and detector | telecentric theorem of `TeleProofs.v`, search theorems of `FieldMore.v`, heights at the two apertures for all rays |
| C139 | `Beam.v` (mul_beam, w, R), `magnification` | width theorem of `ResonatorProofs.v` with B = 0; curvature by the Moebius action |
| C140 | `Beam.v` (mul_beam, w, R) | width theorem of `ResonatorProofs.v` with A = 0; curvature by the Moebius action |

## Which file models what

| File | Code |
|---|---|
| `Optics.v` | matrix.py (constructors, products, transfer matrices, cardinal points, conjugates, flips, tracing), axicon.py, matrixgroup.py transfer/trace/flip |
| `Group.v` | matrixgroup.py append/pop/insert/item and slice access, on values |
| `Objective.v` | specialtylenses.py Objective (attributes looked up by name) |
| `RaysModel.v` | rays.py collections, histograms, lambertian/uniform/random generators, parallel tracing in utils/ray split |
| `Drawing.v` | figure.py rearrangement of traces, save/load |
| `Beam.v` | gaussianbeam.py, matrix.py mul_beam, lasercavity.py |
| `Imaging.v` | imagingpath.py stops, pupils, special rays, field of view, subPath |
| `Store.v` | element objects with identity: sharing, trace cache, equality |
| `Prefs.v` | preferences.py: the file, its states during each operation, any number of objects |
| `Materials.v` | materials.py: all 37 materials with their coefficients, range check, names |
| `Zemax.v` | zemax.py: lines of a file (already split into words), surfaces, lens, matrix group |
| `Catalogue.v` | specialtylenses.py constructors and focalShifts, thorlabs.py and eo.py (data printed by `tools/lenses.py`), materials.py findByIndex and abbeNumber |
| `Interval.v` | no code: fixed-point interval arithmetic used to check the catalogues |
| `Objectives.v` | olympus.py, nikon.py, specialtylenses.py maximumOpticalInvariant |
| `Figures.v` | graphicComponents.py and graphics.py as curves in data coordinates, figure.py graphicsOfElements and updateGraphics |
| `Efficiency.v` | imagingpath.py NA, hasApertureStop, hasFieldStop, reportEfficiency (without the plot) |
| `Sources.v` | rays.py LambertianRays, RandomLambertianRays, GaussianProfileUniformRays (540-834); np.cos, np.exp, int() are parameters |
| `Display.v` | imagingpath.py objectHeight, display, displayWithObject and the parameters of figure.py (design, applyDesign, display without drawing) |
| `RayLines.v` | figure.py rayTraceLines (376-431) without widths and labels; int(np.round()) is a parameter |
| `BeamFigure.v` | figure.py beamTraceLines, beamWaistAnnotations, rearrangeBeamTraceForPlotting, displayGaussianBeam, laserpath.py display, lasercavity.py display; the length of the arrows is a parameter |
| `Scene.v` | figure.py setGraphicsFromRaysList, setLinesFromRaysList, graphicsOfConjugatePlanes (204-258), the visibility set by display (535-552); colours of lines and fills left out |
| `Format.v` | "{0:.1f}".format on doubles |
| `Range.v` | figure.py maxRayHeight, displayRange of both kinds of figure, the limits of the vertical axis (178-187, 330-374, 805-809) |
| `Labels.v` | figure.py pointsOfInterest (268-312) and those of matrix.py and specialtylenses.py; heights and fonts of the labels left out |
| `ElementFigure.v` | graphics.py 167-281, 370-410 (Matrix.display up to matplotlib); a group inside a group is taken to be a MatrixGroup |
| `Modes.v` | utils.py 17-83, the mode part of __init__.py, and of Python's warnings module the filters, the registries and warn_explicit |
| `Version.v` | __init__.py 69-88, utils.py 233-262; the calendar is a parameter, the network left out |
| `Classes.v` | utils.py 187-219 |
| `Overlap.v` | graphicComponents.py 381-461, figure.py 738-803; the boxes of matplotlib modelled from its documentation |
| `Visibility.v` | figure.py 579-596, 703-725, 815-820 and the isVisible setters |
| `Marks.v` | figure.py 149-178, 259-266, 313-328 |
| `Printing.v` | ray.py 246-256, matrix.py 1424-1438, gaussianbeam.py 141-154, zemax.py 108-120; the format of complex numbers is a parameter |
| `Limits.v` | imagingpath.py 45-48, 95-96, 541-748: the search of the field with the attributes precision and maxHeight as the user set them |
| `Saving.v` | rays.py 378-463, 598-636, matrixgroup.py 498-557: append, save and load with the state of the file and the waiting loop of save |
| `Outline.v` | graphicComponents.py 60-99, graphics.py 34-35, 73-86, figure.py 724-736: the codes of a component's path, its extents, the place of the label |
| `Samples4.v` | a lens with an aperture behind it and an object at any distance, for the examples of C120 |
| `Rounding.v`, `RoundingOps.v` | error of the rounding to binary64 and of +, *, /, comparison of doubles |
| `Exact.v` | specification for C121: the system in exact arithmetic, sizes of the terms, edges |
| `FloatTrace.v`, `FloatGroup.v`, `FloatSamples.v` | proofs and cases for C121 |
| `OwnProofs.v` | specification and proofs for C122 |
| `FloatBuild.v`, `BuildSamples.v` | specification, proofs and cases for C123 |
| `FloatImage.v`, `ImageSamples.v` | specification, proofs and cases for C124 |
| `ShapeProofs.v`, `Properties28.v` | outlines of boxes and arrows and bars of thick elements (C85, C94, C119) |
| `CavityFigure.v`, `RemainingProofs.v`, `Properties29.v` | the figure of a laser cavity (C92), ToConjugate (C29), displayWithObject (C89), the text of printClassHierarchy (C101) |
| `Viewer.v`, `ViewerProofs.v` | lensViewer.py; proofs for C125 |
| `CommandLine.v`, `CommandProofs.v`, `Properties30.v` | __main__.py, examples/__init__.py; proofs for C126 |
| `TightProofs.v`, `Properties31.v` | `ray in rays` (C49), hasFiniteApertureDiameter (C62), the arrow of a thin lens (C85), the outline of an axicon (C83) |
| `ZemaxText.v`, `ZemaxTextProofs.v`, `Properties32.v` | the bytes of a Zemax file as lines of words (C127, C128) |
| `EqualRays.v`, `Properties33.v` | rays that compare equal (C129) |
| `BeamUnits.v`, `BeamUnitsRefutations.v`, `Properties34.v` | beams and cavities in another unit (C130) |
| `StopEach.v`, `MirrorRays.v`, `MirrorQueries.v`, `Properties35.v` | what each constructor's element stops (C12), paths trace what they were given (C10), mirror images, equal rays in doubles (C129, C131) |
| `MixedTrace.v`, `MixedProofs.v`, `MixedRefutations.v`, `Properties36.v` | rays and beams through the same path (C132) |
| `ObjectFan.v`, `ObjectFanProofs.v`, `ObjectFanRefutations.v`, `Properties37.v` | the object that display() draws (C133) |
| `ConjugateParts.v`, `ConjugateRefutations.v`, `Properties38.v` | images after every element of a tree (C26), magnification (C134) |
| `ChoiceProofs.v`, `Properties39.v` | what a style of figures changes (C89), boxes named on several lines (C103), size of groups in groups (C85) |
| `FanEven.v`, `FanRefutations.v`, `Properties40.v` | the rays of the regular generators one by one (C135) |
| `MixedRays.v`, `Properties41.v` | heights and angles of rays in any session without apertures (C136) |
| `CameraField.v`, `Properties42.v` | field of view and stops of a camera (C137) |
| `TeleProofs.v`, `TeleRefutations.v`, `Properties43.v` | telecentric systems (C35, C120) |
| `RelayField.v`, `Properties44.v` | stops, rays and field of 4f relays (C138) |
| `BeamImage.v`, `Properties45.v` | Gaussian beams in image planes (C139) |
| `BeamFourier.v`, `Properties46.v` | Gaussian beams in back focal planes (C140) |

Simplifications worth knowing: `ToFocus`/`ToConjugate` are `Space` objects; the sine in `NA()` is any
function; the trace cache exists only in `Store.v` (everywhere else tracing is a cache miss);
the product of an element whose length is not finite reads its attributes only in `Store.v`; the
list object returned by a cached trace is a value except in `MixedTrace.v`.

`np.histogram` is modelled from its documentation (equal bins, closed on the right for the last
one, a range of width zero widened by one half on both sides, ValueError for no bins or a bad range);
its rounding corrections are not. In
`Zemax.v` a file is a list of lines already split into words (`ZemaxText.v` reads them from the bytes); number parsing covers decimal
literals with exponents. In `Figures.v` `cos(asin(q))` is `sqrt(1 - q*q)`, `cos(pi/2)` is 0, `tan` is any
function, and a catalogue lens inside a group is drawn as a group. `json` is a map from strings to values with one kind of value it refuses.

In `Catalogue.v` `cos(asin(x))` is `sqrt(1 - x*x)` (only the edge thickness note depends on it), a glass
is a class name resolved to the last class of that name, and a class that was defined first under
a name used twice may or may not still be listed by `Material.all()` (Python frees it at some time).

Findings that are not counterexamples to a property of the list: `N_SF6` in materials.py 225-232
carries the coefficients of SF1 (index 1.717 instead of 1.805 at 0.5876 microns), so the project's
own file for Edmund lens 49-270 is read as a 4.13 mm lens (`ZemaxRefutations.edmund_read`); it is
sold as 4.5 mm.

## Validation of the model

`Documented.v` runs the model, on doubles, on the examples printed in the docstrings of `imagingpath.py`,
`matrix.py`, `matrixgroup.py` and `ray.py`; `Tested.v` replays the numerical assertions of the unit tests
`testsImagingPath`, `testsGaussian`, `testsLaserPath`, `testsComponents`, `testsMatrix`, `testsMatrixSubclasses`,
`testsMatrixGroup`, `testsRay` and `testsZemax`. All agree, the printed numbers to the last digit
(`fieldOfView` = 6.666665124862807), except one docstring that is out of date (`λ: 0.0 nm`; the code prints
632800.0). These are tests of the reading of the source below, not proofs; no property rests on them.

Known survivor of the mutation tests: leaving out the turned vertices of a
flipped objective in `Store.ofinish` (mutant `so_finish`) fails no theorem. The
vertices of flipped objectives are proved for the element model (C27, C31), not
for the object model of `Store.v`. In the log, `survived_expected` also lists
properties that were not part of the trimmed copy a mutant was built in.

## Trusted base

* The Coq 8.16.1 kernel, including its virtual machine (`vm_compute` in witnesses) and its
  primitive 63-bit integers and binary64 floats.
* Axioms. `Print Assumptions` follows every property theorem; what it lists is one of:
  - nothing (many theorems over any `Num`);
  - the standard-library real numbers: `ClassicalDedekindReals.sig_forall_dec`,
    `ClassicalDedekindReals.sig_not_dec`, `FunctionalExtensionality.functional_extensionality_dep`
    (exact-arithmetic theorems);
  - the primitive types and operations of `PrimFloat`/`PrimInt63` (bit-exact witnesses);
  - for C121, C123, C124, C129 and C131 only, the standard library's `FloatAxioms` that say what these operations compute:
    `add_spec`, `sub_spec`, `mul_spec`, `div_spec`, `abs_spec`, `opp_spec`, `ltb_spec`, `leb_spec`, `eqb_spec`,
    `Prim2SF_valid`, `SF2Prim_Prim2SF`/`Prim2SF_SF2Prim` (as listed under each theorem).
  No axiom is added by this development.
* The reading of the Python source recorded in the comments of the model files, and the choice
  of exact arithmetic (`XR`) for theorems that need field laws.
