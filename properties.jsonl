{"id": "C01", "title": "Composing elements equals propagating through them one after the other", "statement": "For every ordered list of elements and every ray that no aperture stops, multiplying the ray by the product of the matrices gives the same height, angle and position as multiplying the ray by each element in turn.", "quantifier": "all finite lists of elements, all rays, all real matrix entries", "why_tests_cant": "Unit tests sample a few lens/space pairs; the law must hold for every chain length and every entry.", "anchors": ["raytracing/matrix.py:Matrix.mul_matrix", "raytracing/matrix.py:Matrix.mul_ray"]}
{"id": "C02", "title": "Matrix product is associative in every attribute", "statement": "(M3*M2)*M1 and M3*(M2*M1) have the same A, B, C, D, physical length, front and back vertices and front and back indices whenever neighbouring indices match and determinants are exact; no bracketing raises.", "quantifier": "all triples of index-matched elements", "why_tests_cant": "Vertices and indices follow case rules (None, identity) whose combinations tests never enumerate with arbitrary entries.", "anchors": ["raytracing/matrix.py:Matrix.mul_matrix", "raytracing/matrix.py:Matrix.__init__"]}
{"id": "C03", "title": "Determinant law for every built-in element and every product", "statement": "Every Lens, CurvedMirror, Space, DielectricInterface, ThickLens, DielectricSlab and Aperture the constructors accept has determinant frontIndex/backIndex, the constructors never reject valid parameters as inconsistent, and products of index-matched elements keep the law.", "quantifier": "all valid constructor parameters, all chains", "why_tests_cant": "The determinant identity is algebraic in the parameters; sampling cannot establish it.", "anchors": ["raytracing/matrix.py:Lens", "raytracing/matrix.py:CurvedMirror", "raytracing/matrix.py:Space", "raytracing/matrix.py:DielectricInterface", "raytracing/matrix.py:ThickLens", "raytracing/matrix.py:DielectricSlab", "raytracing/matrix.py:Aperture", "raytracing/matrix.py:Matrix.determinant"]}
{"id": "C04", "title": "The Matrix constructor accepts exactly the consistent matrices", "statement": "Matrix(...) succeeds exactly when the aperture diameter and NA are not <= 0, the back index is not zero, and |determinant - frontIndex/backIndex| is not more than 1e-5; otherwise it raises, and a successful call stores every argument unchanged.", "quantifier": "all argument tuples, including infinities and NaN, bit-exact for IEEE doubles", "why_tests_cant": "Boundary and non-finite arguments form an infinite domain.", "anchors": ["raytracing/matrix.py:Matrix.__init__"]}
{"id": "C05", "title": "A group's attributes always equal the product of its elements", "statement": "After any history of append, pop, insert, item and slice assignment and flips, the group's A, B, C, D, L, vertices and indices equal those of the ordered product of the elements it currently contains, including when it is empty.", "quantifier": "all histories of group operations, all elements", "why_tests_cant": "The attributes are redundant state maintained incrementally; only an invariant over all histories settles it.", "anchors": ["raytracing/matrixgroup.py:MatrixGroup.append", "raytracing/matrixgroup.py:MatrixGroup.pop", "raytracing/matrixgroup.py:MatrixGroup.insert", "raytracing/matrixgroup.py:MatrixGroup.__setitem__", "raytracing/matrixgroup.py:MatrixGroup.flipOrientation"]}
{"id": "C06", "title": "Neighbouring elements of a group always have matching indices", "statement": "After any history of successful or failed group operations on distinct element objects, each element's back index equals the next element's front index.", "quantifier": "all histories of group operations", "why_tests_cant": "Invariant over unbounded operation sequences.", "anchors": ["raytracing/matrixgroup.py:MatrixGroup.append"]}
{"id": "C07", "title": "A group operation that raises leaves the group as it was", "statement": "If append, pop, insert, item assignment or load raises, the group still contains the same elements with the same attributes as before the call.", "quantifier": "all groups, all operations, all failing arguments", "why_tests_cant": "Exception safety concerns every possible failing call.", "anchors": ["raytracing/matrixgroup.py:MatrixGroup.append", "raytracing/matrixgroup.py:MatrixGroup.pop", "raytracing/matrixgroup.py:MatrixGroup.insert", "raytracing/matrixgroup.py:MatrixGroup.load"]}
{"id": "C08", "title": "Partial transfer matrices describe propagation up to depth z", "statement": "For a path of Spaces, thin elements, ThickLenses and slabs with non-negative lengths, transferMatrix(upTo=z) has physical length min(z, L) for z >= 0, equals the full transfer matrix for z >= L, and is the product of the elements before z with the cut element; it never raises.", "quantifier": "all such paths, all z >= 0", "why_tests_cant": "Loop with break over arbitrary lists and real cut positions.", "anchors": ["raytracing/matrixgroup.py:MatrixGroup.transferMatrix", "raytracing/matrix.py:Space.transferMatrix", "raytracing/matrix.py:ThickLens.transferMatrix", "raytracing/matrix.py:DielectricSlab.transferMatrix", "raytracing/matrix.py:Matrix.transferMatrix"]}
{"id": "C09", "title": "A thick lens is two interfaces around glass", "statement": "ThickLens(n,R1,R2,t) has the same matrix, length, vertices and indices as the product of its two dielectric interfaces and the space between them; SingletLens and DielectricSlab agree with it.", "quantifier": "all n>0, non-zero (possibly infinite) radii, all thicknesses", "why_tests_cant": "Algebraic identity over four real parameters.", "anchors": ["raytracing/matrix.py:ThickLens.__init__", "raytracing/matrix.py:DielectricInterface.__init__", "raytracing/specialtylenses.py:SingletLens.__init__"]}
{"id": "C10", "title": "Tracing agrees with the transfer matrix", "statement": "For any path, including nested groups, the last ray of trace(ray), when unblocked, has the height and angle given by transferMatrix()*ray and the position z+L.", "quantifier": "all paths of linear elements, all rays", "why_tests_cant": "Relates two independent code paths over arbitrary nested lists.", "anchors": ["raytracing/matrixgroup.py:MatrixGroup.trace", "raytracing/matrix.py:Matrix.trace", "raytracing/matrixgroup.py:MatrixGroup.transferMatrix"]}
{"id": "C11", "title": "Shape of a ray trace", "statement": "trace(ray) starts with the ray itself, positions never decrease along it when lengths are non-negative, and every later entry is at or after the input position and no further than z+L.", "quantifier": "all paths of elements with non-negative length, all rays", "why_tests_cant": "Universal over list length and values.", "anchors": ["raytracing/matrixgroup.py:MatrixGroup.trace", "raytracing/matrix.py:Matrix.trace"]}
{"id": "C12", "title": "A ray is blocked exactly when it misses an aperture", "statement": "The output ray is blocked if and only if the input was, or at the entrance of some element its height exceeds half the diameter or its angle exceeds the NA; a ray leaving a finite-length element outside the aperture is also blocked, as documented.", "quantifier": "all paths, all rays, bit-exact for IEEE doubles", "why_tests_cant": "Needs every combination of apertures, lengths and rays.", "anchors": ["raytracing/matrix.py:Matrix.mul_ray", "raytracing/matrix.py:Matrix.trace"]}
{"id": "C13", "title": "Blocked rays stay blocked and bigger apertures block less", "statement": "Once a ray is blocked every later ray of the trace is blocked and unchanged; replacing apertures with larger ones never blocks a ray that passed.", "quantifier": "all paths, all rays", "why_tests_cant": "Monotonicity over all systems.", "anchors": ["raytracing/matrix.py:Matrix.mul_ray", "raytracing/matrixgroup.py:MatrixGroup.trace"]}
{"id": "C14", "title": "The set of transmitted rays is convex and symmetric", "statement": "If two rays pass a path of linear elements, every weighted average of them passes; if a ray passes, so does its mirror image.", "quantifier": "all paths, all pairs of rays, all weights in [0,1]", "why_tests_cant": "Quantifies over a continuum of rays.", "anchors": ["raytracing/matrix.py:Matrix.mul_ray", "raytracing/matrix.py:Matrix.trace"]}
{"id": "C15", "title": "Tracing does not modify the caller's ray", "statement": "After trace(ray) or traceMany(rays), the ray objects given by the caller have the values they had before, so the same rays can be used in another path.", "quantifier": "all paths and rays", "why_tests_cant": "Absence of a side effect on every input.", "anchors": ["raytracing/matrix.py:Matrix.trace", "raytracing/axicon.py:Axicon.mul_ray"]}
{"id": "C16", "title": "A trace depends only on the current path and the current ray", "statement": "trace(ray) returns the same values whatever was traced before and however the path and the ray were modified in between.", "quantifier": "all histories of traces and modifications", "why_tests_cant": "History independence over unbounded call sequences.", "anchors": ["raytracing/matrixgroup.py:MatrixGroup.trace"]}
{"id": "C17", "title": "A blocked ray is never revived and keeps its position inside nested groups", "statement": "In a path containing groups, possibly the same group object several times, a ray blocked before a group is blocked after it and positions accumulate correctly.", "quantifier": "all nested paths, all histories", "why_tests_cant": "Depends on hidden state of nested objects.", "anchors": ["raytracing/matrixgroup.py:MatrixGroup.trace", "raytracing/ray.py:Ray.__eq__"]}
{"id": "C18", "title": "traceManyThrough returns exactly the surviving rays in order", "statement": "traceManyThrough(rays) contains, in input order, the output ray of each input ray that is not blocked and nothing else, for lists and Rays objects, with or without progress reports; it never fails on valid rays.", "quantifier": "all ray lists, all elements", "why_tests_cant": "Universal over list contents and lengths, including the progress counter.", "anchors": ["raytracing/matrix.py:Matrix.traceManyThrough", "raytracing/rays.py:Rays.displayProgress"]}
{"id": "C19", "title": "Parallel tracing returns the same rays as serial tracing", "statement": "For every number of processes and every interleaving of the workers, traceManyThroughInParallel returns the same rays, in the same order, as traceManyThrough.", "quantifier": "all process counts >= 1, all ray lists, all schedules", "why_tests_cant": "Schedules and process counts cannot be enumerated by tests.", "anchors": ["raytracing/matrix.py:Matrix.traceManyThroughInParallel"]}
{"id": "C20", "title": "The optical invariant is conserved", "statement": "opticalInvariant(r1, r2, z) does not depend on z and equals n(theta1*y2 - y1*theta2) at the input for every path and every two rays.", "quantifier": "all paths, rays, positions z", "why_tests_cant": "Conservation law over all systems.", "anchors": ["raytracing/matrix.py:Matrix.opticalInvariant"]}
{"id": "C21", "title": "Focal points are where parallel rays cross the axis", "statement": "For every element with power, a ray parallel to the axis crosses it at the returned back focus, and a ray from the returned front focus leaves parallel to the axis.", "quantifier": "all elements with |C| > 1e-5, all positions z", "why_tests_cant": "Algebraic in all entries and indices.", "anchors": ["raytracing/matrix.py:Matrix.focusPositions", "raytracing/matrix.py:Matrix.effectiveFocalLengths"]}
{"id": "C22", "title": "Principal planes have unit magnification and locate the focal lengths", "statement": "Referred to its principal planes every element with power is a thin lens: unit transverse magnification between the planes and focal distances f1, f2 measured from them.", "quantifier": "all elements with power", "why_tests_cant": "Algebraic identity over all entries.", "anchors": ["raytracing/matrix.py:Matrix.principalPlanePositions", "raytracing/matrix.py:Matrix.effectiveFocalLengths"]}
{"id": "C23", "title": "Front and back focal lengths are measured from the vertices and swap when an element is flipped", "statement": "backFocalLength() is the distance from the back vertex to the back focus, frontFocalLength() from the front focus to the front vertex; flipping a lens exchanges the two values.", "quantifier": "all elements with vertices and power", "why_tests_cant": "All lenses and flip histories.", "anchors": ["raytracing/matrix.py:Matrix.backFocalLength", "raytracing/matrix.py:Matrix.frontFocalLength", "raytracing/matrix.py:Matrix.flipOrientation", "raytracing/matrix.py:ThickLens.flipOrientation"]}
{"id": "C24", "title": "forwardConjugate returns an image plane", "statement": "When forwardConjugate() returns a finite distance the returned matrix has B = 0, its length is L plus the distance, and every ray from an object point lands at A times the object height whatever its angle.", "quantifier": "all elements", "why_tests_cant": "Quantifies over all matrices and ray angles.", "anchors": ["raytracing/matrix.py:Matrix.forwardConjugate"]}
{"id": "C25", "title": "backwardConjugate returns an object plane", "statement": "For every element, whatever the index in front of it, backwardConjugate() returns the distance of the plane imaged onto the back face, without raising, with B = 0 in the returned matrix.", "quantifier": "all elements, all indices", "why_tests_cant": "Quantifies over all matrices and surrounding media.", "anchors": ["raytracing/matrix.py:Matrix.backwardConjugate"]}
{"id": "C26", "title": "Intermediate conjugates are image planes", "statement": "Every [position, magnification] returned by intermediateConjugates() is an image of the object at z=0 seen after some prefix of the path, with that magnification, and no plane is listed twice.", "quantifier": "all paths, including nested groups", "why_tests_cant": "Universal over lists of elements.", "anchors": ["raytracing/matrixgroup.py:MatrixGroup.intermediateConjugates", "raytracing/matrixgroup.py:MatrixGroup.transferMatrices"]}
{"id": "C27", "title": "Flipping twice restores an element", "statement": "flipOrientation() applied twice restores the matrix, vertices, indices, radii and order of elements.", "quantifier": "all elements and (nested) groups of distinct elements", "why_tests_cant": "Involution for all parameters and nestings.", "anchors": ["raytracing/matrix.py:Matrix.flipOrientation", "raytracing/matrix.py:CurvedMirror.flipOrientation", "raytracing/matrix.py:DielectricInterface.flipOrientation", "raytracing/matrix.py:ThickLens.flipOrientation", "raytracing/matrixgroup.py:MatrixGroup.flipOrientation"]}
{"id": "C28", "title": "A flipped element propagates light backwards", "statement": "If light goes from (y,theta) to (y',theta') through an element, the flipped element takes (y',-theta') to (y,-theta).", "quantifier": "all flippable elements and groups, all rays", "why_tests_cant": "Relation between two systems for every ray.", "anchors": ["raytracing/matrix.py:Matrix.flipOrientation", "raytracing/matrixgroup.py:MatrixGroup.flipOrientation"]}
{"id": "C29", "title": "fromFocusToFocus and ToFocus reach the focal planes", "statement": "element.fromFocusToFocus() has A = D = 0 and appending ToFocus(element) brings parallel light to a focus, for every element with power and vertices. Appending ToConjugate(element) leads to the image of the front of the element.", "quantifier": "all elements with vertices and power", "why_tests_cant": "All vertex positions and indices.", "anchors": ["raytracing/matrix.py:Matrix.fromFocusToFocus", "raytracing/matrix.py:ToFocus", "raytracing/matrix.py:ToConjugate"]}
{"id": "C30", "title": "System2f and System4f have their textbook matrices", "statement": "System2f(f) has A=D=0, B=f, C=-1/f, L=2f; System4f(f1,f2) has A=-f2/f1, D=-f1/f2, B=C=0, L=2(f1+f2), for all non-zero focal lengths; zero raises ZeroDivisionError.", "quantifier": "all non-zero real f, f1, f2", "why_tests_cant": "Identity over reals.", "anchors": ["raytracing/components.py:System2f", "raytracing/components.py:System4f"]}
{"id": "C31", "title": "An Objective is a 2f black box with the advertised geometry", "statement": "Objective(f, NA, focusToFocusLength, ...) has A=D=0, B=f, C=-1/f, L=focusToFocusLength, vertices at 0 and focusToFocusLength-workingDistance, keeps these when flipped twice, and its inherited magnification() method can be called.", "quantifier": "all f != 0 and all lengths", "why_tests_cant": "Parameterised identity and flip history.", "anchors": ["raytracing/specialtylenses.py:Objective"]}
{"id": "C32", "title": "The aperture stop is the aperture that limits the axial cone", "statement": "apertureStop() returns the position and diameter of the aperture with the largest ratio of axial ray height to diameter among all apertures of the path, so that the axial ray through its edge passes every other aperture.", "quantifier": "all paths with a finite aperture", "why_tests_cant": "Optimum over arbitrary lists; depends on a probe ray that may itself be blocked.", "anchors": ["raytracing/imagingpath.py:ImagingPath.apertureStop"]}
{"id": "C33", "title": "Chief and marginal rays go through the centre and edges of the stop", "statement": "chiefRay(y) crosses the axis at the aperture stop; marginalRays(y) reach the stop at plus and minus half its diameter with up.theta >= down.theta; axialRay is the upper one for y=0.", "quantifier": "all paths with a stop, all y", "why_tests_cant": "All systems and object heights.", "anchors": ["raytracing/imagingpath.py:ImagingPath.chiefRay", "raytracing/imagingpath.py:ImagingPath.marginalRays", "raytracing/imagingpath.py:ImagingPath.axialRay"]}
{"id": "C34", "title": "The axial ray is the steepest on-axis ray that gets through", "statement": "The axial ray is not blocked, and every on-axis ray with a larger angle is blocked.", "quantifier": "all paths whose apertures are thin, all larger angles", "why_tests_cant": "Quantifies over all systems and angles.", "anchors": ["raytracing/imagingpath.py:ImagingPath.axialRay", "raytracing/imagingpath.py:ImagingPath.apertureStop"]}
{"id": "C35", "title": "The entrance pupil is the image of the stop in object space", "statement": "entrancePupil() returns the plane conjugate to the stop through the elements before it and its diameter multiplied by the magnification to the stop gives the stop diameter.", "quantifier": "all paths with a stop in a medium of any index", "why_tests_cant": "All systems.", "anchors": ["raytracing/imagingpath.py:ImagingPath.entrancePupil"]}
{"id": "C36", "title": "Field-of-view search terminates", "statement": "fieldStop(), halfFieldOfView(), fieldOfView() and principalRay() return for every path.", "quantifier": "all paths", "why_tests_cant": "Non-termination cannot be observed by a test.", "anchors": ["raytracing/imagingpath.py:ImagingPath.fieldStop", "raytracing/imagingpath.py:ImagingPath.halfFieldOfView"]}
{"id": "C37", "title": "The half field of view is transmitted and maximal up to the search precision", "statement": "When halfFieldOfView() returns a finite height, the chief ray from that height is not blocked and a chief ray from a height larger by a few times the search precision is blocked.", "quantifier": "all paths on which the search returns", "why_tests_cant": "Post-condition of a floating search loop for all systems.", "anchors": ["raytracing/imagingpath.py:ImagingPath.halfFieldOfView"]}
{"id": "C38", "title": "The field stop is the element that blocks the chief ray", "statement": "fieldStop() returns the position and diameter of the element whose aperture blocks the chief ray just outside the field of view.", "quantifier": "all paths", "why_tests_cant": "All element kinds, including finite-length ones.", "anchors": ["raytracing/imagingpath.py:ImagingPath.fieldStop", "raytracing/matrix.py:Matrix.trace"]}
{"id": "C39", "title": "The Lagrange invariant is half-field times axial angle times index", "statement": "lagrangeInvariant() equals frontIndex * axialRay.theta * principalRay.y and is the same at every z.", "quantifier": "all paths with both stops", "why_tests_cant": "All systems.", "anchors": ["raytracing/imagingpath.py:ImagingPath.lagrangeInvariant"]}
{"id": "C40", "title": "subPath is the part of the path after (or before) zStart", "statement": "subPath(z) starting inside a Space has length L - z and the transfer matrix of the rest of the path; backwards=True gives the reversed beginning; the original path is not modified and the call does not raise for z inside a Space.", "quantifier": "all paths, all z inside a Space, any index", "why_tests_cant": "All systems and cut positions.", "anchors": ["raytracing/imagingpath.py:ImagingPath.subPath"]}
{"id": "C41", "title": "Gaussian beams compose like rays", "statement": "Propagating a beam through a product of matrices gives the same q, position and index as propagating it through each element in turn.", "quantifier": "all chains of index-matched elements, all finite beams", "why_tests_cant": "Complex-valued law over all chains.", "anchors": ["raytracing/matrix.py:Matrix.mul_beam"]}
{"id": "C42", "title": "A finite beam stays finite", "statement": "A beam with finite waist is still finite, with a positive radius w, after any index-matched chain of elements, and the propagation never raises.", "quantifier": "all chains, all finite beams", "why_tests_cant": "Invariant over unbounded chains.", "anchors": ["raytracing/matrix.py:Matrix.mul_beam", "raytracing/gaussianbeam.py:GaussianBeam.isFinite"]}
{"id": "C43", "title": "GaussianBeam(w, R, n) reports the w, R and waist it was built from", "statement": "For every w>0, R, n>0, wavelength>0 the beam reports the same w and R; at a waist (R infinite) wo equals w; confocal parameter and Rayleigh range are consistent with w(z).", "quantifier": "all real parameters", "why_tests_cant": "Inverse pair over reals.", "anchors": ["raytracing/gaussianbeam.py:GaussianBeam.__init__", "raytracing/gaussianbeam.py:GaussianBeam.w", "raytracing/gaussianbeam.py:GaussianBeam.R", "raytracing/gaussianbeam.py:GaussianBeam.wo"]}
{"id": "C44", "title": "Beam clipping is permanent and index tracking never fails inside a path", "statement": "Once isClipped is set it stays set; tracing a beam whose index equals the front index of an index-matched path never raises RuntimeError and the final index is the back index.", "quantifier": "all paths, all beams", "why_tests_cant": "All chains.", "anchors": ["raytracing/matrix.py:Matrix.mul_beam", "raytracing/matrixgroup.py:MatrixGroup.trace"]}
{"id": "C45", "title": "Cavity eigenmodes reproduce themselves after a round trip", "statement": "Each q returned by eigenModes() satisfies q = (Aq+B)/(Cq+D); laserModes() returns exactly the finite ones and never more than one.", "quantifier": "all round-trip matrices with power", "why_tests_cant": "Complex algebra for all matrices.", "anchors": ["raytracing/lasercavity.py:LaserCavity.eigenModes", "raytracing/lasercavity.py:LaserCavity.laserModes"]}
{"id": "C46", "title": "isStable agrees with the stability criterion", "statement": "A cavity is reported stable exactly when (A+D)^2 < 4.", "quantifier": "all round-trip matrices with unit determinant", "why_tests_cant": "Decision rule over a continuum including near-zero C.", "anchors": ["raytracing/lasercavity.py:LaserCavity.isStable"]}
{"id": "C47", "title": "appendElementsInReverse closes the round trip", "statement": "After appendElementsInReverse() the cavity's matrix and its eigenmodes are those of the forward pass followed by the return pass through the flipped elements.", "quantifier": "all cavities", "why_tests_cant": "All element lists.", "anchors": ["raytracing/lasercavity.py:LaserCavity.appendElementsInReverse"]}
{"id": "C48", "title": "Ray statistics reflect the current rays", "statement": "yValues, thetaValues and the histograms always describe the rays currently contained, after any history of append, load, iteration and queries.", "quantifier": "all histories", "why_tests_cant": "Cache coherence over all call sequences.", "anchors": ["raytracing/rays.py:Rays.append", "raytracing/rays.py:Rays.load", "raytracing/rays.py:Rays.yValues", "raytracing/rays.py:Rays.rayCountHistogram"]}
{"id": "C49", "title": "Iterating visits each ray once whatever is called meanwhile", "statement": "A for loop over a Rays object (or over a MatrixGroup) visits every item exactly once in order, also when the loop body queries the object or starts another loop over it. `ray in rays` looks at every ray, whatever was iterated before.", "quantifier": "all loop bodies", "why_tests_cant": "All interleavings of iterators.", "anchors": ["raytracing/rays.py:Rays.__iter__", "raytracing/rays.py:Rays.__next__", "raytracing/matrixgroup.py:MatrixGroup.__iter__"]}
{"id": "C50", "title": "Random rays are stable, bounded and counted", "statement": "A RandomUniformRays object has maxCount rays; rays[i] returns the same ray each time, for negative indices too; out-of-range indices raise IndexError; every ray lies in the requested ranges, whatever the random generator returns in [0,1).", "quantifier": "all generators, indices and access histories", "why_tests_cant": "Lazy generation order and randomness.", "anchors": ["raytracing/rays.py:RandomRays.__getitem__", "raytracing/rays.py:RandomUniformRays.randomRay", "raytracing/rays.py:RandomRays.__next__"]}
{"id": "C51", "title": "Ray generators give the requested number of rays in the requested ranges", "statement": "Ray.fan, Ray.fanGroup, UniformRays and ObjectRays return exactly the requested number of rays, within the requested ranges including both ends.", "quantifier": "all counts and ranges", "why_tests_cant": "All counts and real ranges.", "anchors": ["raytracing/ray.py:Ray.fan", "raytracing/ray.py:Ray.fanGroup", "raytracing/rays.py:UniformRays", "raytracing/rays.py:ObjectRays"]}
{"id": "C52", "title": "Any iterable of rays is accepted", "statement": "Rays(iterable) and traceManyThrough(iterable) use every ray of any iterable, including generators and other one-shot iterators.", "quantifier": "all iterables", "why_tests_cant": "All iterator behaviours.", "anchors": ["raytracing/rays.py:Rays.__init__", "raytracing/matrix.py:Matrix.traceManyThrough", "raytracing/matrix.py:Matrix.traceManyThroughInParallel"]}
{"id": "C53", "title": "Ray.along returns the ray at the requested position", "statement": "For a trace with non-decreasing positions and first.z <= z <= last.z, Ray.along(trace, z) is at z, on the straight line of the last ray before z, and blocked if that ray is.", "quantifier": "all traces, all z", "why_tests_cant": "All lists and positions.", "anchors": ["raytracing/ray.py:Ray.along", "raytracing/ray.py:Ray.at"]}
{"id": "C54", "title": "An axicon focuses parallel rays on its focal line", "statement": "Every ray parallel to the axis at height 0<|y|<=yMax crosses the axis at |y|/((n-1)*alpha), within focalLineLength(yMax); tracing through an axicon leaves blocked rays untouched.", "quantifier": "all n>1, alpha>0, y", "why_tests_cant": "Continuum of rays.", "anchors": ["raytracing/axicon.py:Axicon.mul_ray", "raytracing/axicon.py:Axicon.focalLineLength"]}
{"id": "C55", "title": "Preferences return what was last written", "statement": "prefs[key] returns the value most recently stored under key by any Preferences object, through any history of sets, gets, resets and new objects.", "quantifier": "all histories over all objects sharing the file", "why_tests_cant": "Interleavings of several objects.", "anchors": ["raytracing/preferences.py:Preferences"]}
{"id": "C56", "title": "Preferences survive a crash while saving", "statement": "If the process is interrupted at any point of a save, the next Preferences object sees either the old or the new values.", "quantifier": "all crash points", "why_tests_cant": "Crash points cannot be sampled.", "anchors": ["raytracing/preferences.py:Preferences.writeToDisk"]}
{"id": "C57", "title": "Refractive indices are real and at least one", "statement": "For every material and every wavelength its n() accepts, the value is a real number not smaller than 1.", "quantifier": "all wavelengths accepted, every catalogue glass", "why_tests_cant": "Continuum with poles.", "anchors": ["raytracing/materials.py:Material"]}
{"id": "C58", "title": "Materials are found by name regardless of case and dashes", "statement": "findByName finds each catalogue material from its printed name, in any letter case and with dashes anywhere, and raises ValueError otherwise.", "quantifier": "all strings", "why_tests_cant": "All strings.", "anchors": ["raytracing/materials.py:Material.findByName"]}
{"id": "C59", "title": "A Zemax file yields an index-consistent lens", "statement": "ZMXReader.matrixGroup() never fails with an index mismatch, starts in air, contains one interface per lens surface in order, and for a lens closed by an air surface ends in air with length equal to the sum of the glass spacings.", "quantifier": "all surface lists", "why_tests_cant": "All prescriptions.", "anchors": ["raytracing/zemax.py:ZMXReader.matrixGroup", "raytracing/zemax.py:ZMXReader.lensSurfaces"]}
{"id": "C60", "title": "Item and slice assignment on a group behave like on a list", "statement": "group[i] = e and group[i:j] = es put the elements where Python list assignment would, for every index including negative ones.", "quantifier": "all groups, indices and slices", "why_tests_cant": "All index combinations.", "anchors": ["raytracing/matrixgroup.py:MatrixGroup.__setitem__", "raytracing/matrixgroup.py:MatrixGroup.insert", "raytracing/matrixgroup.py:MatrixGroup.pop"]}
{"id": "C61", "title": "The surfaces of a flipped lens are its mirror image", "statement": "After flipOrientation() the surfaces of a lens, read from left to right, are the original ones in reverse order with opposite curvature, and the glass between the same two surfaces.", "quantifier": "all lenses", "why_tests_cant": "All radii and thicknesses.", "anchors": ["raytracing/matrix.py:Matrix.surfaces", "raytracing/matrix.py:ThickLens.forwardSurfaces", "raytracing/specialtylenses.py:CompoundLens.forwardSurfaces"]}
{"id": "C62", "title": "largestDiameter is the largest finite aperture", "statement": "largestDiameter of an element is its aperture diameter and of a group the largest finite one among its elements, whatever was displayed before. hasFiniteApertureDiameter says whether any element, however deeply grouped, has a finite aperture.", "quantifier": "all groups", "why_tests_cant": "All systems and display histories.", "anchors": ["raytracing/matrix.py:Lens.largestDiameter", "raytracing/matrixgroup.py:MatrixGroup.largestDiameter", "raytracing/matrixgroup.py:MatrixGroup.hasFiniteApertureDiameter"]}
{"id": "C63", "title": "Building or modifying one path does not change another", "statement": "Appending, inserting, slicing, flipping or cutting a path never changes the elements of another path that shares element objects with it.", "quantifier": "all histories over shared elements", "why_tests_cant": "Aliasing histories.", "anchors": ["raytracing/matrixgroup.py:MatrixGroup.append", "raytracing/matrixgroup.py:MatrixGroup.__getitem__", "raytracing/matrixgroup.py:MatrixGroup.flipOrientation", "raytracing/imagingpath.py:ImagingPath.subPath"]}
{"id": "C64", "title": "Almost-equal and not-equal are opposites", "statement": "isAlmostZero/isNotZero and areAbsolutelyAlmostEqual/areAbsolutelyNotEqual are symmetric in their arguments and exactly one of each pair holds.", "quantifier": "all real arguments and tolerances", "why_tests_cant": "Boundary values.", "anchors": ["raytracing/utils.py:isAlmostZero", "raytracing/utils.py:isNotZero", "raytracing/utils.py:areAbsolutelyAlmostEqual", "raytracing/utils.py:areAbsolutelyNotEqual"]}
{"id": "C65", "title": "Tracing does not change whether two paths are equal", "statement": "Two groups built from equal elements compare equal, also after rays were traced through one of them.", "quantifier": "all groups and trace histories", "why_tests_cant": "Hidden state in equality.", "anchors": ["raytracing/matrix.py:Matrix.__eq__", "raytracing/matrixgroup.py:MatrixGroup.trace"]}
{"id": "C66", "title": "A ray keeps its wavelength", "statement": "Every ray of trace(ray) has the wavelength of the input ray.", "quantifier": "all paths and rays", "why_tests_cant": "All systems.", "anchors": ["raytracing/matrix.py:Matrix.mul_ray", "raytracing/ray.py:Ray.__init__", "raytracing/ray.py:Ray.at"]}
{"id": "C67", "title": "Splitting spaces for display does not change the beam", "statement": "Replacing each Space by N equal pieces, as done to draw a beam, gives the same final q, position and index as the original path.", "quantifier": "all paths, all N >= 1", "why_tests_cant": "All N and systems.", "anchors": ["raytracing/figure.py:Figure.beamTraceLines"]}
{"id": "C68", "title": "Only the unblocked part of a ray is drawn", "statement": "The points drawn for a ray are the unblocked points of its trace, in order; with removeBlockedRaysCompletely a ray with any blocked point is not drawn at all.", "quantifier": "all traces", "why_tests_cant": "All traces.", "anchors": ["raytracing/figure.py:Figure.rearrangeRayTraceForPlotting"]}
{"id": "C69", "title": "Saving and loading a group restores it", "statement": "group2.load(file) after group1.save(file) gives group2 the elements and attributes of group1, replacing what it had, or extending it with append=True.", "quantifier": "all groups, including the empty one", "why_tests_cant": "All contents and prior states.", "anchors": ["raytracing/matrixgroup.py:MatrixGroup.save", "raytracing/matrixgroup.py:MatrixGroup.load"]}
{"id": "C70", "title": "The matrix of a path follows its elements", "statement": "At any time the ABCD matrix, length, indices and vertices of a path are those of the product of the elements it has at that time, also when one of its elements (a group, or an element shared with another path) was modified after it was added.", "quantifier": "all histories of operations on paths that share elements or contain each other", "why_tests_cant": "All modification orders over shared and nested objects.", "anchors": ["raytracing/matrixgroup.py:MatrixGroup.append", "raytracing/matrixgroup.py:MatrixGroup.flipOrientation"]}
{"id": "C71", "title": "Glasses bend short wavelengths more", "statement": "For every material but air, the index n(wavelength) is a real number that strictly decreases when the wavelength grows from 0.28 to 7 microns.", "quantifier": "all pairs of wavelengths, every catalogue glass", "why_tests_cant": "A continuum of pairs; a swapped or mistyped coefficient shows only between samples.", "anchors": ["raytracing/materials.py:Material"]}
{"id": "C72", "title": "A histogram counts every ray exactly once", "statement": "rayCountHistogram() and rayAnglesHistogram() return the centres of binCount equal bins between the smallest and the largest value and the number of rays in each; the numbers add up to len(rays). With bounds given, the rays inside the bounds are counted.", "quantifier": "all collections of finite rays, bin counts, bounds and histories of appends and queries", "why_tests_cant": "All values, including those on bin edges, and all histories.", "anchors": ["raytracing/rays.py:Rays.rayCountHistogram", "raytracing/rays.py:Rays.rayAnglesHistogram"]}
{"id": "C73", "title": "Catalogue lenses have the focal length they are sold with", "statement": "Every lens class of thorlabs.py and eo.py can be built without arguments, and its effective and back focal lengths are within 1% of the focal lengths given in the class.", "quantifier": "every catalogue class", "why_tests_cant": "The vendor data are many; a mistyped radius or glass shows only if the focal length of each class is compared.", "anchors": ["raytracing/specialtylenses.py:AchromatDoubletLens", "raytracing/specialtylenses.py:SingletLens", "raytracing/thorlabs.py", "raytracing/eo.py"]}
{"id": "C74", "title": "Thorlabs lenses can be built at any wavelength from 0.35 to 2.5 microns", "statement": "Class(wavelength=w) succeeds for every class of thorlabs.py; the lens is in air, has unit determinant, the thickness and diameter of the class and a finite non-zero focal length; the notes about focal lengths appear exactly when they differ by more than 1% from the class.", "quantifier": "every class of thorlabs.py, every wavelength in 0.35-2.5 microns", "why_tests_cant": "A continuum of wavelengths; failures occur where the power vanishes or an index is not real.", "anchors": ["raytracing/specialtylenses.py:AchromatDoubletLens", "raytracing/specialtylenses.py:SingletLens", "raytracing/thorlabs.py", "raytracing/materials.py"]}
{"id": "C75", "title": "Achromats are achromatic, singlets are not", "statement": "Over the band of its coating the focal length of a doublet changes by less than 1.3% (A, 0.4-0.7 microns), 2.1% (B, 0.65-1.05) or 1.9% (C, 1.05-1.7) of the nominal one, and A doublets stay within 1.7% of it. The focal length of a singlet is R/(n-1) and grows strictly with the wavelength.", "quantifier": "every class of thorlabs.py with an A, B or C coating, all pairs of wavelengths of the band", "why_tests_cant": "A continuum of pairs of wavelengths.", "anchors": ["raytracing/specialtylenses.py:AchromatDoubletLens", "raytracing/thorlabs.py", "raytracing/materials.py"]}
{"id": "C76", "title": "focalShifts gives one shift per wavelength", "statement": "lens.focalShifts(wavelengths) returns the wavelengths in nanometres and, for each, the focal length at this wavelength minus designFocalLength.", "quantifier": "all catalogue lenses, all sequences of wavelengths in 0.35-2.5 microns", "why_tests_cant": "All classes and all sequences; the conversion depends on the type of the sequence.", "anchors": ["raytracing/specialtylenses.py:CompoundLens.focalShifts"]}
{"id": "C77", "title": "findByIndex finds the materials with an index, once each", "statement": "Material.findByIndex(n, wavelength, tolerance) lists exactly the materials whose index differs from n by less than the tolerance, each once, with its index and Abbe number.", "quantifier": "all n, tolerances and wavelengths in 0.28-7 microns", "why_tests_cant": "A continuum of inputs.", "anchors": ["raytracing/materials.py:Material.findByIndex"]}
{"id": "C78", "title": "Abbe numbers agree with the dispersion formulas", "statement": "For every material but air abbeNumber() is within 0.025% of (nd-1)/(nF-nC) computed from n(wavelength).", "quantifier": "every material", "why_tests_cant": "Two independent data of each class must agree; no test compares them.", "anchors": ["raytracing/materials.py:Material.abbeNumber"]}
{"id": "C79", "title": "Elements that compare equal behave the same", "statement": "If a == b then a and b send every ray along the same trace and have the same matrix, lengths, indices, vertices and apertures; transferMatrix(upTo) and flipOrientation() agree as well.", "quantifier": "all pairs of elements and paths, nested to any depth", "why_tests_cant": "Equality compares attribute dictionaries, not classes; tests compare a few pairs.", "anchors": ["raytracing/matrix.py:Matrix.__eq__", "raytracing/matrix.py:Matrix.transferMatrix", "raytracing/matrix.py:CurvedMirror.flipOrientation"]}
{"id": "C80", "title": "A Zemax file is read as written, in millimetres", "statement": "For a file with numbered surfaces the reader returns one surface per SURF block in order, with radius 1/CURV (infinite for 0), spacing DISZ, diameter 2*DIAM (infinite if absent) and the material of GLAS (air if absent), all lengths converted to millimetres from the unit of the file, and the middle one of the WAVM wavelengths (without trailing 0.55) as design wavelength. Numbers are the decimal numbers written.", "quantifier": "all files of fewer than 1000 surfaces, any other lines in between, all decimal numbers", "why_tests_cant": "Tests read two files, both in millimetres.", "anchors": ["raytracing/zemax.py:ZMXReader.surfaceInfo", "raytracing/zemax.py:ZMXReader.rawSurfaceInfo", "raytracing/zemax.py:ZMXReader.designWavelengths", "raytracing/zemax.py:ZMXReader.__init__"]}
{"id": "C81", "title": "An objective accepts the cone given by its numerical aperture", "statement": "Light from the focus of an objective passes exactly if its angle is at most NA, and leaves collimated at height f*theta; every objective of the Olympus and Nikon modules reaches its NA.", "quantifier": "all rays and all objective parameters; all objectives of the catalogues", "why_tests_cant": "All rays; the aperture sizes of the catalogue are never compared with the NA.", "anchors": ["raytracing/specialtylenses.py:Objective", "raytracing/olympus.py", "raytracing/nikon.py"]}
{"id": "C82", "title": "maximumOpticalInvariant bounds the invariant of an objective", "statement": "For an axial ray that passes the objective and any ray from within the field of view, the optical invariant is at most maximumOpticalInvariant(); without magnification or field number AttributeError is raised.", "quantifier": "all objectives and all pairs of rays", "why_tests_cant": "All pairs of rays.", "anchors": ["raytracing/specialtylenses.py:Objective.maximumOpticalInvariant", "raytracing/matrixgroup.py:MatrixGroup.opticalInvariant"]}
{"id": "C83", "title": "Lens surfaces are drawn along their spheres", "statement": "The graphic of an element made of surfaces draws each surface at its vertex: a plane is a vertical line up to the half height, a spherical surface two curves that leave the vertex, end on the sphere at the edge and stay between r and 1.061 r from the centre; the outline between two surfaces is closed; the half height of the graphic is the one asked for. An axicon is a triangle over its aperture, turned around when it is flipped.", "quantifier": "all lists of planes and spheres with nonzero thicknesses, all positions, half heights and zoom factors", "why_tests_cant": "A figure test compares images or only checks that drawing does not raise; the geometry holds for all radii, heights and every point of the curves.", "anchors": ["raytracing/graphicComponents.py:SurfacePair", "raytracing/graphicComponents.py:Surface", "raytracing/graphics.py:SurfacesGraphic", "raytracing/graphics.py:Graphic.halfHeight", "raytracing/figure.py:updateGraphics"]}
{"id": "C84", "title": "Catalogue lenses can be drawn in both orientations", "statement": "Every lens of thorlabs.py and eo.py can be drawn, at any wavelength at which it can be built and after any number of flips, with its surfaces where the flipped lens has them.", "quantifier": "all catalogue lenses, wavelengths, numbers of flips, positions", "why_tests_cant": "Hundreds of lenses times any number of flips and wavelengths; tests draw a few lenses unflipped.", "anchors": ["raytracing/graphics.py:GraphicOf", "raytracing/graphics.py:SurfacesGraphic", "raytracing/graphicComponents.py:SurfacePair", "raytracing/matrix.py:Matrix.surfaces", "raytracing/specialtylenses.py:AchromatDoubletLens.forwardSurfaces", "raytracing/specialtylenses.py:SingletLens.forwardSurfaces"]}
{"id": "C85", "title": "Elements are drawn where they are, with their size", "statement": "In a figure every element that is not a space is drawn once, at the sum of the lengths of the elements before it and with its aperture diameter: thin lenses as an arrow over the diameter with bars at its ends, apertures as bars at their edges, other matrices as a box of their length, objectives with their two apertures.", "quantifier": "all lists of elements, diameters, lengths, positions and zoom factors", "why_tests_cant": "All paths and all zoom factors.", "anchors": ["raytracing/figure.py:graphicsOfElements", "raytracing/figure.py:updateGraphics", "raytracing/figure.py:scalingOfGraphic", "raytracing/graphics.py:MatrixGraphic", "raytracing/graphics.py:LensGraphic", "raytracing/graphics.py:ApertureGraphic", "raytracing/graphics.py:ObjectiveGraphic", "raytracing/graphicComponents.py:ApertureBars", "raytracing/graphicComponents.py:DoubleThinArrow"]}
{"id": "C86", "title": "The reported collection efficiency is the fraction of rays that get through", "statement": "reportEfficiency sorts the source rays into those that get through, those blocked as expected and those vignetted: every ray falls in exactly one list, the efficiency is 100 times the fraction of source rays that the path transmits, the relative efficiency and vignetting loss agree with the lists, and the vignetting positions are those of elements the rays miss.", "quantifier": "all imaging paths of thin elements with a stop and a field, all streams of random numbers, object sizes, emission angles and numbers of rays", "why_tests_cant": "The result is a random Monte Carlo figure printed on the screen; the claim is about every stream of random numbers and every path.", "anchors": ["raytracing/imagingpath.py:ImagingPath.reportEfficiency", "raytracing/imagingpath.py:ImagingPath.lagrangeInvariant", "raytracing/matrixgroup.py:MatrixGroup.opticalInvariant", "raytracing/rays.py:RandomUniformRays"]}
{"id": "C87", "title": "NA and the presence of stops describe the rays that get through", "statement": "NA() is the front index times the sine of the steepest angle at which a ray from the axis gets through; hasApertureStop() is True exactly when some ray from the axis is lost; hasFieldStop() is True exactly when the field of view is finite, which takes at least two elements of finite diameter.", "quantifier": "all imaging paths of thin elements", "why_tests_cant": "Concerns every ray from the axis and every path.", "anchors": ["raytracing/imagingpath.py:ImagingPath.NA", "raytracing/imagingpath.py:ImagingPath.hasApertureStop", "raytracing/imagingpath.py:ImagingPath.hasFieldStop", "raytracing/imagingpath.py:ImagingPath.fieldOfView"]}
{"id": "C88", "title": "Lambertian and Gaussian sources follow their law", "statement": "LambertianRays(yMax, yMin, M, N, I) emits rays from evenly spaced heights and angles, in numbers proportional to the cosine of the angle (rounded down) and symmetric about the axis. RandomLambertianRays and GaussianProfileUniformRays give maxCount rays that are accepted by the cosine or Gaussian law, lie within the source, and are the same whatever the order in which they are accessed.", "quantifier": "all numbers of heights, angles and rays; all streams of random numbers that are accepted again and again; all histories of indexing and iteration", "why_tests_cant": "The rays depend on random numbers and on the history of accesses; the law holds for every angle and size.", "anchors": ["raytracing/rays.py:LambertianRays", "raytracing/rays.py:RandomLambertianRays", "raytracing/rays.py:GaussianProfileUniformRays", "raytracing/rays.py:RandomRays"]}
{"id": "C89", "title": "The design and object height chosen by the user stay in force", "statement": "The settings given to path.design() (style and single settings) and to path.objectHeight are those of the figures displayed afterwards, until they are changed by the user. displayWithObject() shows the object it is given and leaves the other settings alone.", "quantifier": "all histories of design(), objectHeight and display() on a path, all arguments", "why_tests_cant": "Concerns every order of calls; the tests display once per path.", "anchors": ["raytracing/imagingpath.py:ImagingPath.display", "raytracing/imagingpath.py:ImagingPath.objectHeight", "raytracing/figure.py:Figure.design", "raytracing/figure.py:Figure.display", "raytracing/imagingpath.py:ImagingPath.displayWithObject"]}
{"id": "C90", "title": "Displaying leaves the caller's list alone and works for every path", "statement": "display(raysList=l) does not change the list l, and display() produces a figure for every path.", "quantifier": "all paths, all lists of sources, all states of the path", "why_tests_cant": "Concerns every path and list; a figure must be looked at.", "anchors": ["raytracing/imagingpath.py:ImagingPath.display", "raytracing/imagingpath.py:ImagingPath.displayWithObject"]}
{"id": "C91", "title": "Each ray is drawn through its points in a colour that follows its height", "statement": "The figure has one line for each ray that reaches a point to be drawn, in order, through the points of its trace; its colour is one of those asked for and goes evenly from the first for the lowest starting height to the last for the highest. Rays of a source inside the path are drawn on both sides of it.", "quantifier": "all ray traces, all lists of colours, all positions of the source", "why_tests_cant": "Concerns every set of traces and colours; the colour index is only visible in a figure.", "anchors": ["raytracing/figure.py:Figure.rayTraceLines", "raytracing/figure.py:Figure.rearrangeRayTraceForPlotting"]}
{"id": "C92", "title": "The drawn laser beam is the true beam, with its waists marked", "statement": "The two lines drawn for a Gaussian beam in a laser path are mirror images of each other, run from the entrance to the exit, and each of their points is the half width of the beam at that depth. The arrows mark the waists: they stand where the beam of each piece of the path would be narrowest, inside the path, and touch the beam there. Every beam can be drawn through every path. The figure of a stable cavity shows its mode, which has the same width at the end of the round trip as at its start; an unstable cavity is shown without a beam.", "quantifier": "all paths of described elements with true spaces, all resolutions, all beams with a positive Rayleigh range and wavelength", "why_tests_cant": "Concerns every depth in every path; figures are not compared in the tests.", "anchors": ["raytracing/figure.py:Figure.beamTraceLines", "raytracing/figure.py:Figure.beamWaistAnnotations", "raytracing/figure.py:Figure.rearrangeBeamTraceForPlotting", "raytracing/figure.py:Figure.displayGaussianBeam", "raytracing/laserpath.py:LaserPath.display", "raytracing/axicon.py:Axicon.mul_beam", "raytracing/lasercavity.py:LaserCavity.display"]}
{"id": "C93", "title": "Every ray given to display() is drawn", "statement": "The lines of the figure made by display(raysList=[...]) are the lines of all the objects, lamps and other rays in the list, none lost and none twice. The groups that are hidden at first are the principal rays, unless the field of view is shown, and the objects at the entrance when the design says so, when the field of view is shown or when there is a lamp.", "quantifier": "all lists of objects, lamps and other rays, at all positions, all settings of the design", "why_tests_cant": "Concerns every list of sources; the figures are not compared in the tests.", "anchors": ["raytracing/figure.py:Figure.setLinesFromRaysList", "raytracing/figure.py:Figure.lines", "raytracing/figure.py:Figure.display", "raytracing/figure.py:Figure.setGroupVisibility"]}
{"id": "C94", "title": "Every object is drawn with its images where the rays meet", "statement": "The figure shows an arrow for each object (in the colour asked for) and a bar for each lamp in raysList, and for each object an arrow for each of its images: it is where all rays from a point of the object meet again, and its tip is where the rays from the tip of the object pass. showObject and showImages choose between them.", "quantifier": "all paths of described elements, all lists of objects and lamps at all positions and heights", "why_tests_cant": "Concerns all rays from all points of an object in any path; the figures are not compared in the tests.", "anchors": ["raytracing/figure.py:Figure.setGraphicsFromRaysList", "raytracing/figure.py:Figure.graphicsOfConjugatePlanes", "raytracing/graphics.py:ObjectGraphic", "raytracing/graphics.py:ImageGraphic", "raytracing/rays.py:ObjectRays", "raytracing/imagingpath.py:ImagingPath.subPath"]}
{"id": "C95", "title": "The vertical range of a figure shows the elements, the object and its images", "statement": "The vertical axis of the figure of a path covers the arrow of the object on the axis, the arrows of all its images inside the path and all elements as they are drawn, and it is no larger than needed for one of them; for a laser path it covers the elements, and without elements three times the radius of the beam. All objects and beams that are displayed are inside.", "quantifier": "all paths, all sizes of the object, all rays", "why_tests_cant": "Concerns every path with every object; the tests only check some values of displayRange.", "anchors": ["raytracing/figure.py:Figure.displayRange", "raytracing/figure.py:Figure.setGraphicsFromOpticalPath", "raytracing/figure.py:MplFigure.updateDisplayRange", "raytracing/imagingpath.py:ImagingPath.intermediateConjugates"]}
{"id": "C96", "title": "A lens without a diameter is drawn over all rays", "statement": "A thin lens of infinite diameter is drawn as high as the highest point of all rays in the figure (and at least 4), so that no ray passes beside the drawn lens.", "quantifier": "all lenses without a diameter, all sets of rays", "why_tests_cant": "Concerns all rays in all paths; the figures are not compared in the tests.", "anchors": ["raytracing/figure.py:Figure.maxRayHeight", "raytracing/graphics.py:LensGraphic", "raytracing/matrix.py:Lens.displayHalfHeight"]}
{"id": "C97", "title": "Figures mark the focal points where they are", "statement": "A figure marks the front and the back focal point of every lens, mirror, catalogue lens and objective in the path, to three decimals, with the names F_f and F_b, numbered when there are several elements; points at the same place share one mark that names them all; nothing else is marked. Every path can be drawn.", "quantifier": "all paths of described elements, all positions", "why_tests_cant": "Concerns every path; the tests do not look at the marks.", "anchors": ["raytracing/figure.py:Figure.pointsOfInterest", "raytracing/matrix.py:Matrix.pointsOfInterest", "raytracing/matrix.py:Lens.pointsOfInterest", "raytracing/specialtylenses.py:CompoundLens.pointsOfInterest", "raytracing/specialtylenses.py:Objective.pointsOfInterest"]}
{"id": "C98", "title": "Element.display() shows the cardinal points of the element", "statement": "The figure of a single element shows its focal points, its vertices and its principal planes (planes of unit magnification) where they are, and arrows with the effective, front and back focal lengths that reach from the principal plane or vertex to the focal point and carry the distance between them. Elements without power are shown without them.", "quantifier": "all elements with described optics, all positions of their vertices", "why_tests_cant": "Concerns all elements; the tests do not look at the figures.", "anchors": ["raytracing/graphics.py:MatrixGraphic.createFigure", "raytracing/graphics.py:MatrixGraphic.addPrincipalPlanes", "raytracing/graphics.py:MatrixGraphic.cardinalPoints", "raytracing/graphics.py:MatrixGroupGraphic.pointsOfInterest", "raytracing/matrix.py:Matrix.display"]}
{"id": "C99", "title": "The warning modes show the warnings they promise", "statement": "After silentMode() no warning of the package is shown. After beginnerMode() every warning is shown, hints every time. After expertMode() hints are not shown and everything else once. This holds whatever modes, filters and warnings came before. The mode saved in the preferences is the mode of the next import.", "quantifier": "all histories of modes, filters and warnings, all sequences of warnings afterwards", "why_tests_cant": "The result depends on the order of the filters and on the registries of the warnings module, so on everything that happened in the session.", "anchors": ["raytracing/utils.py:beginnerMode", "raytracing/utils.py:expertMode", "raytracing/utils.py:silentMode", "raytracing/__init__.py"]}
{"id": "C100", "title": "The package looks for a new version once a day and can always be imported", "statement": "An import looks for a new version when the last look was more than a day ago (or never), and notes the time; the package can be imported at any time whatever was noted. A newer version is announced exactly when one of the releases is newer than the installed one.", "quantifier": "all sequences of import times, all lists of releases", "why_tests_cant": "Depends on the time of day to the microsecond and on the answer of a server.", "anchors": ["raytracing/__init__.py:lastCheckMoreThanADay", "raytracing/utils.py:checkLatestVersion"]}
{"id": "C101", "title": "allSubclasses returns all the subclasses of a class", "statement": "allSubclasses(aClass), and all() of the catalogue lenses, return the names of all classes derived from the class at any depth; printClassHierarchy prints an arrow for each pair of a class and a class directly derived from it.", "quantifier": "all hierarchies of classes", "why_tests_cant": "Concerns hierarchies of any depth, including classes that users derive.", "anchors": ["raytracing/utils.py:allSubclasses", "raytracing/utils.py:printClassHierarchy", "raytracing/specialtylenses.py:CompoundLens.all"]}
{"id": "C102", "title": "The labels of a figure do not overlap and stay in the display", "statement": "When a figure is drawn or zoomed, its labels are moved sideways so that no two overlap, none leaves the display, and labels that do not overlap stay where they are. What was moved before has no influence: after a zoom the labels are where they would be in a new figure.", "quantifier": "all sets of labels, all displays, all sequences of zooms", "why_tests_cant": "Concerns all numbers and sizes of labels and all sequences of zooms.", "anchors": ["raytracing/figure.py:MplFigure.fixLabelOverlaps", "raytracing/figure.py:MplFigure.translateLabel", "raytracing/figure.py:MplFigure.updateLabels", "raytracing/graphicComponents.py:Label.translate", "raytracing/graphicComponents.py:Label.resetPosition", "raytracing/graphicComponents.py:MplLabel.boundingBox"]}
{"id": "C103", "title": "The check boxes show and hide the groups of a figure", "statement": "There is a check box for every group of a figure with something in it (except the elements), checked when the group is shown. A click shows or hides everything in its group and nothing else, so that the state of the group after any clicks is given by the number of clicks on its box.", "quantifier": "all figures, all sequences of clicks", "why_tests_cant": "Concerns all sequences of clicks in an interactive window.", "anchors": ["raytracing/figure.py:Figure.setGroupVisibility", "raytracing/figure.py:Figure.visibility", "raytracing/figure.py:MplFigure.onCheckBoxCallback", "raytracing/figure.py:MplFigure.initVisibilityCheckBoxes", "raytracing/graphics.py:Graphic.isVisible"]}
{"id": "C104", "title": "Figures mark the stops, the entrance pupil and the field of view where they are", "statement": "The figure of an imaging path marks the aperture stop and the field stop at their places, shows bars at the entrance pupil as high as the pupil, and an arrow over the field of view. It shows none of them when no element has a diameter, and every path can be shown.", "quantifier": "all imaging paths", "why_tests_cant": "Concerns every path; the tests do not look at the marks, and the failing paths need special positions of apertures.", "anchors": ["raytracing/figure.py:Figure.setPrincipalAndAxialRays", "raytracing/figure.py:Figure.stopsLabels", "raytracing/figure.py:Figure.graphicOfEntrancePupil", "raytracing/figure.py:Figure.setGraphicsFromOpticalPath", "raytracing/figure.py:Figure.display"]}
{"id": "C105", "title": "Printed objects say what the objects are", "statement": "print() of a ray, a matrix or a beam, and the prescription of an imported lens, show their numbers rounded to the decimals shown (rays and matrices with the same text are therefore equal to that precision), whether a ray is blocked, the focal length that effectiveFocalLengths() reports or that the element is afocal, the wavelength in nm, and one line for each surface.", "quantifier": "all rays, matrices, beams and lens files with finite numbers", "why_tests_cant": "Concerns all doubles and their rounding to decimals; tests print a few objects and look at nothing.", "anchors": ["raytracing/ray.py:Ray.__str__", "raytracing/matrix.py:Matrix.__str__", "raytracing/gaussianbeam.py:GaussianBeam.__str__", "raytracing/zemax.py:ZMXReader.prescription"]}
{"id": "C106", "title": "Images obey Newton's formula, and object and image can change places", "statement": "With x the distance of an object from the front focus and x' that of the image found by forwardConjugate() from the back focus, x x' = f1 f2 and the magnification is -f1/x = -x'/f2 with the focuses and focal lengths that the element reports; there is no image of an object in the focus. backwardConjugate() of the path up to the image leads back to the object.", "quantifier": "all elements with power, in any media, all distances", "why_tests_cant": "Relates five methods for all elements and distances.", "anchors": ["raytracing/matrix.py:Matrix.forwardConjugate", "raytracing/matrix.py:Matrix.backwardConjugate", "raytracing/matrix.py:Matrix.focusPositions", "raytracing/matrix.py:Matrix.effectiveFocalLengths"]}
{"id": "C107", "title": "Two elements combine as in textbooks and thick lenses obey the lensmaker's equation", "statement": "Two elements with power and a Space between them have the focal lengths -f1 f2/gap, the gap being from the back focus of the first to the front focus of the second; when the focuses coincide the system is afocal with the magnification -f2/f1. The focal length of ThickLens(n, R1, R2, t) is given by the lensmaker's equation.", "quantifier": "all pairs of elements with power, all distances; all thick lenses", "why_tests_cant": "Concerns all elements; the tests check single lenses.", "anchors": ["raytracing/matrixgroup.py:MatrixGroup.append", "raytracing/matrix.py:Matrix.effectiveFocalLengths", "raytracing/matrix.py:ThickLens"]}
{"id": "C108", "title": "Stacks of lenses, plates and 4f systems of any length add up", "statement": "A group of thin lenses in contact has the sum of their powers, in whatever order; a group of 4f systems is afocal, its magnification is the product of theirs and its length the sum; a group of plane plates shifts by the sum of thickness over index.", "quantifier": "all lists of lenses, plates and 4f systems", "why_tests_cant": "Concerns lists of any length.", "anchors": ["raytracing/matrixgroup.py:MatrixGroup.__init__", "raytracing/matrix.py:Lens", "raytracing/matrix.py:DielectricSlab", "raytracing/components.py:System4f"]}
{"id": "C109", "title": "A cavity can be looked at from any place", "statement": "The answer of LaserCavity.isStable() does not depend on the element at which the round trip starts, and the mode at another start is the mode propagated to it.", "quantifier": "all cavities, all places in them", "why_tests_cant": "Concerns every cavity and every place; the tests use one start.", "anchors": ["raytracing/lasercavity.py:LaserCavity.isStable", "raytracing/lasercavity.py:LaserCavity.laserModes", "raytracing/lasercavity.py:LaserCavity.eigenModes", "raytracing/matrix.py:Matrix.mul_beam"]}
{"id": "C110", "title": "Catalogue lenses have the edge thickness they are sold with", "statement": "The surfaces of every lens of the catalogue exist up to its diameter and do not cross within it, the glass at the edge has the edge thickness given in the class to 5 %, and the constructor warns exactly when it has not.", "quantifier": "all lenses of the catalogue, all heights up to the edge, all wavelengths from 0.35 to 2.5 micrometers", "why_tests_cant": "Concerns every height and wavelength of 328 lenses; the tests only construct them and do not look at warnings.", "anchors": ["raytracing/specialtylenses.py:AchromatDoubletLens.__init__", "raytracing/specialtylenses.py:SingletLens.__init__", "raytracing/thorlabs.py", "raytracing/eo.py"]}
{"id": "C111", "title": "Two-mirror resonators obey the g1 g2 criterion and have the textbook mode", "statement": "For a resonator made of two curved (or flat) mirrors a distance L apart, isStable is True exactly when 0 < g1 g2 < 1 with g = 1 + L/R; when it is, laserModes returns exactly one beam, its wavefront has the radius of the first mirror, and its rayleighRange and waistPosition are the textbook ones.", "quantifier": "all lengths L > 0 and all pairs of mirror radii, concave, convex or flat", "why_tests_cant": "The criterion is an equivalence over a three-parameter family with a boundary; the tests build a couple of cavities and never compare the mode with the mirrors.", "anchors": ["raytracing/lasercavity.py:LaserCavity.isStable", "raytracing/lasercavity.py:LaserCavity.laserModes", "raytracing/matrix.py:CurvedMirror", "raytracing/gaussianbeam.py:GaussianBeam.rayleighRange"]}
{"id": "C112", "title": "Focusing a Gaussian beam obeys the lens formula for beams", "statement": "A beam with waist w at distance s in front of a thin lens of focal length f leaves with waist m w, at s' with s' - f = m^2 (s - f), and Rayleigh range m^2 zo, where m = |f|/sqrt((s-f)^2 + zo^2).", "quantifier": "all waists and wavelengths > 0, all distances, all nonzero focal lengths", "why_tests_cant": "The law relates three reported quantities for a four-parameter family of inputs; the tests check single propagations with one lens.", "anchors": ["raytracing/gaussianbeam.py:GaussianBeam", "raytracing/matrix.py:Matrix.mul_beam", "raytracing/matrix.py:Lens"]}
{"id": "C113", "title": "A Gaussian beam is a pair of rays", "statement": "Trace a ray that leaves the edge of the beam normal to its wavefront, and a ray that leaves the axis at the diffraction angle wl/(n pi w): behind any path the square of the beam radius is the sum of the squares of the two ray heights.", "quantifier": "all well-formed optical paths with positive indices, all beam radii, curvatures and wavelengths, whenever the two rays are not blocked", "why_tests_cant": "Ties the ray tracer to the beam tracer over all elements and groups; the tests exercise both separately with a few values.", "anchors": ["raytracing/matrix.py:Matrix.mul_ray", "raytracing/matrix.py:Matrix.mul_beam", "raytracing/gaussianbeam.py:GaussianBeam.w"]}
{"id": "C114", "title": "imageSize is the size of the image", "statement": "imageSize() is the distance, in the image plane, between the points where rays from the two ends of the object (or of the field of view) arrive, whatever the angle under which they leave; it is infinite exactly in the situations where the field is unlimited or the rays of a point leave parallel.", "quantifier": "all well-formed optical paths without axicons, all object heights and fields of view, all rays that get through", "why_tests_cant": "The tests compare imageSize with a few numbers; the claim ties it to where all the rays of the ray tracer go.", "anchors": ["raytracing/imagingpath.py:ImagingPath.imageSize", "raytracing/matrix.py:Matrix.forwardConjugate"]}
{"id": "C115", "title": "The unit of length does not matter", "statement": "A system described in another unit (every length multiplied by the same factor) is built or refused alike, has the same A and D, and rays, blocked rays, the aperture stop, images, magnifications and flipped systems are those of the original; so are focal lengths, cardinal points, chief and marginal rays and the field of view.", "quantifier": "all factors greater than zero, all systems made of the public elements and nested groups of them, all rays", "why_tests_cant": "Quantifies over all systems and all units; the tests use one system of units. No unit is prescribed anywhere in the documentation, so users pick their own.", "anchors": ["raytracing/matrix.py:Matrix", "raytracing/matrix.py:Matrix.hasPower", "raytracing/matrix.py:Matrix.isImaging", "raytracing/matrixgroup.py:MatrixGroup", "raytracing/imagingpath.py:ImagingPath.apertureStop", "raytracing/imagingpath.py:ImagingPath.fieldOfView"]}
{"id": "C116", "title": "precision and maxHeight control the search of the field", "statement": "Whatever values the user gives to the attributes precision and maxHeight, fieldStop and fieldOfView return: the field of view to a few times the precision when its edge lies below maxHeight, an unlimited field when it does not; with the values expressed in another unit of length along with the system, the field is that of the original in the new unit.", "quantifier": "all positive values of precision and maxHeight, all well-formed optical paths whose stop can be aimed at, all heights of the edge of the field", "why_tests_cant": "The tests run the search with the default values on a few paths; termination and the size of the error for every setting and every path are statements about all executions of a loop without a bound.", "anchors": ["raytracing/imagingpath.py:ImagingPath.__init__", "raytracing/imagingpath.py:ImagingPath.fieldStop", "raytracing/imagingpath.py:ImagingPath.halfFieldOfView", "raytracing/imagingpath.py:ImagingPath.fieldOfView"]}
{"id": "C117", "title": "a saved file gives back what was saved, and a failed load changes nothing", "statement": "After any sequence of append, save and load on any number of ray sets that share a file, load gives exactly the rays that the last save saved, in order, whichever object saved them; with append=True they follow the rays already there. A load that raises leaves the object as it was, exactly the complete files with an iterable of rays are accepted, a program killed while saving leaves a file that is either the old one, the new one or refused, and save returns exactly when the file appears and two successive answers to the question for its size agree. A random source saves its rays, and visits the rays of a file it loads.", "quantifier": "all sequences of operations on any number of objects sharing one file, all contents of the file, all moments at which the program can be killed, all answers of the operating system about the file, all random sources and sequences of operations on them", "why_tests_cant": "The tests save and load once; interleavings of several objects, interrupted saves, the answers of the operating system and the waiting loop without a bound range over infinitely many executions.", "anchors": ["raytracing/rays.py:Rays.save", "raytracing/rays.py:Rays.load", "raytracing/rays.py:Rays.append", "raytracing/rays.py:RandomRays.__getitem__", "raytracing/matrixgroup.py:MatrixGroup.save", "raytracing/matrixgroup.py:MatrixGroup.load"]}
{"id": "C118", "title": "the image of a system is the image of the images", "statement": "The image that a system forms of an object is found by following the image from element to element: ask the first element for the image of the object (forwardConjugate of a Space followed by the element), take that image as the object of the next element, and so on. The last image is where forwardConjugate of the whole system puts it, and its magnification is the product of the magnifications of the stages, virtual images and virtual objects included.", "quantifier": "all non-empty lists of elements that describe optics with matched indices, all object distances for which every stage has an image", "why_tests_cant": "A test compares one system with one hand computation; the rule holds for any number of elements, which needs an induction over the list.", "anchors": ["raytracing/matrix.py:Matrix.forwardConjugate", "raytracing/matrix.py:Matrix.mul_matrix", "raytracing/matrixgroup.py:MatrixGroup.__init__", "raytracing/matrixgroup.py:MatrixGroup.append", "raytracing/matrix.py:Space"]}
{"id": "C119", "title": "Components are drawn as their curves, closed outlines as one contour, with the label above", "statement": "The path given to matplotlib for a component draws exactly the lines and curves of the component, in order, and nothing between them; the outline of the glass between two surfaces, of a box, of an arrow and of an objective is a single contour that ends where it started, so that it is filled as a whole. The label of an element is drawn between the leftmost and the rightmost point of the element, 30 % higher than the element. Graphic.length is the length of the element.", "quantifier": "all components made of any number of linear and quadratic curves with any control points, all pairs of surfaces, all polygons, all graphics", "why_tests_cant": "Figures are looked at by eye; the code that joins curves depends on exact coincidences of coordinates, and which sequences of codes are drawn as intended is a statement about all lists of curves.", "anchors": ["raytracing/graphicComponents.py:Component.patch", "raytracing/graphicComponents.py:Component.xy", "raytracing/graphicComponents.py:Component.length", "raytracing/graphics.py:Graphic.centroid", "raytracing/graphics.py:Graphic.__init__", "raytracing/graphics.py:Graphic.length", "raytracing/figure.py:MplFigure.updateGraphics"]}
{"id": "C120", "title": "The f-number is that of the light a lens lets through", "statement": "ImagingPath.fNumber is the opening of the cone of light that leaves the path when light parallel to the axis fills it: a ray parallel to the axis at the edge of the entrance pupil meets the edge of the aperture stop and leaves at the (reduced) angle -1/(2N); parallel rays get through exactly inside the entrance pupil. Paths without power have an infinite f-number. The f-number is a property of the lens, whatever the distance of the object in front of it.", "quantifier": "all paths of elements without axicons, with an aperture stop and an object side in air; all heights of the parallel rays; all distances of the object", "why_tests_cant": "The tests read one or two numbers; the claim relates the number to all the rays that get through, for every path and every distance of the object.", "anchors": ["raytracing/imagingpath.py:ImagingPath.fNumber", "raytracing/imagingpath.py:ImagingPath.entrancePupil", "raytracing/imagingpath.py:ImagingPath.apertureStop", "raytracing/matrix.py:Matrix.effectiveFocalLengths"]}
{"id": "C121", "title": "Traces in double precision stay close to exact traces", "statement": "A ray traced through a path in double precision is where the product of the ray matrices of the elements puts it, up to one part in 2^50, for every element met, of the sum of the absolute values of the terms added on the way; the same holds for the entries of the matrix of a group, so that the matrix of a group and a trace through its elements tell the same. Unless the exact ray is as close as that to the edge of an opening, the trace in doubles blocks the ray if and only if exact arithmetic does.", "quantifier": "all paths of finite elements other than axicons, nested or not, all rays, at most 2^50 elements, no term near the largest double", "why_tests_cant": "Tests compare a few traces with a tolerance chosen by hand; the claim bounds the error of every trace through every path, and says when an opening is decided correctly.", "anchors": ["raytracing/matrix.py:Matrix.mul_ray", "raytracing/matrix.py:Matrix.mul_matrix", "raytracing/matrix.py:Matrix.traceThrough", "raytracing/matrixgroup.py:MatrixGroup.append", "raytracing/matrixgroup.py:MatrixGroup.transferMatrix"]}
{"id": "C122", "title": "A path holds the element objects it was given, in that order", "statement": "Editing a path changes its elements as editing a Python list does, and the elements are the objects themselves, not copies: append adds the object at the end, pop removes one, insert, item and slice assignment put the given objects in place, a slice is a new path made of the same objects, and flipping in place reverses their order. A sub path is a new path whose first element is a new Space with the rest of the one that was cut, followed by the same objects that come after the cut, or those before it in reverse order. When a removal makes the others no longer fit together, an exception is raised and the path keeps those before the first that does not fit.", "quantifier": "all stores of element objects, all paths (nested, shared), all indices and slices from the front, all lists of elements given", "why_tests_cant": "The tests edit a few paths and compare lengths; sharing shows only when the same object is in several paths, and there are unboundedly many histories.", "anchors": ["raytracing/matrixgroup.py:MatrixGroup.append", "raytracing/matrixgroup.py:MatrixGroup.insert", "raytracing/matrixgroup.py:MatrixGroup.pop", "raytracing/matrixgroup.py:MatrixGroup.__getitem__", "raytracing/matrixgroup.py:MatrixGroup.__setitem__", "raytracing/matrixgroup.py:MatrixGroup.flipOrientation", "raytracing/imagingpath.py:ImagingPath.subPath"]}
{"id": "C123", "title": "A path whose elements are accepted can be assembled", "statement": "Elements that the constructors accept can be put one after the other in a path: the check of the determinant, which compares every product computed in double precision with the ratio of the indices to 1e-5, refuses only what is inconsistent. What was accepted has a determinant within 1e-5 of that ratio.", "quantifier": "all lists of elements in air, of any length up to 2^50, all finite entries", "why_tests_cant": "Tests assemble a few paths of common size; whether rounding can trip the check depends on every combination of elements.", "anchors": ["raytracing/matrix.py:Matrix.__init__", "raytracing/matrix.py:Matrix.determinant", "raytracing/matrix.py:Matrix.mul_matrix", "raytracing/matrixgroup.py:MatrixGroup.append", "raytracing/matrixgroup.py:MatrixGroup.transferMatrix", "raytracing/utils.py:areAbsolutelyNotEqual"]}
{"id": "C124", "title": "Focal lengths and image positions in double precision are those of the exact system", "statement": "The effective focal lengths and the positions of images and objects that a path computes in double precision are those of the exact product of its matrices: a path with power has the focal length -1/C, an object at the beginning has its image at -B/D behind the end, with a matrix to the image whose B is zero, and an object in the focal plane has its image at infinity.", "quantifier": "all paths in air of up to 2^50 elements with finite entries, all sizes below the largest double", "why_tests_cant": "Tests compare a few systems with assertAlmostEqual; the size of the rounding error depends on every element of the path, and the behaviour at the threshold of the power and at the focal plane on the last bit of the entries.", "anchors": ["raytracing/matrix.py:Matrix.hasPower", "raytracing/matrix.py:Matrix.effectiveFocalLengths", "raytracing/matrix.py:Matrix.forwardConjugate", "raytracing/matrix.py:Matrix.backwardConjugate"]}
{"id": "C125", "title": "The lens viewer offers every catalogue lens once and shows the one selected", "statement": "The menu of the lens viewer has exactly one entry for each lens of the Thorlabs and Edmund catalogues, in the order of CompoundLens.all(), with its label and its focal length; selecting an entry draws the lens of that entry. Classes that are listed twice, or that belong to neither module, neither add nor hide an entry.", "quantifier": "all orders and repetitions of the list of classes, with any other classes in between, all entries of the menu, every number format", "why_tests_cant": "The viewer swallows every exception while it builds the menu and reuses one variable for names and objects; a lens that is lost or shown under another entry produces no error, and the tests do not open a window.", "anchors": ["raytracing/lensViewer.py:OpticalComponentViewer.build_lens_dict", "raytracing/lensViewer.py:OpticalComponentViewer.selection_changed", "raytracing/lensViewer.py:PopupMenu.selection_callback", "raytracing/specialtylenses.py:CompoundLens.all"]}
{"id": "C126", "title": "python -m raytracing runs the examples that were asked for", "statement": "The examples offered by python -m raytracing are the files exNN.py and fig*.py of its directory in the order of their names, whatever order the file system lists them in. Without options each is run once in this order; -e with numbers runs exactly the examples that -l lists under these numbers, in the order given; a text that is no list of integers is refused before anything is done, a number that is not in the list is refused, and -c, -t and -l do only what they say.", "quantifier": "all directories, all lists of numbers with signs and spaces, all examples and the exceptions they raise, all combinations of options", "why_tests_cant": "The command line is not covered by the tests; what runs depends on the text typed, on the directory and on the examples that fail.", "anchors": ["raytracing/__main__.py", "raytracing/examples/__init__.py"]}
{"id": "C127", "title": "A Zemax file reads the same in any usual encoding and layout", "statement": "ZMXReader finds the same lines of words in a file saved as UTF-8 or as UTF-16 with a byte order mark (low or high byte first), with line ends \\n, \\r\\n or \\r, with or without an end of the last line, and with any indentation and white space between and after the words; bytes that are none of these are refused with UnicodeDecodeError.", "quantifier": "all texts of Unicode characters, all lines and words, all byte sequences", "why_tests_cant": "The tests read a few files of two vendors; the property holds for every text, and says which files are refused.", "anchors": ["raytracing/zemax.py:ZMXReader.__init__", "raytracing/zemax.py:ZMXReader.determineEncoding"]}
{"id": "C128", "title": "The byte order mark of a Zemax file does not matter", "statement": "A Zemax file is read the same with and without a byte order mark.", "quantifier": "all files", "why_tests_cant": "All files and encodings.", "anchors": ["raytracing/zemax.py:ZMXReader.determineEncoding"]}
{"id": "C129", "title": "Rays that compare equal are traced alike", "statement": "If two Ray objects compare equal (==), then tracing them through the same element or path gives traces that are equal ray by ray and blocked at the same places.", "quantifier": "all rays, elements and paths nested to any depth", "why_tests_cant": "The comparison looks at some attributes only; whether the others matter depends on all systems.", "anchors": ["raytracing/ray.py:Ray.__eq__", "raytracing/matrix.py:Matrix.trace", "raytracing/matrixgroup.py:MatrixGroup.trace"]}
{"id": "C130", "title": "Gaussian beams and cavities do not depend on the unit of length", "statement": "If every length, wavelengths included, is written in another unit, then GaussianBeam makes the same beam or refuses it alike, the trace of a beam through any path is the same trace (same clipping), w, R, wo, zo and waistPosition are converted, and a laser cavity has the same modes and is stable or not alike.", "quantifier": "all positive unit ratios, beams, lists of constructor calls nested to any depth", "why_tests_cant": "Tests use millimetres only; the claim relates two runs for every ratio of units.", "anchors": ["raytracing/gaussianbeam.py:GaussianBeam.__init__", "raytracing/gaussianbeam.py:GaussianBeam.w", "raytracing/gaussianbeam.py:GaussianBeam.R", "raytracing/matrix.py:Matrix.mul_beam", "raytracing/lasercavity.py:LaserCavity.eigenModes", "raytracing/lasercavity.py:LaserCavity.isStable"]}
{"id": "C131", "title": "A ray and its mirror image take mirror-image paths", "statement": "Two rays with opposite heights and angles have traces that are opposite ray by ray and are blocked at the same places, also in double precision, where the numbers are exactly opposite; opposite points of the object have opposite chief and marginal rays.", "quantifier": "all rays (infinities and nan included), elements and paths nested to any depth, axicons included", "why_tests_cant": "The claim relates two runs for every ray and every path, whatever is rounded on the way.", "anchors": ["raytracing/matrix.py:Matrix.mul_ray", "raytracing/matrix.py:Matrix.trace", "raytracing/axicon.py:Axicon.mul_ray", "raytracing/matrixgroup.py:MatrixGroup.trace", "raytracing/imagingpath.py:ImagingPath.chiefRay", "raytracing/imagingpath.py:ImagingPath.marginalRays"]}
{"id": "C132", "title": "Rays and Gaussian beams can be traced through the same path in any order", "statement": "Whatever rays and beams were traced before through a path or parts of it, path.trace(beam) returns the beams the path makes of this beam, or raises what the path raises for it; tracing changes no beam and no list returned before.", "quantifier": "all sessions of calls of trace(), all rays and beams, groups nested and shared at will", "why_tests_cant": "The result passes through a cache in every group; the claim is about every history of calls.", "anchors": ["raytracing/matrixgroup.py:MatrixGroup.trace", "raytracing/matrix.py:Matrix.trace", "raytracing/matrix.py:Matrix.mul_beam", "raytracing/gaussianbeam.py:GaussianBeam", "raytracing/ray.py:Ray.__eq__"]}
{"id": "C133", "title": "The object that display() draws has the rays that were asked for", "statement": "Whatever was done with an ImagingPath before, display() without an object of its own draws an object of height objectHeight with fanNumber points evenly spaced from edge to edge and rayNumber rays at each, evenly spaced over the full angle fanAngle and symmetric about the axis; when no angle was set the chosen fan is visible in the figure. displayWithObject() draws its object with the numbers it is given, and objectHeight is never negative.", "quantifier": "all histories of settings and figures; all heights, angles and numbers; all paths and vertical ranges", "why_tests_cant": "The settings go through every history of setters, designs and figures, and the rays are drawn, not returned: a test sees a figure at most.", "anchors": ["raytracing/imagingpath.py:ImagingPath.display", "raytracing/imagingpath.py:ImagingPath.displayWithObject", "raytracing/imagingpath.py:ImagingPath.fanAngle", "raytracing/imagingpath.py:ImagingPath.fanNumber", "raytracing/imagingpath.py:ImagingPath.rayNumber", "raytracing/rays.py:ObjectRays"]}
{"id": "C134", "title": "The reported magnification is that of the rays", "statement": "When an element images its front face on its back face, magnification() returns the ratio of the heights of every ray and the ratio of the angles of the rays from the axis, whose product is n1/n2; otherwise it returns nothing. The matrix returned by forwardConjugate() always has a magnification.", "quantifier": "all elements, all rays", "why_tests_cant": "Quantifies over all matrices and rays; tests compare with A and D of one matrix.", "anchors": ["raytracing/matrix.py:Matrix.magnification", "raytracing/matrix.py:Matrix.isImaging", "raytracing/matrix.py:Matrix.forwardConjugate"]}
{"id": "C135", "title": "Regular ray generators space their rays evenly and in order", "statement": "Ray.fan, Ray.fanGroup, UniformRays and LampRays return their rays height by height, heights and angles evenly spaced from one end of the range to the other; UniformRays, which replaces the deprecated fanGroup, returns the same rays in the same order.", "quantifier": "all ranges and numbers of rays", "why_tests_cant": "All counts and real ranges; tests check counts and ends.", "anchors": ["raytracing/ray.py:Ray.fan", "raytracing/ray.py:Ray.fanGroup", "raytracing/rays.py:UniformRays", "raytracing/rays.py:LampRays"]}
{"id": "C136", "title": "Without apertures, heights and angles do not depend on what was traced before", "statement": "In a session of trace() calls with rays and Gaussian beams through paths whose elements have no aperture, with groups nested, shared between paths or used several times in one path, the list returned for a ray has the heights and angles of a trace of that ray alone, none of its rays is blocked, and the caller's rays are not changed.", "quantifier": "all stores of objects without apertures (any nesting and sharing), all sessions of calls with any rays and beams", "why_tests_cant": "The one-place cache of every group depends on the whole history; tests trace one ray through a fresh path.", "anchors": ["raytracing/matrixgroup.py:MatrixGroup.trace", "raytracing/matrix.py:Matrix.trace", "raytracing/matrix.py:Matrix.mul_ray", "raytracing/ray.py:Ray.__eq__"]}
{"id": "C137", "title": "The field of view of a camera is the size of the detector divided by the magnification", "statement": "For a path made of a space, a lens with a finite diameter, a space and an aperture (the detector) placed on the image of the object, apertureStop() is the lens, fieldStop() is the detector, fieldOfView() is the diameter of the detector divided by the magnification within 4e-6, and imageSize() is the diameter of the detector within 4e-6 times the magnification. Its entrancePupil() is the lens, fNumber() is the focal length divided by the diameter of the lens, axialRay() goes to the edge of the lens and NA() is the sine of its angle, which is the steepest angle from the axis that gets through.", "quantifier": "all object and image distances, focal lengths related by the lens equation, lens and detector diameters with a half field of view between 3.75e-5 and 7000", "why_tests_cant": "The tests check the field of view of a few systems; the search doubles and bisects on traced rays and the aperture stop has a separate branch when the lens blocks the first ray.", "anchors": ["raytracing/imagingpath.py:ImagingPath.fieldOfView", "raytracing/imagingpath.py:ImagingPath.halfFieldOfView", "raytracing/imagingpath.py:ImagingPath.fieldStop", "raytracing/imagingpath.py:ImagingPath.apertureStop", "raytracing/imagingpath.py:ImagingPath.imageSize", "raytracing/imagingpath.py:ImagingPath.fNumber", "raytracing/imagingpath.py:ImagingPath.NA", "raytracing/imagingpath.py:ImagingPath.axialRay", "raytracing/imagingpath.py:ImagingPath.entrancePupil"]}
{"id": "C138", "title": "A 4f relay is telecentric, with its cone set by the diaphragm and its field by the detector", "statement": "For a path of two lenses with a diaphragm in their common focal plane, the object in the front focal plane and a detector in the back focal plane, apertureStop() is the diaphragm, entrancePupil() is at infinity, chief rays are parallel to the axis, axialRay() goes to the edge of the diaphragm, a ray gets through exactly when it is not steeper than the axial ray and starts inside the field of view, fieldStop() is the detector, fieldOfView() is its diameter divided by the magnification within 4e-6, and imageSize() is its diameter within 4e-6 times the magnification.", "quantifier": "all focal lengths and diameters with a half field of view between 3.75e-5 and 7000, all rays", "why_tests_cant": "The tests look at a few relays; the claim is about all focal lengths, all diameters and all rays, and joins several searches and formulas of ImagingPath.", "anchors": ["raytracing/imagingpath.py:ImagingPath.apertureStop", "raytracing/imagingpath.py:ImagingPath.entrancePupil", "raytracing/imagingpath.py:ImagingPath.chiefRay", "raytracing/imagingpath.py:ImagingPath.axialRay", "raytracing/imagingpath.py:ImagingPath.fieldStop", "raytracing/imagingpath.py:ImagingPath.fieldOfView", "raytracing/imagingpath.py:ImagingPath.imageSize"]}
{"id": "C139", "title": "A Gaussian beam is imaged with the magnification of the rays", "statement": "When a path images its input plane on its output plane, the radius w of any Gaussian beam behind it is the radius in front times the absolute transverse magnification, whatever the wavelength and the curvature, and the radius of curvature R behind satisfies 1/R' = (C + D/R)/A. For one lens with object and image at the distances s and s' of the lens formula, a waist w becomes a beam of radius w s'/s with R = f s'/s.", "quantifier": "all paths of elements with positive indices that image (B = 0), all beam radii, wavelengths and wavefront curvatures", "why_tests_cant": "The claim joins the ray matrix, magnification() and the complex radius of the beam for all paths and all beams; tests check single numbers.", "anchors": ["raytracing/gaussianbeam.py:GaussianBeam.w", "raytracing/gaussianbeam.py:GaussianBeam.R", "raytracing/matrix.py:Matrix.mul_beam", "raytracing/matrix.py:Matrix.magnification"]}
{"id": "C140", "title": "In the back focal plane a beam has the radius of its angle of diffraction", "statement": "Behind a path that ends in its back focal plane (A = 0), a beam that enters with a flat wavefront and radius w has the radius |B| times wavelength / (n pi w) and the wavefront curvature D/B. For one lens the radius in the back focal plane is f wavelength / (pi w) wherever the waist is in front of the lens, and R is infinite exactly when the waist is in the front focal plane; otherwise R = f^2 / (f - s).", "quantifier": "all paths of elements with positive indices and A = 0, all waists and wavelengths; all positive focal lengths and all waist distances", "why_tests_cant": "The claim is about all paths, all waists and all distances, and joins the ray matrix with the complex radius of the beam; tests check single numbers.", "anchors": ["raytracing/gaussianbeam.py:GaussianBeam.w", "raytracing/gaussianbeam.py:GaussianBeam.R", "raytracing/matrix.py:Matrix.mul_beam"]}
