{
 "C01": [
  "proved",
  "exact arithmetic; product written out and transferMatrix()"
 ],
 "C02": [
  "proved",
  "exact arithmetic"
 ],
 "C03": [
  "proved",
  "exact arithmetic"
 ],
 "C04": [
  "proved",
  "acceptance in exact arithmetic for finite entries; storage and checks for any number type including IEEE doubles"
 ],
 "C05": [
  "partial",
  "REFUTED for a group that becomes empty (C05_empty_refuted); proved for every history that leaves elements, bit-exactly when all operations succeed and in exact arithmetic with failures"
 ],
 "C06": [
  "partial",
  "REFUTED when a slice assignment raises (C06_slice_refuted); proved for all other histories, failures included"
 ],
 "C07": [
  "partial",
  "REFUTED for pop and insert (C07_pop_refuted, C07_insert_refuted); proved for append, out-of-range pop and unbuildable insertions"
 ],
 "C08": [
  "proved",
  "paths of spaces, thin elements, thick lenses and slabs, nested; an Objective cannot be cut (C08_objective_raises), which the property excludes"
 ],
 "C09": [
  "proved",
  "all non-zero indices, radii possibly infinite"
 ],
 "C10": [
  "proved",
  "nested groups of linear elements"
 ],
 "C11": [
  "proved",
  ""
 ],
 "C12": [
  "partial",
  "REFUTED for the documented check at the exit of a finite-length element (C12_exit_refuted); blocked iff some entrance is missed is proved for any number type"
 ],
 "C13": [
  "proved",
  "linear elements; an Axicon moves blocked rays, see C54"
 ],
 "C14": [
  "proved",
  ""
 ],
 "C15": [
  "partial",
  "REFUTED: trace sets isBlocked on the caller's ray (C15_refuted); proved that nothing else changes"
 ],
 "C18": [
  "proved",
  "any number type; heap of ray objects, duplicates and progress reports included"
 ],
 "C19": [
  "partial",
  "REFUTED for the order of the rays with two or more processes (C19_order_refuted); same rays for every schedule and process count, same order with one process, proved"
 ],
 "C20": [
  "partial",
  "REFUTED for paths that start in glass and for single elements with an aperture (C20_glass_refuted, C20_clipped_refuted); proved for every path in front index 1, or past the first optical action, at every depth"
 ],
 "C21": [
  "proved",
  "elements with |C| > 1e-5, which is the library's own test"
 ],
 "C22": [
  "proved",
  "any indices on the two sides"
 ],
 "C23": [
  "partial",
  "REFUTED for the exchange when a ThickLens is flipped (C23_thick_lens_refuted); lengths from the vertices proved for every element, exchange proved for elements whose pieces keep their vertices (singlets, doublets, thin lenses)"
 ],
 "C24": [
  "proved",
  "including that D = 0 means there is no image"
 ],
 "C25": [
  "partial",
  "REFUTED when the front index is not 1 (C25_glass_refuted); proved for front index 1 and A <> 0"
 ],
 "C26": [
  "proved",
  "soundness, no duplicates within the library's tolerance, and completeness up to that tolerance"
 ],
 "C27": [
  "partial",
  "REFUTED for nested groups of generic matrices in glass (C27_nested_refuted); proved for every single element, every group without nested groups, and every nesting of elements whose flip is a mirror image"
 ],
 "C28": [
  "partial",
  "REFUTED for Matrix with A <> D and for CurvedMirror (C28_matrix_refuted, C28_mirror_refuted); proved for everything else"
 ],
 "C29": [
  "partial",
  "REFUTED when the last vertex is not the end of the element, in glass, and without vertices (C29_*_refuted); proved otherwise"
 ],
 "C30": [
  "proved",
  ""
 ],
 "C31": [
  "partial",
  "REFUTED for the inherited magnification() call (C31_magnification_refuted); geometry and double flip proved"
 ],
 "C48": [
  "partial",
  "REFUTED when rays are loaded after a query (C48_load_refuted) and when a query that raised is asked again (C48_failed_query_refuted: it answers None); proved for every history without a load after a query, repeated queries included"
 ],
 "C49": [
  "partial",
  "REFUTED for bodies that query the object, loop over it or test membership (C49_*_refuted, the last one never ends); proved for bodies that leave the object alone and for queries once both value lists are cached"
 ],
 "C50": [
  "proved",
  "stability and indices for any number type, ranges in exact arithmetic"
 ],
 "C51": [
  "partial",
  "REFUTED in floating point (C51_fan_refuted) and for one height or one angle (C51_one_*_refuted); proved in exact arithmetic for at least two heights and angles"
 ],
 "C52": [
  "partial",
  "REFUTED for one-shot iterators (C52_generator_refuted; C52_oneshot_all_lost says all of them are lost); proved for sequences, and for one-shot iterators in the parallel version"
 ],
 "C53": [
  "proved",
  "exact arithmetic; at a z shared by several rays the first of them is taken"
 ],
 "C54": [
  "partial",
  "REFUTED for blocked rays, which are bent (C54_blocked_refuted); focal line proved"
 ],
 "C60": [
  "partial",
  "REFUTED for negative indices (C60_*_refuted); proved for non-negative in-range indices and slices"
 ],
 "C61": [
  "partial",
  "REFUTED for ThickLens, CompoundLens and DielectricInterface (C61_*_refuted); proved for catalogue singlets and doublets and for slabs"
 ],
 "C62": [
  "partial",
  "REFUTED for Lens, before and after display, and for nested groups without aperture (C62_*_refuted); proved for groups of other elements"
 ],
 "C64": [
  "partial",
  "REFUTED at the tolerance itself, where neither holds (C64_threshold_refuted); symmetric, exclusive and opposite elsewhere proved"
 ],
 "C66": [
  "partial",
  "REFUTED: every element drops the wavelength (C66_always_lost, C66_refuted); proved for rays without wavelength"
 ],
 "C68": [
  "proved",
  ""
 ],
 "C69": [
  "partial",
  "REFUTED for the empty group and for the group's own diameter (C69_*_refuted); proved for every non-empty group built by the constructor"
 ],
 "C41": [
  "proved",
  "exact arithmetic, positive indices; through the group's matrix, through the elements' matrices in turn and by tracing"
 ],
 "C42": [
  "proved",
  "exact arithmetic, positive indices, nested groups"
 ],
 "C43": [
  "partial",
  "REFUTED for wo when n is not 1 (C43_waist_refuted): wo is sqrt(n) times w; w and R round trip, Rayleigh range and w(z) proved for every n > 0"
 ],
 "C44": [
  "partial",
  "REFUTED for a path reduced to a zero-length Space in glass, whose front index is 1 (C44_index_refuted); clipping proved for any number type, index tracking proved for all index-matched chains entered with the index of the first element"
 ],
 "C45": [
  "partial",
  "REFUTED for sending the mode of a glass-filled cavity round the cavity (C45_glass_refuted): modes carry index 1; fixed points, completeness and at most one finite mode proved for |C| > 1e-5"
 ],
 "C46": [
  "partial",
  "REFUTED for stable cavities with |C| <= 1e-5 (C46_refuted); equivalence proved for |C| > 1e-5"
 ],
 "C47": [
  "partial",
  "REFUTED: the matrix and modes stay those of the forward pass (C47_matrix_refuted) and elements are not flipped (C47_flip_refuted); the element list, tracing through symmetric elements and the state after a later append are proved"
 ],
 "C67": [
  "proved",
  "exact arithmetic, every N >= 1; clipping by the aperture of a split Space is not part of the property (the pieces have none)"
 ],
 "C32": [
  "partial",
  "REFUTED when the probe ray (0, 0.1) is itself lost (the aperture losing it is returned although a later one is tighter) and when the only aperture is conjugate to the object (Stop(0, inf)); proved in exact arithmetic when the probe gets through: the stop maximises height/diameter and, for thin apertures, decides alone which on-axis rays pass"
 ],
 "C33": [
  "proved",
  "exact arithmetic; both rays are None exactly when |B| < 1e-5"
 ],
 "C34": [
  "partial",
  "REFUTED for apertures limited in angle and, on doubles, by rounding ([Space(7), Aperture(29)]); proved in exact arithmetic for thin apertures without angle limit when the probe gets through"
 ],
 "C35": [
  "partial",
  "REFUTED when the path starts in glass (ValueError); proved for paths starting in air; the pupil is at infinity exactly when all chief rays are parallel to the axis"
 ],
 "C36": [
  "partial",
  "REFUTED: [Aperture(5e-5), Space(10), Aperture(10)] never returns and [Space(1.5), Lens(1), Space(3), Aperture(10)] raises TypeError, both on doubles; proved: for every well-formed path in exact arithmetic the four calls return unless the field ends below 3.75e-5 (then none returns) or the stop is imaged on the object (TypeError)"
 ],
 "C37": [
  "proved",
  "transmitted: any arithmetic including doubles; maximal within 2e-6: exact arithmetic, fields in [3.75e-5, 7463); larger finite fields are reported infinite (C37_large_field_refuted)"
 ],
 "C38": [
  "partial",
  "REFUTED for thick limited elements (position kept, diameter of the previous element); proved when limited elements are thin"
 ],
 "C39": [
  "partial",
  "REFUTED for a path starting in glass (index left out); proved for paths starting in air"
 ],
 "C40": [
  "partial",
  "REFUTED for a cut in glass, for elements that are not their own mirror image when backwards=True, and on boundaries; proved for cuts in air"
 ],
 "C16": [
  "partial",
  "REFUTED: after append an equal ray gets the old trace; a ray object moved by the user gets its old trace; a ray at another position gets the trace of the first; proved: the first trace through any path of distinct unused groups is right for any numbers, and so is every trace of any history of new rays through paths without inner groups (no axicon), values kept to the end"
 ],
 "C17": [
  "partial",
  "REFUTED: the same group twice gives z=10 instead of 20; a blocked ray leaves an inner group unblocked; an element behind an inner group blocks the ray in the inner group's stored trace; proved for nested groups, each object used once, for histories of new rays none of which is blocked, in exact arithmetic"
 ],
 "C63": [
  "partial",
  "REFUTED: building a second path changes the index of a shared Space, flipping one path flips the elements of another, subPath of a path in glass changes the path; proved: histories of append, pop, insert, item and slice assignment, slicing, subPath change no other object except Space indices, nothing at all in air, and flip changes only what the object contains"
 ],
 "C65": [
  "partial",
  "REFUTED: tracing a ray through (or iterating over) one of two equal groups makes them unequal; proved: groups of equal elements that were never traced or iterated over are equal"
 ],
 "C70": [
  "partial",
  "REFUTED: a lens appended to an inner group does not reach the matrix of the outer path; proved after every successful operation on the group itself, and kept in air while neither the group nor its elements are modified"
 ],
 "C55": [
  "partial",
  "REFUTED in seven ways (C55_..._refuted: keyword arguments, lost updates, old values back, undone resets, del, integer keys, stale 'in'); proved for one object, and for any number of objects when an object stores only while it is up to date"
 ],
 "C56": [
  "partial",
  "REFUTED (C56_..._refuted): a crash in a save, in a read or while the file is created, and a value JSON refuses, lose everything; proved: old, new or empty for operations of up-to-date objects, never a mixture"
 ],
 "C57": [
  "partial",
  "REFUTED near and beyond the poles of the Sellmeier formulas (C57_complex_refuted for every such glass); proved from 0.28 to 7 microns for every material and on the whole accepted range for polynomial ones; outside the range ValueError"
 ],
 "C58": [
  "proved",
  "exact characterisation; the class names themselves (N_BK7) are not printed names and raise, C58_class_name_raises"
 ],
 "C59": [
  "partial",
  "REFUTED for air-spaced lenses (only the first is kept), DIAM 0, missing UNIT, wavelengths of 0.55 only; proved for every closed or open lens with sound surfaces at wavelengths from 0.28 to 7 microns"
 ],
 "C71": [
  "proved",
  "0.28 to 7 microns, strictly decreasing, all materials but air"
 ],
 "C72": [
  "proved",
  "exact arithmetic, np.histogram as documented; after any history without a load behind a query"
 ],
 "C73": [
  "partial",
  "REFUTED for 96 focal lengths and 97 back focal lengths (C73_focal_refuted, C73_back_refuted; four lenses at every wavelength, C73_never_refuted); C73_reference_partial says exactly which; every class can be built; exact arithmetic"
 ],
 "C74": [
  "proved",
  "exact arithmetic; outside the range the constructor may raise (C74_no_power_raises)"
 ],
 "C75": [
  "proved",
  "exact arithmetic"
 ],
 "C76": [
  "partial",
  "REFUTED for lists of wavelengths, lenses of eo.py and lenses that are not of a catalogue class (C76_list_refuted, C76_eo_refuted, C76_direct_refuted); proved for arrays and the default range"
 ],
 "C77": [
  "partial",
  "REFUTED: E_BAF11 is listed twice while both classes are in memory (C77_twice_refuted); the list is otherwise exact"
 ],
 "C78": [
  "proved",
  "exact arithmetic; the effective class of each name"
 ],
 "C79": [
  "partial",
  "REFUTED for equal elements of different classes: a product of two spaces equals a space but has no transferMatrix(upTo) and a Matrix equal to a CurvedMirror flips differently; same traces and attributes proved for all equal elements, identity proved for equal elements of the same classes"
 ],
 "C80": [
  "partial",
  "REFUTED for files in centimetres or metres, which are read as millimetres; proved for millimetres and inches"
 ],
 "C81": [
  "partial",
  "REFUTED for LUMPlanFL40X and LWD16X, whose back aperture is smaller than 2*f*NA; proved for the four others, and the exact set of accepted rays for all parameters"
 ],
 "C82": [
  "proved",
  "the field of view at the sample is fieldNumber/magnification"
 ],
 "C83": [
  "proved",
  "surfaces higher than their radius are drawn as the code draws them, but nothing is claimed about the sphere then"
 ],
 "C84": [
  "partial",
  "REFUTED for every lens with a plane surface turned over (radius -inf, ZeroDivisionError), for plane mirrors and for apertures without limit; proved for every lens after an even number of flips, and for every lens without a plane surface"
 ],
 "C85": [
  "partial",
  "REFUTED for general matrices, whose box appears at twice the position, and for the front aperture of objectives, whose bars have the diameter of the back aperture and move with the zoom; proved for thin lenses, apertures and for the positions of all graphics"
 ],
 "C86": [
  "partial",
  "REFUTED for objects larger than the field (rays that get through are counted as blocked), when no ray gets through (ZeroDivisionError or ValueError instead of 0 %), and when exactly one ray is vignetted ('No losses to vignetting'); proved for objects inside the field, in air, in front of thin apertures"
 ],
 "C87": [
  "partial",
  "REFUTED: NA() raises AttributeError without an aperture stop, and hasApertureStop() is True when the only aperture is in the object plane; proved otherwise for thin apertures"
 ],
 "C88": [
  "partial",
  "REFUTED: LambertianRays with N = 1 has no rays, N = 3 gives I parallel rays per height although N is documented as the number of rays for each point, and M = 1 puts all rays at yMin; proved for M, N >= 2, and for both random sources"
 ],
 "C89": [
  "partial",
  "REFUTED: after a first figure all settings return to the defaults and design() raises TypeError; objectHeight is replaced by the field of view at the second figure or after a style is chosen; design('default') does not restore the defaults; proved for the first figure, and for paths without a field stop"
 ],
 "C90": [
  "partial",
  "REFUTED: the object drawn by default is appended to the caller's list and shown again with its old size, and a path of zero length (a single thin lens) raises ZeroDivisionError; proved that the list is otherwise unchanged"
 ],
 "C91": [
  "partial",
  "REFUTED: a point source on the axis with one colour (the default for lamps) raises IndexError, the name of a colour is spelled out letter by letter, no colour raises ZeroDivisionError; proved for two colours or more, and for one colour off the axis"
 ],
 "C92": [
  "partial",
  "REFUTED: in a medium of index n the arrows are sqrt(n) times too far from the axis, and no beam goes through an axicon; proved that the lines are the true beam, that the arrows stand at the waists, and that their width is right in air"
 ],
 "C93": [
  "partial",
  "REFUTED: the lines of an object are lost when a later object is at the same place, or within 0.05 mm, away from the entrance (0.005 mm for lamps), because they share a key; proved that all other lines are drawn, and which groups are hidden"
 ],
 "C94": [
  "partial",
  "REFUTED: of two objects at the entrance (or written at the same position) only the last is drawn; ObjectRays(color=...) is ignored; images in front of an unsymmetric lens are in the wrong place; showObject=False with showImages=True raises KeyError away from the entrance; proved otherwise"
 ],
 "C95": [
  "partial",
  "REFUTED: objects given as ObjectRays in raysList and beams that spread are not taken into account and can be far outside of the axis; proved for the elements, the object of the path and its images, and that the range exists for paths of spaces, thin lenses and apertures"
 ],
 "C96": [
  "partial",
  "REFUTED: rays that are only below the axis do not count (the highest point is used, not the furthest from the axis); proved for the highest point and for rays in pairs y, -y"
 ],
 "C97": [
  "partial",
  "REFUTED: a CompoundLens without power makes the figure of the whole path raise TypeError; focal points on both sides of zero get two marks at 0.000 and -0.000; proved otherwise, for paths of single elements and catalogue lenses (elements inside a MatrixGroup are not marked)"
 ],
 "C98": [
  "partial",
  "REFUTED: the figure of an Objective also marks the focal points of the lens inside, at places that are not focal points; a Space and elements without vertices have no figure; proved for all other elements"
 ],
 "C99": [
  "partial",
  "REFUTED: the filter for UserWarning is added last and hides the filter for hints, so expertMode shows hints and beginnerMode shows a repeated hint once; RAYTRACING_EXPERT is saved for all later sessions; proved for every history: silent hides all, beginner shows each warning once per place, expert each text once per session"
 ],
 "C100": [
  "partial",
  "REFUTED: a check on a whole second is written without a fraction and no later import succeeds; a check is due only after two days; the last release of the list is taken for the newest, and one name that is not a version hides all; proved for all sequences of imports at other times and for lists that end with the newest release"
 ],
 "C101": [
  "partial",
  "REFUTED: only classes without subclasses are returned; proved that exactly these are, and that the hierarchy is printed completely"
 ],
 "C102": [
  "partial",
  "REFUTED: three labels can still overlap or be pushed out of the display, five at an edge make the figure raise AttributeError, labels in axes units are moved in data units, resetting is inexact on doubles; proved in exact arithmetic: no influence of earlier moves for any labels, nothing moves when nothing touches, two labels end apart and inside. Missing: a condition under which many labels end apart"
 ],
 "C103": [
  "partial",
  "REFUTED: the label of a hidden graphic stays; proved for graphics and lines for all sequences of clicks"
 ],
 "C104": [
  "partial",
  "REFUTED: the figure raises for an aperture on an image of the object, never returns for a small aperture on the object, raises for an entrance pupil seen from glass, and marks an aperture stop on the object where there is no aperture; proved for the aimed paths of C36-C38 and the pupils of C35"
 ],
 "C105": [
  "partial",
  "REFUTED: the wavelength is printed a thousand times too large (mm taken for m), a lens weaker than 1e-5 prints a focal length that effectiveFocalLengths() denies, System4f(3,7) is not printed as afocal because of rounding; proved for all doubles: the other numbers are printed correctly"
 ],
 "C106": [
  "proved",
  "exact arithmetic"
 ],
 "C107": [
  "proved",
  "exact arithmetic; elements weaker than 1e-5 have no focal length in the code"
 ],
 "C108": [
  "proved",
  "exact arithmetic"
 ],
 "C109": [
  "partial",
  "REFUTED: a resonator of two flat mirrors and a lens is stable seen from one mirror and not from the other one (the test of power at 1e-5); proved for all cavities with power at both places, in exact arithmetic"
 ],
 "C110": [
  "partial",
  "REFUTED: AC060_010_B (also _ML) and AC254_125_A_ML have an edge thickness that contradicts their radii and thickness, and the edge of a lens with a plane outer surface is never checked (its corner is not a number), so a wrong one is not reported; proved for all catalogue lenses: surfaces never cross, all other edges are right and exactly the wrong ones give a warning, in exact arithmetic"
 ],
 "C111": [
  "partial",
  "REFUTED for very weak mirrors: mirrors with a radius of 1 km, 1 m apart, have 0 < g1 g2 < 1 and isStable is False since |C| is below 1e-5; proved (stability criterion and mode) for all two-mirror resonators whose group hasPower, in exact arithmetic"
 ],
 "C112": [
  "proved",
  ""
 ],
 "C113": [
  "proved",
  ""
 ],
 "C114": [
  "proved",
  ""
 ],
 "C115": [
  "partial",
  "REFUTED for quantities decided with fixed tolerances: a lens of 150 m has a focal length in metres and none in millimetres, a chief ray exists in millimetres and not in metres, and a camera with a field of 20 mm has an unlimited field in micrometres; proved in exact arithmetic for building, tracing, the aperture stop, conjugates and flips, and for focal lengths and chief and marginal rays while hasPower and isImaging answer the same in both units"
 ],
 "C116": [
  "partial",
  "REFUTED: with precision = 0.5 the field of a camera 32.5 wide is never found (the call does not return), as for every field whose half is below 37.5 times the precision and for precision = 0, and an edge at 16.25 is overlooked with maxHeight = 20; proved in exact arithmetic: an edge h with 37.5 P <= h and 2 h + 300 P <= maxHeight is found to 2 P, no edge below maxHeight gives an unlimited field, and the answer does not depend on the unit when both settings are in it"
 ],
 "C117": [
  "partial",
  "REFUTED: a random source of 1000 rays saves an empty list (or only the rays looked at), keeps its own maxCount after load so that it drops rays of the file or makes up others, a file with a tuple is accepted and breaks append, and a program killed while saving loses the older file; proved: the round trip for any sequence of operations on any number of objects, failed loads change nothing, which files are accepted, what a kill can leave, and when save returns"
 ],
 "C118": [
  "proved",
  "for every list of elements with matched indices and every object for which all intermediate images are at finite distances"
 ],
 "C119": [
  "partial",
  "REFUTED: Graphic.length adds heights to lengths (a box 10 long and 20 high is 30 long); proved: the strokes drawn for every component, when drawing raises, the number of contours, closed outlines, and where labels are"
 ],
 "C120": [
  "partial",
  "REFUTED for telecentric 4f systems, which have no power and whose f-number is NaN, and for the distance of the object: a lens f=50 of diameter 25 with an aperture of 10 behind it is f/3 for an object at 10 and f/2 for one at 200, although the aperture stops parallel rays inside the reported pupil; proved: the cone of light, infinite without power unless telecentric, which parallel rays get through when the stop also limits parallel light, that the first aperture met outside by the probing ray is the stop, and that for every object far enough the f-number is that of the first aperture"
 ],
 "C121": [
  "proved",
  "proved for the double precision instance of the model (Coq's primitive floats, specified by the standard library's FloatAxioms), the exact value of each double being what is meant by exact; beside it the witness that a ray within rounding of the edge of an opening can be decided differently"
 ],
 "C122": [
  "proved",
  "proved for the model with object identities, any number type; item assignment for indices from the front, slices for 0 <= start <= stop"
 ],
 "C123": [
  "partial",
  "REFUTED in double precision: ImagingPath of Space(6e14), Lens(900), Space(910) - a telescope looking at Jupiter, in mm - raises ValueError because the rounding of the product exceeds 1e-5 (C123_refuted). Proved: paths in air assemble whenever the rounding bound of every beginning (5 parts in 2^50 per element of the terms of the determinant) stays below 0.99e-5, and what is accepted is consistent to 1.01e-5 up to that bound; elements with other indices than 1 are not covered by the rounding theorem"
 ],
 "C124": [
  "partial",
  "REFUTED in double precision for the focal plane: forwardConjugate of Space(49), Lens(49) reports an image at -4.4e17 with a matrix, where the exact image is at infinity (C124_refuted). Proved: focal lengths within three times the rounding of C, infinite below the threshold; image and object distances within three times the rounding of B and D (or A), with a matrix whose B is rounding only; an image is said to be at infinity only when D is zero up to rounding. Elements with other indices than 1 are not covered"
 ],
 "C126": [
  "partial",
  "REFUTED for the number 0 (and negative ones): -e 0 runs the last example (C126_zero_refuted). Proved: which files are examples and their order; -e all; any list of listed numbers; a number beyond the last one or a failing example ends the run after those before it; texts that are no integers are refused before anything is done; precedence of -c, -t, -l"
 ],
 "C128": [
  "partial",
  "REFUTED: a file in UTF-16 without a byte order mark is taken for UTF-8 and none of its words is found; in UTF-8 a mark becomes part of the first word, so a file that starts with UNIT is not read."
 ],
 "C129": [
  "partial",
  "REFUTED when one of the rays was blocked before: __eq__ ignores isBlocked, and a blocked ray is not traced on (C129_blocked_refuted). Proved for rays that are both blocked or both not, any element or path, whatever their positions and wavelengths, in exact arithmetic and in doubles; == is an equivalence."
 ],
 "C130": [
  "partial",
  "REFUTED for cavities: hasPower compares C with the fixed number 1e-5, so a stable cavity of two 1 m mirrors is unstable when written in micrometres (C130_stable_refuted), and the modes always have the wavelength 632.8e-6, so in metres the mode is 30 times too wide (C130_width_refuted). Proved in exact arithmetic for creating, tracing and reading beams, and for the q of the modes and stability while hasPower answers the same in both units."
 ],
 "C132": [
  "partial",
  "REFUTED when the caller changes a beam or a returned list: GaussianBeam has no __eq__, so a beam whose q was changed gets its old trace (C132_changed_beam_refuted), and the list returned is the cache itself, so popping from it shortens the next trace (C132_changed_list_refuted). Proved for every session of traces otherwise."
 ],
 "C133": [
  "partial",
  "REFUTED: fanAngle, documented as the full angle, is half of it (C133_full_angle_refuted); the only ray of a fan with rayNumber=1 is its lowest, not its middle one (C133_one_ray_refuted); displayWithObject() takes fanNumber and rayNumber the other way round from its documentation (C133_numbers_refuted) and sets negative object heights (C133_negative_height_refuted); in a short path the chosen fan angle is negative (C133_negative_fan_refuted). Proved: the settings last made are in force after any history, the exact place and angle of every ray, that the chosen fan is on the figure when the path is at least a tenth as long as its range, and the sign of the height without negative diameters."
 ],
 "C134": [
  "partial",
  "REFUTED for small B: isImaging compares B with 1e-5 whatever the unit, so nine micrometres of air given in metres are reported as an image with magnification (1, 1) although forwardConjugate() finds the image elsewhere (C134_in_metres_refuted). Proved for B = 0, for |B| >= 1e-5 and for the matrices of forwardConjugate()."
 ],
 "C135": [
  "partial",
  "REFUTED for a single height, which UniformRays puts on the axis even when the range does not contain it while fanGroup puts it at the lower end (C135_one_height_refuted), and in doubles, where only fanGroup leaves the range (C135_doubles_refuted). Proved over the reals for all ranges and at least two heights and angles (fan and fanGroup: at least one)."
 ],
 "C136": [
  "proved",
  "Exact arithmetic. Positions along the axis (C17_group_twice_refuted) and paths with apertures (C17_blocked_ray_revived_refuted, C17_inner_trace_refuted) are refuted under C17."
 ],
 "C137": [
  "proved",
  "Exact arithmetic; object distance at least 1e-5."
 ],
 "C138": [
  "proved",
  "Exact arithmetic; first focal length at least 1e-5."
 ],
 "C139": [
  "proved",
  "Exact arithmetic; flat and curved wavefronts, no axicons."
 ],
 "C140": [
  "proved",
  "Exact arithmetic; flat wavefront in front, no axicons."
 ]
}