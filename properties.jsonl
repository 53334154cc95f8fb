{"id": "C01", "title": "Photons that miss an element are left alone", "statement": "Running a photon list through an optical element leaves every pre-existing column of every photon that the element does not intersect exactly as it was; the number and order of photons never changes; a column the element introduces holds its default value (nan, or -1 for the id column) in the rows that were missed.", "quantifier": "every photon table, every set of intersected rows, every set of output columns and values an element returns", "why_tests_cant": "tests look at a handful of photons and columns; the claim is about all other rows and columns of any table", "anchors": ["marxs/optics/base.py:OpticalElement.process_photons", "marxs/optics/base.py:_assign_col_value", "marxs/base/base.py:SimulationSequenceElement.add_output_cols"]}
{"id": "C02", "title": "Probability stays in [0, 1] and never increases", "statement": "If all probabilities of a photon list are numbers in [0, 1], then after any sequence of optical elements that finishes without an exception every probability is again in [0, 1] and not larger than before.", "quantifier": "every photon table, every finite sequence of elements, every probability factor they return that is a number", "why_tests_cant": "the invariant is over arbitrary chains of elements and arbitrary factors", "anchors": ["marxs/optics/base.py:_assign_col_value", "marxs/optics/base.py:OpticalElement.process_photons", "marxs/simulator/simulator.py:BaseContainer.__call__"]}
{"id": "C03", "title": "Bad probability factors are rejected", "statement": "If an element returns a probability factor that is not a number in [0, 1] for any intersected photon, the call raises ValueError instead of writing it to the photon list.", "quantifier": "every factor array, including not-a-number entries", "why_tests_cant": "tests use one negative and one too large number; nan needs a separate look", "anchors": ["marxs/optics/base.py:_assign_col_value"]}
{"id": "C04", "title": "An element that is missed by all photons is a no-op", "statement": "If no photon intersects an element, the returned photon list is identical to the input: no value changes and no column is added.", "quantifier": "every photon table and every element using the standard processing", "why_tests_cant": "needs all tables and all elements", "anchors": ["marxs/optics/base.py:OpticalElement.process_photons"]}
{"id": "C05", "title": "A Sequence is function composition with observers", "statement": "Calling a Sequence applies its elements in order, each to the output of the previous one; pre- and post-process steps are called around every element, and what they return is ignored; splitting one Sequence in two and running them one after the other gives the same photons.", "quantifier": "every list of elements, every split point, every hook", "why_tests_cant": "holds for all lengths and nestings", "anchors": ["marxs/simulator/simulator.py:BaseContainer.__call__", "marxs/simulator/simulator.py:Sequence"]}
{"id": "C06", "title": "Searching an instrument by class finds every match", "statement": "With stop_at_first=False, elements_of_class(cls) of a nested instrument returns every contained element (at any depth) that is an instance of cls, each exactly once.", "quantifier": "every nested tree of containers and every class predicate", "why_tests_cant": "depends on arbitrary nesting of matching containers inside matching containers", "anchors": ["marxs/simulator/simulator.py:BaseContainer.elements_of_class"]}
{"id": "C07", "title": "first_of_class_top_level points at the first match", "statement": "first_of_class_top_level(cls) returns the smallest index i such that top-level element i is of class cls or contains an element of class cls, and None exactly when no element at any depth is of that class; everything before index i can be run without touching an element of the class.", "quantifier": "every nested tree of containers and every class predicate", "why_tests_cant": "arbitrary nesting depth", "anchors": ["marxs/simulator/simulator.py:BaseContainer.first_of_class_top_level"]}
{"id": "C08", "title": "Containers with uncallable parts cannot be built", "statement": "A Sequence can be built exactly if all elements, pre-process and post-process steps are callable; otherwise SimulationSetupError is raised.", "quantifier": "every list of elements and hooks", "why_tests_cant": "all positions of the offending entry", "anchors": ["marxs/simulator/simulator.py:BaseContainer.__init__"]}
{"id": "C09", "title": "Default values of output columns do not depend on history", "statement": "Adding the output columns of an element to a photon list initializes a new column with the same default value no matter how many photon lists the element (or another instance of its class) has processed before.", "quantifier": "every history of calls on any number of photon tables", "why_tests_cant": "the defect needs a second table processed by the same class", "anchors": ["marxs/base/base.py:SimulationSequenceElement.add_output_cols"]}
{"id": "C10", "title": "A baffle blocks exactly the photons outside the opening", "statement": "After a baffle, a photon whose ray crosses the opening keeps its probability and every other photon has probability 0; nothing is un-blocked later, because factors only multiply.", "quantifier": "every photon table and every opening", "why_tests_cant": "all tables", "anchors": ["marxs/optics/baffles.py:Baffle.process_photons"]}
{"id": "C11", "title": "A stack multiplies the transmissions of its layers", "statement": "A FlatStack sends exactly the photons that hit the stack through every layer; the final probability of such a photon is the input probability times the product of all layer factors, and photons that miss the stack are unchanged.", "quantifier": "every number of layers, every factor, every hit pattern", "why_tests_cant": "arbitrary number of layers", "anchors": ["marxs/optics/base.py:FlatStack.process_photons"]}
{"id": "C12", "title": "Elements of a Parallel container get consecutive ids and the requested positions", "statement": "With no uncertainties set, the i-th element of a Parallel container is placed at (container matrix)x(element matrix i) and has id_num = offset + i, so ids of one container are distinct.", "quantifier": "every container matrix, every list of element matrices without shear", "why_tests_cant": "all matrices and list lengths", "anchors": ["marxs/simulator/simulator.py:Parallel.generate_elements"]}
{"id": "C13", "title": "Tolerancing moves are not cumulative", "statement": "After any history of wiggle / moveglobal / moveindividual calls, the element positions are determined by the most recent setting of each kind only; setting all moves back to zero restores the original positions exactly.", "quantifier": "every sequence of tolerancing calls", "why_tests_cant": "history independence over unbounded sequences of calls", "anchors": ["marxs/design/tolerancing.py:moveglobal", "marxs/design/tolerancing.py:moveindividual", "marxs/design/tolerancing.py:wiggle", "marxs/simulator/simulator.py:Parallel.generate_elements"]}
{"id": "C14", "title": "Moving the center of a container does not move its elements", "statement": "Parallel.move_center(center) changes the container's reference point but keeps the global position of every element.", "quantifier": "every container matrix, element matrix and center", "why_tests_cant": "tests use containers at the origin, where the matrices commute", "anchors": ["marxs/simulator/simulator.py:Parallel.move_center"]}
{"id": "C15", "title": "List valued element arguments go to the matching element", "statement": "A keyword argument of a Parallel container that is a list as long as the number of elements is distributed entry by entry, any other value is handed to all elements unchanged.", "quantifier": "every argument value and number of elements", "why_tests_cant": "all lengths", "anchors": ["marxs/simulator/simulator.py:Parallel.generate_elements"]}
{"id": "C16", "title": "A normal specification given as a point makes elements face that point", "statement": "If the normal (or parallel) specification of a ParallelCalculated container is a point in homogeneous coordinates, the vector computed for each element points from the element towards that point.", "quantifier": "every point, every element position", "why_tests_cant": "orientation tests use dot products where the sign is squared away or a sphere around the origin", "anchors": ["marxs/simulator/simulator.py:ParallelCalculated.get_spec"]}
{"id": "C17", "title": "KeepCol records what it sees", "statement": "After any number of calls with photon lists, a KeepCol monitor holds one independent copy of the column per call, in call order; format_positions without tolerance returns all steps in ray order, and with a tolerance it keeps the first step and drops only steps that coincide with the last kept one.", "quantifier": "every sequence of calls and every tolerance", "why_tests_cant": "unbounded histories", "anchors": ["marxs/simulator/simulator.py:KeepCol"]}
{"id": "C18", "title": "Ambiguous or singular positions are refused", "statement": "Constructing an element raises ValueError if pos4d is combined with position, orientation or zoom, if zoom does not have one or three entries, if any zoom is not positive or if pos4d is singular; otherwise the matrix is translation x rotation x zoom and, for a rotation, invertible.", "quantifier": "every combination of keywords", "why_tests_cant": "all combinations and values", "anchors": ["marxs/base/base.py:_parse_position_keywords"]}
{"id": "C19", "title": "Euclidean and homogeneous coordinates convert losslessly", "statement": "h2e(e2h(x, w)) = x for w in {0, 1}; e2h rejects other w; h2e(e) of points with any common non-zero w is the point divided by w; a mix of points (w != 0) and vectors (w = 0) is refused.", "quantifier": "every array of coordinates", "why_tests_cant": "all arrays incl. mixed ones", "anchors": ["marxs/math/utils.py:e2h", "marxs/math/utils.py:h2e"]}
{"id": "C20", "title": "Pluecker intersection is the true intersection", "statement": "The homogeneous point returned for a line and a plane lies on both; its last coordinate is 0 exactly if the line is parallel to the plane and all coordinates are 0 exactly if the line lies in the plane; a line built from two points or from a point and a direction is the same.", "quantifier": "every point, direction and plane", "why_tests_cant": "real-valued identities for all inputs", "anchors": ["marxs/math/pluecker.py"]}
{"id": "C21", "title": "Ray-plane intersection is sound and complete", "statement": "FinitePlane.intersect reports a hit exactly if some non-negative multiple of the ray direction leads from the ray position to a point of the rectangle (and the ray is not parallel to the plane); the reported position is that point and the local coordinates reproduce it; for misses nan is reported.", "quantifier": "every plane matrix with perpendicular axes, every ray", "why_tests_cant": "soundness and completeness over all rays", "anchors": ["marxs/math/geometry.py:FinitePlane.intersect"]}
{"id": "C22", "title": "Ray-cylinder intersection picks the first allowed crossing", "statement": "Cylinder.intersect reports a hit exactly if the forward ray crosses the cylinder surface within its height and allowed azimuth range; the reported point is the crossing with the smallest travel distance among the allowed ones.", "quantifier": "every ray that is not parallel to the axis, every azimuth range", "why_tests_cant": "case analysis over both roots for all reals", "anchors": ["marxs/math/geometry.py:Cylinder.intersect"]}
{"id": "C23", "title": "Angle interval test", "statement": "angle_between(phi, a, b) is true exactly if going counter-clockwise from a one meets phi no later than b, for any representation of the angles modulo 2 pi.", "quantifier": "all real angles, all multiples of the full circle", "why_tests_cant": "wrap-around for every representation, degenerate intervals", "anchors": ["marxs/math/utils.py:angle_between"]}
{"id": "C24", "title": "Angle difference is canonical", "statement": "anglediff returns a number in [0, 2 pi] that differs from b - a by a multiple of 2 pi.", "quantifier": "all real angle pairs", "why_tests_cant": "all reals", "anchors": ["marxs/math/utils.py:anglediff"]}
{"id": "C25", "title": "Polarization vectors are unit and transverse", "statement": "polarization_vectors(dir, angle) returns for every ray a unit vector perpendicular to the ray direction, including rays along the y axis; angle 0 and pi/2 give orthogonal vectors.", "quantifier": "every non-zero direction and angle", "why_tests_cant": "all directions incl. the singular one", "anchors": ["marxs/math/polarization.py:polarization_vectors"]}
{"id": "C26", "title": "Parallel transport keeps polarization physical", "statement": "Parallel transport from one ray direction to another keeps the length of a transverse polarization vector and the component perpendicular to the plane of both rays, and the result is perpendicular to the new direction.", "quantifier": "every pair of directions that are not (anti)parallel, every transverse polarization", "why_tests_cant": "all directions", "anchors": ["marxs/math/polarization.py:paralleltransport_matrix", "marxs/math/polarization.py:parallel_transport"]}
{"id": "C27", "title": "Q_reflection works on valid input", "statement": "Q_reflection returns a matrix for every (N, 4) array of direction changes and raises only for other shapes.", "quantifier": "every input shape", "why_tests_cant": "the shape guard compares a tuple with a number", "anchors": ["marxs/math/polarization.py:Q_reflection"]}
{"id": "C28", "title": "Rotations by axis and angle are rotations", "statement": "axangle2mat returns for every non-zero axis a matrix that preserves lengths and scalar products, leaves the axis fixed, has determinant 1 and is the inverse of the rotation by the opposite angle.", "quantifier": "every axis, every angle", "why_tests_cant": "all reals", "anchors": ["marxs/math/rotations.py:axangle2mat"]}
{"id": "C29", "title": "ex2vec_fix aligns the x axis", "statement": "ex2vec_fix returns a proper rotation matrix whose first column is the normalized first vector and whose second column lies in the half plane of the two inputs; parallel inputs are refused.", "quantifier": "every pair of non-parallel vectors", "why_tests_cant": "all vectors", "anchors": ["marxs/math/rotations.py:ex2vec_fix"]}
{"id": "C30", "title": "Random numbers follow the requested histogram", "statement": "RandomArbitraryPdf only returns values inside bins with non-zero probability, and the set of uniform draws that lead to a bin has a size equal to the bin's share of the total, whether or not the bins are sorted internally.", "quantifier": "every valid histogram, every uniform draw", "why_tests_cant": "statistical tests cannot see single bad draws", "anchors": ["marxs/math/random.py:RandomArbitraryPdf"]}
{"id": "C31", "title": "Poisson arrival times", "statement": "poisson_process(rate) returns a non-decreasing list of times, all smaller than the exposure time, for every rate and exposure time and every sequence of draws that eventually passes the exposure time.", "quantifier": "every sequence of random draws", "why_tests_cant": "termination and the refill loop depend on rare draws", "anchors": ["marxs/source/basesources.py:poisson_process"]}
{"id": "C32", "title": "Diffraction orders are drawn with their probabilities", "statement": "For every uniform draw the order returned for a photon has non-zero probability at that energy, the measure of draws leading to an order is its probability divided by the sum, and the total is returned as transmission probability.", "quantifier": "every efficiency table row and every draw", "why_tests_cant": "statistical tests only sample", "anchors": ["marxs/optics/grating.py:EfficiencyFile", "marxs/optics/grating.py:OrderSelector", "marxs/missions/mitsnl/catgrating.py:InterpolateEfficiencyTable"]}
{"id": "C33", "title": "Photons are distributed over apertures by area", "statement": "MultiAperture assigns every photon to exactly one of its apertures; the measure of draws leading to an aperture is its share of the total area, and the reported area is the sum of the areas.", "quantifier": "every list of aperture areas and every draw", "why_tests_cant": "boundary draws", "anchors": ["marxs/optics/aperture.py:MultiAperture"]}
{"id": "C34", "title": "Apertures place photons inside their opening", "statement": "Rectangle and circle apertures place every photon inside the opening (between inner and outer radius and inside the azimuth range), for every draw of the random numbers.", "quantifier": "every geometry and draw", "why_tests_cant": "extreme draws", "anchors": ["marxs/optics/aperture.py:RectangleAperture", "marxs/optics/aperture.py:CircleAperture"]}
{"id": "C35", "title": "Grating equation", "statement": "For every non-evanescent order the diffracted direction is a unit vector, its component along the grooves is unchanged, its component perpendicular to the grooves changes by order x wavelength / period and transmission keeps the side of the grating; order 0 of a transmission grating does not change the direction.", "quantifier": "every ray direction, groove angle, order, wavelength and period", "why_tests_cant": "all reals, incl. grazing rays and evanescent orders", "anchors": ["marxs/optics/grating.py:FlatGrating.diffract_photons"]}
{"id": "C36", "title": "Sign convention of grating orders", "statement": "For a FlatGrating positive orders are displaced along the local e_z vector, negative orders in the opposite direction.", "quantifier": "every order, wavelength and period at groove angle 0", "why_tests_cant": "tests use single orders", "anchors": ["marxs/optics/grating.py:FlatGrating.order_sign_convention"]}
{"id": "C37", "title": "A perfect lens focuses", "statement": "All rays that hit a PerfectLens with the same direction leave towards one common point at the focal distance; rays through the center are not deflected.", "quantifier": "every incoming direction not parallel to the lens, every hit position, every focal length", "why_tests_cant": "all rays", "anchors": ["marxs/optics/mirror.py:PerfectLens"]}
{"id": "C38", "title": "Detector pixels cover the chip", "statement": "Every photon that hits a FlatDetector gets pixel coordinates between -0.5 and (number of pixels - 0.5) in both directions, pixel coordinates increase monotonically with the position and the chip center has the center pixel.", "quantifier": "every chip size, pixel size and hit position", "why_tests_cant": "boundaries and rounding of the pixel number", "anchors": ["marxs/optics/detector.py:FlatDetector"]}
{"id": "C39", "title": "Detected energies belong to the photon", "statement": "The energy redistribution of a CCD gives every detected photon an energy computed from its own energy, for every hit pattern.", "quantifier": "every photon table and hit pattern", "why_tests_cant": "tests let all photons hit", "anchors": ["marxs/optics/detector.py:CCDRedistNormal"]}
{"id": "C40", "title": "Scattering keeps directions normalized", "statement": "RandomGaussianScatter and RadialMirrorScatter rotate directions: lengths are preserved, the angle between old and new direction of the random scatter is the drawn angle, and zero scatter changes nothing.", "quantifier": "every direction and drawn angle", "why_tests_cant": "all draws", "anchors": ["marxs/optics/scatter.py"]}
{"id": "C41", "title": "Brewster mirror", "statement": "A flat mirror reflects: the component of the direction along the surface normal flips, all else stays; the reflection probability is the square of the s component for transverse unit polarization and lies in [0, 1]; the outgoing polarization is perpendicular to the outgoing direction and keeps the sign relation of its components.", "quantifier": "every ray and polarization", "why_tests_cant": "all reals", "anchors": ["marxs/optics/multiLayerMirror.py:FlatBrewsterMirror"]}
{"id": "C42", "title": "Geometries are independent", "statement": "Creating a geometry (e.g. a plane with a hole) does not change the parameters seen by any other geometry object.", "quantifier": "every history of object constructions", "why_tests_cant": "needs the order of constructions", "anchors": ["marxs/math/geometry.py:NoGeometry", "marxs/math/geometry.py:PlaneWithHole"]}
{"id": "C43", "title": "External mirror keeps bookkeeping right", "statement": "The MARX mirror wrapper multiplies the photon probability by the mirror efficiency exactly once.", "quantifier": "every probability and efficiency", "why_tests_cant": "tests start with probability 1", "anchors": ["marxs/optics/marx.py:MarxMirror"]}
{"id": "C44", "title": "Rowland torus parametrization", "statement": "Every point given by the parametric form of a Rowland torus satisfies the quartic equation of the torus in any orientation, and the normal vector given for it is the normalized gradient direction.", "quantifier": "every torus radius, every pair of angles, every position matrix built from rotation and translation", "why_tests_cant": "all reals", "anchors": ["marxs/design/rowland.py:RowlandTorus.quartic", "marxs/design/rowland.py:RowlandTorus.parametric", "marxs/design/rowland.py:RowlandTorus.normal_parametric"]}
{"id": "C45", "title": "Rectangular arrays cover the requested range symmetrically", "statement": "The element centers along one axis are ceil(width / pitch) in number (at least one), evenly spaced by the pitch, symmetric about the middle of the range, and the elements cover the whole range.", "quantifier": "every range and pitch", "why_tests_cant": "rounding of ceil/arange for all values", "anchors": ["marxs/design/rowland.py:RectangularGrid.elemposyz"]}
{"id": "C46", "title": "Ring arrays do not overlap", "statement": "Elements placed by a GratingArrayStructure on one ring are at least one element width apart.", "quantifier": "every radius and element size", "why_tests_cant": "all radii", "anchors": ["marxs/design/rowland.py:GratingArrayStructure"]}
{"id": "C47", "title": "Six-degree-of-freedom parameter lists", "statement": "generate_6d_wigglelist lists, for every degree of freedom, every requested value with all other degrees at zero, contains no entry with two moved degrees of freedom, and select_1dof_changed for one degree returns exactly the rows in which no other degree is moved.", "quantifier": "every list of values", "why_tests_cant": "all lists", "anchors": ["marxs/design/tolerancing.py:generate_6d_wigglelist", "marxs/design/tolerancing.py:select_1dof_changed"]}
{"id": "C48", "title": "A tolerancing run reports one result per parameter set and leaves the input photons alone", "statement": "run_tolerances returns one dictionary per parameter set in order; entry i contains the parameters of run i (results of the analysis win on equal keys); each run starts from the same unmodified photon list, and for moves that are not cumulative the result of run i does not depend on the runs before.", "quantifier": "every parameter list, every wiggle function and analysis", "why_tests_cant": "all histories", "anchors": ["marxs/design/tolerancing.py:run_tolerances"]}
{"id": "C49", "title": "moveelem is relative to the original position", "statement": "After any history of moveelem calls on an element its position is (last move) x (original position); the zero move restores the original position.", "quantifier": "every sequence of moves", "why_tests_cant": "unbounded histories", "anchors": ["marxs/design/tolerancing.py:moveelem"]}
{"id": "C50", "title": "varyattribute is all-or-nothing", "statement": "varyattribute raises ValueError if one of the named attributes does not exist and in that case leaves the element unchanged.", "quantifier": "every set of attribute names and values", "why_tests_cant": "needs a mix of good and bad names", "anchors": ["marxs/design/tolerancing.py:varyattribute"]}
{"id": "C51", "title": "RMF rows survive compression", "statement": "Splitting one row of a redistribution matrix into channel groups and expanding it again gives the original row with all entries below or at the threshold replaced by zero; groups are maximal, non-empty, separated and sorted, and the stored first channels count from the declared first channel number.", "quantifier": "every row, threshold and first channel number", "why_tests_cant": "codec round trip for all rows", "anchors": ["marxs/reduction/ogip.py:RMF.arr_to_rmf_matrix_row", "marxs/reduction/ogip.py:RMF.full_rmf"]}
{"id": "C52", "title": "Compact and full RMF agree", "statement": "The compact view (rmf) of a matrix row lists the same channels with the same values as the full view (full_rmf), for every declared first channel number.", "quantifier": "every matrix row and first channel number", "why_tests_cant": "tests use first channel 1", "anchors": ["marxs/reduction/ogip.py:RMF.rmf", "marxs/reduction/ogip.py:RMF.full_rmf"]}
{"id": "C53", "title": "Writing an RMF does not change what it means", "statement": "Converting an RMF to fixed-length arrays for writing leaves the expanded rows unchanged.", "quantifier": "every RMF with at least one group", "why_tests_cant": "shape dependent squeeze", "anchors": ["marxs/reduction/ogip.py:RMF.variable_length_to_fixed_length"]}
{"id": "C54", "title": "Column-or-keyword tables return what was stored", "statement": "Reading an item of a ColOrKeyTable returns the value most recently assigned to it (a constant column may come back as a scalar).", "quantifier": "every history of assignments", "why_tests_cant": "depends on the order of constant and variable assignments", "anchors": ["marxs/reduction/ogip.py:ColOrKeyTable"]}
{"id": "C55", "title": "Order-sorting window in two notations", "statement": "osip_tab and osip_range describe the same order sorting window: range = [E - tab_low, E + tab_high], whichever of the two a subclass implements.", "quantifier": "every window and energy", "why_tests_cant": "all reals", "anchors": ["marxs/reduction/osip.py:OSIPBase.osip_tab", "marxs/reduction/osip.py:OSIPBase.osip_range"]}
{"id": "C56", "title": "Order-sorting can be re-applied", "statement": "Applying order sorting to an ARF that already has order sorting applied gives the same effective area as applying it to the original ARF.", "quantifier": "every ARF and every pair of windows", "why_tests_cant": "zero factors", "anchors": ["marxs/reduction/osip.py:OSIPBase.apply_osip"]}
{"id": "C57", "title": "Order-sorting windows do not double count", "statement": "For windows defined by a fraction (at most one) of the distance between orders, windows of neighbouring orders do not overlap and the fractions of photons of one true order that are sorted into different orders add up to at most one.", "quantifier": "every fraction, every energy, every monotone redistribution function, every set of orders", "why_tests_cant": "sum over arbitrarily many orders", "anchors": ["marxs/reduction/osip.py:FractionalDistanceOSIP", "marxs/reduction/osip.py:OSIPBase.osip_factor"]}
{"id": "C58", "title": "Energy bounds from channel edges", "statement": "ebounds_from_edges gives one channel per gap between edges, numbered from 0, with ascending contiguous bounds E_MAX[i] = E_MIN[i+1], for edges in any order. Every energy between the lowest and the highest edge is in exactly one channel; no channel is empty if and only if the edges have different energies.", "quantifier": "every list of edges", "why_tests_cant": "all lists", "anchors": ["marxs/reduction/ogip.py:RMF.ebounds_from_edges"]}
{"id": "C59", "title": "Weighted averages", "statement": "weighted_per_order / average_R_Aeff average over the selected orders with the given weights: the average lies between the smallest and largest value, equals the common value for equal inputs, and does not depend on excluded orders.", "quantifier": "every weight and value list", "why_tests_cant": "all lists, zero and nan weights", "anchors": ["marxs/analysis/gratings.py:weighted_per_order", "marxs/analysis/gratings.py:average_R_Aeff"]}
{"id": "C60", "title": "Photons in the sub-aperture", "statement": "identify_photon_in_subaperture marks exactly those photons whose angle (modulo full turns) is at most max_ang from ang_0 or from the mirrored direction -ang_0, for sectors that cross the angle 0, too.", "quantifier": "every angle, sector width and central angle", "why_tests_cant": "wrap-around and tolerances of np.isclose", "anchors": ["marxs/analysis/gratings.py:identify_photon_in_subaperture"]}
{"id": "C61", "title": "Effective areas add up", "statement": "effectivearea splits the total detected probability by order: the sum over orders times aperture area / number of photons equals the area of all photons in those orders and no photon is counted twice.", "quantifier": "every photon list and list of distinct orders", "why_tests_cant": "all lists", "anchors": ["marxs/analysis/gratings.py:effectivearea_from_photonlist"]}
{"id": "C62", "title": "Triangulated plane with hole is a closed ring", "statement": "plane_with_hole uses exactly n_outer + n_inner triangles, refers only to existing points, uses every outer and every inner edge exactly once, and neighbouring triangles share an edge.", "quantifier": "every number of outer and inner points", "why_tests_cant": "depends on ratio of the two numbers", "anchors": ["marxs/visualization/utils.py:plane_with_hole"]}
{"id": "C63", "title": "Combining triangulations keeps shapes", "statement": "combine_disjoint_triangulations returns triangles that refer to the same points as in the input triangulations.", "quantifier": "every list of triangulations", "why_tests_cant": "tests use equal sizes", "anchors": ["marxs/visualization/utils.py:combine_disjoint_triangulations"]}
{"id": "C64", "title": "Colors convert to hex without mixing channels", "statement": "color_tuple_to_hex maps integer tuples in 0..255 to a six digit hex string that encodes exactly these three channels, refuses everything out of range, and float tuples are mapped to the nearest lower 8 bit value per channel.", "quantifier": "every color tuple", "why_tests_cant": "all colors", "anchors": ["marxs/visualization/utils.py:color_tuple_to_hex"]}
{"id": "C65", "title": "Display settings fall back to the geometry", "statement": "Looking up a display setting returns the explicitly set value if there is one, else the attribute of the geometry, else KeyError / the default; setting one key never changes another.", "quantifier": "every dictionary content", "why_tests_cant": "all contents", "anchors": ["marxs/visualization/utils.py:DisplayDict"]}
{"id": "C66", "title": "The first supported shape is plotted", "statement": "plot_object_general calls the plot function of the first shape in the list that is supported, stops at 'None', and otherwise plots nothing.", "quantifier": "every shape list and registry", "why_tests_cant": "all lists", "anchors": ["marxs/visualization/utils.py:plot_object_general"]}
{"id": "C67", "title": "Version tags carry everything the user gave", "statement": "TagVersion writes every keyword given at construction (including ORIGIN and CREATOR) into the header of each photon list, keywords given in the call win over those given at construction, and unrelated header entries are unchanged.", "quantifier": "every keyword set", "why_tests_cant": "named parameters behave differently from other keywords", "anchors": ["marxs/base/base.py:TagVersion"]}
{"id": "C68", "title": "Meta data consistency check", "statement": "check_meta_consistent passes exactly if all photon lists agree on all checked keywords (a keyword missing everywhere is only fine when that is allowed).", "quantifier": "every pair of headers and keyword list", "why_tests_cant": "all combinations of presence and value", "anchors": ["marxs/base/base.py:check_meta_consistent"]}
{"id": "C69", "title": "Misspelled keywords are refused", "statement": "Constructing an element with a keyword that no class in its hierarchy uses raises ValueError.", "quantifier": "every keyword set", "why_tests_cant": "all keyword sets", "anchors": ["marxs/base/base.py:MarxsElement.__init__"]}
{"id": "C70", "title": "CAT grating efficiency model", "statement": "The L1 support structure restores the direction of blocked photons and marks them with order 0, quality factors lie in (0, 1], and the L2 absorption probability lies in [0, 1].", "quantifier": "every photon, draw and bar geometry", "why_tests_cant": "all reals", "anchors": ["marxs/missions/mitsnl/catgrating.py"]}
{"id": "C71", "title": "Boom rods absorb", "statement": "A photon that hits a rod of the boom has probability 0 and hitrod set afterwards, all other photons are unchanged, for any number of rods.", "quantifier": "every list of rods and hit patterns", "why_tests_cant": "arbitrary numbers of rods", "anchors": ["marxs/missions/arcus/boom.py:Rod"]}
{"id": "C72", "title": "Elements written for one photon at a time can add output columns", "statement": "An optical element that implements the one-photon-at-a-time interface (process_photon) and declares extra output columns can process any photon list: the columns are added and the returned values are stored in them.", "quantifier": "all elements with this interface, all photon lists with at least one hit", "why_tests_cant": "Depends on which columns the photon list already has; tests usually use elements without extra columns.", "anchors": ["marxs/optics/base.py:OpticalElement.process_photons", "marxs/base/base.py:SimulationSequenceElement.add_output_cols"]}
{"id": "C73", "title": "A failed call leaves the photon list unchanged", "statement": "If processing a photon list with an element raises an exception, the photon list is the same as before the call, so the call can be repeated after the problem is fixed.", "quantifier": "all elements, photon lists and points at which an exception can be raised", "why_tests_cant": "The set of possible failure points is unbounded (any returned column can be the one that fails).", "anchors": ["marxs/optics/base.py:OpticalElement.process_photons", "marxs/optics/base.py:_assign_col_value"]}
{"id": "C74", "title": "A stack has all its layers", "statement": "A FlatStack built from a list of element classes and a list of keyword dictionaries has one layer per class, with the matching keywords, or the construction is refused.", "quantifier": "all lists of classes and keywords", "why_tests_cant": "Lists of different lengths are not tried in tests.", "anchors": ["marxs/optics/base.py:FlatStack"]}
{"id": "C75", "title": "Energy consistency check", "statement": "check_energy_consistent passes if and only if all photons have the same energy within a relative tolerance; a photon list without energies or without photons is consistent.", "quantifier": "all photon lists", "why_tests_cant": "The comparison is against the first photon only; the bound for all pairs has to be derived.", "anchors": ["marxs/base/base.py:check_energy_consistent"]}
{"id": "C76", "title": "Keyword arguments of parallel_transport are used", "statement": "Jones matrix and replace_nans arguments given to parallel_transport take part in the calculation: they are handed on to paralleltransport_matrix.", "quantifier": "all directions, polarization vectors and Jones matrices", "why_tests_cant": "A dropped keyword argument is invisible for the default values that tests use.", "anchors": ["marxs/math/polarization.py:parallel_transport", "marxs/math/polarization.py:paralleltransport_matrix"]}
{"id": "C77", "title": "Steps of a MultiAperture only see the photons of that aperture", "statement": "The pre- and post-processing steps of a MultiAperture are run before / after each aperture on just the photons that pass this aperture.", "quantifier": "all lists of apertures, steps and photons", "why_tests_cant": "Visible only for steps that change photons and more than one aperture.", "anchors": ["marxs/optics/aperture.py:MultiAperture.__call__"]}
{"id": "C78", "title": "Sign convention of CAT gratings", "statement": "For a CAT grating blazing happens on the side of negative orders: the negative order whose displacement is twice the incoming component leaves as if reflected off the grating bars, and turning the grating by pi around its normal changes nothing.", "quantifier": "all positions, directions, orders, wavelengths and periods", "why_tests_cant": "Tests use a few orders and orientations.", "anchors": ["marxs/optics/grating.py:CATGrating.order_sign_convention"]}
{"id": "C79", "title": "Blaze angle", "statement": "The blaze angle recorded by a grating lies between 0 and pi/2 and is the angle between the grating normal and the ray, projected on the plane perpendicular to the grooves.", "quantifier": "all ray directions, positions and groove angles", "why_tests_cant": "All reals; independent of the side the photon comes from.", "anchors": ["marxs/optics/grating.py:FlatGrating.diffract_photons"]}
{"id": "C80", "title": "Thin lens", "statement": "A thin lens does not change rays through its center, rotates all other directions together with their polarization (lengths and angles stay) by distance / focal length; rays along the axis are bent towards it and rays of the same radius cross it in the same point.", "quantifier": "all hit positions, directions and focal lengths", "why_tests_cant": "All reals.", "anchors": ["marxs/optics/mirror.py:ThinLens.process_photon"]}
{"id": "C81", "title": "Multi layer efficiency", "statement": "The reflection probability of a multi layer mirror has the given peak value at the peak wavelength, half of it at half of the full width from the peak on both sides, and is a probability for peak values up to 100 percent.", "quantifier": "all wavelengths, peaks and widths", "why_tests_cant": "Numerical values in tests check a few points of one file only.", "anchors": ["marxs/optics/multiLayerMirror.py:MultiLayerEfficiency.specific_process_photons"]}
{"id": "C82", "title": "Torus parameters of a point", "statement": "xyzw2parametric followed by parametric gives back every point of the torus, the parameters agree with the original ones up to full turns where those are unique, and normal(point) is the normal of that point.", "quantifier": "all tori in any position, all points on them", "why_tests_cant": "Branches of arcsin and sign; special points have measure zero.", "anchors": ["marxs/design/rowland.py:RowlandTorus.xyzw2parametric", "marxs/design/rowland.py:RowlandTorus.normal"]}
{"id": "C83", "title": "Tilted torus design", "statement": "design_tilted_torus places the focal point and the on-axis grating on the Rowland circle, the focal point on the symmetry axis, and the center of the torus on the line from the on-axis grating through the center of the Rowland circle.", "quantifier": "all focal lengths and angles", "why_tests_cant": "All reals; tests compare to one numeric design.", "anchors": ["marxs/design/rowland.py:design_tilted_torus"]}
{"id": "C84", "title": "Double Rowland torus design", "statement": "double_rowland_from_channel_distance gives two channels whose Rowland circles contain the focus and the point at distance f on their optical axis; the detector circle contains the optical axes of both channels and is the Rowland circle of both channels moved to their optical axes.", "quantifier": "all channel distances, torus radii and focal lengths", "why_tests_cant": "All reals.", "anchors": ["marxs/design/rowland.py:double_rowland_from_channel_distance"]}
{"id": "C85", "title": "Any number of spectral channels", "statement": "add_offset_double_rowland_channels generates one torus per channel name: names without m from the central torus, names with m from the mirrored one, each moved by the offset of its channel.", "quantifier": "all dictionaries of channel names and offsets", "why_tests_cant": "Tests use the default four names.", "anchors": ["marxs/design/rowland.py:add_offset_double_rowland_channels"]}
{"id": "C86", "title": "Elements are placed on the torus", "statement": "Every element of an ElementsOnTorus is on the torus and on the line through its requested y, z position along the optimize axis; with the default axis y and z stay as requested.", "quantifier": "all tori, orientations, positions and root finders that return roots", "why_tests_cant": "Composition of coordinate systems for arbitrary orientations.", "anchors": ["marxs/design/rowland.py:ElementsOnTorus.elempos", "marxs/design/rowland.py:RowlandTorus.solve_quartic", "marxs/design/rowland.py:RowlandTorus.xyz_from_radiusangle"]}
{"id": "C87", "title": "Rings cover the requested radii", "statement": "The radii of the rings of a GratingArrayStructure are evenly spaced by the element size, symmetric in each bracket of radii and cover it.", "quantifier": "all brackets of radii and element sizes", "why_tests_cant": "All reals.", "anchors": ["marxs/design/rowland.py:GratingArrayStructure.distribute_elements_on_radius"]}
{"id": "C88", "title": "Mesh fills the circle", "statement": "The rows of a CircularMeshGrid are evenly spaced, symmetric and cover the circle, and no element center is more than half an element outside of the circle (except for the outermost rows).", "quantifier": "all radii and element sizes", "why_tests_cant": "All reals; tests count elements of one grid.", "anchors": ["marxs/design/rowland.py:CircularMeshGrid.elemposyz"]}
{"id": "C89", "title": "Tolerancing over energies reports every combination once and resets at the end", "statement": "run_tolerances_for_energies returns a table with one row per energy and parameter set, ordered by energy and then by parameter set; every row carries the energy and wavelength it was simulated with, the photons of one energy are generated once and used for all parameter sets, and if reset values are given the wiggle function is called with them last.", "quantifier": "all non-empty lists of energies and parameters, all sources, instruments and analysis functions", "why_tests_cant": "The loop variable of the energies is reused in an inner comprehension; the claim is about all lengths.", "anchors": ["marxs/design/tolerancing.py:run_tolerances_for_energies"]}
{"id": "C90", "title": "Tolerancing by class wiggles the elements it split the instrument at", "statement": "run_tolerances_for_energies2 splits the instrument before the first top-level element that is or contains an element of the class, and hands all elements of the class (with subclass_ok also those of derived classes) to the wiggle function; all of these are in the part that is run again for each parameter set.", "quantifier": "all instruments, all classes, both values of subclass_ok", "why_tests_cant": "Arbitrary nesting; the default value of subclass_ok hides a dropped argument.", "anchors": ["marxs/design/tolerancing.py:run_tolerances_for_energies2"]}
{"id": "C91", "title": "Number of channels in the header of a response matrix", "statement": "The keyword DETCHANS that RMF sets in the headers of both tables is the number of detector channels (rows of EBOUNDS).", "quantifier": "all matrices and channel tables", "why_tests_cant": "Tests use square matrices only.", "anchors": ["marxs/reduction/ogip.py:RMF.__init__"]}
{"id": "C92", "title": "Row of a response matrix for an energy or wavelength", "statement": "RMF.row returns the first row whose energy range contains the given energy, or IndexError if there is none; the result is the same if the photon energy is given as wavelength (spectral equivalencies are enabled for the comparison).", "quantifier": "all tables and all energies or wavelengths", "why_tests_cant": "Tests convert to keV before the call.", "anchors": ["marxs/reduction/ogip.py:RMF.row"]}
{"id": "C93", "title": "Order sorting writes one file per possible confusion", "statement": "apply_osip_all writes an ARF exactly for the pairs of nominal order o and true order m for which o is requested, m - o is one of the offsets, m is not 0 and on the same side as o, and the input ARF for m exists; each pair is written once.", "quantifier": "all lists of orders and offsets, all sets of existing files", "why_tests_cant": "Tests use one list of orders.", "anchors": ["marxs/reduction/osip.py:OSIPBase.apply_osip_all"]}
{"id": "C94", "title": "File names identify orders", "statement": "filename_from_meta gives different names for different (true order, nominal order) pairs and for different orders, and the name of an order sorted ARF is never the name of an input ARF, so that no file is overwritten by mistake.", "quantifier": "all integers as orders", "why_tests_cant": "Integers are not bounded.", "anchors": ["marxs/reduction/ogip.py:filename_from_meta", "marxs/reduction/osip.py:OSIPBase.apply_osip"]}
{"id": "C95", "title": "Resolving power needs 20 photons", "statement": "resolvingpower_from_photonlist returns nan for an order if and only if fewer than 20 photons are in this order; else |mean - zero position| / (2.3548 standard deviation) from the clipped statistics of exactly the photons in this order. Without zero position, fewer than 20 photons in order 0 raise AnalysisError.", "quantifier": "all photon lists, orders and statistics", "why_tests_cant": "Boundary of the photon count.", "anchors": ["marxs/analysis/gratings.py:resolvingpower_from_photonlist"]}
{"id": "C96", "title": "Robust resolving power is the worst case", "statement": "resolvingpower_from_photonlist_robust returns for each order resolving power, position and width from one and the same input column and no other column has a lower resolving power for this order.", "quantifier": "all numbers of columns and orders, nan included", "why_tests_cant": "All lists.", "anchors": ["marxs/analysis/gratings.py:resolvingpower_from_photonlist_robust"]}
{"id": "C97", "title": "Captured areas add up", "statement": "CaptureResAeff: Aeff0 plus Aeffgrat is the sum of the areas of all orders, which is the area of all photons that pass the filter and are in these orders; photons with probability 0 or without coordinate do not change the resolving power; too few photons in order 0 give nan, not an exception.", "quantifier": "all photon lists, order lists and filters", "why_tests_cant": "All lists.", "anchors": ["marxs/analysis/gratings.py:CaptureResAeff", "marxs/analysis/gratings.py:CaptureResAeff_CCDgaps"]}
{"id": "C98", "title": "Facet table", "statement": "facet_table gives one row for each facet with its id, position, projected position, and radius and angle that are the polar coordinates of the projected position, and leaves the projection plane as it is.", "quantifier": "all lists of facets and planes", "why_tests_cant": "Only visible when the plane is used again.", "anchors": ["marxs/analysis/coords.py:facet_table"]}
{"id": "C99", "title": "Projection onto a plane", "statement": "ProjectOntoPlane writes the two coordinates of the foot point of the perpendicular from the photon to the plane, measured from the center in the unit vectors of the plane (zoom does not scale them).", "quantifier": "all positions and all planes with perpendicular axes", "why_tests_cant": "All planes.", "anchors": ["marxs/analysis/coords.py:ProjectOntoPlane"]}
{"id": "C100", "title": "Width of a spot", "statement": "mean_width_2d does not change when all photons are shifted, is never negative and is 0 if and only if all photons are in the same place.", "quantifier": "all photon lists", "why_tests_cant": "All lists.", "anchors": ["marxs/analysis/analysis.py:mean_width_2d"]}
{"id": "C101", "title": "Detected fractions", "statement": "detected_fraction returns numbers between 0 and 1 that add up to at most 1 over distinct labels, for probabilities between 0 and 1.", "quantifier": "all photon lists and label lists", "why_tests_cant": "All lists.", "anchors": ["marxs/analysis/analysis.py:detected_fraction"]}
{"id": "C102", "title": "Colors are normalized once", "statement": "get_color returns three floats from 0 to 1, is unchanged when applied to its own result, and the result is always accepted by color_tuple_to_hex.", "quantifier": "all display dictionaries, for a color converter that returns valid colors", "why_tests_cant": "All colors.", "anchors": ["marxs/visualization/utils.py:get_color", "marxs/visualization/utils.py:plot_object_general"]}
{"id": "C103", "title": "Faces of parametric surfaces", "statement": "x3d.surface makes one face for each pair of neighbouring rows and columns of the grid of points, with the four neighbouring points in order around the face, no face twice and no index out of range.", "quantifier": "all grid sizes", "why_tests_cant": "All sizes.", "anchors": ["marxs/visualization/x3d.py:surface"]}
{"id": "C104", "title": "Half boxes", "statement": "halfbox_corners: '+x' gives the half of the box at low x and '-x' the half at high x (same for y, z) without changing the other coordinates, every other value gives the full box; all faces (X3D) and triangles (mayavi) lie in one side of the box.", "quantifier": "all values of the keyword", "why_tests_cant": "All strings.", "anchors": ["marxs/visualization/utils.py:halfbox_corners", "marxs/visualization/x3d.py:box", "marxs/visualization/mayavi.py:box"]}
{"id": "C105", "title": "Rays are drawn once in their color", "statement": "x3d.plot_rays draws every ray exactly once, with the color of the ray; if there is a color for each point, with the color of the first point.", "quantifier": "all ray lists and all color arrays of allowed shapes", "why_tests_cant": "Tests with one shape only.", "anchors": ["marxs/visualization/x3d.py:plot_rays"]}
{"id": "C106", "title": "Material properties for three.js", "statement": "materialdict passes on all display settings that are properties of the material and no others, and sets transparent whenever there is an opacity and transparent is not set.", "quantifier": "all display dictionaries", "why_tests_cant": "All dictionaries.", "anchors": ["marxs/visualization/threejs.py:materialdict"]}
{"id": "C107", "title": "three.js output can be written", "statement": "Containers can be converted to json, json can be written with the meta data of photons, and material properties can be written as a string.", "quantifier": "all containers, photon tables, materials", "why_tests_cant": "Code that is not covered.", "anchors": ["marxs/visualization/threejsjson.py:container", "marxs/visualization/threejsjson.py:write", "marxs/visualization/threejs.py:materialspec"]}
{"id": "C108", "title": "Rods are cylinders around their x axis", "statement": "A ray that passes through the surface of a boom rod, described as a cylinder with the x-axis as cylinder axis, is found by the intersection.", "quantifier": "all rod sizes and rays", "why_tests_cant": "Tests only look at one ray.", "anchors": ["marxs/missions/arcus/boom.py:Rod", "marxs/math/geometry.py:Cylinder"]}
{"id": "C109", "title": "Rods of a boom meet at the corners", "statement": "pos_spec returns the rods of every window for every side and bay; neighbouring sides share their edges; battens and diagonals end where the longerons end.", "quantifier": "all boom dimensions and bays", "why_tests_cant": "All dimensions.", "anchors": ["marxs/missions/arcus/boom.py:ThreeSidedBoom", "marxs/missions/arcus/boom.py:FourSidedBoom"]}
{"id": "C110", "title": "Filters do not make photons", "statement": "An energy filter multiplies each probability with the value of the filter function, and is refused if a value is not between 0 and 1.", "quantifier": "all filter functions and photon lists", "why_tests_cant": "All functions.", "anchors": ["marxs/optics/filter.py:GlobalEnergyFilter"]}
{"id": "C111", "title": "Baffles are drawn in their plane", "statement": "The triangulation of a baffle has its corners in the plane of the baffle.", "quantifier": "all positions with perpendicular axes", "why_tests_cant": "Display only.", "anchors": ["marxs/optics/baffles.py:Baffle.triangulate_inner_outer"]}
{"id": "C112", "title": "Table rows become two dimensional arrays", "statement": "tablerows_to_2d puts every row in the cell that belongs to its x and y values, for every data column.", "quantifier": "all tables that are accepted", "why_tests_cant": "All tables.", "anchors": ["marxs/utils.py:tablerows_to_2d"]}
{"id": "C113", "title": "Photons fly away from their place on the sky", "statement": "FixedPointing gives every photon the unit direction opposite to its source, in a right-handed system with x to the aimpoint and z at the position angle roll (North through East), followed by reference_transform; angles between sources are kept.", "quantifier": "all pointings, rolls, reference transformations and source positions", "why_tests_cant": "Tests use a few positions; here all, including the poles.", "anchors": ["marxs/source/pointing.py:FixedPointing.photons_dir", "marxs/source/pointing.py:FixedPointing.offset_coos"]}
{"id": "C114", "title": "Polarization is measured North through East", "statement": "The polarization vector is the image of the direction at the polarization angle from North through East at the position of the photon; it is a unit vector perpendicular to the ray; only for the poles there is no value.", "quantifier": "all pointings, positions and angles", "why_tests_cant": "Sign and handedness conventions for all positions.", "anchors": ["marxs/source/pointing.py:FixedPointing.photons_pol", "marxs/source/pointing.py:FixedPointing.process_photons"]}
{"id": "C115", "title": "Jitter deflects by the drawn angle", "statement": "JitterPointing turns an on-axis photon by exactly the drawn angle, for every reference_transform, and turns direction and polarization rigidly; zero jitter changes nothing.", "quantifier": "all draws, photons and pointings", "why_tests_cant": "Reference transformations are not combined with jitter in tests.", "anchors": ["marxs/source/pointing.py:JitterPointing.process_photons"]}
{"id": "C116", "title": "Sources follow their specification", "statement": "Constant flux gives equally spaced times from 0 below the exposure time; energies and polarization angles are constant, from a function of the right length, or drawn from table bins with positive density with the first density ignored; probability starts at 1; everything else is refused.", "quantifier": "all specifications and draws", "why_tests_cant": "All kinds of input.", "anchors": ["marxs/source/basesources.py:Source.generate_times", "marxs/source/basesources.py:Source.generate_energies", "marxs/source/basesources.py:Source.generate_polarization", "marxs/source/basesources.py:Source.generate_photons"]}
{"id": "C117", "title": "Disks and rings on the sky", "statement": "Photons of DiskSource and SphericalDiskSource are at angular distances between the inner and outer limit, with equal shares for equal areas (solid angles).", "quantifier": "all limits, draws and positions", "why_tests_cant": "Tests look at small disks only.", "anchors": ["marxs/source/basesources.py:RadialDistributionSource", "marxs/source/basesources.py:SphericalDiskSource.radial_distribution", "marxs/source/basesources.py:DiskSource"]}
{"id": "C118", "title": "Laboratory sources", "statement": "LabPointSourceCone emits into the cone around its direction, uniform in solid angle; FarLabPointSource starts photons inside of the rectangular aperture and away from the source.", "quantifier": "all directions, opening angles and draws", "why_tests_cant": "Tests use few directions.", "anchors": ["marxs/source/labSource.py:LabPointSourceCone", "marxs/source/labSource.py:FarLabPointSource"]}
{"id": "C119", "title": "Extended sources are at their coordinates", "statement": "SymbolFSource draws the letter with its corner at the coordinates of the source and GaussSource spreads around them, in every coordinate system.", "quantifier": "all coordinates, coordinate systems, sizes and draws", "why_tests_cant": "Only ICRS is tested.", "anchors": ["marxs/source/basesources.py:SymbolFSource", "marxs/source/basesources.py:GaussSource", "marxs/source/basesources.py:AstroSource.set_pos"]}
{"id": "C120", "title": "Photons move by the given distance", "statement": "Propagator moves every photon by exactly the given distance along its ray, also backwards; steps add up and a step back restores the position; direction does not change.", "quantifier": "all photons and distances", "why_tests_cant": "Directions of general sources are not unit vectors.", "anchors": ["marxs/simulator/simulator.py:Propagator.__call__"]}
{"id": "C121", "title": "Lissajous dither is bounded and periodic", "statement": "The dither offset is never larger than the amplitude on the sky, is periodic with each of the periods and starts at the phase given.", "quantifier": "all amplitudes, periods, phases, declinations and times", "why_tests_cant": "Only single times are tested.", "anchors": ["marxs/missions/chandra/dither.py:LissajousDither.dither"]}
{"id": "C122", "title": "Dithered pointing is a fixed pointing at every time", "statement": "A photon has the direction that a fixed pointing at the dithered position and roll gives; without dither nothing changes; an aspect solution can be written.", "quantifier": "all pointings, dither parameters and photon lists", "why_tests_cant": "Roll dither and reference transformations are not tested.", "anchors": ["marxs/missions/chandra/dither.py:LissajousDither.pointing", "marxs/missions/chandra/dither.py:LissajousDither.photons_dir", "marxs/missions/chandra/dither.py:LissajousDither.write_asol"]}
{"id": "C123", "title": "Dither is along the axes of the spacecraft", "statement": "The dither pattern is along the pitch and yaw axes of the spacecraft for every roll angle.", "quantifier": "all roll angles, pointings and times", "why_tests_cant": "Test use roll 0.", "anchors": ["marxs/missions/chandra/dither.py:LissajousDither.dither", "marxs/missions/chandra/dither.py:LissajousDither.pointing"]}
{"id": "C124", "title": "Chip to TDET coordinates", "statement": "Chips are mapped to the tiled detector coordinates without distortion, into the valid range of the coordinates, and different chips never overlap.", "quantifier": "all chips and positions", "why_tests_cant": "Overlap of the ten chips.", "anchors": ["marxs/missions/chandra/det_acis.py:ACISChip", "marxs/missions/chandra/data.py:chip2tdet"]}
{"id": "C125", "title": "ACIS chips are where they were measured", "statement": "The position of each chip reproduces the corners of the table, all chips have 1024 x 1024 pixels and face the mirror; any selection, aimpoint and detector offset can be set up.", "quantifier": "all chips, aimpoints and offsets", "why_tests_cant": "Offsets are not tested.", "anchors": ["marxs/missions/chandra/det_acis.py:ACIS.__init__", "marxs/missions/chandra/det_acis.py:ACIS.calculate_elempos"]}
{"id": "C126", "title": "SKY coordinates are the position of the source", "statement": "The SKY coordinates of a photon imaged through the center of the mirror are the tangent plane coordinates of its source for every roll angle.", "quantifier": "all pointings, roll angles and sources", "why_tests_cant": "Roll sense matters for all roll angles other than 0 and 180 degrees.", "anchors": ["marxs/missions/chandra/det_acis.py:ACIS.process_photons"]}
{"id": "C127", "title": "Completed headers", "statement": "complete_header adds all keywords required for Chandra files, keeps what is there (except redundant times, which follow from DATE-OBS and EXPOSURE) and works for event files and with its default arguments; a second call changes nothing.", "quantifier": "all headers, contents and times", "why_tests_cant": "Which keywords are overwritten is documented, but not tested.", "anchors": ["marxs/missions/chandra/fitsheaders.py:complete_header", "marxs/missions/chandra/fitsheaders.py:complete_CC", "marxs/missions/chandra/fitsheaders.py:complete_T", "marxs/missions/chandra/fitsheaders.py:complete_O", "marxs/missions/chandra/fitsheaders.py:add_evt_column_header", "marxs/missions/chandra/chandra_global.py:Chandra.write_evt"]}
{"id": "C128", "title": "Sorted columns", "statement": "sort_columns returns a table with every column once, x/y and RA/DEC pairs next to each other, chip, tdet, det and sky first, and all others sorted, independent of the order of set elements.", "quantifier": "all lists of column names and all orders of set elements", "why_tests_cant": "The order of set elements is random.", "anchors": ["marxs/missions/chandra/fitsheaders.py:sort_columns"]}
{"id": "C129", "title": "Pixels of a tube", "statement": "CircularDetector numbers pixels by length along the circumference and along the axis in units of pixel size; all photons that hit, and no others, have pixel numbers.", "quantifier": "all positions, sizes and rays", "why_tests_cant": "Zoomed detectors are not tested.", "anchors": ["marxs/optics/detector.py:CircularDetector"]}
{"id": "C130", "title": "Blaze angle of tilted bars", "statement": "For gratings with bars that are not parallel the blaze angle is the angle between the ray and the side walls at the position of the photon; it changes linearly in the dispersion direction and is constant along a bar.", "quantifier": "all rays, tilts, gradients and groove directions", "why_tests_cant": "Signs are lost because the angle to the normal is always positive.", "anchors": ["marxs/missions/mitsnl/catgrating.py:NonParallelCATGrating", "marxs/optics/grating.py:FlatGrating.diffract_photons"]}
{"id": "C131", "title": "Error budget in the units of the simulation", "statement": "Reformatting an alignment budget turns 3 sigma values in micron and arcsec into 1 sigma values in mm and radian, scales the global rows by the given factor (or by normal random numbers) and changes nothing else; it can be repeated.", "quantifier": "all budgets, factors and draws", "why_tests_cant": "A wrong unit or a factor applied twice makes every tolerance study wrong.", "anchors": ["marxs/missions/arcus/arcus.py:reformat_randall_errorbudget"]}
{"id": "C132", "title": "Tilted bars are compensated when a grating is bonded", "statement": "Each grating gets a bar tilt within the limit, is turned by minus that tilt and remembers it, so that the blaze angle with respect to the bars is the nominal one.", "quantifier": "all containers, tilts, misalignments and blaze angles of both signs", "why_tests_cant": "Rotation and tilt must cancel, otherwise the misalignment is doubled.", "anchors": ["marxs/missions/mitsnl/tolerances.py:wiggle_and_bar_tilt", "marxs/design/uncertainties.py:generate_facet_uncertainty"]}
{"id": "C133", "title": "Layout of the Arcus camera", "statement": "The 16 CCDs are on the Rowland circle of the detector, do not overlap, are numbered in the direction of positive x, are in groups of 3, 2 and 3 between filter supports with the documented gaps, and the gaps of the two strips are at different positions.", "quantifier": "all radii, CCD sizes and start angles", "why_tests_cant": "Positions of chips and gaps determine the effective area.", "anchors": ["marxs/missions/arcus/arcus.py:DetCamera"]}
{"id": "C134", "title": "The circular detector is the circle of the CCDs", "statement": "The circular detector of Arcus goes through the centers of all CCDs of the camera of the same configuration, with angle 0 at the lowest point.", "quantifier": "all configurations", "why_tests_cant": "The analysis compares positions on both.", "anchors": ["marxs/missions/arcus/arcus.py:PerfectArcus.add_detectors"]}
{"id": "C135", "title": "Every row of the alignment budget takes effect", "statement": "After an Arcus object is made, the misalignment of petals, windows and gratings is the one of the last row for that class and kind; unknown kinds are refused.", "quantifier": "all budgets", "why_tests_cant": "Regenerating a container forgets the misalignments inside it.", "anchors": ["marxs/missions/arcus/arcus.py:Arcus", "marxs/missions/arcus/ralfgrating.py:CATfromMechanical.generate_elements"]}
{"id": "C136", "title": "Silicon pore mirrors are placed by radius and clocking angle", "statement": "Each mirror module is at its mid radius and clocking angle around the optical axis of its channel, with the local x axis along the optical axis, y tangential and z radial; the channels with a 2 in the name are turned by 180 degrees.", "quantifier": "all tables of mirrors, channels and optical axes", "why_tests_cant": "The grazing angles and the plane of scatter depend on it.", "anchors": ["marxs/missions/athena/spo.py:spogeom2pos4d", "marxs/missions/athena/spo.py:SPOChannelMirror", "marxs/missions/arcus/arcus.py:SimpleSPOs"]}
{"id": "C137", "title": "The entrance window of a channel covers its mirrors", "statement": "Seen along the optical axis the rectangle of the aperture of a channel covers all mirrors of that channel including the given margins; the ranges of the regular grid of gratings are sorted and reach half a mirror beyond the outermost centers.", "quantifier": "all mirror positions and channels", "why_tests_cant": "Mirrors outside of the window would get no photons.", "anchors": ["marxs/missions/arcus/spo.py:zoom_to_cover_all_spos", "marxs/missions/arcus/spo.py:rmid_spo", "marxs/missions/arcus/arcus.py:Aperture", "marxs/missions/arcus/ralfgrating.py:RegularGrid"]}
{"id": "C138", "title": "Photons are scattered once, by the channel of their mirror", "statement": "A photon that went through mirror n of a channel is scattered by the scatter of that channel and by no other, its position is not changed; photons without a mirror are not scattered and get probability 0.", "quantifier": "all sets of channels, mirrors and photons", "why_tests_cant": "Channels overlap in space, so they are told apart by number.", "anchors": ["marxs/missions/athena/spo.py:ScatterPerChannel", "marxs/missions/athena/spo.py:spomounting", "marxs/missions/arcus/arcus.py:SimpleSPOs", "marxs/missions/arcus/utils.py:id_num_offset"]}
{"id": "C139", "title": "Gratings are where the mechanical model has them", "statement": "After nesting in petals and windows each grating has the position and the axes from the table, mirrored for its channel and relative to the optical axis of the channel; every grating is in exactly one window, with its own period and its number from the table.", "quantifier": "all tables of gratings and channels", "why_tests_cant": "The position is split in three matrices that must multiply to the right one.", "anchors": ["marxs/missions/arcus/ralfgrating.py:CATfromMechanical", "marxs/missions/arcus/ralfgrating.py:CATWindow", "marxs/missions/arcus/arcus.py:CATGratings"]}
{"id": "C140", "title": "A wavelength is on a CCD iff the diffracted ray hits one", "statement": "OnCCD is true for a wavelength exactly if the ray from the grating under the angle of the grating equation crosses a CCD between its edges; it is false if there is no diffraction angle, and the mirrored channel gives the mirrored answer. The period is the mean of all periods, foreshortened by the blaze angle, which accounts for the tilt of the gratings.", "quantifier": "all CCDs below the gratings, axes, orders, periods and wavelengths", "why_tests_cant": "Chip gaps appear in effective areas only through this function.", "anchors": ["marxs/missions/arcus/arfrmf.py:OnCCD"]}
{"id": "C141", "title": "Columns of the effective area", "statement": "The bins of an ARF are the sorted edges, without gaps; the area in each bin is the product of mirror and grating, filters and the number of channels that are on a CCD at the middle of the bin, and never negative; the header says which channels of the configuration are included and channels that are not in the configuration are refused.", "quantifier": "all edges, orders, sets of channels and interpolators", "why_tests_cant": "ARFs of channels are added by this count.", "anchors": ["marxs/missions/arcus/arfrmf.py:mkarf", "marxs/missions/arcus/arfrmf.py:MirrGrat"]}
{"id": "C142", "title": "Different channels have different file names", "statement": "The file name starts with the channels (all, if all four) followed by the OGIP name; it needs the keyword ARCCHAN; different channels, orders or file types give different names.", "quantifier": "all header values", "why_tests_cant": "Otherwise files are overwritten.", "anchors": ["marxs/missions/arcus/arfrmf.py:filename_from_meta"]}
{"id": "C143", "title": "Defaults do not replace what the user sets", "statement": "DefaultSource and DefaultPointing pass every keyword of the user unchanged and add the default for all that are missing; the default jitter is read only if needed, and a number is read only from a table with one row.", "quantifier": "all sets of keywords", "why_tests_cant": "Used by every Arcus simulation.", "anchors": ["marxs/missions/arcus/defaults.py:DefaultSource", "marxs/missions/arcus/defaults.py:DefaultPointing", "marxs/missions/arcus/load_csv.py:load_number"]}
{"id": "C144", "title": "LSF model from one entry of a CALDB lsfparm table", "statement": "caldb2sherpa(row, iwidth, iwave) returns the encircled energy fraction of the entry times a sum of Gaussian and Lorentzian components, one for each GAUSSn_PARMS or LORENTZn_PARMS column. Widths of Gaussians are converted from sigma to FWHM; amplitudes are divided by their sum, so that the model integrates to the encircled energy fraction. Only columns with exactly such a name are used.", "quantifier": "for every row, width index and wavelength index", "why_tests_cant": "A wrong width or norm shifts every fitted flux", "anchors": ["marxs/reduction/lsfparm.py:caldb2sherpa", "marxs/reduction/lsfparm.py:flatten_sherpa_model"]}
{"id": "C145", "title": "CALDB to Sherpa and back", "statement": "sherpa2caldb applied to a model from caldb2sherpa returns the parameters in the table, up to the common norm of the amplitudes.", "quantifier": "for every row and index for which caldb2sherpa succeeds", "why_tests_cant": "Both functions are documented as the two directions of the same conversion", "anchors": ["marxs/reduction/lsfparm.py:caldb2sherpa", "marxs/reduction/lsfparm.py:sherpa2caldb"]}
{"id": "C146", "title": "Interpolated LSF agrees with the table at its nodes", "statement": "sherpa_from_spline(CALDB_interp(row), width, wave) at a width and a wavelength that are in the table is the model caldb2sherpa returns for this entry.", "quantifier": "for every table whose columns have the right shape, every interpolating spline and every node", "why_tests_cant": "The interpolation is what the RMF is made from", "anchors": ["marxs/reduction/lsfparm.py:sherpa_from_spline", "marxs/reduction/lsfparm.py:interp1d_2dsignature", "marxs/reduction/lsfparm.py:CALDB_interp"]}
{"id": "C147", "title": "Rows of the RMF made from an LSF table", "statement": "make_rmf returns a square matrix whose entry (r, c) is the LSF model at the middle wavelength of bin r integrated over bin c, with small values cut. No entry is negative and no row adds up to more than the encircled energy fraction; DETCHANS is the number of bins; the observatory keywords are copied.", "quantifier": "for every table, every list of positive bin edges, every profile that is a distribution function", "why_tests_cant": "Counts predicted by a wrong response are wrong in every fit", "anchors": ["marxs/reduction/lsfparm.py:make_rmf"]}
{"id": "C148", "title": "Empty lsfparm table for a model", "statement": "empty_lsfparmtable accepts exactly models of Gaussians and Lorentzians with different names and at least two wavelengths; it has one _PARMS column of shape (widths, waves, 3) for each component, and the wavelength boxes contain both neighbours of each wavelength. A table made for a model read from a table has the same columns, and each column is recognised as the kind of component it is for.", "quantifier": "for every model, width list and wavelength list", "why_tests_cant": "The table is what is delivered to the CALDB", "anchors": ["marxs/reduction/lsfparm.py:empty_lsfparmtable"]}
{"id": "C149", "title": "Histogram fitted by fit_LSF", "statement": "fit_LSF bins the probabilities of all photons within d_wave of the mean wavelength; errors are sqrt(counts), at least 1.", "quantifier": "for every event list, bin width and range", "why_tests_cant": "The LSF parameters are fitted to this histogram", "anchors": ["marxs/reduction/lsfparm.py:fit_LSF"]}
{"id": "C150", "title": "Bent gratings", "statement": "bend_gratings puts each stack of gratings on a tube whose axis is one radius below its center along its normal and parallel to its z axis; the center, its tangents and the normal stay, and rays from the axis of the tube go through the bent grating exactly if they went through the flat one.", "quantifier": "all gratings without shear and all radii", "why_tests_cant": "The bending must not move gratings off the Rowland torus.", "anchors": ["marxs/design/bendgratings.py:bend_gratings"]}
{"id": "C151", "title": "Chirp finder", "statement": "NumericalChirpFinder sends a ray of the given energy to the origin through each test point of the grating and returns the factor on the grating constant for which this ray hits the detector at the same place as the ray through the center; that factor is 1 in the center.", "quantifier": "all gratings, detectors, orders, energies and test points", "why_tests_cant": "The factors are what the gratings have to be made with.", "anchors": ["marxs/design/bendgratings.py:NumericalChirpFinder", "marxs/design/bendgratings.py:BendNumericalChirpFinder"]}
{"id": "C152", "title": "Chirped gratings", "statement": "After chirp_gratings the grating constant at each test point is the corrected one, at any height; the order selector and the position of the grating are as before; three increasing test points are needed.", "quantifier": "all lists of gratings, splines and test points", "why_tests_cant": "The simulation must use the period that was fitted.", "anchors": ["marxs/design/bendgratings.py:chirp_gratings"]}
{"id": "C153", "title": "Facets of the HETG", "statement": "The HETG has one grating per row of its table: center, normal and edges are those of the row, shifted along the optical axis by 338.209 inch; facets of rings 1 to 3 have the size and the period of MEG facets, all others those of HEG facets. The hinge does not change where the facets are.", "quantifier": "all tables and all positions of the structure", "why_tests_cant": "A facet with the wrong period or place gives a wrong spectrum.", "anchors": ["marxs/missions/chandra/hess.py:HETG.__init__", "marxs/missions/chandra/hess.py:HETG.calculate_elempos"]}
{"id": "C154", "title": "Groove angle of HETG facets", "statement": "With the groove angle calculated from the table the grooves of a facet run along the line direction of its row, so that the component of the photon direction along the lines is unchanged and the one along the dispersion direction changes by m lambda / P.", "quantifier": "all rows whose directions are an orthonormal right-handed system with the lines in the plane of the facet", "why_tests_cant": "The sign of the groove angle decides which arm of the X a photon goes to.", "anchors": ["marxs/missions/chandra/hess.py:HETG.__init__"]}
{"id": "C155", "title": "Simple Chandra mirror", "statement": "The aperture consists of four rings that do not overlap, numbered from 0 in column mirror_shell, with an open area of 36388 pi square mm; photons on axis that start in a ring hit the mirror and are focused on the origin with 66% of their probability; the position given by the user is used.", "quantifier": "all photons of the four rings, all directions, all keywords", "why_tests_cant": "The first element of every simulation of Chandra without MARX.", "anchors": ["marxs/missions/chandra/hrma_py.py:Aperture", "marxs/missions/chandra/hrma_py.py:HRMA"]}
{"id": "C156", "title": "Mirror apertures follow the table of metashells", "statement": "MetaShellAperture has one ring per row of the table, centered on the optical axis 200 mm in front of the lens, with the radii and area of that row; the ring is numbered with the serial number of the row, and rings are drawn so that each ends where the next begins.", "quantifier": "all focal lengths, tables and offsets of numbers", "why_tests_cant": "Photons are distributed over the rings by area and later lose probability according to the number of their ring.", "anchors": ["marxs/missions/lynx/mirror.py:MetaShellAperture", "marxs/optics/aperture.py:MultiAperture.__init__"]}
{"id": "C157", "title": "Every photon gets the efficiency of the shell it passed", "statement": "MetaShellEfficiency multiplies the probability of a photon by the relative effective area (area of the table over geometric area of the ring, limited to 0..1) interpolated to its energy in the row of the table for the ring it came through; everything else stays as it is.", "quantifier": "all tables, efficiencies, interpolations and photon lists", "why_tests_cant": "The effective area of the mirror is the product of ring areas and these factors.", "anchors": ["marxs/missions/lynx/mirror.py:MetaShellEfficiency"]}
{"id": "C158", "title": "Gratings are laid out from the configuration they are made for", "statement": "LynxGAS uses spacing = size + 2 frame, zoom = half of the size, the blaze rotation, the Rowland torus and the radii that enclose all shells of the given configuration, whatever was made before from a configuration that shares dictionaries with it; every grating gets one of three colors by the 60 degree sector it is in, the same for opposite sectors.", "quantifier": "all configurations, earlier calls and positions", "why_tests_cant": "Configurations for several grating sizes are shallow copies and share the dictionaries LynxGAS writes to.", "anchors": ["marxs/missions/lynx/lynx.py:LynxGAS"]}
{"id": "C159", "title": "Keywords of structures on a torus are used or refused", "statement": "A structure on a Rowland torus is made if and only if the needed keywords are there and all are known; values end up in the object, including the position; the default configurations of Lynx, AXIS and Athena give an instrument.", "quantifier": "all keyword dictionaries and all ways to place elements", "why_tests_cant": "A keyword that is silently dropped changes the instrument.", "anchors": ["marxs/design/rowland.py:ElementsOnTorus.__init__", "marxs/simulator/simulator.py:Parallel.__init__", "marxs/missions/lynx/lynx.py:PerfectLynx", "marxs/missions/AXIS/AXIS.py:PerfectAXIS", "marxs/missions/athena/athecat.py:PerfectAthecat"]}
{"id": "C160", "title": "Chirp and misalignments reach the gratings they are meant for", "statement": "Chirped configurations chirp every grating of the instrument; misalignments follow the budget (global rows scaled, individual rows as given), keep chirp and color of the gratings, refuse rows of an unknown kind, and are available for all default configurations.", "quantifier": "any number of gratings, any budget", "why_tests_cant": "Resolving power of the instrument depends on both.", "anchors": ["marxs/missions/lynx/lynx.py:PerfectLynx.__init__", "marxs/missions/lynx/lynx.py:Lynx.__init__", "marxs/missions/lynx/lynx.py:reformat_errorbudget", "marxs/missions/AXIS/AXIS.py:PerfectAXIS.__init__"]}
{"id": "C161", "title": "The detector made from a Rowland torus lies on the Rowland circle", "statement": "Cylinder.from_rowland gives a tube whose point at angle phi and height z is the point of the torus at angle phi + rotation, moved by z along the direction perpendicular to the circle; with the rotation by pi the missions use, the focal point of a tilted torus is in the accepted half at phi = beta and the on-axis grating is not.", "quantifier": "all tori with rigid position, all widths, rotations, angles and heights; all focal lengths and tilt angles", "why_tests_cant": "This detector measures all orders at best focus.", "anchors": ["marxs/math/geometry.py:Cylinder.from_rowland", "marxs/design/rowland.py:design_tilted_torus"]}
{"id": "C162", "title": "The zero position is where the optical axis meets the detector", "statement": "zeropos gives, for every channel, the angle and height on the circular detector (or the projected coordinates) at which a ray straight down the optical axis of that channel is detected; other coordinates and unknown channels are refused.", "quantifier": "all configurations, channels and positions of the axis within reach of the detector", "why_tests_cant": "All resolving powers of the grid are distances from this position.", "anchors": ["marxs/missions/arcus/analyze_grid.py:zeropos", "marxs/missions/arcus/arcus.py:PerfectArcus.add_detectors"]}
{"id": "C163", "title": "A simulation of the grid is analysed channel by channel", "statement": "analyze_sim counts each photon in the channel its aperture belongs to and in no other, for area and resolving power; the area of a channel is the open area of the simulation times the detected fraction; headers or energies that do not agree with the simulation are refused.", "quantifier": "all photon lists, headers and orders", "why_tests_cant": "Effective area and resolving power tables of Arcus are made of these numbers.", "anchors": ["marxs/missions/arcus/analyze_grid.py:analyze_sim"]}
{"id": "C164", "title": "The grid table has one row per simulation and one column per order", "statement": "aeffRfromraygrid gives the analysis of every simulation in the order of wavelength; the areas of dispersed orders add up to the dispersed area without the zeroth order; the orders written in the header are those read back, and the csv file has one line per wavelength and order.", "quantifier": "any number of simulations, any list or array of orders", "why_tests_cant": "Files from this function are the public performance numbers of Arcus.", "anchors": ["marxs/missions/arcus/analyze_grid.py:aeffRfromraygrid", "marxs/missions/arcus/analyze_grid.py:orders_from_meta", "marxs/missions/arcus/analyze_grid.py:csv_per_order"]}
{"id": "C165", "title": "Grating angles from the position on the circular detector", "statement": "tg_resolve_events_circdet gives the angle between zeroth order and photon as seen from the grating on the Rowland circle and the angle across the dispersion, both 0 for the zeroth order; m times wavelength follows from the grating equation; the configuration passed in is used.", "quantifier": "all positions on the detector, channels and configurations", "why_tests_cant": "Wavelengths of simulated events are computed from these angles.", "anchors": ["marxs/missions/arcus/analyze_grid.py:tg_resolve_events_circdet"]}
{"id": "C166", "title": "Best focus", "statement": "find_best_detector_position moves a detector perpendicular to its plane and takes the width of the photons that hit it; for rays that all go through one point the minimum is the plane through that point; the width at a place does not depend on detectors seen before; the photon list is set to the last try.", "quantifier": "all orientations, photon lists, focal points and objective functions that vanish on a point", "why_tests_cant": "Used to place detectors and to compute resolving powers.", "anchors": ["marxs/analysis/analysis.py:find_best_detector_position", "marxs/analysis/analysis.py:mean_width_2d"]}
{"id": "C167", "title": "Resolving power per order", "statement": "resolvingpower_per_order sets all gratings to one order at a time; the result of an order depends only on the photons that reach this order; it is distance to the zeroth order over FWHM; afterwards all gratings and the arguments for new ones select the last order.", "quantifier": "all orders, gratings, photon lists, detectors and statistics", "why_tests_cant": "This number decides between grating layouts.", "anchors": ["marxs/analysis/gratings.py:resolvingpower_per_order"]}
{"id": "C168", "title": "Radius of the cone of a mirror shell", "statement": "find_radius_of_photon_shell gives percentiles of the distance from the optical axis at x of the photons of one shell that have a probability; for rays to the focal point it is proportional to x.", "quantifier": "all shells, distances, percentiles and photon lists", "why_tests_cant": "Gratings are placed at these radii.", "anchors": ["marxs/design/rowland.py:find_radius_of_photon_shell"]}
{"id": "C169", "title": "Plot styles tell orders apart", "statement": "OrderColor has a style for every order up to the maximum given, different orders have different styles, and opposite orders have the same color.", "quantifier": "all color maps with different colors, all orders and maxima", "why_tests_cant": "Plots of many orders are read by color.", "anchors": ["marxs/analysis/plots.py:OrderColor"]}
{"id": "C170", "title": "Apertures are drawn where they are", "statement": "The outline of an aperture consists of points on its edge: four corners for a rectangle; for a round hole the vertices in the open wedge are at the radius of the hole (or the inner radius), the others at the center. All triangles refer to existing points, and every aperture that can be constructed can be drawn.", "quantifier": "all pos4d matrices, wedges, inner radii, factors and numbers of vertices", "why_tests_cant": "A wrong drawing hides mistakes in the position of elements.", "anchors": ["marxs/math/geometry.py:xyz_square", "marxs/math/geometry.py:xyz_circle", "marxs/math/geometry.py:PlaneWithHole.triangulate", "marxs/math/geometry.py:CircularHole.inner_shape"]}
{"id": "C171", "title": "Attributes of one geometry do not depend on other geometries", "statement": "The inner radius of a hole and the groove angle of a grating are those given for this element, whatever elements are made before or after it; an element without such an attribute does not get one.", "quantifier": "all sequences of elements that are made", "why_tests_cant": "Attributes are kept in a dictionary that starts as an attribute of the class.", "anchors": ["marxs/math/geometry.py:Geometry.__init__", "marxs/math/geometry.py:PlaneWithHole.__init__", "marxs/optics/grating.py:FlatGrating.__init__"]}
{"id": "C172", "title": "The complete CAT grating obeys the grating equation in both directions", "statement": "A photon that hits a CATL1L2Stack and passes between the L1 bars leaves the L1 layer with a unit direction whose component along the dispersion direction changed by order*wavelength/d and whose component along the bars changed by L1 order*wavelength/L1 period (signs as for CAT gratings), on the same side; a photon behind an L1 bar keeps its direction and gets L1 order 0. The probability is multiplied by the factors of order selector, quality factor, L1 and L2 and (default L2) never grows; the L2 layer turns the ray by normal*0.488*arcsin(wavelength/hole).", "quantifier": "all positions with perpendicular axes, directions, orders, energies and draws", "why_tests_cant": "Effective area and line shape of Arcus and Lynx come from this stack.", "anchors": ["marxs/missions/mitsnl/catgrating.py:CATL1L2Stack", "marxs/missions/mitsnl/catgrating.py:L2Diffraction"]}
{"id": "C173", "title": "Keywords of the CAT stack reach the right layer", "statement": "CATL1L2Stack builds the five layers in order; order_selector, d, groove_angle, qualityfactor, l1_dims, l1_order_selector and l2_dims go to the layers as given or with the module default, L1 gets the groove angle plus a right angle, an order selector is required, any keyword not known to a flat element is refused, and elements/keywords given by the user are replaced.", "quantifier": "all keyword dictionaries", "why_tests_cant": "A keyword that is lost silently changes the instrument.", "anchors": ["marxs/missions/mitsnl/catgrating.py:CATL1L2Stack.__init__", "marxs/optics/base.py:FlatStack.__init__"]}
{"id": "C174", "title": "Order selectors for tilted bars look up a changed blaze angle", "statement": "OrderSelectorWavy and OrderSelectorTopHat look up the efficiency at blaze + sigma*normal and at blaze + width*(uniform-1/2): the second stays within half a width and reaches every angle there, without tilt both equal the plain table, the order chosen has a probability larger than 0 at the changed angle and the total is the one of that angle.", "quantifier": "all tables, orders, widths, angles and draws", "why_tests_cant": "Tolerance studies of the bar tilt rely on it.", "anchors": ["marxs/missions/mitsnl/tolerances.py:OrderSelectorWavy", "marxs/missions/mitsnl/tolerances.py:OrderSelectorTopHat"]}
{"id": "C175", "title": "A whole telescope images a source in one point", "statement": "Through FixedPointing, RectangleAperture, PerfectLens and FlatDetector: all photons of a source that hit the lens fly towards the same point, one focal length from the center of the lens, wherever they entered; the images of two sources at an angle th are 2 f sin(th/2) apart; a detector through the point records them all in the same pixel. A telescope along the x axis, with the opening inside the lens and pointed at the source, records every photon in the central pixel of the detector, with probability the square of the reflectivity. Off axis, the flat detector in the focal plane records a photon at f d_y / c - y (1 / c - 1), so that the image of one source is spread.", "quantifier": "for all pointings, coordinate systems, positions and draws", "why_tests_cant": "It ties the parts together: a user relies on the sequence source, pointing, aperture, mirror, detector to image the sky.", "anchors": ["marxs/source/pointing.py:FixedPointing", "marxs/optics/aperture.py:RectangleAperture", "marxs/optics/mirror.py:PerfectLens", "marxs/optics/detector.py:FlatDetector", "marxs/simulator/simulator.py:Sequence"]}
{"id": "C176", "title": "monoenergetic_astrosimulation makes the requested photons", "statement": "monoenergetic_astrosimulation with n photons generates n photons at times 0, 1, ..., n - 1 s with the given energy and probability 1. They fly in the direction to which reference_transform takes -x; for a rotation, their polarization is a unit vector perpendicular to the direction.", "quantifier": "for all n >= 1, energies, reference transforms and draws", "why_tests_cant": "The function is the documented way to run simulation grids; effective areas divide by the number of photons.", "anchors": ["marxs/analysis/run_helpers.py:monoenergetic_astrosimulation", "marxs/source/basesources.py:Source.generate_photons", "marxs/source/pointing.py:FixedPointing"]}
{"id": "C177", "title": "A multi layer coating reflects as its files say", "statement": "MultiLayerEfficiency takes peak wavelength, peak reflectivity and width at a photon linearly from the reflectivity file, at X measured from the edge of the mirror (X = y + |v_y|), and multiplies the probability by a Gaussian in wavelength whose peak is the measured reflectivity divided by the fraction of polarized light in the test; so light polarized as in the test is reflected as measured. It is a probability if no reflectivity of the file is larger than this fraction, at the peak only then. The energies of the polarization file are in keV as documented. MultiLayerMirror needs both file names.", "quantifier": "for all files, mirror sizes, energies and places", "why_tests_cant": "The files are measurements of real mirrors; a wrong coordinate or normalization changes the polarization measured by a polarimeter.", "anchors": ["marxs/optics/multiLayerMirror.py:MultiLayerEfficiency.interp_files", "marxs/optics/multiLayerMirror.py:MultiLayerEfficiency", "marxs/optics/multiLayerMirror.py:MultiLayerMirror"]}
{"id": "C178", "title": "The assembled Arcus sends photons through all its parts", "statement": "FiltersAndQE multiplies the probability by the transmissions of all filters and the QE, in any order, and refuses energies outside of a table and transmissions outside of [0, 1]. An Arcus has aperture, mirrors, gratings, filters (if not left out), boom and detectors in this order, for the perfect instrument, for plotting and for SIXTE. Every part that the alignment budget names is in each of these instruments, and every class of detectors can be used.", "quantifier": "for all energies, tables, lists of parts and subtrees", "why_tests_cant": "The effective area is the product over all parts; a part in the wrong place or missing changes it without an error.", "anchors": ["marxs/missions/arcus/arcus.py:FiltersAndQE", "marxs/missions/arcus/arcus.py:PerfectArcus", "marxs/missions/arcus/arcus.py:ArcusForSIXTE", "marxs/missions/arcus/arcus.py:ArcusForPlot", "marxs/missions/arcus/arcus.py:DetMany"]}
{"id": "C179", "title": "The focal plane detector and the camera of Arcus see the photons", "statement": "FocalPlaneDet is the plane z = 0 with 10 m to each side unless a zoom, an orientation or a matrix is given. It records every photon that comes from above with its place in the plane. After the circular detector photons are moved back by 100 mm, so that the camera sees a photon on every chip that its ray passes up to 100 mm before the circle or anywhere behind. The photons that the camera detects are detected by FocalPlaneDet as well.", "quantifier": "for all keywords, directions and positions", "why_tests_cant": "SIXTE files are made from the focal plane detector; photons missing there are missing in the simulated observation.", "anchors": ["marxs/missions/arcus/arcus.py:FocalPlaneDet", "marxs/missions/arcus/arcus.py:PerfectArcus.add_detectors"]}
{"id": "C180", "title": "The mirror of Lynx and AXIS focusses what its shells let in", "statement": "MetaShellMirror is a square at one focal length from the origin, 10 percent larger than the largest shell. Photons that enter through the aperture of any shell hit it and are focussed; on axis and without scatter they all meet in the origin. A photon from a place at distance rho from the axis that is scattered by a in the plane of reflection and by b perpendicular to it meets the focal plane at rho - f tan(atan(rho/f) + a) / cos b in the radial and at f tan b in the tangential direction.", "quantifier": "for all focal lengths, tables of shells, places and draws", "why_tests_cant": "This is the point spread function of both missions.", "anchors": ["marxs/missions/lynx/mirror.py:MetaShellMirror", "marxs/missions/lynx/mirror.py:MetaShellAperture", "marxs/optics/scatter.py:RadialMirrorScatter"]}
{"id": "C181", "title": "All mirrors of Athena and of a channel of Arcus have one focus", "statement": "The mirror modules of Athena and of an Arcus channel are in one plane and share one optical axis, so that they focus all photons of one direction in the same point, on axis the reference point of the channel. The aperture of Athena covers all modules. A photon that comes to the plane on exactly one module is focussed by that one, gets its number, the scatter, and its probability is multiplied by the square of the reflectivity, the open area and the loss; a photon that meets none gets probability 0.", "quantifier": "for all tables of modules, directions, positions and energies", "why_tests_cant": "Modules with different axes would blur the image; photons between modules have to be lost.", "anchors": ["marxs/missions/athena/spo.py:SimpleSPOs", "marxs/missions/athena/spo.py:SPOChannelMirror", "marxs/missions/athena/spo.py:spogeom2pos4d", "marxs/missions/athena/spo.py:ScatterPerChannel", "marxs/missions/athena/spo.py:spomounting"]}
{"id": "C182", "title": "Checks of OGIP tables", "statement": "_check_mandatory_keywords accepts a table if and only if TELESCOP, INSTRUME, FILTER and all extra keywords are in its header, and otherwise raises OGIPFormatError. _check_col_and_type accepts a table if and only if every required name is a column or keyword with one of the required types and the required number of dimensions.", "quantifier": "all tables, all lists of keywords and all lists of required columns", "why_tests_cant": "The checks are what keeps files that other programs cannot read from being written.", "anchors": ["marxs/reduction/ogip.py:_check_mandatory_keywords", "marxs/reduction/ogip.py:_check_col_and_type"]}
{"id": "C183", "title": "Writing and reading an ARF", "statement": "ARF.write writes a table if and only if the mandatory keywords are present; it sets the five keywords of an OGIP response and changes nothing else. ARF.read gives exactly the tables that have the three required columns, and a table that was written can be read again.", "quantifier": "all tables and all keyword arguments", "why_tests_cant": "Effective areas are exchanged with fitting programs in this form.", "anchors": ["marxs/reduction/ogip.py:ARF.write", "marxs/reduction/ogip.py:ARF.read"]}
{"id": "C184", "title": "Type I spectra", "statement": "PHAI makes a table with the data that it is given, PHAI.write writes tables with the mandatory keywords and the five columns or keywords for scaling, quality and grouping, and PHAI.read reads them again.", "quantifier": "all tables and all keyword arguments", "why_tests_cant": "Spectra are the third kind of file that fitting programs need.", "anchors": ["marxs/reduction/ogip.py:PHAI.__init__", "marxs/reduction/ogip.py:PHAI.write", "marxs/reduction/ogip.py:PHAI.read"]}
{"id": "C185", "title": "Headers of response matrices", "statement": "RMF sets DETCHANS to the number of rows and CHANTYPE and HDUCLAS3 as asked for, and accepts only tables with the required columns and keywords. RMF.write sets the keyword TLMIN with the number of the column F_CHAN or CHANNEL and the OGIP keywords of both extensions, writes nothing if TLMIN is missing, and changes no other keyword; RMF.read accepts what was written and gives it back.", "quantifier": "all pairs of tables, all values of CHANTYPE, HDUCLAS3 and TLMIN", "why_tests_cant": "TLMIN decides which channel the matrix elements belong to.", "anchors": ["marxs/reduction/ogip.py:RMF.__init__", "marxs/reduction/ogip.py:RMF.write", "marxs/reduction/ogip.py:RMF.read"]}
{"id": "C186", "title": "Gaussian redistribution matrix", "statement": "RMF.from_Gauss_sigma makes a square matrix in which every row is a normalised Gaussian centred on its own channel, with the width interpolated from the table (exactly the table's where the channel is a node), so that no row adds up to more than 1. Tables with wavelengths and tables with energies can be used. The keywords of the observatory are those of headerkw.", "quantifier": "all tables of widths, all edges of channels, all thresholds, all interpolations that reproduce straight lines", "why_tests_cant": "This is the simple way to make a response for an instrument of known resolution.", "anchors": ["marxs/reduction/ogip.py:RMF.from_Gauss_sigma"]}
{"id": "C187", "title": "Scattered grating periods", "statement": "With a scatter that is not negative, varyperiod gives grating number i the period mean + sigma*z_i with its own draw z_i and changes nothing else; diffraction then uses that number at every place of the grating. The first element without a period raises ValueError: the elements before it have changed, it and those behind have not. A negative sigma changes nothing. A period that depends on the place (bent gratings) is replaced by one number.", "quantifier": "all lists of elements, means, scatters and draws", "why_tests_cant": "the scatter of the grating period is one of the tolerances in the error budget; a period drawn once for all gratings would give the wrong resolving power", "anchors": ["marxs/design/tolerancing.py:varyperiod", "marxs/design/tolerancing.py:oneormoreelements", "marxs/optics/grating.py:FlatGrating.d"]}
{"id": "C188", "title": "New order selectors", "statement": "varyorderselector gives each element the result of its own call of the class, one call after the other, and keeps the period. The first element without selector raises ValueError and an error in the class is passed on; both leave this element and those behind as they are.", "quantifier": "all lists of elements and all classes of selectors", "why_tests_cant": "each grating has its own blaze; a shared selector would correlate the errors of all gratings", "anchors": ["marxs/design/tolerancing.py:varyorderselector", "marxs/design/tolerancing.py:oneormoreelements"]}
{"id": "C189", "title": "Plots of one changed parameter", "statement": "The points in the plot for a parameter are exactly the rows in which no other parameter is changed, each once; there is one line for each wavelength, in increasing order, and the points on a line follow the parameter, with rotations in degrees. Label and title follow from the name of the parameter. An own second axis, or none, needs the name SubplotBase in matplotlib.", "quantifier": "all tables, lists of parameters and names", "why_tests_cant": "plots of tolerances are what the error budget is read from; a row with two changed parameters in a plot would mix two errors", "anchors": ["marxs/design/tolerancing.py:WigglePlotter.plot_wiggle", "marxs/design/tolerancing.py:select_1dof_changed"]}
{"id": "C190", "title": "Overview plots of tolerances", "statement": "load_and_plot makes one panel for each of at most six parameters, all with the same background: that of the last entry of bg_colors whose name is a part of the name of the file, otherwise the colour of the user, or white. A colour given by the user is kept only if no entry matches: the code asks for the word axis_facecolor, with which there is no plot.", "quantifier": "all tables, names of files, colours and keyword arguments", "why_tests_cant": "the background marks which kind of motion was simulated; more than six parameters or an own colour do not work as described", "anchors": ["marxs/design/tolerancing.py:WigglePlotter.load_and_plot", "marxs/design/tolerancing.py:DispersedWigglePlotter.plot_one_line"]}
{"id": "C191", "title": "Elements in an X3D scene", "statement": "x3d.plot_object adds to a scene exactly the elements that have a shape the backend can draw, those inside of containers at any depth included and in their order, each with its own display settings; what was in the scene stays and has no influence. Without a scene a new one is returned. The functions for single shapes (box, surface) do not return the scene that their docstring promises.", "quantifier": "all trees of elements, display settings and scenes", "why_tests_cant": "an element that is missing or drawn twice makes the drawing of an instrument useless; a scene that is not returned is lost", "anchors": ["marxs/visualization/x3d.py:plot_object", "marxs/visualization/x3d.py:container", "marxs/visualization/x3d.py:box", "marxs/visualization/x3d.py:empty_scene", "marxs/visualization/x3d.py:indexed_triangle_set"]}
{"id": "C192", "title": "Coordinates in X3D files", "statement": "The coordinates in an X3D file, in metres, have conf.xyz_precision + 3 digits and differ from those in the simulation, in mm, by no more than half a unit of the digit with number xyz_precision; numbers that have no more digits are kept exactly. Transparency and opacity add up to one.", "quantifier": "all points and all precisions that are not negative", "why_tests_cant": "rounding keeps the files small, but must not move an element visibly; a wrong factor would give the wrong size", "anchors": ["marxs/visualization/x3d.py:_format_points", "marxs/visualization/x3d.py:_diffuse_material"]}
{"id": "C193", "title": "HTML archives of scenes", "statement": "write_html_archive leaves the sources of the scene as they were, even if a download or the page fails, and the archive has the page and every file that the page asks for, by its plain name. There are two implementations, and the last one chosen is used.", "quantifier": "all scenes with one of the implementations, all outcomes of the downloads and of the page", "why_tests_cant": "an archive is made to be opened without network; a missing file makes it useless, and changed sources break the next plot in the notebook", "anchors": ["marxs/visualization/x3d.py:Scene.write_html_archive", "marxs/visualization/x3d.py:Scene.set_X3D_implementation", "marxs/visualization/x3d.py:Scene._repr_html_"]}
{"id": "C194", "title": "Lines and colours of rays", "statement": "The lines mayavi draws connect exactly those points that follow each other on a ray; each point has the value of its ray or its own. The json for three.js holds coordinates and colours of all points in order, three numbers each, and fits the schema if and only if there are rays with points. The shared default for the properties changes at most once.", "quantifier": "all numbers of rays and points, all ways to give values", "why_tests_cant": "a line between the end of one ray and the start of the next, or a shifted colour, would show rays that do not exist", "anchors": ["marxs/visualization/mayavi.py:plot_rays", "marxs/visualization/threejs.py:_format_plot_rays_input", "marxs/visualization/threejsjson.py:plot_rays"]}
{"id": "C195", "title": "Positions in three.js", "statement": "The loader for three.js puts a box where it is in the simulation. A torus gets the transposed matrix, so that it is at the wrong place whenever it is moved. There is no call of threejs.plot_object, or of its functions for rays and shapes, that works.", "quantifier": "all positions of elements, all arguments", "why_tests_cant": "a Rowland torus is drawn to show where the detectors have to be; at the wrong place it misleads", "anchors": ["marxs/visualization/threejsjson.py:box", "marxs/visualization/threejsjson.py:torus", "marxs/visualization/threejs.py:plot_object", "marxs/visualization/threejs.py:plot_rays", "marxs/visualization/threejs.py:torus"]}
{"id": "C196", "title": "Interpolated grating efficiencies", "statement": "For every photon the probabilities of an InterpolateEfficiencyTable are a blend of the four rows of the table around its wavelength and blaze angle, with the same non-negative weights, summing to 1, for all orders; rows are reproduced, the range of the table is not left, the total stays at or below 1 if it is in each row. Photons outside of the table get the values at the edge without an error. Tables with falling wavelengths or angles are refused with a ValueError.", "quantifier": "all tables that are accepted, all energies and blaze angles", "why_tests_cant": "probabilities below 0 or above 1 would give photons with negative weight or more photons than there are; a table with mixed up rows would give wrong effective areas", "anchors": ["marxs/missions/mitsnl/catgrating.py:InterpolateEfficiencyTable.__init__", "marxs/missions/mitsnl/catgrating.py:InterpolateEfficiencyTable.probabilities", "marxs/missions/mitsnl/catgrating.py:InterpolateEfficiencyTable.__call__", "marxs/missions/mitsnl/catgrating.py:tablerows_to_2d"]}
{"id": "C197", "title": "Diffraction on the first support structure", "statement": "The selector for the L1 structure is accepted, loses no photon, gives positive and negative orders the same probability, and higher orders less than lower ones.", "quantifier": "all draws", "why_tests_cant": "the cross-dispersion by L1 is symmetric and must not change the effective area", "anchors": ["marxs/missions/mitsnl/catgrating.py:l1_order_selector"]}
{"id": "C198", "title": "Response of order 0 for Arcus", "statement": "mkrmf0 makes one row for each channel: a Gaussian in energy about the middle of the channel with the width interpolated from the table, entries below the threshold left out; a row sums up to 1 at most, and neighbours of the same width in energy get the same. from_Gauss_sigma, which the source suggests as replacement, gives another matrix in that case, whatever the widths.", "quantifier": "all edges, tables of widths and thresholds; all symmetric distributions without gaps for the comparison", "why_tests_cant": "the comment in the source asks for exactly this comparison; the response decides which energy is read off a channel", "anchors": ["marxs/missions/arcus/arfrmf.py:mkrmf0", "marxs/reduction/ogip.py:RMF.from_Gauss_sigma", "marxs/reduction/ogip.py:RMF.arr_to_rmf_matrix_row"]}
{"id": "C199", "title": "Files with numbers", "statement": "load_number returns the only entry of the column, with the unit of the column if there is one, and refuses all tables without exactly one row. The hash of the data is in the log exactly once, before the first file; each file that can be read is in the log, in order. The text of the exception is wrong for empty tables.", "quantifier": "all files, all sequences of calls", "why_tests_cant": "a number read from the wrong row or without unit changes the instrument; the log is the record of the version of the calibration", "anchors": ["marxs/missions/arcus/load_csv.py:load_number", "marxs/missions/arcus/load_csv.py:load_table", "marxs/missions/arcus/load_csv.py:log_tab_metadata"]}
{"id": "C200", "title": "Columns of detectors", "statement": "A flat detector records, for every photon that hits it, the local coordinates in the columns loc_coos_name and the pixel numbers coordinate / pixsize + centerpix in the columns detpix_name, if these names are four different ones; photons that miss it are not changed (nan in new columns). Of the detectors that come with marxs three have the same names for both (AXIS imaging and zero, athecat zero): there the local coordinates overwrite the pixels, so that the columns do not contain pixel numbers and pixsize has no effect at all.", "quantifier": "all tables, masks, intersections, pixel sizes and names; the list of all detectors in the package", "why_tests_cant": "Pixel numbers are what one compares with real detectors; losing them by a name clash is silent.", "anchors": ["marxs/optics/detector.py:FlatDetector.specific_process_photons", "marxs/optics/base.py:OpticalElement.process_photons", "marxs/missions/AXIS/AXIS.py:imaging", "marxs/missions/athena/athecat.py:zero"]}
{"id": "C201", "title": "Set-up of AXIS", "statement": "PerfectAXIS puts aperture, lens, geometric scaling, scatter, gratings (if asked for), filters and detectors in this order and can be set up with all three configurations of the file, only the last of which is chirped; the class AXIS fails with KeyError for all three, as none has an alignment budget, and works once one is added (NotImplementedError for rows of unknown kind). MirrorGeometricScaling multiplies all probabilities by its factor without a check of the range. add_rowland_to_conf sets alpha, beta, rowland and blazemat from four other entries and nothing else; a copy with another blaze angle keeps the old torus.", "quantifier": "all results of design_tilted_torus, all budgets, tables, factors and configurations", "why_tests_cant": "Documents which of the shipped configurations can be used and that optical order and probabilities are right.", "anchors": ["marxs/missions/AXIS/AXIS.py:PerfectAXIS.__init__", "marxs/missions/AXIS/AXIS.py:AXIS.__init__", "marxs/missions/AXIS/AXIS.py:MirrorGeometricScaling.__call__", "marxs/missions/lynx/lynx.py:add_rowland_to_conf"]}
{"id": "C202", "title": "Plots of order sorting", "statement": "plot_mixture draws the fraction of the main order, of each contaminating order and the sum of all of them, for every grid of wavelengths, if all offsets are smaller than the order; if an offset leads to order 0 or to the other side (and for order 0) the call raises ValueError as the number 0 can not be drawn over the grid. Therefore apply_osip_all writes all ARFs, and then the plots if the order in the middle of the list is far enough from 0, but ends with an exception and without plots if it is -1, 0 or 1 with the default offsets. plot_summed_arf is the sum of the areas at wavelengths in the tables; outside of the range of an ARF it uses the area of the last bin instead of 0.", "quantifier": "all windows, redistribution functions, grids, orders, offsets, ARFs", "why_tests_cant": "Tests call these functions with orders far from 0 and do not look at what is drawn.", "anchors": ["marxs/reduction/osip.py:OSIPBase.plot_mixture", "marxs/reduction/osip.py:OSIPBase.plot_summary", "marxs/reduction/osip.py:OSIPBase.plot_summed_arf", "marxs/reduction/osip.py:OSIPBase.apply_osip_all"]}
{"id": "C203", "title": "README of order sorting", "statement": "write_readme replaces exactly the six names of the template by their values: description, offsets, meta information (one line per entry) and three names of files; the names are those that apply_osip writes for order -4 and true orders -4, -5 and -3 if there is no prefix. The argument outroot is ignored, with a prefix the files named do not exist. Entries of the meta information that are neither text nor tuples, unknown names and single dollars are errors.", "quantifier": "all texts of templates, descriptions, channels, prefixes and meta data", "why_tests_cant": "there is no test of write_readme", "anchors": ["marxs/missions/arcus/arfrmf.py:write_readme", "marxs/missions/arcus/arfrmf.py:filename_from_meta"]}
{"id": "C204", "title": "One wavelength, one point", "statement": "Photons that converge to a focus on the Rowland circle are diffracted by gratings anywhere on the circle (same angle between photon and grating, grooves perpendicular to the plane of the circle) such that all photons of one order and wavelength meet the circle in the same point, at twice the diffraction angle from the focus. For gratings anywhere on the torus, with the focus on its axis, they arrive at the same coordinate along the axis. The positions calculated for elements on a torus with normal_spec=focus and parallel_spec=axis of the torus fulfill this.", "quantifier": "all rigid positions of the torus, radii, places of gratings, orders, wavelengths, periods, both conventions for the sign of orders", "why_tests_cant": "This is the purpose of the Rowland geometry; it connects the torus, the placement of elements, the grating equation and the detector.", "anchors": ["marxs/design/rowland.py:RowlandTorus.parametric", "marxs/optics/grating.py:FlatGrating.diffract_photons", "marxs/simulator/simulator.py:ParallelCalculated.calculate_elempos"]}
{"id": "C205", "title": "Detection on the Rowland circle", "statement": "A circular detector made from the Rowland torus reports, for all gratings in the plane of the Rowland circle that are outside of the angles covered by the detector, the same angle (twice the diffraction angle from the angle of the focus) and the height 0 for all photons of one order and wavelength; different wavelengths of one order are reported at different angles.", "quantifier": "all tori, widths, rotations, limits of angles, places of gratings, orders and wavelengths", "why_tests_cant": "End-to-end statement for a spectrograph; wrong signs in one of the parts are seen here.", "anchors": ["marxs/math/geometry.py:Cylinder.from_rowland", "marxs/math/geometry.py:Cylinder.intersect", "marxs/optics/grating.py:FlatGrating.diffract_photons", "marxs/optics/detector.py:CircularDetector"]}
{"id": "C206", "title": "Corners of the ACIS chips from text", "statement": "The corner of a chip is the three decimal numbers in the row of the table whose name and corner match, read from text such as '(2.361, 26.484, 23.088)'; all ten chips of ACIS-I and ACIS-S are in the shipped table, with the corners the model of the detector uses, an unknown chip fails, and the name of a chip shown to the user is built from its number.", "quantifier": "all tables, chips, decimal numbers and numbers of blanks", "why_tests_cant": "A wrong corner moves a CCD in the focal plane.", "anchors": ["marxs/missions/chandra/det_acis.py:ACIS.get_corners", "marxs/missions/chandra/det_acis.py:ACISChip.chip_name", "marxs/missions/chandra/data.py:PIX_CORNER_LSI_PAR"]}
{"id": "C207", "title": "Photons to and from MARX", "statement": "The conversion of a photon table to the C structures of MARX keeps all values, numbers photons without tags with distinct tags, lists the photons ordered by energy and sets the range of times; the conversion back returns all photons that MARX calls valid. A mirror that does nothing returns the photons in the global coordinates they had.", "quantifier": "all tables, positions of the mirror and results of the C code", "why_tests_cant": "Photons are matched to their old rows by tag after the C code; a photon with wrong values stays unnoticed.", "anchors": ["marxs/optics/marx.py:MarxMirror._table2c", "marxs/optics/marx.py:MarxMirror._c2table", "marxs/optics/marx.py:MarxMirror._process_photons_in_c"]}
{"id": "C208", "title": "Local coordinates are only temporary", "statement": "A function decorated with photonlocalcoords works in local coordinates, and after the call the photons of the caller are in global coordinates. So the MARX mirror transports the polarization from the direction before to the direction after the reflection.", "quantifier": "all positions of the element, all photons and functions", "why_tests_cant": "The decorator rewrites the columns in place and transforms only the returned table back.", "anchors": ["marxs/optics/base.py:photonlocalcoords", "marxs/optics/marx.py:MarxMirror.__call__", "marxs/optics/aperture.py:BaseAperture.add_colpos"]}
{"id": "C209", "title": "Photons stay physical in any instrument", "statement": "In any sequence of lenses, gratings, scatterers, filters, baffles, detectors, multilayer mirrors, propagators and global filters, each photon that has a direction has a unit direction, a unit polarization perpendicular to it, the energy it started with, and a probability in 0..1 that never increases.", "quantifier": "all sequences of these elements, all positions with perpendicular axes, all photon lists and random draws", "why_tests_cant": "Every element writes its own columns; a slip in one of them (lens, transport of the polarization, factors of the probability) shows only later in the instrument. The polarization is kept where directions agree within 1e-8.", "anchors": ["marxs/optics/base.py:OpticalElement.process_photons", "marxs/optics/base.py:_assign_col_value", "marxs/optics/mirror.py:PerfectLens.specific_process_photons", "marxs/optics/grating.py:FlatGrating.specific_process_photons", "marxs/optics/scatter.py:RadialMirrorScatter.specific_process_photons", "marxs/optics/multiLayerMirror.py:FlatBrewsterMirror.specific_process_photons", "marxs/simulator/simulator.py:BaseContainer.__call__"]}
{"id": "C210", "title": "Photons do not influence each other", "statement": "An optical element gives a photon the same columns, whether it is alone in the table or one of many; a call fails only if one of the photons alone would make it fail; the photons of two lists in one table come out as if the lists were sent through the instrument one after the other.", "quantifier": "all elements and sequences, all photon lists and random draws (given to the photon they are drawn for)", "why_tests_cant": "The elements work on masks and columns of the whole table; an index into the wrong array gives a photon the values of its neighbour.", "anchors": ["marxs/optics/base.py:OpticalElement.process_photons", "marxs/optics/base.py:_assign_col_value", "marxs/simulator/simulator.py:BaseContainer.__call__", "marxs/simulator/simulator.py:Propagator.__call__"]}
{"id": "C211", "title": "Photons in orders that do not exist", "statement": "A grating gives a photon no direction (nan) exactly if the selected order does not exist for its wavelength; this photon does not hit anything later and does not count in the probabilities at the end.", "quantifier": "all gratings, orders, wavelengths and sequences behind the grating", "why_tests_cant": "Order selectors do not know the wavelength limit of an order.", "anchors": ["marxs/optics/grating.py:FlatGrating.diffract_photons", "marxs/optics/grating.py:FlatGrating.specific_process_photons", "marxs/math/geometry.py:FinitePlane.intersect", "marxs/optics/base.py:OpticalElement.process_photons"]}
{"id": "C212", "title": "A stack acts like the sequence of its layers", "statement": "A FlatStack does to a photon what a plane without function followed by its layers, one after the other in the same position, does to it; a photon that misses the stack is not changed.", "quantifier": "all stacks of layers with the position of the stack, all photons and random draws", "why_tests_cant": "The stack calculates the intersection once and hands it to all layers; a layer that changes the direction (or sets it to nan) is followed by layers that do not look at the new direction.", "anchors": ["marxs/optics/base.py:FlatStack.process_photons", "marxs/optics/base.py:FlatStack.__init__", "marxs/optics/base.py:OpticalElement.process_photons"]}
{"id": "C213", "title": "Scatter is added at the last interaction", "statement": "The scatterers change the direction of a photon, the point of origin of the ray remains unchanged (the docstring of the module); every photon is scattered.", "quantifier": "all scatterers, positions of the scatterer and photons", "why_tests_cant": "The classes are flat elements with a position: the photon is moved to their plane, and a photon that does not meet the plane is not scattered.", "anchors": ["marxs/optics/scatter.py:RadialMirrorScatter.specific_process_photons", "marxs/optics/scatter.py:RandomGaussianScatter.specific_process_photons", "marxs/optics/base.py:OpticalElement.process_photons"]}
{"id": "C214", "title": "Moving a photon along its ray in front of an element changes nothing", "statement": "A photon that is propagated along its ray by a Propagator, but not beyond the next element, leaves this element as if it had not been propagated; if it is propagated beyond the element, the element does nothing to it.", "quantifier": "all flat elements, photons that hit the element, all distances", "why_tests_cant": "Positions of photons are only meant to define the ray.", "anchors": ["marxs/simulator/simulator.py:Propagator.__call__", "marxs/optics/base.py:OpticalElement.__call__", "marxs/optics/scatter.py:RadialMirrorScatter.specific_process_photons", "marxs/math/geometry.py:FinitePlane.intersect"]}
{"id": "C215", "title": "Photons are physical from the source to the end of any instrument", "statement": "A photon of a source that is not on a pole starts on the aperture in the direction away from the source, with unit polarization perpendicular to its direction and the projected area as probability; after any sequence of elements it has the energy of the source, a unit direction, a unit polarization perpendicular to it (up to 1e-8 for each element passed) and a probability in 0..1.", "quantifier": "all sources (positions, energies, polarization angles), pointings, apertures and sequences of elements", "why_tests_cant": "End-to-end statement for a simulation, over modules that only share the columns of the table.", "anchors": ["marxs/source/pointing.py:FixedPointing.process_photons", "marxs/optics/aperture.py:RectangleAperture.generate_local_xy", "marxs/optics/aperture.py:FlatAperture.specific_process_photons", "marxs/simulator/simulator.py:BaseContainer.__call__", "marxs/optics/base.py:OpticalElement.process_photons"]}
{"id": "C216", "title": "Dimensions of the boom", "statement": "Dimensions given to a boom replace those of the class, all others stay; unknown dimensions are refused with a ValueError; the keyword is the one in the docstring; the diagonals have the length of the diagonal of a window.", "quantifier": "all dictionaries of dimensions", "why_tests_cant": "Only the defaults are tested; a boom with other dimensions shades other photons.", "anchors": ["marxs/missions/arcus/boom.py:ThreeSidedBoom.__init__"]}
{"id": "C217", "title": "Keywords of scatterers and filters", "statement": "The scatter angle is the keyword if given (with a warning if the class has a value, too) and else that of the class; the angle perpendicular to the plane is 0 by default; each class takes its own keywords and leaves all others; a missing required keyword is a ValueError.", "quantifier": "all dictionaries of keywords and class attributes", "why_tests_cant": "Keywords that are not taken out are refused later by the base class.", "anchors": ["marxs/optics/scatter.py:RandomGaussianScatter.__init__", "marxs/optics/scatter.py:RadialMirrorScatter.__init__", "marxs/optics/filter.py:GlobalEnergyFilter.__init__", "marxs/optics/filter.py:EnergyFilter.__init__"]}
{"id": "C218", "title": "Inherited docstrings", "statement": "A method without docstring gets the docstring of the nearest base class that documents the method; methods with docstring and everything that is not writable stay as they are.", "quantifier": "all class hierarchies", "why_tests_cant": "With multiple inheritance the loop asks each class for the attribute it would find, not for its own.", "anchors": ["marxs/base/base.py:DocMeta.__new__"]}
{"id": "C219", "title": "Names and properties of objects in plots", "statement": "The properties of a plotted object are set to the values that the display dictionary (the one given, or else that of the object) has for them, and no other property is set; the name of an object is its attribute name if there is one.", "quantifier": "all display dictionaries and lists of properties", "why_tests_cant": "Plots are not tested without mayavi.", "anchors": ["marxs/visualization/mayavi.py:plot_object", "marxs/visualization/utils.py:get_obj_name", "marxs/visualization/utils.py:DisplayDict"]}
{"id": "C220", "title": "A telescope images a point source into a point", "statement": "All photons from one direction that pass a lens and reach a detector with the focal point of this direction in its plane are found in the same point, wherever they entered the lens and whatever filters, baffles, propagators or gratings in order 0 are between lens and detector; elements that are not meant to bend rays leave each photon on its ray.", "quantifier": "all lenses (position, offset of the axis, focal length, reflectivity), directions, sequences of elements and detector positions", "why_tests_cant": "End-to-end statement on the image quality of the ideal telescope.", "anchors": ["marxs/optics/mirror.py:PerfectLens.specific_process_photons", "marxs/optics/base.py:OpticalElement.process_photons", "marxs/optics/grating.py:FlatGrating.diffract_photons", "marxs/simulator/simulator.py:BaseContainer.__call__"]}
{"id": "C221", "title": "Probabilities are weights", "statement": "If all probabilities of a photon list are multiplied by a number, a simulation gives the same photons with probabilities multiplied by this number; no element looks at the probability of a photon; a photon with probability 0 never counts again.", "quantifier": "all sequences of elements, photon lists, random draws and numbers", "why_tests_cant": "Effective areas are sums of probabilities; they must not depend on how the photons were weighted before.", "anchors": ["marxs/optics/base.py:_assign_col_value", "marxs/optics/base.py:OpticalElement.process_photons", "marxs/optics/baffles.py:Baffle.process_photons", "marxs/simulator/simulator.py:BaseContainer.__call__"]}
{"id": "C222", "title": "Results do not depend on the coordinate system", "statement": "An instrument that is rotated and shifted as a whole does to photons that are rotated and shifted in the same way what the instrument does to the photons: all positions, directions and polarizations come out rotated and shifted, energies and probabilities are the same.", "quantifier": "all rigid motions, sequences of elements, photon lists and random draws", "why_tests_cant": "Many functions use vectors of the coordinate system as an arbitrary start (guess vectors).", "anchors": ["marxs/optics/mirror.py:PerfectLens.specific_process_photons", "marxs/optics/mirror.py:ThinLens.process_photon", "marxs/optics/grating.py:FlatGrating.diffract_photons", "marxs/optics/scatter.py:RadialMirrorScatter.specific_process_photons", "marxs/optics/scatter.py:RandomGaussianScatter.specific_process_photons", "marxs/optics/multiLayerMirror.py:FlatBrewsterMirror.specific_process_photons", "marxs/math/geometry.py:FinitePlane.intersect", "marxs/math/polarization.py:paralleltransport_matrix"]}
{"id": "C223", "title": "Two multilayer mirrors are a polarizer and an analyzer", "statement": "A polarized photon that is reflected by two mirrors with reflectivity 1 for s and 0 for p polarization has its probability multiplied by the squared cosine between the polarization and the normal of the first plane of incidence, and then by the squared cosine of the angle between the two planes of incidence (law of Malus). Crossed mirrors give probability 0. A second mirror parallel to the first does not change the probability any more and restores the direction. A photon with probability 0 keeps probability 0 at further mirrors.", "quantifier": "all positions, orientations and sizes of the two mirrors, all unit directions and polarizations, all probabilities; photons that hit both mirrors", "why_tests_cant": "This is what polarimeter designs are simulated for, and the repository has a test with two mirrors for single numbers. The last part is false: a photon that was blocked has no polarization (0/0), so its probability is nan after the next mirror and all sums over probabilities are nan.", "anchors": ["marxs/optics/multiLayerMirror.py:FlatBrewsterMirror.specific_process_photons", "marxs/optics/multiLayerMirror.py:FlatBrewsterMirror.fresnel"]}
{"id": "C224", "title": "Orders of gratings in a row add up and light paths can be reversed", "statement": "A photon that passes two gratings with the same grooves and orientation in orders m1 and m2 leaves in the direction of order m1 + m2 of one grating (two reflections act as one transmission), so order -m after order m restores the direction; a photon on the way back along an outgoing direction leaves, in the same order, along the incoming direction. For CAT gratings, where the sign of the order depends on the side from which the ray comes, m1 + m2 holds too.", "quantifier": "all grating positions, groove angles, periods, wavelengths, orders and unit directions that are not in the plane of the grating, both for transmission and reflection", "why_tests_cant": "The diffraction equation is linear in the order; wrong signs or wrong normalisation in diffract_photons break this. The claim for CAT gratings is false if the first grating moves the ray to the other side: orders are then subtracted.", "anchors": ["marxs/optics/grating.py:FlatGrating.diffract_photons", "marxs/optics/grating.py:CATGrating.order_sign_convention"]}
{"id": "C225", "title": "A global energy filter can be anywhere in the instrument", "statement": "Moving a GlobalEnergyFilter to any other place in a Sequence changes neither the photon list at the end nor whether there is an exception. A filter with a place in the instrument (EnergyFilter) does not have this property.", "quantifier": "all sequences of lenses, gratings, scatterers, filters, mirrors, detectors, baffles and propagators, all photon lists and draws, all filter functions", "why_tests_cant": "Users put global filters where it is convenient; results must not depend on this, including for photons that are nan, photons that were set to probability 0 and filter functions that are out of range.", "anchors": ["marxs/optics/filter.py:GlobalEnergyFilter.__call__", "marxs/simulator/simulator.py:BaseContainer.__call__"]}
{"id": "C226", "title": "A photon interacts with only one element of a Parallel", "statement": "Of the elements of a Parallel (CCDs, grating facets) each photon interacts with at most one: it gets the number of this element and its effect, and all other elements leave it alone; photons between the elements are not changed.", "quantifier": "all lists of elements with any positions and sizes, all photons and draws", "why_tests_cant": "The class docstring promises it and says that it is not enforced. Proved for flat elements in one plane without common points, e.g. the four CCDs in the docstring; false for elements one behind the other and on shared edges, where a photon is processed twice.", "anchors": ["marxs/simulator/simulator.py:Parallel", "marxs/simulator/simulator.py:BaseContainer.__call__", "marxs/optics/base.py:OpticalElement.process_photons"]}
{"id": "C227", "title": "The order of the elements of a Parallel does not matter", "statement": "If the elements of a Parallel are listed in another order (with their numbers), the simulation gives the same photons, element numbers and exceptions.", "quantifier": "all lists of elements, all photons, photon lists and draws", "why_tests_cant": "Elements are called one after the other. Proved for flat elements in one plane without common points; false for elements one behind the other, because a photon does not fly backwards.", "anchors": ["marxs/simulator/simulator.py:Parallel.generate_elements", "marxs/simulator/simulator.py:BaseContainer.__call__", "marxs/optics/base.py:OpticalElement.process_photons"]}
{"id": "C228", "title": "The version text is taken apart", "statement": "The text of the version of the package, as written by setuptools_scm, is split into version number, git hash and date of uncommitted changes, which are written to the header of photon lists.", "quantifier": "every version text", "why_tests_cant": "Tags are how results are traced back to the program that made them; a part that is lost silently cannot be recovered.", "anchors": ["marxs/base/base.py:reexp", "marxs/base/base.py:TagVersion.__init__", "marxs/_astropy_init.py:__version__"]}
{"id": "C229", "title": "Headers tell versions apart", "statement": "The check of the headers of two photon lists passes for the keywords of the version exactly if the lists were made with the same version of the program.", "quantifier": "every pair of version texts, all other keywords and dates", "why_tests_cant": "check_meta_consistent is there to refuse to combine simulations from different versions of the code.", "anchors": ["marxs/base/base.py:reexp", "marxs/base/base.py:TagVersion", "marxs/base/base.py:check_meta_consistent"]}
{"id": "C230", "title": "Athena gratings are colored by sector", "statement": "The gratings of the Athena grating array are drawn in three colors, one for each pair of opposite 60 degree sectors around the optical axis.", "quantifier": "every position of a grating", "why_tests_cant": "The comment of the code says sectors; plots are the check of the layout that people look at.", "anchors": ["marxs/missions/athena/athecat.py:GAS"]}
{"id": "C231", "title": "Circular detectors see the first crossing", "statement": "A circular detector in an instrument moves each photon that hits to the first point of the detector on its path and changes nothing else; photons that miss are not changed; a second pass through the same detector changes nothing.", "quantifier": "every photon, every place, size, and angular range of the detector, every photon list", "why_tests_cant": "Circular detectors are used to measure the resolution of spectrographs without the effects of flat detectors; a photon taken at the far side of the tube would be counted at a wrong wavelength.", "anchors": ["marxs/optics/detector.py:CircularDetector", "marxs/math/geometry.py:Cylinder.intersect", "marxs/optics/base.py:OpticalElement.process_photons"]}
{"id": "C232", "title": "A Rowland spectrograph makes a point of a spectral line", "statement": "In an instrument made of a lens, transmission gratings on the Rowland circle that face the focus of the lens, and the circular detector made from the same Rowland circle, all photons of one energy diffracted into one order are detected at one point, wherever they hit the lens and whichever grating they pass; photons of different energies are detected at different points.", "quantifier": "every Rowland circle, lens, grating position on the circle, energy, order, and photon in the plane of the circle", "why_tests_cant": "This is the reason for the Rowland geometry; all instrument designs in the package are built on it.", "anchors": ["marxs/design/rowland.py:RowlandTorus", "marxs/optics/grating.py:FlatGrating", "marxs/optics/mirror.py:PerfectLens", "marxs/optics/detector.py:CircularDetector", "marxs/math/geometry.py:Cylinder.from_rowland", "marxs/simulator/simulator.py:Sequence"]}
{"id": "C233", "title": "Effective areas of instruments", "statement": "The effective areas calculated from the photon list at the end of any instrument are not negative and add up to at most the geometric area; no element makes one larger; a grey filter multiplies all by its transmission, the area behind a baffle is the geometric area times the fraction of photons through the hole, and photons that are run in batches give the mean of the areas of the batches.", "quantifier": "every instrument, every photon list with probabilities that are numbers, every set of orders, every geometric area", "why_tests_cant": "Effective area is the main result of a simulation; these are the rules by which people check it.", "anchors": ["marxs/analysis/gratings.py:effectivearea_from_photonlist", "marxs/optics/base.py:_assign_col_value", "marxs/optics/filter.py:GlobalEnergyFilter", "marxs/optics/baffles.py:Baffle", "marxs/simulator/simulator.py:Sequence"]}
{"id": "C234", "title": "A detector out of focus shows a scaled picture of the lens", "statement": "On a flat detector parallel to a perfect lens the spot of a point source is the illuminated part of the lens, scaled by one minus the distance of the detector in units of the distance of the focus; mean_width_2d scales in the same way and is 0 exactly in the focus.", "quantifier": "every lens, every parallel detector, every direction, every set of photons, any filters and other elements that do not change directions on the way", "why_tests_cant": "Detector positions are optimized by the width of the spot; the width has to be a straight function of the distance to the focus.", "anchors": ["marxs/optics/mirror.py:PerfectLens", "marxs/optics/detector.py:FlatDetector", "marxs/analysis/analysis.py:mean_width_2d", "marxs/simulator/simulator.py:Sequence"]}
{"id": "C235", "title": "What a misaligned element does", "statement": "Moving one element of an instrument is the same as moving all other elements and the photons the other way. A shift of a grating with one period, a filter, a scatterer, a Brewster mirror or a detector leaves direction, polarization and probability of each photon that still hits it as they were and moves its position along the ray only, and a shift in the plane of the element changes nothing but the local coordinates, which change by minus the shift. The images of a moved lens are moved with the point on its optical axis, so a shift moves all images by this shift and rotations around this point move none. A grating that is rotated around its normal is a grating with another angle of the grooves.", "quantifier": "every shift and rotation, every instrument of elements that draw no random directions (for the first part), every photon", "why_tests_cant": "Alignment budgets are read off from such runs; a wrong order of rotation and shift, or an element that looks at its old position, gives wrong budgets.", "anchors": ["marxs/design/tolerancing.py:moveelem", "marxs/optics/base.py:OpticalElement", "marxs/optics/mirror.py:PerfectLens", "marxs/optics/grating.py:FlatGrating", "marxs/optics/detector.py:FlatDetector", "marxs/simulator/simulator.py:Sequence"]}
{"id": "C236", "title": "Overlapping orders are told apart by the energy of the CCD", "statement": "Two spectral lines fall on the same point of the Rowland circle if and only if their orders have the ratio of their energies. The energy that belongs to a place for an assumed order is the energy for which the order sorting window is set. With windows that are a fraction (at most 1) of the distance between orders, a photon whose CCD energy is off by less than the half width of the window is sorted into its true order and no other, and place and order give its exact energy; with fraction 1 each CCD energy above half the distance is in one window. Windows of a fixed half width are disjoint if and only if it is at most half the distance.", "quantifier": "every torus, grating period, order and energy, every measured energy within the stated error, every photon through lens, grating and circular detector", "why_tests_cant": "This is what order sorting is for; simulation, response files and analysis have to mean the same energy for the same place.", "anchors": ["marxs/reduction/osip.py:OSIPBase", "marxs/reduction/osip.py:FractionalDistanceOSIP", "marxs/reduction/osip.py:FixedWidthOSIP", "marxs/optics/grating.py:FlatGrating", "marxs/optics/detector.py:CircularDetector", "marxs/design/rowland.py:RowlandTorus"]}
{"id": "C237", "title": "A grating or detector at the wrong distance stretches the spectrum", "statement": "If a flat element that acts the same everywhere (a grating with one period, a filter, ...) is shifted, a photon keeps the direction that the element gives to it. Its place on a flat detector moves by k (d - (d.n / d1.n) d1), where d and d1 are the directions in front of and behind the element, n is the normal of the detector and k the shift along the ray. Order 0 does not move at all, and all other orders and wavelengths of one ray move away from the place of order 0 by one common factor. If grating and detector are parallel, the factor 1 - t/D is the same for all rays. If the detector is shifted, the picture of all photons from one point of the grating is stretched by 1 + t/D.", "quantifier": "all shifts, all gratings with one period and other uniform elements, all flat detectors in any orientation, all photons that hit before and after the shift", "why_tests_cant": "Simulations with moved elements show the result for some shifts with scatter in the photons; the exact factor and its independence of order, wavelength and ray cannot be tested for all.", "anchors": ["marxs/design/tolerancing.py:moveelem", "marxs/optics/grating.py:FlatGrating", "marxs/optics/detector.py:FlatDetector", "marxs/math/geometry.py:FinitePlane"]}
{"id": "C238", "title": "Tilted transmission gratings", "statement": "A photon in order 0 passes a transmission grating in a straight line, for every shift and rotation of the grating, so that no misalignment of gratings moves order 0 on a detector. A photon perpendicular to the grooves that arrives with the angle th to the normal is deflected by an angle de with 2 sin(de/2) cos(th + de/2) = order * wavelength / period (with the sign convention of the grating). The deflection is never less than 2 asin(S/2), and it has this value only for symmetric passage, th = -de/2, which is the direction of reflection on the side walls of the bars of a CAT grating (the blaze).", "quantifier": "all shifts and rotations, all periods, orders, wavelengths and groove angles, all directions perpendicular to the grooves, both sign conventions", "why_tests_cant": "Tests look at one tilt at a time; that no tilt gives less deflection, and that order 0 never moves, is a statement on all of them.", "anchors": ["marxs/optics/grating.py:FlatGrating", "marxs/optics/grating.py:CATGrating", "marxs/design/tolerancing.py:moveelem", "marxs/optics/detector.py:FlatDetector"]}
{"id": "C239", "title": "Sources and pointings take the keywords they document", "statement": "Every source on the sky (point, radial distribution, disk, ring, Gaussian, letter F), every source in the laboratory and every pointing (fixed, with jitter, with dither) is made if and only if the keywords it needs are given, its coordinates are scalar (position and direction have three elements) and all keywords are known; attributes are then the values given or the documented defaults, an area of None means 1 without unit. A missing keyword is a KeyError, an unknown keyword or an array of coordinates a ValueError. FALSE: that every keyword accepted has an effect (a radial distribution and its parameters given to a disk are lost without a message), and that sources in the laboratory take all keywords of a source (geomarea is a TypeError of python).", "quantifier": "all keywords with all values (of any type), in any order and number", "why_tests_cant": "Constructors pass the keywords on through up to five classes with pop and super, so that a keyword that is consumed at the wrong place or a default that is wrong is not seen in tests with the usual keywords.", "anchors": ["marxs/source/basesources.py:Source", "marxs/source/basesources.py:AstroSource", "marxs/source/basesources.py:PointSource", "marxs/source/basesources.py:RadialDistributionSource", "marxs/source/basesources.py:SphericalDiskSource", "marxs/source/basesources.py:DiskSource", "marxs/source/basesources.py:GaussSource", "marxs/source/basesources.py:SymbolFSource", "marxs/source/labSource.py:FarLabPointSource", "marxs/source/labSource.py:LabPointSourceCone", "marxs/source/pointing.py:FixedPointing", "marxs/source/pointing.py:JitterPointing", "marxs/missions/chandra/dither.py:LissajousDither"]}
{"id": "C240", "title": "Header and columns of a simulated photon list", "statement": "The list of a source has exactly the documented header (exposure time in seconds, program version, date, time cut to ten characters, user and host or a text if they are unknown) and the columns time, energy, polangle, probability with their units. A source on the sky and a pointing add coordinates in degrees, the coordinate system, the pointing and the nominal pointing (the same), direction and polarization, and change nothing else. A pointing works if and only if there is no direction yet and coordinates, time and polarization angle are there; on a list with directions (after another pointing or from a source in the laboratory) it is a ValueError and changes nothing, with a missing column it is a KeyError and the header stays as it was. FALSE: that a failed pointing can be repeated when the missing column was added (it leaves a column of directions).", "quantifier": "all versions, dates, environments, exposure times, pointings; all photon lists with any columns and header", "why_tests_cant": "Later steps (response files, FITS output, analysis) rely on these entries; tests look at one list.", "anchors": ["marxs/source/basesources.py:Source", "marxs/source/basesources.py:AstroSource", "marxs/source/labSource.py:FarLabPointSource", "marxs/source/labSource.py:LabPointSourceCone", "marxs/source/pointing.py:PointingModel", "marxs/source/pointing.py:FixedPointing"]}
{"id": "C241", "title": "Header of an observation with Chandra and ACIS", "statement": "The entries SIM_X, SIM_Y, SIM_Z of the header are the shift of the detector: with them and the table of corners the corners of every chip are known. DETNAM lists the chips (0 to 9) in their order, so that they can be read back. The header can be written if and only if no photon hits a chip or ROLL_PNT is there with a comment; a list from a source on the sky with a pointing always can and then has the complete header, a list from the laboratory gives a KeyError as soon as a photon hits a chip. No other entry changes. FALSE: that a detector has one name (chips counted from the end, as python allows, appear as negative numbers), and that the references of the coordinate systems are in the header of every observation (they are not if no photon hits a chip).", "quantifier": "all aimpoints, offsets, choices of chips, patterns of chips that are hit, and all headers", "why_tests_cant": "The files are read by other programs that take geometry and chips from these entries; tests write one file.", "anchors": ["marxs/missions/chandra/chandra_global.py:Chandra", "marxs/missions/chandra/det_acis.py:ACIS", "marxs/missions/chandra/det_acis.py:ACISChip"]}
{"id": "C242", "title": "Energy resolution of a detector", "statement": "A detector whose energy resolution is given by a table (CCDRedistNormal) uses a column sigma as it is, and makes it from the column FWHM otherwise, such that the normal distribution has exactly the full width at half maximum of the table; with neither it is a KeyError. At the energies of the table the width is that of the table, between neighbours on the straight line, outside that of the first or last row. The distribution of detected energies is increasing and symmetric around the energy of the photon, the interval for a fraction holds that fraction, and an event of a simulation is in the interval exactly if the normal number drawn for it is; so the factor for order sorting is the probability that a simulated photon is in the window. Making a detector changes the table of the user: a second detector made from it after the FWHM was changed still has the old width.", "quantifier": "all tables with ascending energies, all energies, fractions, windows, orders, and all distributions", "why_tests_cant": "The same widths enter the simulated events and the calibration files; tests check single numbers.", "anchors": ["marxs/optics/detector.py:CCDRedistNormal", "marxs/reduction/osip.py:OSIPBase.osip_factor"]}
{"id": "C243", "title": "Wrong period or wrong direction of the grooves", "statement": "What a grating does depends on order, wavelength and period only by order times wavelength over period: gratings, orders and wavelengths with the same ratio give the same ray (or none), different ratios give different rays. So a photon that passes a grating with a wrong period continues like a photon with an energy that is changed by the ratio of the periods behind a perfect grating, and the energy that is assigned to it is wrong by the same factor in every order: periods that scatter by a fraction limit the resolving power to the same fraction in all orders. In the plane of the grating the direction changes along the dispersion direction only; when the grooves are turned the pattern of a photon at normal incidence is turned by the same angle, every order and wavelength stays at its distance. Order 0 of a transmission grating sees neither.", "quantifier": "all positions and both sign conventions of gratings, all directions, orders, wavelengths, periods and angles", "why_tests_cant": "Tolerances for gratings are derived from such simulations; the tests check single numbers for a few orders.", "anchors": ["marxs/optics/grating.py:FlatGrating", "marxs/optics/grating.py:CATGrating", "marxs/design/tolerancing.py:varyperiod"]}
{"id": "C244", "title": "Pictures of extended sources, roll and jitter", "statement": "With an undistorted pointing, rectangular aperture and lens and a positive focal length, every place on the sky has one image, f from the center of the lens, different places have different images, and a source at an angle th from another one is imaged f sin th from the line through the lens and the image of the other. All photons of a DiskSource or SphericalDiskSource out to a radius ao of at most 90 degrees are focussed within 2 f sin(ao/2) of the image of its center; photons of a GaussSource within f sigma sqrt(g1^2+g2^2). A roll of the telescope turns the picture about the axis by the same angle. Jitter by an angle a moves the image of a source on axis by 2 f sin(|a|/2).", "quantifier": "for all pointings, lenses, places on the sky, radii, draws, roll angles and jitter angles", "why_tests_cant": "Extended sources, roll and jitter have to appear in the focal plane with the size and orientation that the angles on the sky call for.", "anchors": ["marxs/source/basesources.py:DiskSource", "marxs/source/basesources.py:SphericalDiskSource", "marxs/source/basesources.py:GaussSource", "marxs/source/pointing.py:FixedPointing", "marxs/source/pointing.py:JitterPointing", "marxs/optics/mirror.py:PerfectLens"]}
{"id": "C245", "title": "Flat mirrors that are tilted, in pairs, and in a converging beam", "statement": "A flat mirror deflects a ray by twice its grazing angle, and light paths can be reversed. Tilting the mirror by an angle a around an axis perpendicular to the plane of incidence turns the reflected ray by 2a around this axis. Two mirrors inclined to each other by a turn every ray by 2a around their common axis, so turning both together changes nothing. All rays from one point seem to come from its mirror image, and rays that converge to a point converge to its mirror image, which is as far behind the mirror as the point is in front.", "quantifier": "for all mirrors, normals, axes, angles, rays and points", "why_tests_cant": "Tolerances of mirrors are tilts; a wrong sign or a normal taken from another column of pos4d would give a single instead of a double angle.", "anchors": ["marxs/optics/multiLayerMirror.py:FlatBrewsterMirror.specific_process_photons"]}
{"id": "C246", "title": "Baffles in a row and in the beam of a lens", "statement": "In a row of baffles a photon keeps its probability if and only if its ray crosses all openings one after the other, otherwise its probability is 0; nothing else but its position changes. The order in the list matters: a photon that passed one opening is absorbed by every later baffle that lies before this opening. A smaller opening in the same place never lets more photons pass. Two parallel openings at the distance L can be passed by photons of direction d if and only if the angles to the normal have tangents of at most (h1+h2)/L and (w1+w2)/L with the half sides h and w. A baffle at the distance s behind a lens of focal length f, centered on the ray through the center of the lens, passes exactly the photons that entered the lens within an opening larger by f/(f-s); in the focus every photon passes.", "quantifier": "for all lists of baffles, photons, directions, half sides, distances and lenses", "why_tests_cant": "Baffles define the field of view and suppress stray light; absorbing the wrong photons, or depending on more than the ray, changes effective areas.", "anchors": ["marxs/optics/baffles.py:Baffle", "marxs/optics/mirror.py:PerfectLens"]}
{"id": "C247", "title": "Spectra on a flat detector behind a transmission grating", "statement": "A photon that flies along the normal of a transmission grating and is diffracted with the sine S = order * wavelength / period (with the sign of the convention) is found on a detector parallel to the grating at the distance h at h S / sqrt(1 - S^2) along the direction of dispersion, and is not displaced along the grooves. The sine is read off the place without error as x / sqrt(h^2 + x^2). Places are ordered like the sines and at least h times the difference of the sines apart, so wavelengths in one pixel of width b differ at most by period * b / (order * h). The resolving power from places is smaller than the one from wavelengths, and a linear scale is too long by a fraction between S^2/2 and S^2/(2 (1 - S^2)).", "quantifier": "for all gratings, groove angles, orders, energies, photons along the normal, and distances of the detector", "why_tests_cant": "Resolving powers are calculated in the package from the width of a spot divided by its place; the difference between places and wavelengths has to be known.", "anchors": ["marxs/optics/grating.py:FlatGrating", "marxs/optics/detector.py:FlatDetector"]}
{"id": "C248", "title": "The matrix that Q_reflection is meant to return", "statement": "The lines of Q_reflection behind the check that always raises compute a matrix unless the change of direction is zero. The matrix does not depend on the length of the argument, takes the old direction to the new one and back, has no effect if applied twice, keeps scalar products, keeps transverse polarizations transverse, and on a flat mirror is the reflection at the mirror. It is the same as parallel_transport for all transverse polarizations.", "quantifier": "every pair of directions, every polarization, every mirror", "why_tests_cant": "two functions for the same purpose, one of them never run", "anchors": ["marxs/math/polarization.py:Q_reflection", "marxs/math/polarization.py:parallel_transport"]}
