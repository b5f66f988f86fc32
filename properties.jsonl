{"id": "C01", "title": "Cell numbering is a bijection", "statement": "For a background grid with n0 x n1 x n2 cells, converting a cell number to its (i,j,k) position and back is the identity in both directions, valid numbers 0..n0*n1*n2-1 map exactly onto the valid positions, and no two cells share a number.", "quantifier": "all grid sizes with every n>=1, all cell numbers and all positions", "why_tests_cant": "grid sizes are unbounded; a test only samples a few sizes and corner positions", "anchors": ["queso/containers/grid_indexer.hpp: GetMatrixIndicesFromVectorIndex, GetVectorIndexFromMatrixIndices"]}
{"id": "C02", "title": "Cell boxes tile the grid box", "statement": "The axis-aligned boxes returned for the cells cover the whole bounding box of the grid, have pairwise disjoint interiors, neighbouring cells share exactly the same face coordinate, and the outermost faces are the grid bounds. For B-spline grids the same holds in parameter space.", "quantifier": "all lower < upper bounds (real numbers), all grid sizes, all points of the grid box", "why_tests_cant": "uncountably many points and unbounded grid sizes", "anchors": ["queso/containers/grid_indexer.hpp: GetBoundingBoxXYZFromIndex, GetBoundingBoxUVWFromIndex, GetBoundingBoxFromIndex"]}
{"id": "C03", "title": "Directional stepping visits every cell exactly once", "statement": "Starting at the first cell of a box of cells and stepping repeatedly in any one of the six directions, every cell of that box is visited exactly once, the step reports 'global end' exactly on the last visited cell, and it reports 'middle' exactly when the returned cell is the face neighbour in that direction.", "quantifier": "all grid sizes, all sub-boxes of the grid, all six directions", "why_tests_cant": "an induction over an unbounded walk", "anchors": ["queso/containers/grid_indexer.hpp: GetNextIndex, GetNextIndexX/Y/Z, GetPreviousIndexX/Y/Z"]}
{"id": "C04", "title": "Forward and backward steps undo each other", "statement": "Whenever a step in a direction does not report 'global end', stepping in the reverse direction from the returned cell gives back the original cell.", "quantifier": "all grid sizes, all sub-boxes, all cells, all directions", "why_tests_cant": "unbounded domain", "anchors": ["queso/containers/grid_indexer.hpp: GetNextIndex, ReverseDirection"]}
{"id": "C05", "title": "End-of-line queries agree with stepping", "statement": "Asking whether a cell is the last one in a direction answers true exactly when a step in that direction does not reach a face neighbour.", "quantifier": "all grid sizes, cells and directions", "why_tests_cant": "unbounded domain", "anchors": ["queso/containers/grid_indexer.hpp: IsEnd"]}
{"id": "C06", "title": "Element store stays consistent under any creation order", "statement": "After any sequence of element creations (any interleaving of the parallel loop), looking up an id returns exactly the element created with that id, each active id occurs once, the counts of trimmed, untrimmed and active elements add up, and ids that were never successfully created are not found.", "quantifier": "all sequences / interleavings of element creations with arbitrary builder outcomes", "why_tests_cant": "the number of schedules is exponential; unit tests run one", "anchors": ["queso/containers/background_grid.hpp: MakeElement, GetElementView, pGetElement, NumberOfActiveElements"]}
{"id": "C07", "title": "Duplicate element ids are rejected without side effects", "statement": "Creating an element with an id that is already active reports an error and leaves the stored elements and all lookups unchanged; a builder that yields no element leaves the store unchanged too.", "quantifier": "all reachable stores, all ids, all builder outcomes", "why_tests_cant": "quantifies over all reachable states", "anchors": ["queso/containers/background_grid.hpp: MakeElement"]}
{"id": "C08", "title": "The set of created elements does not depend on the thread schedule", "statement": "Running the parallel element-creation loop in any order yields the same set of elements, the same counts, the same reported represented volume and the same number of integration points.", "quantifier": "all permutations of the active cells, all builder behaviours that are functions of the cell", "why_tests_cant": "n! schedules", "anchors": ["queso/embedded_model.cpp: ComputeVolume", "queso/containers/background_grid.hpp: MakeElement"]}
{"id": "C09", "title": "Neighbour lookup reports missing and wrapped neighbours as end", "statement": "Asking the background grid for the neighbour of an active element in a direction returns 'not end' only if the returned element is the face neighbour in that direction and is active; the returned id is always the next cell in traversal order.", "quantifier": "all stores, all elements, all directions", "why_tests_cant": "unbounded store states", "anchors": ["queso/containers/background_grid.hpp: GetNextElementByIndexer, GetNextElement, GetNextElementView"]}
{"id": "C10", "title": "Parallel partitions of the grid cover every cell once", "statement": "For any number of threads the slabs used for parallel classification are non-empty sub-boxes that cover each cell of the grid exactly once.", "quantifier": "all grid sizes with n>=1 and all thread counts >=1", "why_tests_cant": "unbounded sizes and thread counts", "anchors": ["queso/embedding/flood_fill.cpp: ClassifyElements"]}
{"id": "C11", "title": "Flood fill classifies every cell, trimmed exactly when it is cut", "statement": "Cell classification terminates, assigns every cell a state, and marks a cell as trimmed exactly when the intersection test of its box says so.", "quantifier": "all grid sizes, all thread counts, all group push orders, all outcomes of the geometric tests", "why_tests_cant": "quantifies over all geometries and schedules", "anchors": ["queso/embedding/flood_fill.cpp: ClassifyElements, PartitionedFill, Fill, Move"]}
{"id": "C12", "title": "Connected uncut cells get the same inside/outside state", "statement": "Two uncut cells connected through a chain of face neighbours that are not separated by a cut face receive the same state, and the state is decided by the majority of the ray votes collected around exactly that connected region.", "quantifier": "all grids, all symmetric cut tests, all vote functions, all thread counts and push orders", "why_tests_cant": "reachability over unbounded graphs, all geometries", "anchors": ["queso/embedding/flood_fill.cpp: Fill, MergeGroups, GroupFill"]}
{"id": "C13", "title": "Classification does not depend on the number of threads", "statement": "With a symmetric face test the resulting classification vector is identical for every number of threads and every order in which threads publish their groups; with an asymmetric face test it may depend on it (counterexample).", "quantifier": "all grids, thread counts, push orders, geometric oracles", "why_tests_cant": "schedules and oracles are unbounded", "anchors": ["queso/embedding/flood_fill.cpp: ClassifyElements, PartitionedFill, MergeGroups, GroupFill"]}
{"id": "C14", "title": "Only face neighbours vote on the state of a region", "statement": "If no cell of the two outermost layers along the partition direction is cut, every inside/outside vote of a region comes from a cell of the region and a cut face neighbour of that cell, and the majority of these votes is the state of the region. Without that condition the claim is false: at the ends of the grid along the partition direction the vote uses the wrapped-around cell (counterexample).", "quantifier": "all grids, thread counts, schedules and geometric tests", "why_tests_cant": "needs a search over all grids; existing tests use geometry away from the grid boundary", "anchors": ["queso/embedding/flood_fill.cpp: MergeGroups"]}
{"id": "C15", "title": "Generalized Gauss boxes partition the untrimmed elements", "statement": "When GGQ rules are used, assembling terminates and every untrimmed element is put into exactly one box.", "quantifier": "all sets of untrimmed elements on all grids, all coefficient values", "why_tests_cant": "all subsets of a grid", "anchors": ["queso/quadrature/multiple_elements.hpp: AssembleIPs, TryToExpandCurrentBox"]}
{"id": "C16", "title": "Generalized Gauss boxes are gap-free cuboids", "statement": "If no untrimmed cell lies on the outermost layer of the grid (or, more generally, no row end wraps around to an untrimmed cell), the elements gathered in one GGQ box are exactly the cells of a cuboid inside the grid whose edge lengths are the recorded box sizes. Without that condition the claim is false: a box may swallow the wrapped-around cell of the next row (counterexample: a 3x3x1 grid with all but one corner cell untrimmed).", "quantifier": "all sets of untrimmed elements on all grids", "why_tests_cant": "all subsets of a grid", "anchors": ["queso/quadrature/multiple_elements.hpp: TryToExpandCurrentBox, pNextElement"]}
{"id": "C17", "title": "GGQ points are distributed to the elements without loss or duplication", "statement": "Every tensor-product point generated for a box is given to exactly one element of the box, its parametric weight is unchanged, it is moved by at most 1e-10 and stays inside the box if the cells are wider than 3e-12, and each element only receives points inside its own box (up to the snapping tolerance).", "quantifier": "all boxes, all 1D rules with points in [0,1)", "why_tests_cant": "all boxes and rules", "anchors": ["queso/quadrature/multiple_elements.hpp: AssembleGGQRulesOnBox"]}
{"id": "C18", "title": "GGQ 1D rules are well formed for every number of knot spans", "statement": "For p in 2..4, every GGQ method and every number of knot spans the constructed rule has the documented number of points, never reads or writes outside its arrays, is symmetric about 1/2 and its weights are positive and sum to one up to rounding of the tables.", "quantifier": "all numbers of knot spans", "why_tests_cant": "unbounded number of knot spans", "anchors": ["queso/quadrature/integration_points_1d/integration_points_factory_1d.cpp: GetGGQ, GetGGQBasePoints"]}
{"id": "C19", "title": "Gauss rules integrate polynomials", "statement": "The tensor-product Gauss rule of an untrimmed element of order p integrates every polynomial of degree <= 2p+1 in each direction over the element's parametric box exactly, up to the rounding error of the tabulated points.", "quantifier": "all polynomials of that degree, all element boxes, all tabulated orders", "why_tests_cant": "infinitely many integrands and boxes", "anchors": ["queso/quadrature/single_element.hpp: AssembleIPs", "queso/quadrature/integration_points_1d/gauss_legendre_integration_points.cpp"]}
{"id": "C20", "title": "Gauss points lie inside their element and represent its volume", "statement": "All integration points of an untrimmed element lie strictly inside its parametric box, have positive weights, there are the documented number of them, and the weights times the Jacobian sum to the global volume of the cell (up to table rounding).", "quantifier": "all boxes with lower<upper and all methods/orders accepted by the settings check", "why_tests_cant": "infinitely many boxes", "anchors": ["queso/quadrature/single_element.hpp: AssembleIPs", "queso/utilities/mapping_utilities.hpp: DetJ"]}
{"id": "C21", "title": "Trimmed-element quadrature weights are positive", "statement": "Every integration point that a trimmed element keeps after moment fitting has a weight not smaller than the elimination threshold (strictly positive), unless fictitious-domain points were requested with non-positive alpha.", "quantifier": "all trimmed domains, all moment-fitting solver outcomes", "why_tests_cant": "all geometries / solver outputs", "anchors": ["queso/quadrature/trimmed_element.hpp: AssembleIPs, PointElimination"]}
{"id": "C22", "title": "Trimmed-element quadrature size is bounded by the number of moments", "statement": "If the requested residual is larger than the smallest positive double, the moment-fitted part of the rule has at most (p+1)(q+1)(r+1) points, all of them inside the bounding box of the trimmed domain and accepted by its point test or by a box test of the octree; fictitious points add at most (p+1)(q+1)(r+1) more, all inside the cell and rejected by the point test. Without the guard (residual 0, accepted by the settings) this is false: unfitted candidates are returned, 256 instead of 8 for order 1.", "quantifier": "all domains, orders and solver outcomes", "why_tests_cant": "all geometries / solver outputs", "anchors": ["queso/quadrature/trimmed_element.hpp: PointElimination, DistributeIntegrationPoints"]}
{"id": "C23", "title": "Moment-fitting accuracy contract", "statement": "Assembling a trimmed rule terminates. Without fictitious points, if the requested residual is larger than the smallest positive double, either the reported residual is at most 0.01 or the element has no points and is not created; in the first case (given a solver that returns non-negative weights and its true residual norm) the rule together with some points lighter than 1e-14 reproduces every Legendre moment up to residual times the norm of the moments, and the moments are boundary sums of fields whose divergence is three times the basis function. With fictitious points it is false: a rejected fit (residual 1) still creates an element, consisting of fictitious points only.", "quantifier": "all domains and solver outcomes", "why_tests_cant": "all solver outputs", "anchors": ["queso/quadrature/trimmed_element.hpp: AssembleIPs, MomentFitting", "queso/embedding/element_builders.hpp: Build"]}
{"id": "C24", "title": "Point elimination never reads past the candidate points", "statement": "Point elimination is memory safe exactly if there are at least as many candidate points as moments (or the requested residual is not larger than the smallest positive double); if every refinement of the octree that yields points yields at least that many, building a trimmed element is memory safe. Without the guard false: a thin domain with fewer interior candidate points than moments makes the tail erase start behind the end of the vector.", "quantifier": "all candidate point counts and orders", "why_tests_cant": "undefined behaviour may stay silent in a test run", "anchors": ["queso/quadrature/trimmed_element.hpp: PointElimination"]}
{"id": "C25", "title": "Settings values always have the declared type", "statement": "Whatever sequence of (successful or failing) assignments by name is executed, a stored entry is either unset or holds a value of the type declared for its key, and a failing assignment leaves all entries unchanged.", "quantifier": "all histories of assignments of all value types to all key sets", "why_tests_cant": "all operation sequences", "anchors": ["queso/containers/data_set.hpp: SetValue, GetValue, IsSet"]}
{"id": "C26", "title": "Settings read back what was written", "statement": "After a successful assignment reading the same key returns the assigned value (after the documented int->double, int->index and int-vector->double-vector conversions), reading any other key is unaffected, and reading an unset key reports an error. A dictionary reports to have a name exactly if it is declared for one of its values, sub-dictionaries or lists.", "quantifier": "all histories, keys and values", "why_tests_cant": "all operation sequences", "anchors": ["queso/containers/data_set.hpp: SetValue, GetValue, GetRequiredValue, TryGetValue"]}
{"id": "C27", "title": "Required-settings check is exact", "statement": "The recursive required-check of a dictionary succeeds exactly when every required value of the dictionary, of all nested sub-dictionaries and of all list entries is set and every sub-dictionary is present.", "quantifier": "all dictionaries of any depth", "why_tests_cant": "unbounded nesting", "anchors": ["queso/containers/dictionary.hpp: CheckRequired", "queso/containers/data_set.hpp: CheckRequired"]}
{"id": "C28", "title": "Key names and key ids are in bijection", "statement": "The comma-separated declaration of a key set is split at the commas, so that name -> id -> name and id -> name -> id are identities. If the keys registered for the set belong to it, registration succeeds exactly if all declared keys and only those are registered, and the registered names and ids are in bijection (this holds for all key sets of the library). If a key of another set is registered it is accepted when its name is declared, and its id then is the id of another key (counterexample proved).", "quantifier": "all declaration strings with distinct names and all lists of registered keys", "why_tests_cant": "all strings", "anchors": ["queso/includes/keys.hpp: NumberOfItemsDelimitedByComma, CreateConstexprStringArray, InitializeStringToKeyMap"]}
{"id": "C29", "title": "Accepted settings are safe to run", "statement": "New settings have exactly the documented default values. The settings check accepts exactly the settings whose required values are set, with polynomial orders that are at least one in each direction (two for GGQ and Gauss_Reduced2 rules, at most four for GGQ rules), and GGQ rules only on a B-spline grid. If moreover the orders are at most 9 and every direction has at least one element, settings accepted by the check never lead to an out-of-range table access or an unbounded loop. Without these bounds this is false: order 10 reads outside the Gauss tables, and zero elements are accepted (counterexamples proved).", "quantifier": "all settings accepted by the check", "why_tests_cant": "the accepted set is infinite", "anchors": ["queso/utilities/check_dictionary_utilities.hpp: CheckSettings", "queso/quadrature/integration_points_1d/integration_points_factory_1d.cpp: GetGauss"]}
{"id": "C30", "title": "Model info output is valid JSON", "statement": "If all strings are free of characters that must be escaped, all numbers are finite and no list holds a null entry, then the text written for a dictionary is a JSON text (grammar of RFC 8259), and the only value it denotes is the object that contains every declared entry exactly once with its value, for any nesting. Without the condition this is false: a file name with a quote or a nan gives a text that is not JSON, a null list entry is dereferenced (counterexamples proved).", "quantifier": "all dictionaries made by the factory and changed by any history of operations", "why_tests_cant": "unbounded nesting", "anchors": ["queso/containers/dictionary.hpp: PrintInfo", "queso/containers/data_set.hpp: PrintInfo"]}
{"id": "C31", "title": "Buffered binary writing equals direct writing", "statement": "The bytes that end up in a file are the concatenation of all written values in order, independent of the buffer size, also when a value is larger than the buffer. At every moment the file content is a prefix of that concatenation.", "quantifier": "all sequences of writes, all buffer sizes", "why_tests_cant": "all sequences and sizes", "anchors": ["queso/io/binary_buffer_writer.hpp: WriteRaw, WriteValue, WriteArray, Flush, AppendToBuffer"]}
{"id": "C32", "title": "Byte order conversion is an involution and independent of the host", "statement": "Values written in a fixed byte order produce the same file bytes on little- and big-endian hosts; swapping twice gives back the value.", "quantifier": "all values of all widths, both host byte orders", "why_tests_cant": "tests run on one host", "anchors": ["queso/io/binary_buffer_writer.hpp: WriteValue, SwapEnd, DetectEndian"]}
{"id": "C33", "title": "STL write/read round trip", "statement": "On a little-endian host, reading back a written binary STL file yields the same triangles in the same order, every vertex within 1e-12 of the value stored in single precision, unless two coordinates differ by exactly the merging tolerance; if different points are further apart than the tolerance, every vertex has exactly its stored value and equal vertices become one vertex. The latter also holds for ASCII files with the printed values. On a big-endian host the binary round trip fails (counterexample).", "quantifier": "all meshes with fewer than 2^32 triangles, both encodings", "why_tests_cant": "all meshes", "anchors": ["queso/io/io_utilities.cpp: WriteMeshToSTL, ReadMeshFromSTL, ReadMeshFromSTL_Binary, ReadMeshFromSTL_Ascii"]}
{"id": "C34", "title": "STL encoding detection", "statement": "Files written by the library are recognised with the encoding they were written in.", "quantifier": "all meshes, both encodings", "why_tests_cant": "all meshes", "anchors": ["queso/io/io_utilities.cpp: GetEncodingType"]}
{"id": "C35", "title": "Vertex merging uses a valid ordering", "statement": "On point sets whose coordinates are pairwise equal or further apart than the tolerance, the tolerance-based point ordering used to merge vertices is a strict weak ordering (in fact lexicographic order), so merging identifies exactly equal points; it is asymmetric for all points. Without that guard it is not a strict weak ordering: for every positive tolerance there are cycles of three points.", "quantifier": "all point sets", "why_tests_cant": "needs adversarial points at the tolerance scale", "anchors": ["queso/io/io_utilities.h: PointComparison", "queso/embedding/trimmed_domain_on_plane.h: PointComparison"]}
{"id": "C36", "title": "Triangle mesh stays well formed", "statement": "Starting from an empty mesh and applying any sequence of valid vertex/triangle additions, removals, appends and refinements, every triangle refers to existing vertices, and there are as many normals as triangles.", "quantifier": "all operation sequences", "why_tests_cant": "all sequences", "anchors": ["queso/containers/triangle_mesh.hpp: AddVertex, AddTriangle, RemoveTriangle, Check", "queso/utilities/mesh_utilities.cpp: Append, Refine"]}
{"id": "C37", "title": "Removing a triangle removes exactly that triangle", "statement": "After removing a triangle the remaining triangles (with their normals) are exactly the others.", "quantifier": "all meshes and valid indices", "why_tests_cant": "all meshes", "anchors": ["queso/containers/triangle_mesh.hpp: RemoveTriangle"]}
{"id": "C38", "title": "Mesh refinement keeps the geometry", "statement": "Refinement terminates without undefined behaviour, keeps the mesh well formed, keeps total area, enclosed volume and directional volumes unchanged, keeps existing vertices, and only replaces triangles by parts of them with the same normal. The triangle count never exceeds max(old count, 4*(requested-1)), and reaches the requested count if the area is at least requested*1e-14; without that guard it may not (a non-degenerate mesh with an area below 1e-14 is not refined).", "quantifier": "all meshes and requested counts", "why_tests_cant": "all meshes", "anchors": ["queso/utilities/mesh_utilities.cpp: Refine, Area, Volume"]}
{"id": "C39", "title": "Appending meshes adds areas and volumes", "statement": "Appending a mesh to another one yields a well-formed mesh whose triangles are those of both in order, so areas add up, and volumes add up if both meshes have the same orientation; for opposite orientations volumes cancel.", "quantifier": "all pairs of well-formed meshes", "why_tests_cant": "all meshes", "anchors": ["queso/utilities/mesh_utilities.cpp: Append"]}
{"id": "C40", "title": "Box meshes are closed and have the box volume", "statement": "The surface mesh generated for a box has 12 triangles, every edge is shared by exactly two oppositely oriented triangles, all normals are outward unit normals and the volume and area computed from it equal those of the box.", "quantifier": "all boxes with lower<upper", "why_tests_cant": "infinitely many boxes", "anchors": ["queso/utilities/mesh_utilities.cpp: MakeMeshBox, Volume, Area"]}
{"id": "C41", "title": "Mesh bounding box is tight", "statement": "The computed bounding box contains all vertices of all triangles and each face touches a vertex. For an empty mesh the box is inverted (max, lowest).", "quantifier": "all non-empty meshes", "why_tests_cant": "all meshes", "anchors": ["queso/utilities/mesh_utilities.cpp: BoundingBox"]}
{"id": "C42", "title": "Parallel reductions equal the sequential result", "statement": "Over the reals, area and volume computed by the parallel reductions equal the sequential ones for every assignment of triangles to threads, if the mesh has less than 2^31 triangles; from 2^31 triangles on the int loop counter makes them differ.", "quantifier": "all meshes, all thread assignments", "why_tests_cant": "all schedules", "anchors": ["queso/utilities/mesh_utilities.cpp: AreaOMP, VolumeOMP"]}
{"id": "C43", "title": "Triangle integration points", "statement": "The boundary integration points of a triangle lie in the triangle, carry its unit normal (if the triangle is above the area tolerance), have positive weights that sum to its area, and integrate all products of powers of the barycentric coordinates up to total degree 1, 2, 4, 6, 6 for the methods 0 to 4, each up to a relative error of 1e-13 due to rounding of the tables; other methods raise an exception.", "quantifier": "all triangles and all methods", "why_tests_cant": "infinitely many triangles", "anchors": ["queso/utilities/triangle_utilities.hpp: GetIPsGlobal, Area, Normal"]}
{"id": "C44", "title": "Legendre moments are antiderivatives", "statement": "For every order 0..8 and every interval, the integrated shape functions are antiderivatives of the shape functions and the shape functions are L2-orthogonal Legendre polynomials scaled to the interval; orders above 8 silently evaluate to zero.", "quantifier": "all orders, intervals and points", "why_tests_cant": "infinitely many points", "anchors": ["queso/utilities/polynomial_utilities.hpp: f_x, f_x_int"]}
{"id": "C45", "title": "Global/parametric mapping round trip", "statement": "Mapping points and volume integration points from global to parametric space and back is the identity, maps boxes onto boxes, and weights transform with the Jacobian determinant; boundary points round-trip including normal and area weight if the area vector is above tolerance.", "quantifier": "all points, all non-degenerate box pairs", "why_tests_cant": "infinitely many points", "anchors": ["queso/utilities/mapping_utilities.hpp: ToParametric, ToGlobal, DetJ, TransformAreaVector, TransformAreaData"]}
{"id": "C46", "title": "Clipping a triangle keeps exactly its part in the box", "statement": "Clipping a triangle by a box never raises an exception and yields nothing (exactly if all corners are within the plane tolerance of one face) or a polygon with 0 or 3 to 9 vertices and the normal of the triangle. Its vertices are in the triangle and, in every direction in which the box reaches the triangle, in the box up to the tolerance; every point of the triangle that is in the box by more than the tolerance is in the convex hull of the vertices. Its area vector is a part of the triangle's; vertices marked to be on a face are on it up to the tolerance; a triangle inside the box is returned unchanged; clipping by both sides of a plane divides the area if no corner is within the tolerance. A triangle beyond a face is not removed, contrary to the documentation (counterexample).", "quantifier": "all triangles, normals, boxes and points", "why_tests_cant": "infinitely many inputs", "anchors": ["queso/embedding/clipper.cpp: ClipTriangle, ClipPolygonByPlane, FindIntersectionPointOnPlane, ClassifyPointToPlane", "queso/embedding/polygon.cpp: AddVertex"]}
{"id": "C47", "title": "Clipped polygons and meshes are triangulated without loss", "statement": "Adding a polygon to a mesh raises exactly for a triangle with all vertices marked on one face; else the mesh stays well formed, keeps its triangles and edges, the new triangles have the polygon's normal, their area vectors sum to that of the polygon, and the new edges of each face are the polygon's edges marked on it. For polygons from clipping it never raises, and the triangles are equally oriented pieces of the triangle that exactly cover the polygon and have its area. Clipping any triangles of a well-formed mesh is therefore defined, and every point of these triangles in the box by more than the tolerance is in a triangle of the result.", "quantifier": "all polygons, meshes, boxes and lists of triangle ids", "why_tests_cant": "infinitely many inputs", "anchors": ["queso/embedding/polygon.cpp: AddToTriangleMesh", "queso/embedding/brep_operator.cpp: ClipTriangleMesh, ClipTriangleMeshUnique", "queso/containers/clipped_triangle_mesh.hpp: AddEdgeOnPlane, Edges"]}
{"id": "C48", "title": "Octree refinement tiles the domain", "statement": "After any refinement the leaves of the octree tile the part of the root box that is not discarded as outside, the leaf and node counters equal the actual numbers, and leaf depth lies between the requested bounds.", "quantifier": "all inside/trimmed oracles, all level bounds", "why_tests_cant": "all geometries", "anchors": ["queso/embedding/octree.cpp: Refine, NumberOfLeafs, NumberOfNodes", "queso/embedding/octree.h: GetIntegrationPoints"]}
{"id": "C49", "title": "Spatial search returns every overlapping triangle once", "statement": "Any sequence of up to 2^30 insertions into the search tree is carried out without undefined behaviour; an insertion is refused exactly if its bounds are exchanged or its id is stored already. Afterwards, if anything is stored, a query with a box returns exactly the ids of the stored boxes that share a point with it, each once, whatever rotations happened; a query with any other test misses no box with a property that larger boxes inherit and the test recognises. The tree of a mesh is always built and returns exactly the triangles whose coordinate ranges meet the box; the reported bounding box is exactly the range of the vertices. Querying an empty tree is undefined (counterexample).", "quantifier": "all insertion sequences up to 2^30 entries, all boxes and tests, all ordered number types", "why_tests_cant": "all insertion histories and rotations", "anchors": ["external_libraries/aabb_tree/AABB_base.cc: insertParticle, insertLeaf, balance, allocateNode", "queso/embedding/aabb_tree.h: AABB_tree", "queso/embedding/aabb_tree.cpp: Query, IsWithinBoundingBox"]}
{"id": "C50", "title": "Box/triangle intersection is exact, for one triangle and for a mesh", "statement": "The test of a box shrunk by a tolerance against a triangle is true whenever they share a point, and, if the shrunk box is not empty, only then. For a non-empty mesh the reported ids are exactly those of the triangles that meet the shrunk box, each once; the mesh is said to intersect a box exactly if some triangle meets it (shrunk by the relative tolerance); and an element is classified trimmed exactly in this case, otherwise by the inside test of its centre. If the tolerance exceeds half the thickness an intersection may be reported although nothing is left of the box (counterexample).", "quantifier": "all triangles, boxes, tolerances, meshes of at most 2^30 triangles", "why_tests_cant": "infinitely many inputs", "anchors": ["queso/embedding/aabb_primitive.cpp: intersect(v0, v1, v2, tolerance)", "queso/embedding/geometry_query.cpp: DoIntersect, GetIntersectedTriangleIds", "queso/embedding/brep_operator.cpp: GetIntersectionState"]}
{"id": "C51", "title": "Ray/box test misses nothing and is exact off the faces", "statement": "The slab test reports every box that the ray meets, for any direction including zero components. For a proper box and a non-zero direction it reports only such boxes, unless a direction component is zero and the origin lies in the plane of a face normal to it; in particular it is exact for positive directions. In the excluded case it may report a box the ray does not meet (counterexample).", "quantifier": "all rays and boxes", "why_tests_cant": "infinitely many inputs", "anchors": ["queso/embedding/ray_aabb_primitive.cpp: intersect, intersect_positive_ray, intersect_general"]}
{"id": "C52", "title": "Inside tests end and are majorities", "statement": "The global inside test is false for points outside the coordinate range of the mesh. Otherwise it uses at most 100 random directions and is true exactly if at least three of the first five successful casts say inside; it is undefined exactly if an undefined cast comes before the fifth success. The test on the clipped section of an element is always defined and is the strict majority of the first (at most ten) successful casts towards its triangles.", "quantifier": "all meshes of at most 2^30 triangles, all points, all sequences of random directions", "why_tests_cant": "all random sequences", "anchors": ["queso/embedding/brep_operator.cpp: IsInside, OnBoundedSideOfClippedSection"]}
{"id": "C53", "title": "Queries of the active domain of an element are consistent with its set of points", "statement": "For an untrimmed element, in both coordinate spaces: a point is inside iff it is in the closed cell box; a query box is reported outside / inside / trimmed exactly if its points (less the tolerance) are all outside / all inside / some of each, provided the tolerance leaves something of the box (otherwise a box whose centre is inside may be reported outside: counterexample); both spaces agree for points and for tolerance 0 (not for other tolerances: counterexample). Its boundary integration points lie on the faces, carry outward unit normals and positive weights, and the weights sum to the surface area of the box in the requested space (relative error 1e-13), unless faces are so small that normals are not computed. For a trimmed element: the bounds are the smallest box around the vertices of its closed mesh; a point is decided by the first ray towards a triangle of the section which hits no edge (facing of the nearest crossing), else by the whole geometry; a box is trimmed iff a triangle of the section meets it (less the tolerance), else the answer for its centre. A trimmed element with an empty section has no defined box query (counterexample). Integration points reported in global space integrate over the mapped domain.", "quantifier": "all elements, points, query boxes, tolerances and both coordinate spaces", "why_tests_cant": "infinitely many cells, points and boxes", "anchors": ["queso/containers/cell_domain.hpp: GetBounds, IsInside, GetIntersectionState, GetBoundaryIps", "queso/embedding/trimmed_domain.h: GetBounds, IsInside, GetIntersectionState", "queso/embedding/trimmed_domain.cpp: IsInsideTrimmedDomain, GetBoundingBoxOfTrimmedDomain, GetIntersectionState", "queso/containers/element_base.hpp: GetIntegrationPoints"]}
{"id": "C54", "title": "Face triangulation from contour edges is safe, lies on the face and has the area of the region", "statement": "For every face of a box, every list of contour edges in its plane, every search tree, every sort and every answer of the inside test: (a) if every end point of an edge is on the upper side of the face up to the snap tolerance, or at least ten snap tolerances away from it, the triangulation finishes and uses no invalidated iterator or reference and no index out of bounds; with a reservation of 6 n + 10 vertices and edges instead of max(3 n, 10) this needs no condition; with the reservation of the code and without the condition it is false (counterexample with four edges that end five tolerances below the upper side, where the vector of the vertices has to grow while a set holds iterators into it). (b) Every mesh that is returned is well formed, lies on the plane of the face and within its rectangle (up to the excess of the input), and all its triangles have the outward unit normal. (c) For contours in general position whose ends are at least ten tolerances away from the upper side, all triangles are oriented outwards and the sum of their areas is the area under the edges that bound the region from above (with the upper side if the region above is inside) minus the area under those that bound it from below.", "quantifier": "all faces, contours of any number of edges, search results, sorts and inside tests", "why_tests_cant": "all numbers and positions of edges; growth beyond the reserved capacity is undefined behaviour that usually goes unnoticed", "anchors": ["queso/embedding/trimmed_domain_on_plane.h: TrimmedDomainOnPlane, pGetTriangulation", "queso/embedding/trimmed_domain_on_plane.cpp: CollectEdgesOnPlane, CloseContourEdges, TriangulateDomain, FindNegativePartnerEdge, SetSplitPoint, SplitEdgesAtSplitPoint, InsertEdge, GetUniqueVertexIDs"]}
{"id": "C55", "title": "A condition is cut into segments along the background grid: nothing lost, nothing doubled, same result for every schedule", "statement": "For every background grid with cells wider than 1e-13 and fewer than 2^31 cells, every valid triangle mesh (1 to 2^30 triangles), every set of existing elements and every OpenMP schedule, adding a condition succeeds. The set of segments, the surface area, the area in the active domain and the percentage do not depend on the schedule. Every cell has at most one segment; segments are non-empty valid meshes and are attached to exactly the element that exists for their cell (after the creation loop: exactly when the cell is trimmed or inside and the element was built). Every triangle of a segment is a piece of a triangle of the condition, with its normal, and lies in the cell (shifted by 3e-13) up to 1e-13; every point of the condition further than 1e-13 inside a shifted cell is in the segment of this cell; a point further than 1e-13 from all dividing planes is in at most one segment. The surface area is the sum of the triangle areas, the active area is the sum of the areas of the attached segments, and the percentage is their quotient (not-a-number for area zero). If in addition all triangles are in general position to the dividing planes and within the grid, the areas of the segments add up to the surface area, the percentage is in [0, 100], and it is 100 (0) if all (none) of the segments are attached. Without the guards this is false: a triangle inside the grid that lies in a dividing plane is in no segment (percentage 0 even if all cells are active), and with 2^31 to 2^32-1 cells there are no segments at all.", "quantifier": "all grids, meshes, element histories, OpenMP schedules (chunks of the reductions, order of the critical sections)", "why_tests_cant": "the cells, planes and triangles may meet in every possible way and the loop runs under every schedule; tests run a few meshes under one schedule", "anchors": ["queso/embedded_model.cpp: ComputeCondition", "queso/embedding/brep_operator.cpp: ClipTriangleMeshUnique", "queso/containers/condition.hpp", "queso/containers/condition_segment.hpp"]}
{"id": "C56", "title": "Visualisation files read back as exactly the exported geometry", "statement": "If the indices fit (at most 2^32 points in binary files, 2^60 in text files), the file buffer is below 2^63 bytes and the medium accepts all writes, then a VTK file written for a mesh, for the active elements or for the integration points, in text or big-endian binary, parses completely with a reader of the legacy VTK format: it announces exactly as many points, cells and cell types as it contains, every connectivity entry refers to an existing point, the k-th cell is the k-th triangle / the hexahedron with the corners of the k-th element's bounds in VTK order / the k-th integration point, the cell types are 5, 12 and 1, and the points carry their weights as the scalar field Weights. On a medium that may fail, success is reported only for the complete file and otherwise the file is a beginning of it. Without the bound the claim is false: with more than 2^29 elements a binary file gives element 2^29 the points of element 0.", "quantifier": "all meshes, all lists of element bounds, all lists of integration points, both encodings, both byte orders of the host, all buffer sizes, all failure behaviours of the medium", "why_tests_cant": "tests export a handful of models of fixed size on a working disk; the claim covers every model size including empty ones, index wrap-around and every failure point of the medium", "anchors": ["queso/io/io_utilities.cpp: WriteMeshToVTK", "queso/io/io_utilities.tpp: WriteElementsToVTK, WritePointsToVTK", "queso/io/io_utilities.h: GetHexahedronVertices", "queso/io/binary_buffer_writer.hpp: BinaryBufferWriter"]}
{"id": "C57", "title": "Volume of closed meshes is well defined", "statement": "For a mesh in which every edge belongs to two oppositely oriented triangles and whose normals agree with the orientation: the volume computed from each coordinate direction equals the total volume, directional areas cancel, volume and area do not change when the mesh is moved, the quality estimate is 0 for outward and 2 for inward normals (up to volumes of 1e-14). For every mesh, closed or not, the quality estimate is at most q exactly if the volumes from the three directions agree up to q and the oriented areas cancel up to q (relative to the mean volume and the area, at least 1e-14). Normals computed by the library are exact unit normals for triangles above the area tolerance.", "quantifier": "all closed meshes, all translations", "why_tests_cant": "infinitely many meshes", "anchors": ["queso/utilities/mesh_utilities.cpp: Volume, EstimateQuality", "queso/utilities/triangle_utilities.hpp: Normal, Area"]}
{"id": "C58", "title": "Reading any STL file is safe", "statement": "Any byte sequence read as a binary STL file either is rejected, exactly if it is shorter than its header announces, or yields a well-formed mesh with the announced number of triangles. Reading any file ends, and the result, if any, is well formed; the only undefined behaviour is for an ASCII file in which a line of a facet that should be a vertex does not have three numbers. Such files are not rejected (counterexample).", "quantifier": "all byte sequences", "why_tests_cant": "all possible file contents", "anchors": ["queso/io/io_utilities.cpp: ReadMeshFromSTL, ReadMeshFromSTL_Binary, ReadMeshFromSTL_Ascii, GetEncodingType"]}
{"id": "C59", "title": "Ray/triangle test is exact", "statement": "The ray/triangle test reports parallel exactly if |direction . normal vector| is below 1e-13; otherwise it reports a hit exactly if the intersection of the line with the plane of the triangle lies in the triangle and not behind the origin, up to 1e-14, and the reported distance, coordinates and facing are those of this intersection.", "quantifier": "all rays and triangles", "why_tests_cant": "infinitely many inputs", "anchors": ["queso/embedding/ray_aabb_primitive.cpp: intersect(v0, v1, v2, t, u, v, BackFacing, Parallel)"]}
{"id": "C60", "title": "A ray cast counts the crossings of the whole mesh", "statement": "For a mesh marked closed a successful cast says inside exactly if the ray crosses an odd number of non-degenerate triangles of the whole mesh, or says outside because the origin lies on a triangle; it fails only if an edge is hit and is undefined only if a triangle is parallel to the ray (which does happen: counterexample). For an open mesh a cast is always defined, and a successful one gives the facing of the nearest crossed triangle. In general position (no triangle parallel, touched or hit on an edge) the closed cast succeeds and returns the parity.", "quantifier": "all non-empty meshes of at most 2^30 triangles, all rays", "why_tests_cant": "infinitely many meshes and rays; the answer combines the tree with the tests", "anchors": ["queso/embedding/geometry_query.cpp: IsInside, IsInsideClosed, IsInsideOpen"]}
{"id": "C61", "title": "The STL file of a condition contains the triangles of all its segments", "statement": "For every condition, encoding, host byte order and buffer size: writing the condition to STL gives the same bytes as writing one mesh with the triangles of all segments, one segment after the other. If there are fewer than 2^32 triangles and no two different points are equivalent for the point comparison, reading the file back gives exactly these triangles, in order, in single precision (binary) or rounded to six decimals (ascii), with equal vertices merged and normals recomputed. The binary file has 84 + 50 n bytes and stores n modulo 2^32. Whenever the medium fails during the writing, success is only reported for the complete file, and what is on the disk is a beginning of it; the same holds for meshes.", "quantifier": "all lists of segments, encodings, hosts, buffer sizes, failures of the medium at any write", "why_tests_cant": "all numbers of segments and triangles, all points of failure of the medium", "anchors": ["queso/io/io_utilities.tpp: WriteConditionToSTL", "queso/io/io_utilities.cpp: WriteMeshToSTL, ReadMeshFromSTL", "queso/io/binary_buffer_writer.hpp"]}
{"id": "C62", "title": "The weight solver terminates with feasible weights and is optimal unless it gives up", "statement": "For every matrix and right-hand side with at least one row and one column, the non-negative least squares solver terminates without an access outside its arrays and without a division by zero; it returns one weight per column, all weights are non-negative, and at most as many as there are rows are positive. The returned number never exceeds the true residual norm. If the solver does not report that its iteration limit was reached, the returned number is the true residual norm and no other non-negative weights have a smaller residual. Without rows or columns it returns no weights and the number 1e8. An accepted rule of a trimmed element without fictitious points comes from one solver call with at most as many candidates as moments; if this call did not reach the iteration limit, the rule (with some points lighter than 1e-14) reproduces every moment up to one percent of the norm of all moments. The caller does not look at the iteration report, so the accuracy is not guaranteed in that case.", "quantifier": "all matrices and right-hand sides over the reals; all trimmed elements, geometries and orders up to 8", "why_tests_cant": "all matrices: termination, non-negativity and optimality of an active-set iteration", "anchors": ["queso/solvers/nnls.cpp: nnls::nnls", "queso/solvers/nnls_impl.h: nnls_, h12_, g1_", "queso/quadrature/trimmed_element.hpp: MomentFitting, AssembleIPs"]}
{"id": "C63", "title": "GGQ 1D rules integrate every spline of their target space", "statement": "For degree d in 2..4, every GGQ method and every number e >= 1 of knot spans the returned rule integrates every spline over the e equal knot spans with the documented degree and continuity (GGQ_Optimal: degree 2d, GGQ_Reduced1: 2d-1, GGQ_Reduced2: 2d-2, each with d-2 continuous derivatives) with an error of at most 1e-13 times the mean of the coefficient sums of its pieces. Hence for splines u, v of degree d with d-1 continuous derivatives GGQ_Optimal integrates u*v, GGQ_Optimal and GGQ_Reduced1 integrate u*v', and all three integrate u'*v', up to the same relative rounding.", "quantifier": "all numbers of knot spans, all splines of the target space", "why_tests_cant": "unbounded number of knot spans and a continuum of functions", "anchors": ["queso/quadrature/integration_points_1d/integration_points_factory_1d.cpp: GetGGQ, GetGGQBasePoints", "queso/quadrature/integration_points_1d/precomputed_ggq_rules_optimal.cpp", "queso/quadrature/integration_points_1d/precomputed_ggq_rules_reduced1.cpp", "queso/quadrature/integration_points_1d/precomputed_ggq_rules_reduced2.cpp"]}
{"id": "C64", "title": "Settings files are read back as they were written", "statement": "Take settings made by the factory and changed by any history of assignments and appends. If the list of conditions is not empty and holds condition settings made by the factory, strings need no escaping and differ from the note for unset entries, indices have 64 bits, and doubles are recovered from their ten-digit text and are no negative integers outside of points, then reading the file written for the settings gives exactly these settings (all values, unset entries and conditions in order). Reading any file at all gives settings with the declared structure and typed values or throws; it never has undefined behaviour. Without the conditions the round trip is false: settings without conditions are written to a file that cannot be read, neither can a modulus of -5; the string 'Not Set.' is read as an unset entry; doubles that agree in ten digits give the same file (counterexamples proved).", "quantifier": "all histories of settings, all file contents", "why_tests_cant": "all histories and all texts", "anchors": ["queso/python/scripts/json_io.py: JsonIO.read_settings", "queso/containers/dictionary.hpp: PrintInfo", "queso/python/bindings/dictionary_binder_helper.hpp: SetValue"]}
{"id": "C65", "title": "The search for the domain of a trimmed element", "statement": "For every geometry, cell, pair of thresholds and sequence of random numbers, the search for the domain of a trimmed element is a sequence of at most 28 attempts on boxes that start with the cell, alternate the orientation of the faces and grow each side by 1 to 100 times ten tolerances after two failed attempts. The first attempt whose surface is closed up to 1e-5 decides: its domain if the volume exceeds the minimal ratio of the cell's volume, else none. Otherwise the first attempt with the smallest error below one half is taken, but none if its error exceeds 1e-2 and such domains are to be neglected. The search always ends; it fails only if the triangulation of a face of one of these boxes fails. A returned domain consists of parts of the geometry's triangles with their normals and of triangles on the six faces with the faces' normals, lies within the cell grown by 13000 tolerances, exceeds the minimal volume ratio, and has at least the requested number of triangles if its area allows it. A cell that the geometry does not meet has no domain; a geometry inside the cell that is closed up to 1e-5 is its own domain.", "quantifier": "all meshes with up to 2^30 triangles, all cells wider than a fifth of their tolerance, all thresholds, all random numbers in [1,100], all results of the inside test and of the unstable sorts", "why_tests_cant": "all geometries, positions of the cell and random sequences", "anchors": ["queso/embedding/brep_operator.cpp: BRepOperator::pGetTrimmedDomain, ClipTriangleMesh", "queso/embedding/trimmed_domain.h: TrimmedDomain::TrimmedDomain"]}
{"id": "C66", "title": "The moments of a trimmed element are the integrals over the enclosed region", "statement": "For every closed surface made of triangles and every polynomial vector field, the outflow through the surface equals the integral of the divergence over the enclosed region, and this integral exists, is unique and, for the mesh of a box, is the iterated integral over the box. If the closed boundary mesh of a trimmed element lies in its cell and has no sliver triangles, each moment of total order at most 5 that is computed from the boundary points differs from the integral of the product of Legendre polynomials over the enclosed region by at most 2^(total order)/10^13 times the size of the cell times the area of the surface; the moment of order 0 is the enclosed volume in this sense. For a full cell the moments are the volume and zeros in this sense. Without the bound on the total order this is not guaranteed: the rule used on the triangles is not exact for degree 7 (x^7 over the right triangle with legs 1 is missed by more than 1e-6).", "quantifier": "all closed triangle meshes, all polynomial fields, all cells, all moments up to total order 5", "why_tests_cant": "all geometries and cells; tests compare the volume of a few shapes", "anchors": ["queso/quadrature/trimmed_element.hpp: QuadratureTrimmedElement::ComputeConstantTerms", "queso/embedding/trimmed_domain.h: TrimmedDomain::GetBoundaryIps", "queso/containers/cell_domain.hpp: CellDomain::GetBoundaryIps", "queso/utilities/polynomial_utilities.hpp: Polynomial::f_x, Polynomial::f_x_int", "queso/utilities/triangle_utilities.hpp: TriangleUtilities::GetIPsGlobal"]}
{"id": "C67", "title": "ComputeVolume: elements, counts, represented volume, and independence of the thread schedule", "statement": "When ComputeVolume returns (with fewer than 2^31 active cells), the grid holds, under number i+1 of cell i: exactly one full element if the cell is inside, at most one trimmed element (the result of the trimmed builder for that cell) if the cell is cut, and none otherwise. The numbers of active, trimmed, full and inactive elements and of integration points in the model info are those of the stored elements and add up to the number of cells; the reported volume is the mesh volume and the closed flag says whether the quality estimate is below 1e-10. For every order in which threads execute the iterations and every partition of the volume sum, the model info is the same and the elements are the same up to their order in the containers. If the polynomial orders are at most 8, no lower bound for the octree (alpha) is set, the target residual is above the smallest normal number, each trimmed element has a non-flat domain with a non-zero moment for which the least squares solver does not stop at its iteration limit, and, for generalized Gauss rules, the guards of C16/C17 hold (B-spline cells, degrees 2 to 4, no wrap-around), then the represented volume in the model info differs from the sum of the volumes of the cells inside and the signed volumes of the surfaces of the trimmed elements by at most 4e-14 times the former plus, per trimmed element, one percent of the norm of its moments and the stated rounding terms; for a closed surface the signed volume is the integral of 1 over the enclosed region. All weights are positive and points of full elements lie inside their own parametric cell.", "quantifier": "all grids, classifications, meshes, settings within the guards, thread schedules, and all behaviours of the parts that are parameters (random numbers, sorting of ties, inside tests)", "why_tests_cant": "all geometries, grids and thread schedules; tests compare the volume of a few shapes with fixed tolerances", "anchors": ["queso/embedded_model.cpp: EmbeddedModel::ComputeVolume", "queso/embedding/element_builders.hpp: TrimmedElementBuilder::Build, UntrimmedElementBuilder::Build", "queso/quadrature/multiple_elements.hpp: AssembleIPs", "queso/containers/background_grid.hpp: AddElement, pGetElement, NumberOfActiveElements"]}
{"id": "C68", "title": "The inside test tells the inside of a closed surface from the outside, whatever directions are drawn", "statement": "For every closed triangle surface (every directed edge occurs as often as its reverse) and every point off it: all rays from the point that meet no triangle edge cross an odd number of triangles, or all cross an even number, and there are such rays; so inside is well defined. Points joined by a segment off the surface are on the same side, and points beyond the range of the vertices are outside. If moreover every triangle is larger than 100 ZEROTOL and the point is further than ZEROTOL from the triangles, then every cast that counts gives the right answer, IsInside returns true only for points inside, and returns false for a point inside only if fewer than five of a hundred casts count. If a cell is wider than a bound that only depends on ZEROTOL, the tolerance and the longest edge, then: when it is classified as inside every point of it (up to the tolerance at its faces) is inside and off the surface, and when it is classified as outside every point of it is outside (with the same exception). Without closedness the parity depends on the direction, and a closed surface of triangles smaller than 100 ZEROTOL has points inside that IsInside reports as outside for all directions, with all casts counted (both counterexamples are proved).", "quantifier": "all finite lists of triangles that are closed (any genus, any number of shells, overlapping or not), all points, all directions, all sequences of random vectors, all cells and tolerances", "why_tests_cant": "Tests check a few meshes with the random directions of one seed; that the answer does not depend on the drawn directions, and holds for all points of a cell although only its centre is tested, is a topological statement about all closed surfaces and all directions.", "anchors": ["queso/embedding/brep_operator.cpp: BRepOperator::IsInside, GetIntersectionState", "queso/embedding/geometry_query.cpp: GeometryQuery::IsInsideClosed, DoIntersect", "queso/embedding/ray_aabb_primitive.cpp: RayAABBPrimitive::intersect", "queso/utilities/mesh_utilities.cpp: MeshUtilities::Area"]}
{"id": "C69", "title": "Generalized Gauss points of a whole computation integrate products of splines over the union of the full elements", "statement": "When ComputeVolume returns with a generalized Gauss method (B-spline grid, polynomial order 2 to 4 in each direction, cells wider than 1e-10, no two cells inside at opposite ends of the grid as in C16, fewer than 2^31 active cells), the sum over all points of all full elements of weight times f(point) equals the exact integral of f over the union of the full cells, for every product f of three one-dimensional splines on the grid that lie, in each direction, in the target space of the rule (degree and continuity given by the polynomial order of that direction and the method); the error is at most the product of the coefficient bounds times the volume times (1 + t)^3 - 1 with t = 1e-13 + 1e-9 / cell width. For the method GGQ_Optimal this covers the entries of the mass matrix of B-splines of the given orders. The extra assumption about the rules in C67 always holds for such cells.", "quantifier": "all grids, sets of full cells, orders 2 to 4 per direction, three methods, all thread schedules, all splines of the target space", "why_tests_cant": "Tests integrate a few polynomials on a few box shapes; the claim is about all splines, all unions of cells (any decomposition into boxes of any size) and all schedules.", "anchors": ["queso/embedded_model.cpp: EmbeddedModel::ComputeVolume", "queso/quadrature/multiple_elements.hpp: QuadratureMultipleElements::AssembleIPs, AssembleGGQRulesOnBox", "queso/quadrature/integration_points_1d/integration_points_factory_1d.cpp: GetGGQ"]}
{"id": "C70", "title": "The cell classification agrees with a closed surface", "statement": "For a well-formed surface mesh with 1 to 2^26 triangles and cells wider than 100 times the snap tolerance: no geometric test of the classification throws or is undefined, and the result is the same for every number of threads. A cell is classified as trimmed exactly if the surface has a point in the cell shrunk by the tolerance. If the mesh is closed, all points of all cells (shrunk by the tolerance) of a connected region of uncut cells are off the surface and on the same side of it. If its triangles face outwards, the lines of sight from the centres of uncut cells to the triangles in cut neighbours end in the box of the neighbour and meet no nearly parallel triangle, and the cells at the two ends of the direction in which the grid is partitioned are not cut: every point of a cell classified as inside is enclosed by the surface, and so is every point of a full element that ComputeVolume creates; and a region is classified as inside exactly if it is enclosed, provided it has a cut neighbour and every neighbour has a line of sight that passes no edge. Without a cut neighbour the last claim is false: a grid that lies wholly inside the surface is classified as outside (counterexample proved).", "quantifier": "all triangle meshes and grids with the stated sizes, all thread counts and schedules, all points of all cells", "why_tests_cant": "Tests compare a few geometries with stored element counts; the claim is about every closed mesh, every position of the grid relative to it and every point of every cell, and needs an argument about the side of the surface along paths between cells.", "anchors": ["queso/embedding/flood_fill.cpp: FloodFill::ClassifyElements, Fill, FillLocal, GetIsInsideCount, GetOffsets", "queso/embedding/brep_operator.cpp: BRepOperator::IsTrimmed, OnBoundedSideOfClippedSection, pClipTriangleMesh", "queso/embedded_model.cpp: EmbeddedModel::ComputeVolume"]}
{"id": "C71", "title": "The B-spline volume of a background grid reproduces the map of the elements", "statement": "A B-spline volume can be made from the settings exactly if all polynomial orders and numbers of elements are at least 1, the lower and upper bounds in physical space differ and the lower bound in parameter space is below the upper one. It then has, in each direction, the order asked for, n + p control values for n elements of order p, and the knots of the uniform knot vector (with the end knots repeated if open_knot_vector is set, continued uniformly otherwise). The list of control points has one point for each triple of indices, the first index runs fastest, and it agrees with the control point matrix; each point is the image of the averages of the knots (Greville points). The volume maps every parameter point linearly to the box of the grid, each grid cell is a product of knot spans, and in each cell the map of the volume equals the map of the element from its parametric to its global box, for open and for non-open knot vectors.", "quantifier": "all grids, bounds, orders, knot vector types, and parameter points of all cells; all values of the entries with which the knot insertion pads the coefficients", "why_tests_cant": "Tests evaluate a few volumes at a few points; the claim is about every number of elements, every order and every parameter, and needs an induction over the knot insertions.", "anchors": ["queso/python/scripts/b_spline_volume.py: BSplineVolume.__init__, __construct_b_spline, ControlPoints, ControlPointsMatrix, GetSpline"]}
{"id": "C72", "title": "A model and its files agree with each other after any sequence of calls", "statement": "For a model that was created with accepted settings, after any sequence of calls of CreateVolume, CreateCondition, WriteModelToFile and CreateAllFromSettings whose exceptions are caught: the total elapsed time is the sum of all measured times in the order of the calls, the time of the conditions is the sum over the conditions, and the times of the volume and of writing are those of the last call; if at most one volume was computed and files were written at most once, then the total is the sum of the three parts (otherwise false, counterexample with two writes). The numbers of active, trimmed, full and inactive elements and of points agree with the elements that the model returns. The entries of conditions_infos_list with a percentage belong in order to the conditions that the model returns; if no call threw, there are no others, and if a volume was computed the model info is complete (after an exception false: an incomplete entry stays, counterexample). CreateAllFromSettings has the same effect as CreateVolume, CreateCondition for each condition and WriteModelToFile one after the other with the meshes of the input files. After WriteModelToFile the VTK files hold the elements and points of the model, model_info.json holds the model info as it is after the call, and, if the identifiers differ, the file of each condition reads back as its triangles; for equal identifiers only the last condition is in the file (counterexample). No call changes any other file, and no file at all if write_output_to_file is false.", "quantifier": "all accepted settings made by any history of assignments, all sequences of calls, all results of the computations on meshes, all exceptions, all initial files and failing media", "why_tests_cant": "Tests call CreateAllFromSettings once on a few inputs; the claim is about every order and number of calls, with exceptions in between, and about the content of all files.", "anchors": ["queso/embedded_model.h: EmbeddedModel::Create, CreateAllFromSettings, CreateVolume, CreateCondition, GetModelInfo", "queso/embedded_model.cpp: ComputeVolume, ComputeCondition, WriteModelToFile, PrintVolumeInfo, PrintConditionInfo, CheckIfMeshIsWithinBoundingBox", "queso/containers/dictionary.hpp: operator[], GetList, GetValue, SetValue, CheckIfRequired"]}
{"id": "C73", "title": "PyQuESo: output directory, settings, integration points and the references it returns", "statement": "If write_output_to_file is set, the constructor of PyQuESo leaves the output directory existing and empty and changes nothing else on the file system, and if the name is relative, this is the directory to which the files are written; without output it changes nothing; if it throws, nothing outside of the output directory has changed. Names are resolved part by part ('.' stays, '..' goes up, '/' starts at the root). (For an absolute name the directory that is written to is not created; for an empty name or '.' everything in the working directory is deleted and the constructor throws; an input file in the output directory is deleted and Run throws: counterexamples.) After any program of method calls GetSettings returns the settings of the file with all changes made so far, before and after Run, unless a Run has rejected the settings; after that every method throws, whatever is called. Only the first Run can succeed; any later Run throws and changes nothing. Before the first Run settings may be used even after the object was deleted. As long as the object exists and GetSettings does not throw, every reference to settings, model info and elements that was taken may be used; the model info may be used for ever, and so may settings if the first reference was taken after Run. Otherwise false: settings that were taken before a Run that rejects them, settings that were taken before Run and used after the object was deleted, and elements after the object was deleted are dangling (counterexamples). If no trimmed element has points, GetIntegrationPoints returns the points of all elements in order, and their number is tot_num_points of the model info; if a trimmed element has a point, it always throws, because points have no method Weight (counterexample to the documented behaviour).", "quantifier": "all settings files, all file systems, all working directories, all programs of method calls, assignments and deletions, all results of the computations", "why_tests_cant": "Tests use one directory name and call the methods once in the usual order; the only test that would call Weight() is not part of the suite. Dangling references and deleted directories depend on the history of the program and on the contents of the file system.", "anchors": ["queso/python/PyQuESo.py: PyQuESo.__init__, Run, GetSettings, GetElements, GetModelInfo, GetIntegrationPoints", "queso/python/bindings/define_python.hpp: UniqueHolder", "queso/python/bindings/add_containers_to_python.cpp: EmbeddedModel, IntegrationPoint", "queso/python/scripts/json_io.py: read_settings", "queso/embedded_model.h: EmbeddedModel::Create"]}
{"id": "C74", "title": "Triangle meshes in Python: what is built, what iterators give and how long triangles can be kept", "statement": "After any program that builds a TriangleMesh, iterates over it, keeps triangles and deletes names, the mesh consists of exactly the vertices and triangles that were added, in this order, it is well formed, and every triangle has the normal of its corners; AddVertex returns the index of the new vertex, and the counts are those of what was added. AddTriangle is undefined exactly if an index is too large (it is not checked); apart from that only the use of kept triangles can be undefined. The n-th value of an iterator is the n-th vertex or triangle, also if it was added after the iterator was made; a loop over a mesh that is not changed gives every vertex once and ends. A triangle that was taken from an iterator can be read at once and never changes: later it has the same corners and normal or it is dangling. It may be used as long as something refers to the mesh and no vertex (corners) or triangle (normal) is added, and after Reserve(n) as long as the mesh has at most (n + 1) / 2 vertices and n triangles. Otherwise false: a triangle dangles after enough vertices were added, whatever the growth of vectors is, after a Reserve of more than there is memory for, and after the mesh and the iterators were deleted; an iterator that has ended goes on if a vertex is added; a loop that adds a vertex in each step never ends (counterexamples).", "quantifier": "all programs, i.e. all sequences of AddVertex, AddTriangle, Reserve, counts, Vertices, Triangles, next, reads of kept triangles, and deletions, of any length; all points and index triples; all growth strategies of vectors", "why_tests_cant": "whether a kept triangle dangles depends on the whole history of additions and deletions and on the growth of vectors, and a dangling read usually shows the old values; tests build one mesh and loop once", "anchors": ["queso/python/bindings/add_containers_to_python.cpp: TriangleIterator, VertexIterator, Triangle, TriangleMesh", "queso/containers/triangle_mesh.hpp: TriangleMesh::Reserve, AddVertex, AddTriangle, Triangle, Vertex", "queso/containers/triangle_proxies.hpp: TriangleProxy<WithNormals>"]}
{"id": "C75", "title": "Threads of the classification: no data race, and every interleaving gives the classification", "statement": "However the partitions are distributed over the threads of the parallel loop (also several or none for a thread), every thread finishes, writes only states of cells in its own partitions, and no execution reaches a point at which two threads are about to write the state of the same cell outside the critical section. For every interleaving of the single writes, in the loop and in the critical section, the classification ends; exactly the cut cells are trimmed; the result is one that a schedule of whole partitions gives; and, if the two sides of every face agree on whether it is cut, the result is the same for all numbers of threads, distributions and interleavings, and cells of one region have one state. Marks of visited cells that a thread carries from one partition to the next do not matter. Otherwise false: the region that counts the threads before the loop has a data race with two threads or more, since all of them write the shared counter (counterexample); every order of these writes leaves the number of threads in it.", "quantifier": "all grids, cut cells, face tests and votes; all numbers of threads, all distributions and orders of the partitions over the threads, and all interleavings of the single accesses", "why_tests_cant": "a race shows only in rare schedules, if at all, and the number of interleavings of the writes grows exponentially; a test runs few of them with one number of threads", "anchors": ["queso/embedding/flood_fill.cpp: FloodFill::ClassifyElements, PartitionedFill, Fill, Move"]}
{"id": "C76", "title": "Cell boxes in double precision: common faces are exact, corners are close to the exact ones", "statement": "With every operation rounded to double precision, and whether or not the compiler contracts products and sums: the boxes of neighbouring cells have exactly the same coordinate on their common face and the same extents otherwise; the boxes are ordered, leave no gap and do not overlap, from the lower corner of the grid, which is exact, to the end of the last cells; this also holds for cells that are too small to be resolved. If cells are at least 2^-1000 wide, every corner is within 2^-50 (|lower| + |upper|) of the exact one, and no operation overflows for coordinates up to 2^1000. If cells are wider than twice that error, the boxes are proper boxes and tile a box whose lower corner is that of the grid and whose upper corner is off by that error at most. The same holds in the parametric space of a B-spline grid. Otherwise false: the last cells need not end at the upper corner of the grid, e.g. for 49 cells between 0 and 1 the point 1 is in no cell; and cells narrower than the distance of doubles can have width zero (counterexamples).", "quantifier": "all grids with at most 2^53 cells along each axis, all boxes with double coordinates, all cells, both evaluations of product and sum", "why_tests_cant": "rounding errors depend on all digits of the bounds and on the number of cells; tests use few round numbers, for which most operations are exact", "anchors": ["queso/containers/grid_indexer.hpp: GridIndexer::GetBoundingBoxXYZFromIndex, GetBoundingBoxUVWFromIndex, GetBoundingBoxFromIndex", "queso/utilities/math_utilities.hpp: Math::MultElementWise, operator+"]}
{"id": "C77", "title": "Clipping in double precision: no spurious exception, new vertices close to the exact ones, results in the box up to bounded errors", "statement": "With every operation rounded to double precision, and whether or not the compiler contracts products and sums: clipping a triangle by a box never throws \"No valid intersection\", for any triangle and any box. If a polygon is returned, its vertices are doubles; each coordinate is within the extent of the triangle, up to six units of error (2^-50 of the largest coordinate of the triangle), and within the box in every direction in which the box reaches the triangle, up to the tolerance 1.001e-13 and six units; vertices marked to be on a face are on it up to the same bound. Clipping by one face gives old vertices that are not beyond the tolerance in front of it, and points within 2^-49 of the largest coordinate of the exact intersection point of an edge with the face; vertices behind the face are kept unchanged; this always succeeds for polygons with up to six vertices and gives at most half as many vertices more. Corners of the triangle that are inside the box by more than the tolerance are vertices of the result, bit by bit; a triangle inside the box is returned unchanged; nothing is returned only if all corners are on one face up to the tolerance. Otherwise false: with rounding, a vertex can be beyond all corners of the triangle (counterexample).", "quantifier": "all triangles and boxes with double coordinates (the exception: all real ones), all polygons and axis-aligned planes for one face, both evaluations of product and sum", "why_tests_cant": "the exception and the errors depend on all digits of the coordinates; a test meets a bad combination of roundings only by accident", "anchors": ["queso/embedding/clipper.cpp: Clipper::ClipTriangle, ClipPolygonByPlane, ClassifyPointToPlane, FindIntersectionPointOnPlane", "queso/embedding/polygon.cpp: Polygon::AddVertex"]}
{"id": "C78", "title": "Maps between global and parametric space in double precision: exact lower corners, monotone, bounded errors", "statement": "With every operation rounded to double precision, and whether or not the compiler contracts the product and the sum: the lower corners of the two boxes of an element are mapped to each other exactly; the maps never reverse the order of coordinates. If the edges of both boxes are between 2^-100 and 2^100: the image of a point of one box is within 2^-49 (|lower| + |upper|) of the exact image, not below the lower corner of the other box, and above its upper corner by at most that bound; mapping there and back changes a point by at most the two bounds, the first one scaled by the map back; DetJ and the mapped weights have a relative error of at most 2^-49 and weights stay positive, and mapping a weight there and back changes it by at most 2^-48 of it (weights between 2^-300 and 2^300). Otherwise false: the image of a point of the global box need not be in the parametric box; the upper corner of [0,25] is mapped beyond the upper corner of [0,7] (counterexample).", "quantifier": "all boxes of elements with the stated edge lengths, all points in them, all weights in the stated range, both evaluations of product and sum (corner: all boxes with double corners; order: all boxes and points)", "why_tests_cant": "rounding depends on all digits of the box and the point; a comparison with a tolerance on some elements gives no bound for others", "anchors": ["queso/utilities/mapping_utilities.hpp: ToParametric, ToGlobal, DetJ, detail::ComputeScale"]}
{"id": "C79", "title": "Boundary integration points mapped in double precision: weights and normals with bounded relative errors, signs kept", "statement": "With every operation rounded to double precision, and whether or not the compiler contracts products and sums, for elements whose boxes have edges between 2^-100 and 2^100 and normals whose components are zero or between 2^-100 and 2^50 in absolute value: mapping a boundary integration point multiplies its weight by the length of the exact image of the normal as an area vector, with a relative error of at most 2^-48 (weights between 2^-300 and 2^300). If that length is above 1.001e-14, the new normal is the exact unit normal with a relative error of at most 2^-47 in every component: positive components stay positive, negative ones negative and zeros zero, and the squared length is one up to 2^-46. If it is below 0.999e-14, the new normal is zero. Positions are mapped as in C78. Otherwise false: normals need not stay unit vectors; from cells with edges of 2^24 to parametric cells with unit edges, the normal becomes zero (counterexample).", "quantifier": "all boxes of elements with the stated edge lengths, all positions in them, all normals and weights in the stated ranges, both directions, both evaluations of products and sums", "why_tests_cant": "rounding depends on all digits of the boxes and the normal; relative errors of small components are invisible to a comparison with a fixed tolerance", "anchors": ["queso/utilities/mapping_utilities.hpp: ToParametric, ToGlobal (boundary integration points), detail::TransformAreaData, detail::TransformAreaVector", "queso/utilities/math_utilities.hpp: Math::Norm"]}
