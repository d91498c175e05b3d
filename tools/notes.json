{
 "C06": {
  "note": "Trimming removes the overlap when one box's overlap touches exactly one face (partial); the unconditional claim is refuted by a witness."
 },
 "C10": {
  "note": "Real (rational) arithmetic. Proved for proportions set on the current ratios; refuted theorem shows the ratio setters leave stale proportions behind."
 },
 "C11": {
  "note": "Holds when no query precedes a setter; refuted in general because setters do not clear the cached mapping."
 },
 "C13": {
  "note": "Explicit rates and default linear rates proved in full. Default exponential rates are irrational powers: proved for any two-sided rates whose boundary factor stays at or above one."
 },
 "C14": {
  "note": "Proved as stated. Separate finding (refuted theorem, not part of the statement): is_uuid only checks the string length, so it does not mean the string can be parsed.",
  "status": "proved"
 },
 "C16": {
  "note": "Termination and integrity are proved for documented histories (ignore_identical_part False, forced targets resident, resident model only gains parts; integrity also needs forced targets not to be mapped themselves). Outside those hypotheses both are refuted with witnesses."
 },
 "C23": {
  "note": "Proved for all histories: weak order for tidy stamps, strict order for canonical stamps with positive durations and new insertions. Refuted in general: zero durations and repeated insertions give equal stamps, a stamp with a fraction of a second is compared wrongly as text."
 },
 "C24": {
  "note": "not_later_than and not_earlier_than proved for canonical stamps. closest_to proved except when the query is between the first two stamps, where it always returns 0 (refuted). Date-only and midnight stamps of the same day are looked up as different (refuted)."
 },
 "C47": {
  "note": "Proved for stamps in whole seconds and non-negative indices; refuted for two stamps within one second and for negative indices."
 },
 "C48": {
  "note": "Proved as stated. Separate finding (refuted theorem): lookup by text is not unique because the text form is not injective. The three-decimal text uses exact rounding, see TimeModel.v.",
  "status": "proved"
 },
 "C49": {
  "note": "Proved as stated; the refuted theorem shows that the test is not transitive.",
  "status": "proved"
 },
 "C35": {
  "note": "Proved as stated for all histories of access, release, write and outside changes. Separate finding (refuted theorem): a second new file requested in the same write mode while one is open raises FileNotFoundError.",
  "status": "proved"
 },
 "C36": {
  "note": "Proved as stated for every shape. Separate findings (refuted theorems): a plain boolean array read with another shape can be taken for a packed one; packed data of last extent one read with dtype uint8 give 128.",
  "status": "proved"
 },
 "C37": {
  "note": "Proved as stated for all in-range indices. Separate finding (refuted theorem): an out-of-range index may return another element instead of raising IndexError.",
  "status": "proved"
 },
 "C50": {
  "note": "Proved as stated. Separate findings (refuted theorems): int64 values outside the 32 bit range are changed silently; an internal path given once sticks to the name; a failed write leaves the file open so that a retry in mode 'w' fails too.",
  "status": "proved"
 },
 "C51": {
  "note": "Proved as stated. Separate findings (refuted theorems): datasets outside the RESQML group are not copied although the documentation says all are; a failing copy in mode 'w' has already emptied the output.",
  "status": "proved"
 },
 "C52": {
  "note": "Proved as stated. Separate finding (refuted theorem): an override given on a later request for a cached uuid is ignored.",
  "status": "proved"
 },
 "C33": {
  "note": "Rational arithmetic. Proved as stated. Separate finding (refuted theorem): for a self crossing polygon with winding number two the two inclusion tests differ.",
  "status": "proved"
 },
 "C34": {
  "note": "Rational arithmetic. The returned volume is the true one plus a sixth of the twists of the six faces, so it is exact for planar faces; refuted: with twisted faces the volume is wrong (60000 reported as 93333), depends on the direction of numbering and does not add up when the cell is cut. pyramid_volume is right and disagrees."
 },
 "C41": {
  "note": "Proved as stated. Separate finding (refuted theorem): a worker count of zero or less silently processes nothing.",
  "status": "proved"
 },
 "C54": {
  "note": "Rational arithmetic. Proved as stated. Separate findings (refuted theorems): outlines beginning left of the lattice lose and gain points; rows crossed more than twice use only the first two crossings.",
  "status": "proved"
 },
 "C55": {
  "note": "Exact for cells with half a pixel of margin inside the map. Refuted: cells near the edge gain pixels or are dropped."
 },
 "C26": {
  "note": "Proved as stated. Separate findings (refuted theorems): set_string on the list storage may lose the string, and the reported length counts unused indices.",
  "status": "proved"
 },
 "C40": {
  "note": "Proved as stated. Separate finding (refuted theorem): a local name that itself contains a colon is cut.",
  "status": "proved"
 },
 "C42": {
  "note": "Proved as stated. Separate finding (refuted theorem): the temporary directory is left behind when a worker fails, although clean up is the default.",
  "status": "proved"
 },
 "C44": {
  "note": "Proved as stated. Separate findings (refuted theorems): what happens outside the stated scope (attribute values with special characters, unknown namespaces, blank titles).",
  "status": "proved"
 },
 "C18": {
  "note": "Proved for histories that do not add a second part with a uuid already in use; refuted in general (such an addition leaves the older part uncatalogued)."
 },
 "C19": {
  "note": "Mutual references proved for all histories; soft relations, relatedness and absence of dangling entries proved when relationships are only created between different parts already taking part in a relationship. Refuted in general with witnesses."
 },
 "C20": {
  "note": "Proved for the criteria other than epc_subdir and related_uuid on parts without relationship entries, which are refuted with witnesses."
 },
 "C21": {
  "note": "Refuted as expected: an empty list is treated as all parts. The theorem for non-empty lists is proved."
 },
 "C22": {
  "note": "Removal proved to succeed and be complete for consistent catalogues; atomicity refuted: an exception part way leaves a half removed part."
 },
 "C56": {
  "note": "Rational arithmetic; the factor tables are generated from the json data by tools/gen_wam.py. Proved as stated. Separate finding (refuted theorem): transmissibility units whose volume unit has a '.' (acre.ft) are rejected.",
  "status": "proved"
 },
 "C57": {
  "note": "The recursion of the parser runs on fuel shown sufficient (parse_fuel). lower/upper act on ASCII."
 },
 "C31": {
  "note": "Real arithmetic with the standard library's sin, cos and PI; unit tables as in C56. Besides the round trips: the place on the map is that given by an independent description of axis orders, offsets and clockwise rotation. Separate findings: switch_axes multiplies its matrices in the wrong order and is wrong for ten pairs of axis orders (exact list in C31_switching_axes_partial).",
  "status": "proved"
 },
 "C32": {
  "note": "False as stated: rotation units are ignored (half a revolution is equivalent to half a degree), so convert_to moves points that convert_array_to leaves. Proved when the rotations agree. Also not transitive."
 },
 "C58": {
  "note": "The decimal text itself is not modelled, only its value. Separate finding: offsets are rounded to 3 decimals but equivalence asks for 1e-4, so a reloaded crs may not be equivalent to the settings it was made from.",
  "status": "proved"
 },
 "C28": {
  "note": "For arrays of any extent and element type."
 },
 "C29": {
  "note": "Proved with respect to the faces marked by split_column_faces, including that the loop ends; with respect to the truly split faces only when no mark is missed (see C43)."
 },
 "C30": {
  "note": "False with the default snap option: every cell above the deepest active one is moved to that cell's top (proved in general). Overlaps within tolerance raise TypeError instead of being nudged. Proved without snapping: active cells are kept and voids are shared equally without gaps."
 },
 "C43": {
  "note": "The test of single faces is proved correct; split_column_faces misses a split face in the last row or column when only its inner end is at a split pillar; exactly these are missed."
 },
 "C59": {
  "note": "Caching of the result on the grid is not modelled."
 },
 "C60": {
  "note": "One coordinate at a time, over exact rationals."
 },
 "C27": {
  "note": "Text part, exact rationals for reals; a missing keyword is not reported (the data at the start of the file are returned), and a repeated keyword finds the first array: both recorded as refuted side claims. nan, the binary file and data_free_of_comments are not modelled.",
  "status": "proved"
 },
 "C61": {
  "note": "split_trailing_comment loses comments of one character; all else proved."
 },
 "C62": {
  "note": "Exact rationals. Refuted side claims: in_triangle on clockwise corners, flat triangles with edged=True (the whole line counts as inside), corners given by negative indices.",
  "status": "proved"
 },
 "C63": {
  "note": "Exact rationals."
 },
 "C64": {
  "note": "Exact rationals; numba's parallel loops write each element once."
 },
 "C65": {
  "note": "Exact rationals. Refuted: a triangle whose corners share one x loses points beyond its first two corners; zero batches raise and a negative number of batches silently finds nothing."
 },
 "C66": {
  "note": "Refuted side claim: an index array without rows (rather than None) for one axis stops the function with a ValueError, although the caller allows for such arrays.",
  "status": "proved"
 },
 "C67": {
  "note": "Indices are taken to lie within the arrays of faces."
 },
 "C68": {
  "note": "The array is held by columns; indices are taken to lie within the array of faces."
 },
 "C69": {
  "note": "Refuted part: property arrays are not reordered when the list of faces has no repeats but is not in increasing order. Partial theorem: they follow otherwise. Floating point values are not involved; feature indices are integers without a limit."
 },
 "C70": {
  "note": "Refuted side claim: a connection with a null side (-1) also writes to an unrelated face. Multipliers are rationals; NaN is the absence of a value."
 },
 "C71": {
  "note": "Partial: layer ranges with a negative last layer count from the end (refuted); asking for all layers leaves unused features in place (refuted); a feature is found by name if its title merely starts with the name (refuted)."
 },
 "C72": {
  "note": "Refuted: the second of two pinchouts separated by a single cell is missed; a k gap within a pinchout is bridged; cached transmissibilities are kept when the set is remade for another value of skip_inactive. Partial theorems cover the rest."
 },
 "C73": {
  "note": "The connections survive (proved). Multipliers survive only if all are equal (partial): otherwise a row is written with the multiplier of the row after it (refuted). Names are cut at '!' (refuted); a fault whose interpretation exists cannot be read (refuted), nor anything without create_organizing_objects_where_needed."
 },
 "C74": {
  "note": "Proved for every criterion but the unit of measure, which is accepted and ignored (refuted; C74_uom_never_matters). Text given for time_index, as documented for '*' and 'none', raises TypeError (refuted). Attributes the example does not have are not compared by the similar-parts methods, so that a time series mixes facets (partial + refuted)."
 },
 "C75": {
  "note": "Re-evaluation is right, and so is the first answer after any history (units: when all properties have one or none has). Answers are then remembered for good and go stale (C75_answers_are_remembered, refuted); the answer about units depends on the order of the properties (refuted)."
 },
 "C76": {
  "note": "Proved, with the success conditions as an equivalence, for collections not asked about themselves before; a remembered answer lets different kinds be stacked (refuted, a consequence of C75). Shape and dtype conversion of the arrays are not modelled."
 },
 "C77": {
  "note": "Proved for all cases but one: with the zero at 0 and no positive value (or at 1 and no negative value) the range is empty or upside down (partial + refuted). trust_min_max with wrong metadata gives values outside 0 to 1 (refuted). Floating point rounding and the mask of the result are not modelled."
 },
 "C78": {
  "note": "Proved."
 },
 "C79": {
  "status": "partial",
  "note": "Round trip proved for all suitable arguments, through the document as stored (C44). Refuted outside: a discrete constant given as a float cannot be read back; the null value of a constant is lost; extra metadata named 'Uom' replaces the unit 'Euc'; a given minimum is dropped without array or constant; null values count for the minimum of a discrete array. The text of a float is a parameter; relations between parts and the array in the hdf5 file are not modelled here."
 },
 "C80": {
  "status": "partial",
  "note": "Sum, sample, length average, weighted mean, refinement, lengths and there-and-back proved for every mapping. Every part once: proved unless a realization and all realizations are asked for together (refuted). Refuted: with a porosity the imported rock volumes (or the volumes cached by the grids) are multiplied by the porosity in place, and later means use the wrong weights; a missing value counts as zero in a mean; a property for other elements than cells stops a refinement. The weights that each mean takes in a whole run are stated in C80_weights, for every run that copies a net to gross ratio or no porosity; the remaining case is the refuted one. Values are rationals; constant properties are left out."
 },
 "C81": {
  "status": "partial",
  "note": "Proved for every division into boxes when given as an array or by ICOARS, and from KID when the cell beyond the host's row along each axis is itself a host, which holds for every regular coarsening (C81_regular_coarsening). Refuted: without that KID is misread and volume is lost (the code has a todo there); a transmissibility or undirected length, meant to be skipped, is replaced by the array of the property before it, or the call fails if there is none."
 },
 "C82": {
  "note": "At a node shared by two intervals the earlier one is found with fraction 1."
 },
 "C83": {
  "status": "partial",
  "note": "Everything stated is proved. Refuted: that only intervals overlapping a cell contribute to it (C83_touching_refuted: a cell that starts exactly where an active interval ends is flagged active and open, and takes that interval's radius and a skin of zero); a frame of one node makes the call fail (C83_one_node_refuted)."
 },
 "C84": {
  "status": "partial",
  "note": "Everything stated is proved over exact rationals. Refuted: that a point can be snapped to any segment (C84_snap_point_refuted: nothing is returned when the two ends are one point, although that point is the nearest)."
 },
 "C85": {
  "status": "partial",
  "note": "Everything stated is proved with exact rationals for coordinates, except: x_section_corner_points on an unfaulted grid with k gaps always raises ValueError (C85_gap_section_refuted), split_x_section_points cannot give a section across I of an unfaulted grid (C85_split_section_refuted), and on a faulted grid with flags for undefined pillars the wrong flag is tested (C85_undefined_pillar_refuted). C85_section_partial is the rest of the claim about sections. Not modelled: reading from hdf5, masks of nan, rotation of sections, caches of derived arrays."
 },
 "C86": {
  "status": "partial",
  "note": "C86_extraction_partial is the whole claim for sources without flags for undefined pillars and in which no two extra pillars of one primary pillar compete for a box (always so if no pillar is doubled twice: once_each). Missing because false: with pillar flags the extraction always fails (C86_pillar_flags_refuted), and a pillar split three ways can give the new grid the points of the wrong pillar (C86_three_way_split_refuted). Not modelled: the parent window, properties, crs, storage and set_parent_window."
 },
 "C87": {
  "status": "partial",
  "note": "Ranges and dominant zones are proved in full (C87_ranges, C87_found, C87_variation, C87_dominant), and so is the zone of each layer (C87_by_layer, C87_by_layer_found, C87_by_layer_length). C87_single_layer_partial and C87_zones_partial are what holds of the grids: the geometry of a single layer without k gaps, and of several zones all but the bases. Missing because false: layers with no active cells between or within zones are refused (C87_gap_refuted, C87_idle_layer_refuted), with several zones the base of each is the top of its last layer (C87_zone_bases_refuted), k gaps are ignored (C87_single_layer_gaps_refuted), and a list of one range is ignored (C87_one_range_refuted). Not modelled: the scan of columns where some cells are undefined, regular grids, storage."
 },
 "C88": {
  "note": "Proved over exact rationals. The refinement of a faulted grid, whose pillars are rebuilt from the refined corner points, is C88_refined_faulted_grid: corners within the tolerances of grid_from_cp (6/100 in all) of the trilinear interpolation. Not modelled: the storage of the new grid, inherited properties, parent windows and the infilling of missing geometry."
 },
 "C89": {
  "status": "partial",
  "note": "Proved over exact rationals for arrays without missing points: extent, corners, gaps, shared pillars, mapping. The last sentence is proved for grids without gaps and refuted with them (C89_raw_index_refuted): the index kept for each layer below a gap, or anywhere below the top in a grid with gaps, is one too small. Not modelled: treat_as_nan and masks of missing points, dots, handedness, ijk_handedness and the crs."
 },
 "C90": {
  "status": "partial",
  "note": "Proved over exact rationals with any positive number for the height of a triangle of unit side. Crossings of a plane of constant y: those on the edges from (j, i) to (j + 1, i) are right (C90_axial_y_partial); that the others are on the surface, that a plane through a row of nodes gives a result, and that the result is empty just when the plane misses the mesh, are refuted (C90_axial_y_refuted). Not modelled: crossings of a plane of constant x, tri meshes made from other surfaces or read from a dataset, and the fully general trimmed/rectangular meshes."
 },
 "C91": {
  "status": "partial",
  "note": "Proved for all the functions named except TriangulatedPatch.face_from_triangle_index, for which the last sentence is refuted (C91_face_from_index_refuted: it always raises); Surface.cell_axis_and_polarity_from_triangle_index gives the face. Not modelled: reading and writing of patches, the caching of the arrays, sails, the polygon test (any predicate), surfaces of several cells."
 },
 "C92": {
  "status": "partial",
  "note": "Refuted parts: a set that has its first polyline twice is refused (C92_repeated_polyline_refuted); a last Charisma stick of one point is joined to the polyline before (C92_charisma_refuted); a first IRAP line of one point makes reading fail (C92_irap_first_line_refuted) and closed polylines that do not repeat their first point come back open (C92_irap_closed_refuted); removing repeated vertices can lose the first vertex (C92_duplicates_refuted); a five pointed star is reported convex (C92_convex_refuted). The rest is proved. Not modelled: conversion between coordinate reference systems, text of files, metadata of polylines."
 },
 "C93": {
  "status": "partial",
  "note": "Refuted parts: an interpolated grid loses the k gaps (C93_interpolated_refuted); a named fault with factor 1 is scaled by the default factor (C93_named_factor_one_refuted); where three lines of a pillar meet in a named fault their throws are not all multiplied by its factor (C93_three_lines_refuted). C93_interpolated_partial is for grids without k gaps and with the same split pillars; C93_named_fault_partial is for lines that face only each other across the named faults. Not modelled: interpolation from corner points, the repetition of the smoothing pass (one pass is: C93_smoothing), undefined points, properties."
 },
 "C94": {
  "status": "partial",
  "note": "Refuted parts: with k gaps the reference row is not that of the reference layer, which is then not put on the surface (C94_drape_refuted); a negative rotation of the crs is ignored in a local depth adjustment with a global centre (C94_rotation_refuted). The rest is proved. Where pillars meet the surface is a parameter (see C84). Local depth adjustment is modelled over the reals. Not modelled: undefined points, the making and rescaling of surfaces, properties."
 },
 "C95": {
  "status": "proved",
  "note": "C95_encloses and C95_refused. The corner points of the imported cell are modelled, before the change to pillars (see C89). Points are of eight byte floats and units and direction of z are those of the grid, so that nothing is converted; no stale binary copy of the temporary file is about."
 }
}