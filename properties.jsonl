{"id": "C01", "title": "A box's volume counts exactly its cells", "statement": "For every box whose minimum indices do not exceed its maximum indices, volume_of_box equals the number of distinct cells for which cell_in_box is True and equals the product of extent_of_box; central_cell is one of those cells.", "quantifier": "all integer boxes with min <= max in each axis, all cells", "why_tests_cant": "ranges over unboundedly many boxes and counts sets of cells of arbitrary size", "anchors": ["resqpy/olio/box_utilities.py::volume_of_box", "resqpy/olio/box_utilities.py::extent_of_box", "resqpy/olio/box_utilities.py::cell_in_box", "resqpy/olio/box_utilities.py::central_cell"]}
{"id": "C02", "title": "Local and parent cell indices of a box are inverse bijections", "statement": "Converting a parent cell to a box-local index and back (either base 0 or 1) returns the same cell, exactly for the cells inside the box; a parent cell outside the box gives None, and every local index inside the box extent comes from exactly one parent cell.", "quantifier": "all boxes, cells and both index bases", "why_tests_cant": "needs bijectivity over every box and cell, not sample cells", "anchors": ["resqpy/olio/box_utilities.py::parent_cell_from_local_box_cell", "resqpy/olio/box_utilities.py::local_box_cell_from_parent_cell"]}
{"id": "C03", "title": "boxes_overlap is True exactly when a common cell exists", "statement": "For boxes with min <= max, boxes_overlap(a, b) is True if and only if some cell lies in both; the relation is symmetric, and for the degenerate (empty) boxes the equivalence is not claimed.", "quantifier": "all pairs of valid integer boxes", "why_tests_cant": "existential over an infinite cell space; separated-axis corner cases are unbounded", "anchors": ["resqpy/olio/box_utilities.py::boxes_overlap", "resqpy/olio/box_utilities.py::cell_in_box"]}
{"id": "C04", "title": "union returns the smallest enclosing box", "statement": "The box returned by union contains every cell of both arguments, is contained in every box that contains both, treats None as the empty box, and is commutative, associative and idempotent.", "quantifier": "all pairs/triples of optional boxes", "why_tests_cant": "minimality quantifies over all enclosing boxes", "anchors": ["resqpy/olio/box_utilities.py::union"]}
{"id": "C05", "title": "Trimming a box to a mask is tight and loses no True cell", "statement": "trim_box_to_mask_returning_new_mask leaves a box and a mask such that a grid cell is True in the new (box, mask) pair iff it was True in the old one, the new mask's shape is the extent of the new box, and every face layer of the new box contains a True cell; a mask with no True cell raises an assertion error.", "quantifier": "all box extents and all boolean masks", "why_tests_cant": "masks of arbitrary size and pattern; tightness on all six faces", "anchors": ["resqpy/olio/box_utilities.py::trim_box_to_mask_returning_new_mask"]}
{"id": "C06", "title": "Trimming one box by another removes the overlap", "statement": "If overlapping_boxes returns True then removing trim_box from new_box as done by trim_box_by_box_returning_new_mask leaves a valid box that does not overlap established_box, with mask values unchanged on the remaining cells; if it returns False trim_box is zeroed and the boxes do not overlap.", "quantifier": "all pairs of valid boxes and masks", "why_tests_cant": "the claim must hold for every relative position of two boxes, including one strictly inside the other", "anchors": ["resqpy/olio/box_utilities.py::overlapping_boxes", "resqpy/olio/box_utilities.py::trim_box_by_box_returning_new_mask"]}
{"id": "C07", "title": "Simulator text form of a box reads back as the same box", "statement": "Splitting spaced_string_iijjkk1_for_box_kji0(box) on white space (separator blank) and passing the words to box_kji0_from_words_iijjkk1 gives the original box for every non-negative valid box; words describing an inverted box are rejected.", "quantifier": "all valid boxes", "why_tests_cant": "decimal rendering and parsing of unbounded integers", "anchors": ["resqpy/olio/box_utilities.py::spaced_string_iijjkk1_for_box_kji0", "resqpy/olio/box_utilities.py::box_kji0_from_words_iijjkk1"]}
{"id": "C08", "title": "Fine cells are partitioned among coarse cells", "statement": "For any valid FineCoarse mapping, the fine box returned for a coarse cell contains a fine cell iff the coarse-for-fine mapping sends that fine cell to that coarse cell; so every fine cell belongs to exactly one coarse cell, every coarse cell owns at least one fine cell, and the mapping is non-decreasing.", "quantifier": "all extents, constant or vector ratios, all cells in all three axes", "why_tests_cant": "partition property over arbitrary ratio vectors", "anchors": ["resqpy/olio/fine_coarse.py::FineCoarse.coarse_for_fine", "resqpy/olio/fine_coarse.py::FineCoarse.fine_box_for_coarse", "resqpy/olio/fine_coarse.py::FineCoarse.set_ratio_vector", "resqpy/olio/fine_coarse.py::FineCoarse.set_constant_ratio"]}
{"id": "C09", "title": "Ratio setters accept exactly the consistent ratios", "statement": "set_constant_ratio succeeds iff the coarse extent divides the fine extent; set_ratio_vector succeeds iff the vector has the coarse length, positive entries and sums to the fine extent, and afterwards ratio() returns the supplied entries whether or not they were collapsed to a constant.", "quantifier": "all extents and integer vectors", "why_tests_cant": "unbounded vectors, including the all-equal collapse case", "anchors": ["resqpy/olio/fine_coarse.py::FineCoarse.set_ratio_vector", "resqpy/olio/fine_coarse.py::FineCoarse.set_constant_ratio", "resqpy/olio/fine_coarse.py::FineCoarse.ratio"]}
{"id": "C10", "title": "Proportions sum to one and interpolation is monotone below one", "statement": "For every coarse slice, proportion() has one positive entry per fine slice and sums to one, proportions_for_axis is the concatenation of them, and interpolation() starts at zero, strictly increases, stays below one and its successive differences are the proportions (real arithmetic).", "quantifier": "all ratios and all positive proportion vectors", "why_tests_cant": "prefix sums of arbitrary vectors", "anchors": ["resqpy/olio/fine_coarse.py::FineCoarse.proportion", "resqpy/olio/fine_coarse.py::FineCoarse.proportions_for_axis", "resqpy/olio/fine_coarse.py::FineCoarse.interpolation", "resqpy/olio/fine_coarse.py::FineCoarse.set_proportions_list_of_vectors"]}
{"id": "C11", "title": "Coarse-for-fine answers reflect the current ratios", "statement": "After any history of ratio-setting and query calls, coarse_for_fine* answers agree with fine_box_for_coarse for the ratios currently set. (Expected to fail: the mapping is cached and setters do not clear it.)", "quantifier": "all call histories on a FineCoarse object", "why_tests_cant": "a history property: needs every interleaving of setters and queries", "anchors": ["resqpy/olio/fine_coarse.py::FineCoarse._set_fine_to_coarse_mapping", "resqpy/olio/fine_coarse.py::FineCoarse.coarse_for_fine"]}
{"id": "C12", "title": "Natural column and pillar indices of the fine grid", "statement": "fine_for_coarse_natural_column_index and fine_for_coarse_natural_pillar_index return the natural index of the first fine column/pillar of the coarse one, are strictly increasing, and agree with fine_base_for_coarse.", "quantifier": "all extents, ratios and natural indices", "why_tests_cant": "non-linear index arithmetic over unbounded extents", "anchors": ["resqpy/olio/fine_coarse.py::FineCoarse.fine_for_coarse_natural_column_index", "resqpy/olio/fine_coarse.py::FineCoarse.fine_for_coarse_natural_pillar_index"]}
{"id": "C13", "title": "Tartan refinement decays monotonically from the fovea and never drops below one", "statement": "With decay rates in their documented ranges the ratio vectors of tartan_refinement equal the fovea ratio inside the fovea, are at least one everywhere, do not increase moving away from the fovea and the derived fine extent is their sum.", "quantifier": "all extents, fovea boxes, ratios and decay rates in the documented range", "why_tests_cant": "loop behaviour over arbitrary extents and rates", "anchors": ["resqpy/olio/fine_coarse.py::tartan_refinement"]}
{"id": "C14", "title": "Uuid conversions round trip", "statement": "For every 128-bit uuid value, uuid_from_string(str(u)), uuid_from_int(u.int) and the uuid read from a part name built with part_name_for_object return u; a leading underscore and trailing text in the string are tolerated; strings too short give None.", "quantifier": "all 2^128 uuids, all type names, all trailing text", "why_tests_cant": "2^128 values", "anchors": ["resqpy/olio/uuid.py::uuid_from_string", "resqpy/olio/uuid.py::uuid_from_int", "resqpy/olio/uuid.py::string_from_uuid", "resqpy/olio/xml_et.py::part_name_for_object", "resqpy/olio/xml_et.py::uuid_in_part_name"]}
{"id": "C15", "title": "matching_uuids is an equivalence that ignores representation", "statement": "matching_uuids(a, b) is True iff a and b denote the same 128-bit value whatever mixture of uuid objects, strings and ints is used, never for None or unparsable strings, and is symmetric and transitive.", "quantifier": "all pairs of uuid-like arguments", "why_tests_cant": "infinitely many representations", "anchors": ["resqpy/olio/uuid.py::matching_uuids"]}
{"id": "C16", "title": "Consolidation map stays acyclic with resolved targets", "statement": "After any sequence of equivalence checks and forced equivalences no uuid appears both as key and as value of the consolidation map, following the map always terminates, and two uuids mapped together are recognised as equivalent afterwards.", "quantifier": "all histories of calls on a Consolidation object", "why_tests_cant": "history property; cycles only appear after particular orders", "anchors": ["resqpy/olio/consolidation.py::Consolidation"]}
{"id": "C17", "title": "Parts are consolidated in dependency order without loss", "statement": "sort_parts_list returns a permutation of its argument ordered by the fixed class ordering, keeping the relative order of parts of the same class.", "quantifier": "all lists of part names", "why_tests_cant": "arbitrary lists; stability and completeness", "anchors": ["resqpy/olio/consolidation.py::sort_parts_list", "resqpy/olio/consolidation.py::sort_uuids_list"]}
{"id": "C18", "title": "The model's part catalogue stays consistent under any edit history", "statement": "After any sequence of part additions, removals and duplications, each catalogued uuid names exactly one part of the model and vice versa, and that part's recorded uuid is the catalogued one.", "quantifier": "all histories of add/remove/patch operations", "why_tests_cant": "history property over unboundedly many operations", "anchors": ["resqpy/model/_forestry.py::_add_part", "resqpy/model/_forestry.py::_remove_part", "resqpy/model/_forestry.py::_remove_part_from_main_tree", "resqpy/model/_catalogue.py::_uuid_part_dict"]}
{"id": "C19", "title": "Relationships between parts are symmetric and never dangle", "statement": "After any sequence of additions and removals, uuid a is recorded as referencing b iff b is recorded as referenced by a, soft relations are mutual, and no relation mentions a removed part.", "quantifier": "all histories of add/remove/relationship operations", "why_tests_cant": "history property including removal orders", "anchors": ["resqpy/model/_forestry.py::_add_uuid_relations", "resqpy/model/_forestry.py::_del_uuid_relations", "resqpy/model/_forestry.py::_add_uuid_soft_relations"]}
{"id": "C20", "title": "parts() filters compose as intersections and keep order", "statement": "model.parts(...) returns a sublist, in catalogue order, of exactly those parts that satisfy every supplied criterion; adding a criterion never adds a part, and criteria order is irrelevant.", "quantifier": "all catalogues and all combinations of criteria", "why_tests_cant": "combinatorial criteria over arbitrary catalogues", "anchors": ["resqpy/model/_catalogue.py::_parts"]}
{"id": "C21", "title": "An empty part list stays empty", "statement": "Filtering an explicitly passed empty parts list yields an empty list. (Expected to fail: an empty list is treated as all parts.)", "quantifier": "all catalogues and criteria", "why_tests_cant": "edge case over all models", "anchors": ["resqpy/model/_catalogue.py::_parts"]}
{"id": "C22", "title": "Removing a part either succeeds completely or leaves the catalogue unchanged", "statement": "remove_part for a part known to the model leaves no trace of the uuid in the catalogue; if it raises, the catalogue is as before.", "quantifier": "all reachable model states, all parts", "why_tests_cant": "crash-point property over reachable states", "anchors": ["resqpy/model/_forestry.py::_remove_part", "resqpy/model/_forestry.py::_del_uuid_relations"]}
{"id": "C23", "title": "A time series keeps strictly ordered time stamps under extension", "statement": "Starting from any first canonical time stamp, any sequence of add_timestamp / extend_by_days style calls that are accepted keeps the stamps strictly increasing in time, and index_for_timestamp inverts timestamp().", "quantifier": "all histories of extension calls with canonical stamps", "why_tests_cant": "history property over unbounded series", "anchors": ["resqpy/time_series/_time_series.py::TimeSeries", "resqpy/time_series/_any_time_series.py::AnyTimeSeries"]}
{"id": "C24", "title": "Index lookups return the nearest stamp on the requested side", "statement": "index_for_timestamp_not_later_than returns the largest index whose stamp is not later than the argument (None if there is none), not_earlier_than the smallest index not earlier, and closest_to a stamp at minimal distance. (closest_to expected to fail when index 0 precedes the target.)", "quantifier": "all sorted series and all query stamps", "why_tests_cant": "boundary cases for every series length", "anchors": ["resqpy/time_series/_time_series.py::TimeSeries.index_for_timestamp_closest_to", "resqpy/time_series/_any_time_series.py::AnyTimeSeries.index_for_timestamp_not_later_than", "resqpy/time_series/_any_time_series.py::AnyTimeSeries.index_for_timestamp_not_earlier_than"]}
{"id": "C25", "title": "Factorisation is complete and correct", "statement": "factorize(n) for n >= 1 is a sorted list of primes with product n; all_factors(n) lists exactly the divisors of n, strictly increasing; all_factors_from_primes agrees with it.", "quantifier": "all positive integers", "why_tests_cant": "infinite domain, number-theoretic completeness", "anchors": ["resqpy/olio/factors.py::factorize", "resqpy/olio/factors.py::all_factors", "resqpy/olio/factors.py::all_factors_from_primes"]}
{"id": "C26", "title": "String lookup tables invert", "statement": "For any dictionary with distinct strings, get_index_for_string(get_string(i)) = i for every key i, whichever internal storage (list or dictionary) is chosen, and absent keys/strings give None.", "quantifier": "all dictionaries, both storage choices", "why_tests_cant": "storage choice depends on arbitrary key distributions", "anchors": ["resqpy/property/string_lookup.py::StringLookup"]}
{"id": "C27", "title": "Written arrays load back unchanged", "statement": "An integer or boolean array of any shape written to an ascii file by write_array_to_ascii_file (any column count, header, separator and blank line settings), with a keyword anywhere in a file of other data or alone without a keyword, is read back by load_array_from_ascii_file as the same array; a real array is read back to within half a unit of the last decimal written.", "quantifier": "all array shapes, values, settings, and all text before (free of the keyword) and after the array", "why_tests_cant": "text encoding over unbounded arrays, values and surrounding text", "anchors": ["resqpy/olio/write_data.py::write_array_to_ascii_file", "resqpy/olio/load_data.py::load_array_from_ascii_file"]}
{"id": "C28", "title": "Corner resequencing is reversible", "statement": "resequence_nexus_corp applied twice restores the corner points (four-point mode), and in eight mode undo=True exactly reverses undo=False; every corner is permuted within its own cell only.", "quantifier": "all corner point arrays", "why_tests_cant": "all extents and values", "anchors": ["resqpy/olio/grid_functions.py::resequence_nexus_corp"]}
{"id": "C29", "title": "Distance to nearest split column face", "statement": "columns_to_nearest_split_face gives for every column the minimum number of column-to-column steps to a column with a split face (capped by the initial bound), and zero exactly at those columns.", "quantifier": "all grid extents and split patterns", "why_tests_cant": "fixpoint iteration over arbitrary 2D patterns", "anchors": ["resqpy/olio/grid_functions.py::columns_to_nearest_split_face"]}
{"id": "C30", "title": "Infilling block geometry keeps active cells' depths", "statement": "infill_block_geometry must not alter depth or thickness of active cells. (Expected to fail with the default snap option.)", "quantifier": "all extents, depths and activity patterns", "why_tests_cant": "arbitrary column activity patterns", "anchors": ["resqpy/olio/grid_functions.py::infill_block_geometry"]}
{"id": "C31", "title": "Global/local coordinate conversion round trips", "statement": "local_to_global(global_to_local(p)) = p and conversely for every point and every crs (real arithmetic), for both global z directions; converting between two crs's and back is the identity.", "quantifier": "all crs settings (offset, rotation, axis order, z direction, units) and points", "why_tests_cant": "continuous parameter space", "anchors": ["resqpy/crs.py::Crs.global_to_local", "resqpy/crs.py::Crs.local_to_global", "resqpy/crs.py::Crs.convert_to", "resqpy/crs.py::Crs.convert_from"]}
{"id": "C32", "title": "Equivalent crs's convert as the identity", "statement": "If is_equivalent holds for two crs's then convert_to between them is the identity transform. (Expected to fail because rotation units are ignored.)", "quantifier": "all pairs of crs's", "why_tests_cant": "pairs over a continuous parameter space", "anchors": ["resqpy/crs.py::Crs.is_equivalent", "resqpy/crs.py::Crs.convert_array_to"]}
{"id": "C33", "title": "Crossing number and winding number agree on parity", "statement": "For every polygon and point, the crossing-number test equals the parity of the winding-number crossing count, does not depend on the polygon's start vertex or direction, and the array version equals the pointwise one.", "quantifier": "all polygons and points", "why_tests_cant": "arbitrary vertex lists", "anchors": ["resqpy/olio/point_inclusion.py::pip_cn", "resqpy/olio/point_inclusion.py::pip_wn", "resqpy/olio/point_inclusion.py::pip_array_cn", "resqpy/olio/point_inclusion.py::points_in_polygon"]}
{"id": "C34", "title": "Cell volume is exact, additive and independent of numbering", "statement": "The volume reported for a cell with bilinear faces is the integral of the jacobian of the trilinear cell; it does not depend on the point taken as centre, on translation, or on which way an axis is numbered (except for sign), is multiplied by the determinant under a linear map (cubed factor under scaling), adds up when the cell is cut in two along an axis; boxes and parallelepipeds give the exact product or determinant; the array form equals the cell by cell form; pyramid and tetrahedron volumes agree with it.", "quantifier": "all corner points (real arithmetic)", "why_tests_cant": "continuous inputs", "anchors": ["resqpy/olio/volume.py::tetra_cell_volume", "resqpy/olio/volume.py::tetra_volumes", "resqpy/olio/volume.py::tetra_volumes_slow", "resqpy/olio/volume.py::pyramid_volume", "resqpy/olio/volume.py::tetrahedron_volume"]}
{"id": "C35", "title": "At most one hdf5 file is held open and the handle matches the request", "statement": "After any history of h5_access / h5_release calls (including failing opens) at most one file is open, the returned handle is for the requested file in the requested mode (append on a new file counting as write), and h5_release leaves none open.", "quantifier": "all histories of accesses, modes, files, open failures", "why_tests_cant": "crash points and histories", "anchors": ["resqpy/model/_hdf5.py::_h5_access", "resqpy/model/_hdf5.py::_h5_release"]}
{"id": "C36", "title": "Bit-packed booleans round trip", "statement": "A boolean array of any shape registered with dtype 'pack' and read back with the required shape is unchanged.", "quantifier": "all boolean arrays of any last-axis length", "why_tests_cant": "all lengths modulo eight and beyond", "anchors": ["resqpy/olio/write_hdf5.py::H5Register.register_dataset", "resqpy/model/_hdf5.py::_h5_array_element"]}
{"id": "C37", "title": "Element access through a reshaped index equals the reshaped array", "statement": "Reading one element with a required_shape differing from the stored shape returns the element of the array reshaped (row-major) to the required shape.", "quantifier": "all shapes with equal volume and all in-range indices", "why_tests_cant": "arbitrary ranks and extents", "anchors": ["resqpy/model/_hdf5.py::_h5_array_element"]}
{"id": "C38", "title": "Element text survives being written and parsed", "statement": "The escaping applied by write_xml_node to element text, followed by standard unescaping, returns the original text; the escaped text contains no markup. Attribute values get no escaping, so the same claim fails for them.", "quantifier": "all strings", "why_tests_cant": "infinitely many strings, order of replacements matters", "anchors": ["resqpy/olio/xml_et.py::write_xml_node"]}
{"id": "C39", "title": "Binary search in ordered data", "statement": "find_in_ordered_data returns the smallest index holding the value if the value occurs in the sorted sequence and None otherwise, and always terminates.", "quantifier": "all sorted sequences and values", "why_tests_cant": "off-by-one behaviour at all lengths", "anchors": ["resqpy/olio/xml_et.py::find_in_ordered_data"]}
{"id": "C40", "title": "Tag matching equals prefix stripping", "statement": "match(xml_name, name) is True iff stripping a '{...}' or 'prefix:' from xml_name gives name (for names free of separator characters); list/count/find functions agree with it.", "quantifier": "all tag strings and trees", "why_tests_cant": "all strings", "anchors": ["resqpy/olio/xml_et.py::match", "resqpy/olio/xml_et.py::stripped_of_prefix", "resqpy/olio/xml_et.py::find_tag", "resqpy/olio/xml_et.py::list_of_tag", "resqpy/olio/xml_et.py::count_tag"]}
{"id": "C41", "title": "Parallel batches partition the work", "statement": "The slices handed to n workers by blocked_well_from_trajectory_batch concatenate to the original trajectory list in order, whatever the list length and worker count, and their sizes differ by at most one.", "quantifier": "all list lengths and all worker counts of at least one", "why_tests_cant": "integer division over unbounded sizes", "anchors": ["resqpy/multi_processing/wrappers/blocked_well_mp.py::blocked_well_from_trajectory_batch"]}
{"id": "C42", "title": "Multiprocessing results do not depend on completion order", "statement": "For every order in which workers deliver results, the success list returned and the sequence of parts merged are those of serial execution in the original order.", "quantifier": "all permutations of result arrival", "why_tests_cant": "schedules are factorially many", "anchors": ["resqpy/multi_processing/_multiprocessing.py::function_multiprocessing"]}
{"id": "C43", "title": "Split column face detection agrees with its definition", "statement": "split_column_faces marks a face between two neighbouring columns exactly when is_split_column_face says the pillar points used by the two columns differ at either end. (Expected to fail for faces in the last column.)", "quantifier": "all extents and split pillar patterns", "why_tests_cant": "arbitrary fault patterns", "anchors": ["resqpy/grid/_face_functions.py::split_column_faces", "resqpy/grid/_face_functions.py::is_split_column_face"]}
{"id": "C44", "title": "A stored xml part reads back as the same tree", "statement": "For every element tree whose tags and attributes are in known namespaces and whose attribute values need no escaping, write_xml succeeds, returns the number of elements, and parsing the written characters gives back the same tags, attribute names and values (a type attribute up to its prefix form), stripped text and children; a blank Title becomes 'untitled'. Outside that scope the output may be unreadable.", "quantifier": "all element trees of any depth and width", "why_tests_cant": "unboundedly many trees, namespace scoping depends on the whole ancestor path", "anchors": ["resqpy/olio/xml_et.py::write_xml", "resqpy/olio/xml_et.py::write_xml_node", "resqpy/olio/xml_et.py::colon_prefixed", "resqpy/olio/xml_namespaces.py"]}
{"id": "C45", "title": "Reported handedness is geometric", "statement": "xyz_handedness returns 'right' exactly when the triple product of the named x and y axis directions and the z direction is positive, 'left' exactly when negative, for every axis order RESQML allows; otherwise 'unknown'.", "quantifier": "all axis order strings and both z directions", "why_tests_cant": "all strings, including case and spacing variants", "anchors": ["resqpy/olio/xml_et.py::xyz_handedness"]}
{"id": "C46", "title": "Time stamp arithmetic is exact and reversible", "statement": "timestamp_after_duration and timestamp_before_duration move a stamp by exactly the duration (refusing years outside 1..9999), undo one another, agree with the duration measured between two stamps, and the step durations of a series add up to the duration since start.", "quantifier": "all tidy stamps, all durations, all series", "why_tests_cant": "calendar arithmetic over ten millennia of leap years cannot be enumerated", "anchors": ["resqpy/time_series/_time_duration.py::TimeDuration", "resqpy/time_series/_time_series.py::TimeSeries.step_duration", "resqpy/time_series/_time_series.py::TimeSeries.duration_since_start"]}
{"id": "C47", "title": "Series made from lists, selections and merges keep exactly the given moments, in order", "statement": "cleaned_timestamp keeps the moment of a stamp; time_series_from_list of distinct stamps in any order, and merge_timeseries_from_uuid of any series, give a strictly ordered series with exactly the given moments; selected_time_series keeps order and picks exactly the indexed stamps. (Fails for fractions of a second and for negative indices.)", "quantifier": "all lists of tidy stamps, all families of series, all index lists", "why_tests_cant": "every permutation and every mix of the two text forms", "anchors": ["resqpy/time_series/_functions.py::cleaned_timestamp", "resqpy/time_series/_functions.py::time_series_from_list", "resqpy/time_series/_functions.py::merge_timeseries_from_uuid", "resqpy/time_series/_functions.py::selected_time_series"]}
{"id": "C48", "title": "A geologic series lists years before present oldest first", "statement": "from_year_list gives the years as non-positive numbers in ascending order whatever the order and sign of the arguments, and the index of a year is its first position. (The lookup by text is not unique.)", "quantifier": "all lists of integers", "why_tests_cant": "all permutations and signs", "anchors": ["resqpy/time_series/_geologic_time_series.py::GeologicTimeSeries.from_year_list", "resqpy/time_series/_any_time_series.py::AnyTimeSeries.index_for_timestamp", "resqpy/time_series/_functions.py::geologic_time_str"]}
{"id": "C49", "title": "Equivalence of time series is a symmetric tolerance test", "statement": "is_equivalent is symmetric and holds exactly when the series have the same length and each pair of stamps is within the tolerance. (It is not transitive.)", "quantifier": "all pairs of series and tolerances", "why_tests_cant": "quantifies over all pairs", "anchors": ["resqpy/time_series/_time_series.py::TimeSeries.is_equivalent"]}
{"id": "C50", "title": "Registered arrays are written where and as registered", "statement": "After a successful H5Register.write every array last registered for an object and name is found at /RESQML/<uuid>/<name> with its shape, with its values when the stored element type can hold them, packed booleans read back unchanged; other datasets of the file are untouched, and appending loses nothing even when it fails.", "quantifier": "all sequences of registrations (names, element types, packing), all file contents", "why_tests_cant": "unbounded registration sequences and contents", "anchors": ["resqpy/olio/write_hdf5.py::H5Register.register_dataset", "resqpy/olio/write_hdf5.py::H5Register.write_fp", "resqpy/olio/write_hdf5.py::H5Register.write"]}
{"id": "C51", "title": "Copying hdf5 files takes exactly the selected data", "statement": "copy_h5 copies exactly the groups selected by the inclusion or exclusion list that are not already in the output, leaves the rest of the output and every other file as they were and returns the number of groups copied; copy_h5_path_list likewise for internal paths.", "quantifier": "all file systems, file contents, selections and modes", "why_tests_cant": "arbitrary contents and pre-existing data", "anchors": ["resqpy/olio/write_hdf5.py::copy_h5", "resqpy/olio/write_hdf5.py::copy_h5_path_list"]}
{"id": "C52", "title": "Which hdf5 file a request means", "statement": "The override decides the file name: 'full' the epc name with .h5, 'dir' the base name within the epc directory, 'none' the name as given; once found for a uuid the name is kept until the cache is cleared.", "quantifier": "all epc names, relationships, overrides and histories", "why_tests_cant": "histories of requests", "anchors": ["resqpy/model/_hdf5.py::_h5_file_name", "resqpy/model/_hdf5.py::_h5_apply_override", "resqpy/model/_hdf5.py::_h5_target_path_from_rels"]}
{"id": "C53", "title": "Changing a uuid in an hdf5 file moves its arrays", "statement": "change_uuid moves every array of an object to the new uuid, leaves none behind and touches nothing else; changing there and back restores the file.", "quantifier": "all file contents and pairs of uuids", "why_tests_cant": "arbitrary contents", "anchors": ["resqpy/olio/write_hdf5.py::change_uuid"]}
{"id": "C54", "title": "Scanning a lattice against a cell outline", "statement": "point_inclusion.scan marks exactly the lattice points inside a convex quadrilateral (points on its edges may go either way) and agrees with the crossing-number test off the edges, provided the quadrilateral does not begin to the left of the lattice.", "quantifier": "all convex quadrilaterals of either direction, lattice origins, spacings and extents", "why_tests_cant": "continuum of outlines and lattices", "anchors": ["resqpy/olio/point_inclusion.py::scan"]}
{"id": "C55", "title": "Pixel maps point to the cell holding the pixel centre", "statement": "In a pixel map of a horizon every mapped pixel's centre lies in the cell it is mapped to, every pixel whose centre is inside a cell is mapped, and all other pixels are null.", "quantifier": "all horizons of convex cells, pixel sizes, origins and extents", "why_tests_cant": "continuum of geometries", "anchors": ["resqpy/grid/_pixel_maps.py::pixel_map_for_split_horizon_points"]}
{"id": "C56", "title": "Unit conversion keeps the physical value", "statement": "weights_and_measures.convert and its wrappers (lengths, times, pressures, volumes, flow rates, transmissibilities) return a number whose value in base units is that of the input; converting back, or by way of a third unit, changes nothing; in-place conversion gives the same numbers; a conversion is possible exactly when both units are recognised and have the same dimension (and, in place, no offset).", "quantifier": "all numbers, all pairs and triples of the 2500 or so units and their spellings, all quantities", "why_tests_cant": "pairs and triples of units times a continuum of values", "anchors": ["resqpy/weights_and_measures/weights_and_measures.py::convert", "resqpy/weights_and_measures/weights_and_measures.py::get_conversion_factors", "resqpy/weights_and_measures/weights_and_measures.py::convert_transmissibilities"]}
{"id": "C57", "title": "Recognition of unit names", "statement": "rq_uom returns only valid units (of the quantity, if given), leaves valid names unchanged, is idempotent, ignores surrounding white space, maps every listed alias and ratios of recognised names; the simulator unit given for a quantity is always a valid unit of that quantity.", "quantifier": "all strings, quantities, unit systems and flavours", "why_tests_cant": "all strings", "anchors": ["resqpy/weights_and_measures/weights_and_measures.py::rq_uom", "resqpy/weights_and_measures/weights_and_measures.py::valid_uoms", "resqpy/weights_and_measures/nexus_units.py::nexus_uom_for_quantity"]}
{"id": "C58", "title": "A stored crs keeps its settings", "statement": "Writing a crs to xml and reading it back keeps x and y offsets to half a thousandth of a unit, the z offset to half a ten-thousandth, the rotation to half a millionth and everything else exactly; storing again changes nothing more; every point stays within a thousandth of a unit of its place when the rotation has at most six decimals.", "quantifier": "all crs settings and points", "why_tests_cant": "continuous parameter space", "anchors": ["resqpy/crs.py::Crs.create_xml", "resqpy/crs.py::Crs._load_from_xml"]}
{"id": "C59", "title": "Columns of a faulted grid use the right pillars", "statement": "For every consistent description of split pillars, create_column_pillar_mapping gives each corner of each column the extra pillar listed for that column at that place, or the primary pillar if none is listed; columns only differ at split pillars; pillar_foursome agrees with the mapping and returns None exactly for unsplit pillars when asked to.", "quantifier": "all extents and all sets of extra pillars with the columns using them", "why_tests_cant": "unbounded combinations of fault patterns held in jagged arrays", "anchors": ["resqpy/grid/_pillars.py::create_column_pillar_mapping", "resqpy/grid/_pillars.py::pillar_foursome"]}
{"id": "C60", "title": "Translating corner points", "statement": "translate_corp moves all points by one common amount: the given shift, or what brings the least coordinate to the requested minimum; with preserve_digits the amount is a whole multiple of the power of ten, within one multiple below that.", "quantifier": "all corner points, shifts, minima and digit counts", "why_tests_cant": "continuous values", "anchors": ["resqpy/olio/grid_functions.py::translate_corp"]}
{"id": "C61", "title": "Keyword searches stop at the right line", "statement": "find_keyword leaves the file at the first line whose first word is the keyword, ignoring case, within the line limit, and otherwise leaves the position unchanged; searching without passing, with copying or for a pair of words likewise stop at the first qualifying line, and copying loses no line; skipping passes exactly the blank and comment lines; split_trailing_comment returns the text before and after the comment character.", "quantifier": "all files, keywords, limits and comment characters", "why_tests_cant": "unbounded file contents", "anchors": ["resqpy/olio/keyword_files.py::find_keyword", "resqpy/olio/keyword_files.py::find_keyword_without_passing", "resqpy/olio/keyword_files.py::find_keyword_with_copy", "resqpy/olio/keyword_files.py::find_keyword_pair", "resqpy/olio/keyword_files.py::skip_blank_lines_and_comments", "resqpy/olio/keyword_files.py::specific_keyword_next", "resqpy/olio/keyword_files.py::split_trailing_comment"]}
{"id": "C62", "title": "Points in triangles are found by orientation", "statement": "in_triangle and in_triangle_edged, for anti-clockwise corners, tell whether a point is strictly inside the triangle, or in the closed triangle; points_in_triangles gives for every triangle, in either order of corners, and every point, in the xy, xz or yz projection, whether the point is strictly inside (or, edged, in the closed triangle, for triangles that are not flat).", "quantifier": "all points, triangles, orders of corners and projections", "why_tests_cant": "continuum of positions including points exactly on edges; any number of triangles and points", "anchors": ["resqpy/olio/vector_utilities.py::in_triangle", "resqpy/olio/vector_utilities.py::in_triangle_edged", "resqpy/olio/vector_utilities.py::points_in_triangles", "resqpy/olio/vector_utilities.py::clockwise", "resqpy/olio/vector_utilities.py::clockwise_triangles"]}
{"id": "C63", "title": "The circumcircle test is exact", "statement": "in_circumcircle(a, b, c, d), for anti-clockwise a, b, c, is True exactly when d is strictly inside the circle through a, b and c; exchanging the diagonal of a quadrilateral gives the same answer.", "quantifier": "all triangles and points", "why_tests_cant": "continuum of positions", "anchors": ["resqpy/olio/vector_utilities.py::in_circumcircle", "resqpy/olio/vector_utilities.py::determinant"]}
{"id": "C64", "title": "Points in polygons are found by crossings without gaps", "statement": "point_in_polygon is True exactly when an odd number of edges, without their lower ends, meets the half line from the point to the right; point_in_triangle equals it for three corners, is True strictly inside and False outside the closed triangle; a polygon cut into triangles from one corner has each of its points in an odd number of them, so that no point on a cut is lost or counted twice; points_in_polygon, points_in_triangles_njit and points_in_triangles_aligned list exactly the points, by triangle and mesh position, for which the test holds.", "quantifier": "all polygons, points, meshes and spacings", "why_tests_cant": "continuum of positions including points on edges and corners; polygons of any size", "anchors": ["resqpy/olio/vector_utilities.py::point_in_polygon", "resqpy/olio/vector_utilities.py::point_in_triangle", "resqpy/olio/vector_utilities.py::points_in_polygon", "resqpy/olio/vector_utilities.py::points_in_triangles_njit", "resqpy/olio/vector_utilities.py::points_in_triangles_aligned", "resqpy/olio/vector_utilities.py::mesh_points_in_triangle"]}
{"id": "C65", "title": "Sampling triangles on a mesh does not depend on the batches", "statement": "points_in_triangles_aligned_optimised returns each mesh point (at half spacings) of each closed triangle exactly once, whatever the number of batches, for triangles not seen edge on; points_in_triangles_aligned_unified returns the same rows for the projection along any axis, and each z value puts the sampled point on the triangle in three dimensions.", "quantifier": "all meshes, spacings, lists of triangles and numbers of batches", "why_tests_cant": "any number of triangles and batches; continuum of positions", "anchors": ["resqpy/olio/vector_utilities.py::points_in_triangles_aligned_optimised", "resqpy/olio/vector_utilities.py::points_in_triangles_aligned_optimised_serial", "resqpy/olio/vector_utilities.py::points_in_triangles_aligned_unified", "resqpy/olio/vector_utilities.py::vertical_intercept_nan", "resqpy/olio/vector_utilities.py::vertical_intercept_nan_yz"]}
{"id": "C66", "title": "A set of faces divides the grid into its two sides", "statement": "bisector_from_faces and bisector_from_face_indices with raw_bisector give an array that is True exactly for the cells that can be reached from cell (0, 0, 0) without crossing a face, whatever the shape of the faces, although the search is limited to a box around them; without raw_bisector the array is that one or its complement, its True cells have a mean layer no deeper than its False cells, and the second result says whether the two means differ by at most a thousandth; faces that leave all cells connected raise an assertion.", "quantifier": "all grid extents and sets of faces", "why_tests_cant": "the number of face sets grows exponentially with the size of the grid; the winding of the passage through the faces is unbounded", "anchors": ["resqpy/grid_surface/_find_faces.py::bisector_from_faces", "resqpy/grid_surface/_find_faces.py::bisector_from_face_indices", "resqpy/grid_surface/_find_faces.py::get_boundary", "resqpy/grid_surface/_find_faces.py::get_boundary_from_indices", "resqpy/grid_surface/_find_faces.py::_fill_bisector", "resqpy/grid_surface/_find_faces.py::_set_bisector_outside_box", "resqpy/grid_surface/_find_faces.py::_shallow_or_curtain"]}
{"id": "C67", "title": "A curtain divides the columns into its two sides", "statement": "column_bisector_from_faces and column_bisector_from_face_indices give an array that is True exactly for the columns that can be reached from column (0, 0) without crossing a face; arrays of faces of another shape raise an assertion.", "quantifier": "all layer extents and sets of faces", "why_tests_cant": "any number of passes may be needed; face sets grow exponentially with the layer", "anchors": ["resqpy/grid_surface/_find_faces.py::column_bisector_from_faces", "resqpy/grid_surface/_find_faces.py::column_bisector_from_face_indices"]}
{"id": "C68", "title": "Shadows tell on which side of the faces a cell lies", "statement": "shadow_from_faces and shadow_from_face_indices give each cell 0 if its column has no K face, 1 if it has faces below the cell only, 2 above only and 3 if it has faces both above and below.", "quantifier": "all grid extents and sets of K faces", "why_tests_cant": "values spread over any number of layers by three successive loops with early stops shared by all columns", "anchors": ["resqpy/grid_surface/_find_faces.py::shadow_from_faces", "resqpy/grid_surface/_find_faces.py::shadow_from_face_indices"]}
{"id": "C69", "title": "Connection sets hold the cell faces they were made from", "statement": "A grid connection set made from face masks has exactly one connection for each marked face between two cells of the grid; the connection names the two cells that share the face, each with its own side of it, the lower cell first unless the side mask says otherwise. Made from lists of faces it has one connection per different face (or per entry, where duplicates are kept), and property arrays passed along stay in line with the connections. The skin of a set of cells gives the faces between a cell inside and a cell outside. The feature found for a cell face is that of a connection with that cell face. Column edges put in are those read back.", "quantifier": "all grid extents, masks, lists of faces with or without repeats, sets of cells", "why_tests_cant": "the number of sets of faces grows exponentially with the grid; sorting and duplicate removal depend on the whole list", "anchors": ["resqpy/fault/_grid_connection_set.py::GridConnectionSet.set_pairs_from_face_masks", "resqpy/fault/_grid_connection_set.py::GridConnectionSet.from_faces_indices", "resqpy/fault/_grid_connection_set.py::_sort_and_remove_duplicates", "resqpy/fault/_grid_connection_set.py::GridConnectionSet.list_of_cell_face_pairs_for_feature_index", "resqpy/fault/_grid_connection_set.py::GridConnectionSet.feature_index_for_cell_face", "resqpy/fault/_grid_connection_set.py::GridConnectionSet.simplified_sets_of_kelp_for_feature_index", "resqpy/fault/_grid_connection_set.py::GridConnectionSet.set_pairs_from_kelp", "resqpy/fault/_grid_connection_set.py::GridConnectionSet.rework_face_pairs", "resqpy/fault/_grid_connection_set.py::GridConnectionSet.indices_for_feature_index", "resqpy/fault/_gcs_functions.py::cell_set_skin_connection_set"]}
{"id": "C70", "title": "Values of connections end up on the right grid faces", "statement": "grid_face_arrays gives each face of the grid the value of the last connection that has it, zero for a baffle, and the default value where no connection has it; for sets made from masks this is a one to one transfer. combined_tr_mult_from_gcs_mults gives each face the minimum, maximum or product of the values of the sets having it, or the only value where clashes are exceptions, and the fill value where there is none, whatever the order of the sets.", "quantifier": "all grid extents, connection sets, features, activity arrays, merge modes and numbers of sets", "why_tests_cant": "depends on the order of writes to shared faces and on arbitrary lists of sets", "anchors": ["resqpy/fault/_grid_connection_set.py::GridConnectionSet.grid_face_arrays", "resqpy/fault/_gcs_functions.py::combined_tr_mult_from_gcs_mults"]}
{"id": "C71", "title": "Parts and unions of connection sets keep each connection with its feature", "statement": "Filtering a grid connection set by a cell mask keeps, in order, exactly the connections with both (or either) cells in the mask, each with the feature it had, returns their indices, and where asked removes exactly the features without connections; filtering by layers does the same for connections with both cells in the layers; the set for a single feature has exactly the connections of that feature; appending one set to another gives the connections of both, each with its own feature.", "quantifier": "all connection sets with any number of connections and features, all masks and layer ranges", "why_tests_cant": "renumbering of features in place depends on which of arbitrarily many features remain in use", "anchors": ["resqpy/fault/_grid_connection_set.py::GridConnectionSet.filtered_by_cell_mask", "resqpy/fault/_grid_connection_set.py::GridConnectionSet.filtered_by_layer_range", "resqpy/fault/_grid_connection_set.py::GridConnectionSet.clean_feature_list", "resqpy/fault/_grid_connection_set.py::GridConnectionSet.single_feature", "resqpy/fault/_grid_connection_set.py::GridConnectionSet.feature_index_and_uuid_for_fault_name", "resqpy/fault/_grid_connection_set.py::GridConnectionSet.append"]}
{"id": "C72", "title": "Connections across pinchouts and closed k gaps", "statement": "The pinchout connection set joins, in each column, every cell above a run of pinched out cells with the cell below the run, if they are active (where inactive cells are skipped) and no k gap intervenes, and nothing else; the k gap connection set joins exactly the vertical neighbours with a gap thinner than the tolerance between them, likewise. The sets and transmissibilities cached by the grid are those that would be made afresh.", "quantifier": "all grid extents, pinchout, activity and gap patterns, and sequences of calls", "why_tests_cant": "patterns of pinchouts in a column are unlimited; cached results depend on the history of calls", "anchors": ["resqpy/fault/_gcs_functions.py::pinchout_connection_set", "resqpy/fault/_gcs_functions.py::k_gap_connection_set", "resqpy/fault/_gcs_functions.py::_make_k_gcs_from_cip_list", "resqpy/grid/_connection_sets.py::fault_connection_set", "resqpy/grid/_connection_sets.py::pinchout_connection_set", "resqpy/grid/_connection_sets.py::k_gap_connection_set"]}
{"id": "C73", "title": "Connection sets written as Nexus MULT tables are read back the same", "statement": "A grid connection set between neighbouring cells that is written with write_simulator, read with load_nexus_fault_mult_table and passed to set_pairs_from_faces_df gives a set with the same connections (as seen from the sides written), each under the name of its fault, and with its multiplier to the four decimals of the file. For any table, each row not on the outside of the grid gives one connection per cell in its ranges. Comments and blank lines in the file make no difference.", "quantifier": "all grid extents, connection sets between neighbours with any number of features, multiplier arrays, choices of sides, tables and files", "why_tests_cant": "runs of cells in k are merged into rows and the rows are grouped under headings; patterns of connections are unlimited", "anchors": ["resqpy/fault/_grid_connection_set.py::GridConnectionSet.write_simulator", "resqpy/olio/read_nexus_fault.py::load_nexus_fault_mult_table_from_list", "resqpy/olio/read_nexus_fault.py::load_nexus_fault_mult_table", "resqpy/fault/_grid_connection_set.py::GridConnectionSet.set_pairs_from_faces_df", "resqpy/fault/_grid_connection_set.py::GridConnectionSet._set_pairs_from_faces_df_for_named_fault", "resqpy/fault/_gcs_functions.py::standardize_face_indicator_in_faces_df", "resqpy/fault/_gcs_functions.py::remove_external_faces_from_faces_df"]}
{"id": "C74", "title": "A selection from a property collection holds exactly the properties that meet the criteria", "statement": "selective_version_of_collection (and selective_parts_list, singleton, inherit_parts_selectively_from_other_collection) with any set of criteria picks exactly the properties that meet all of them, with the special values '*' (anything but None) and 'none' (only None) where a criterion has them, in the order and with the attributes they have. Selecting from a selection is selecting with both sets of criteria. Inheriting keeps whatever the collection held; a property held by both raises unless clashes are ignored, and is then left as it was. The 'similar parts' methods take the properties like the example.", "quantifier": "all collections, models, criteria of all 20 sorts and histories of selection", "why_tests_cant": "twenty criteria, each with special values, in any combination, over any collection", "anchors": ["resqpy/property/property_common.py::selective_version_of_collection", "resqpy/property/property_collection.py::PropertyCollection.inherit_parts_selectively_from_other_collection", "resqpy/property/property_collection.py::PropertyCollection.inherit_parts_from_other_collection", "resqpy/property/property_collection.py::PropertyCollection.selective_parts_list", "resqpy/property/property_collection.py::PropertyCollection.singleton", "resqpy/property/property_collection.py::PropertyCollection.inherit_similar_parts_for_time_series_from_other_collection", "resqpy/property/property_collection.py::PropertyCollection.inherit_similar_parts_for_facets_from_other_collection", "resqpy/property/property_collection.py::PropertyCollection.inherit_similar_parts_for_realizations_from_other_collection", "resqpy/property/_collection_add_part.py::_check_not_none_and_not_equals", "resqpy/property/_collection_add_part.py::_check_not_none_and_not_uuid_match", "resqpy/property/property_common.py::same_property_kind"]}
{"id": "C75", "title": "What a property collection says of itself is true of the properties it holds", "statement": "has_single_property_kind, has_single_indexable_element, has_single_uom, has_multiple_realizations and time_set_kind describe the properties the collection holds when they are called, after any history of additions, removals and inheritance; asking changes nothing. assign_realization_numbers gives the properties of a collection of one kind, indexable element and unit the numbers 0, 1, ... in order and changes nothing else.", "quantifier": "all collections and all histories of additions, removals, inheritance and questions", "why_tests_cant": "answers are remembered, so that they depend on the order of changes and questions", "anchors": ["resqpy/property/property_collection.py::PropertyCollection.establish_has_single_property_kind", "resqpy/property/property_collection.py::PropertyCollection.establish_has_single_indexable_element", "resqpy/property/property_collection.py::PropertyCollection.establish_has_single_uom", "resqpy/property/property_collection.py::PropertyCollection.establish_has_multiple_realizations", "resqpy/property/property_collection.py::PropertyCollection.establish_time_set_kind", "resqpy/property/property_collection.py::PropertyCollection.has_single_property_kind", "resqpy/property/property_collection.py::PropertyCollection.has_single_uom", "resqpy/property/property_collection.py::PropertyCollection.has_multiple_realizations", "resqpy/property/property_collection.py::PropertyCollection.time_set_kind", "resqpy/property/property_collection.py::PropertyCollection.assign_realization_numbers", "resqpy/property/property_collection.py::PropertyCollection.add_part_to_dict", "resqpy/property/property_collection.py::PropertyCollection.remove_part_from_dict"]}
{"id": "C76", "title": "Arrays stacked over realizations, time indices or facets hold each property's values in its own slice", "statement": "realizations_array_ref and time_series_array_ref succeed exactly for collections of a single property with a number of its own for each part. With fill_missing the slices run from zero to the largest number, slice n is the array of the part numbered n, and slices without a part hold the fill value; without it the arrays follow each other in increasing order of the number. facets_array_ref has one slice for each facet in the order of facet_list(). After assign_realization_numbers the slices follow the order of the collection.", "quantifier": "all collections, numberings with or without gaps, facets and arrays", "why_tests_cant": "numberings are unlimited, with gaps and in any order in the collection", "anchors": ["resqpy/property/property_collection.py::PropertyCollection.realizations_array_ref", "resqpy/property/property_collection.py::PropertyCollection.time_series_array_ref", "resqpy/property/property_collection.py::PropertyCollection.facets_array_ref", "resqpy/property/_collection_get_attributes.py::_realizations_array_ref_initial_checks", "resqpy/property/_collection_get_attributes.py::_realizations_array_ref_fill_missing", "resqpy/property/_collection_get_attributes.py::_realizations_array_ref_not_fill_missing", "resqpy/property/_collection_get_attributes.py::_time_array_ref_initial_checks", "resqpy/property/_collection_get_attributes.py::_time_array_ref_fill_missing", "resqpy/property/_collection_get_attributes.py::_time_array_ref_not_fill_missing", "resqpy/property/_collection_get_attributes.py::_facet_array_ref_checks", "resqpy/property/property_collection.py::PropertyCollection.realization_list", "resqpy/property/property_collection.py::PropertyCollection.time_index_list", "resqpy/property/property_collection.py::PropertyCollection.facet_list", "resqpy/property/property_collection.py::PropertyCollection.all_continuous", "resqpy/property/property_collection.py::PropertyCollection.all_discrete"]}
{"id": "C77", "title": "Normalised property values lie between 0 and 1 and keep their order", "statement": "normalized_part_array maps the minimum to 0, the maximum to 1 and everything between in proportion, a constant property to one half, and leaves not-a-number where it is. With fix_zero_at f strictly between 0 and 1, zero goes to f and the range is the smallest that holds the values; at 0 (or 1) values below (above) zero are cut to zero. With use_logarithm the logarithms are mapped in the same way, values being raised to 0.0001 first if some are not positive. With a discrete cycle of n, integers congruent modulo n share a value. Values excluded by the mask have no influence. Repeating the call with trust_min_max gives the same array.", "quantifier": "all arrays, masks, minimum and maximum metadata, positions of zero, cycles, and increasing functions for the logarithm", "why_tests_cant": "real valued data and parameters; cases meet at boundaries", "anchors": ["resqpy/property/property_collection.py::PropertyCollection.normalized_part_array", "resqpy/property/_collection_get_attributes.py::_normalized_part_array_get_minmax", "resqpy/property/_collection_get_attributes.py::_normalized_part_array_apply_discrete_cycle", "resqpy/property/_collection_get_attributes.py::_normalized_part_array_nan_if_masked", "resqpy/property/_collection_get_attributes.py::_normalized_part_array_use_logarithm", "resqpy/property/_collection_get_attributes.py::_normalized_part_array_fix_zero_at", "resqpy/property/property_collection.py::PropertyCollection.override_min_max"]}
{"id": "C78", "title": "Values for the faces of cells and edges of columns keep their place when reordered", "statement": "combobulated_face_array files each of the six values of a cell, in RESQML order, under the axis and side of its face; discombobulated_face_array is the inverse, both ways; arrays of other shapes are refused. reformat_column_edges_to_resqml_format and reformat_column_edges_from_resqml_format do the same for the four edges of columns and are inverse to each other.", "quantifier": "all arrays of any element type", "why_tests_cant": "a permutation that is wrong in one place shows only for some data", "anchors": ["resqpy/property/property_collection.py::PropertyCollection.combobulated_face_array", "resqpy/property/property_collection.py::PropertyCollection.discombobulated_face_array", "resqpy/property/grid_property_collection.py::GridPropertyCollection", "resqpy/property/property_common.py::reformat_column_edges_to_resqml_format", "resqpy/property/property_common.py::reformat_column_edges_from_resqml_format"]}
{"id": "C79", "title": "What is given when the xml of a property is created is what a collection reads from it", "statement": "create_xml with suitable arguments succeeds, the document can be written and parsed, and adding the part to a collection, from the tree in memory or from the stored document, gives the title, supporting representation, kind (local or standard), continuous, discrete, categorical or points nature, count, indexable element, realization, facet, time series and index, lookup table, unit of measure (also one that is not valid in RESQML), null value, constant value, source and extra metadata that were given, or their documented defaults. Minimum and maximum are those given, or those of the constant or array, rounded outwards for a discrete property.", "quantifier": "all arguments (within the stated scope), all models supplying titles, types, kinds and time series, all collections that read the part", "why_tests_cant": "twenty optional arguments interact, and texts are arbitrary", "anchors": ["resqpy/property/property_collection.py::PropertyCollection.create_xml", "resqpy/property/property_collection.py::PropertyCollection.add_part_to_dict", "resqpy/property/_collection_create_xml.py::_create_xml_add_basics_to_p_node", "resqpy/property/_collection_create_xml.py::_create_xml_property_kind", "resqpy/property/_collection_create_xml.py::_create_xml_patch_node", "resqpy/property/_collection_create_xml.py::_create_xml_property_min_max", "resqpy/property/_collection_create_xml.py::_create_xml_uom_node", "resqpy/property/_collection_create_xml.py::_create_xml_lookup_node", "resqpy/property/_collection_create_xml.py::_create_xml_time_series_node", "resqpy/property/_collection_add_part.py::_add_part_to_dict_get_uom", "resqpy/property/_collection_add_part.py::_add_part_to_dict_get_minmax", "resqpy/property/_collection_get_attributes.py::_get_property_array_min_max_value", "resqpy/olio/xml_et.py::load_metadata_from_xml"]}
{"id": "C80", "title": "Properties copied to a coarser or finer grid keep totals, means stay within range, and none is lost", "statement": "When properties are copied through a coarsening, each selected part is imported exactly once; rock volumes of a coarse cell are the totals over its fine cells, so the grand total is kept; cell lengths are the average over the columns of the coarse cell of the total along each; discrete values are the value of the first fine cell; a weighted mean lies between the smallest and largest fine value and, times the weight, gives the total of value times weight. Through a refinement each fine cell has the value of the coarse cell holding it, and the lengths of fine cells in line add up to that of the coarse cell; refining and then coarsening gives the values back.", "quantifier": "all extents, ratios and proportions per axis, all arrays with missing values, all weights, all collections of parts, with or without a box", "why_tests_cant": "The totals must agree for every division of the grid and every array; examples with constant ratios or without porosity do not meet the cases where arrays are shared.", "anchors": ["resqpy/property/grid_property_collection.py::GridPropertyCollection.extend_imported_list_copying_properties_from_other_grid_collection", "resqpy/property/grid_property_collection.py::_coarsening_sum", "resqpy/property/grid_property_collection.py::_coarsening_sample", "resqpy/property/grid_property_collection.py::_coarsening_weighted_mean", "resqpy/property/grid_property_collection.py::_extend_imported_with_coarsening", "resqpy/property/grid_property_collection.py::_extend_imported_coarsen_sat", "resqpy/property/grid_property_collection.py::_extend_imported_no_coarsening_single_resampling", "resqpy/olio/fine_coarse.py::FineCoarse"]}
{"id": "C81", "title": "Values imported for coarsened cells are spread over the original cells without gain or loss", "statement": "When imported arrays hold values for coarsened cells, decoarsening gives every cell of a coarse box a value: volumes are shared equally and add up to the value of the host, lengths add up along their axis (thicknesses along K), other values are repeated, and arrays that number cells are left alone. The array returned names the host of each cell, whether the division was given, or read from ICOARS, or worked out from KID; a cell is reactivated exactly when its host is active. If nothing was coarsened, nothing changes and None is returned.", "quantifier": "all grid extents, all divisions of the grid into boxes, all lists of imported arrays, all values", "why_tests_cant": "The host and the shares must be right for every arrangement of boxes of different sizes; tests use one regular coarsening.", "anchors": ["resqpy/property/grid_property_collection.py::GridPropertyCollection.decoarsen_imported_list"]}
{"id": "C82", "title": "Looking up a measured depth finds the right interval, cell and point", "statement": "For a wellbore frame, a blocked well and a trajectory whose measured depths increase: the interval found for a depth contains it and the fraction is how far through it the depth is; the cell found has entry and exit depths on either side of the depth, every depth strictly inside a cell finds that cell, and depths outside the well or in a gap find none; entry and exit depths of cell n are those of the n-th interval that has a grid, and the index arrays agree with this; the point found is on the straight line between the control points on either side, in proportion, so each control point is found at its own depth, a depth above the first control point is placed between datum and first control point, and no point is given beyond the ends.", "quantifier": "all frames, wells and trajectories with increasing measured depths, all depths, all patterns of gaps", "why_tests_cant": "The binary search and the counting of cells across gaps have boundary cases at every node; tests look up a few depths.", "anchors": ["resqpy/well/_wellbore_frame.py::WellboreFrame.interval_for_md", "resqpy/well/_blocked_well.py::BlockedWell.interval_for_cell", "resqpy/well/_blocked_well.py::BlockedWell.entry_and_exit_mds", "resqpy/well/_blocked_well.py::BlockedWell.wb_cell_for_md", "resqpy/well/_blocked_well.py::BlockedWell.map_cell_and_grid_indices", "resqpy/well/_blocked_well.py::BlockedWell.compressed_grid_indices", "resqpy/well/_trajectory.py::Trajectory.xyz_for_md"]}
{"id": "C83", "title": "What frame intervals contribute to the cells of a blocked well adds up", "statement": "For each blocked cell the contributing frame intervals are consecutive, include every one that overlaps the cell, and come with the fractions of the interval and of the cell that the overlap is. So the perforated length of a cell is the total length of active intervals in it, never more than the cell; permeability thickness is shared in proportion to length and none is lost when the cells cover the frame; skin is the mean weighted by length; the dominant interval is the active one with most of the cell; the radius is the largest; a cell overlapping an active interval is active, and one that does not touch an active interval is not.", "quantifier": "all frames and blocked wells with increasing measured depths, all flags and values, missing values included", "why_tests_cant": "Cells and intervals can overlap in any arrangement, sharing ends or not; tests use one or two wells.", "anchors": ["resqpy/well/blocked_well_frame.py::blocked_well_frame_contributions_list", "resqpy/well/blocked_well_frame.py::add_blocked_well_properties_from_wellbore_frame"]}
{"id": "C84", "title": "Lines meet planes, triangles and one another exactly where the intersection functions say", "statement": "A point is returned for a line (or segment) and a triangle exactly when the line is not parallel to the triangle's plane and they have a common point, within the tolerances asked for, and it is the only common point; the functions over many lines and triangles give in each element what that line and triangle alone would give; the lists drawn from such an array hold exactly the pairs with an intersection, in ascending order, the point kept for a line is that of the last triangle met, and the first intersection of a poly-line is on the first segment that meets any triangle. Two lines in the plane cross in the point returned and no other, bounded or not, ends included; the point projected onto a line, or snapped to a segment, is the nearest of the line or segment.", "quantifier": "all points, vectors, triangles (degenerate ones included), tolerances, numbers of lines and triangles, poly-lines and starting points", "why_tests_cant": "Whether a crossing is found depends on inequalities between determinants, with boundary cases on every edge and end; tests try a few placements.", "anchors": ["resqpy/olio/intersection.py::line_plane_intersect", "resqpy/olio/intersection.py::line_triangle_intersect", "resqpy/olio/intersection.py::line_triangles_intersects", "resqpy/olio/intersection.py::line_set_triangles_intersects", "resqpy/olio/intersection.py::poly_line_triangles_intersects", "resqpy/olio/intersection.py::distilled_intersects", "resqpy/olio/intersection.py::last_intersects", "resqpy/olio/intersection.py::triangles_for_line", "resqpy/olio/intersection.py::lines_for_triangle", "resqpy/olio/intersection.py::poly_line_triangles_first_intersect", "resqpy/olio/intersection.py::line_line_intersect", "resqpy/olio/intersection.py::point_projected_to_line_2d", "resqpy/olio/intersection.py::point_snapped_to_line_segment_2d"]}
{"id": "C85", "title": "Corner points, centres, horizons and sections all agree with the pillars of the grid", "statement": "For every corner point grid, with or without faults and k gaps, each route to the geometry of a cell (the whole array of corner points, one cell's corner points, one point, the depths in either axis order, the horizon at the top or base of a layer, a range of horizons, a cross section) gives at a corner the point on the pillar its column uses there, in the row of its layer's top or base counting the gaps above; centres are the means of the eight corners; layers with no gap between them share points and cells meeting at an unsplit pillar share points; healed points are the means over the columns around each position and leave unsplit pillars alone; interpolated points are trilinear in the corners, equal to them at fractions 0 and 1.", "quantifier": "all extents, sets of extra pillars and the columns using them, patterns of k gaps, points, cells, corners, layers, slices and interpolation fractions", "why_tests_cant": "Four branches (faults or not, gaps or not) for each of a dozen functions must agree for any pattern of faults and gaps; the suite uses a few small grids.", "anchors": ["resqpy/grid/_points_functions.py::point", "resqpy/grid/_points_functions.py::point_raw", "resqpy/grid/_points_functions.py::corner_points", "resqpy/grid/_points_functions.py::z_corner_point_depths", "resqpy/grid/_points_functions.py::centre_point", "resqpy/grid/_points_functions.py::split_horizon_points", "resqpy/grid/_points_functions.py::split_horizons_points", "resqpy/grid/_points_functions.py::horizon_points", "resqpy/grid/_points_functions.py::unsplit_points_ref", "resqpy/grid/_points_functions.py::x_section_corner_points", "resqpy/grid/_points_functions.py::split_x_section_points", "resqpy/grid/_points_functions.py::split_gap_x_section_points", "resqpy/grid/_points_functions.py::unsplit_x_section_points", "resqpy/grid/_points_functions.py::coordinate_line_end_points", "resqpy/grid/_points_functions.py::interpolated_point", "resqpy/grid/_points_functions.py::interpolated_points"]}
{"id": "C86", "title": "A box of cells extracted as a grid keeps the geometry of its cells", "statement": "Extracting a box within a grid gives a grid of the box's extent in which every corner of every cell is where it is in the source, whatever faults cut the box and whatever k gaps lie above or in it; the gaps of the result are those between layers of the box; the flags for undefined cells are those of the box; and a cell is inactive exactly if it is inactive in the source or in the mask given. A box not within the grid is refused.", "quantifier": "all grids with or without split pillars and k gaps, all boxes and all masks", "why_tests_cant": "The pillars of the new grid are worked out from which columns around each split pillar lie in the box, with a different outcome for each pattern of columns inside, outside and using the extra pillar; the suite extracts a few boxes.", "anchors": ["resqpy/derived_model/_extract_box.py::extract_box", "resqpy/derived_model/_extract_box.py::_array_box", "resqpy/derived_model/_extract_box.py::_local_pillar_index", "resqpy/derived_model/_extract_box.py::_cols_for_pillar", "resqpy/derived_model/_extract_box.py::_inherit_k_gaps", "resqpy/derived_model/_extract_box.py::_extract_inactive_cell_mask", "resqpy/derived_model/_extract_box.py::_process_split_pillars"]}
{"id": "C87", "title": "Zones are found as contiguous layer ranges, and zonal grids merge their layers", "statement": "From an array of zone numbers the ranges returned are contiguous, in order, one for each zone with active cells in the layers asked for; every active cell of a layer in a range is of its zone, and every layer with an active cell is in a range. If the layers with active cells are together, each of one zone and each zone's together, ranges are found; a layer with two zones is refused unless the dominant zone is asked for, which is the most common of the layer, the lowest of those as common. A grid made from them has one layer for each range, on the pillars of the source, from the top of the range's first layer to the base of its last, and its cells are inactive if all (or any) of the cells merged are. A zone property of layers made from a zone for each cell has an entry for each layer: the zone of its active cells, the null value if there are none, or the commonest zone where that is asked for; a vector given by the caller is stored as it is, and refused if its length is not the number of layers.", "quantifier": "all zone arrays, masks, layer limits, source grids with or without faults, and lists of ranges", "why_tests_cant": "The ranges come from searches from both ends, a sort and a check of neighbours, for any pattern of zones and inactive layers; the suite tries one or two patterns.", "anchors": ["resqpy/derived_model/_zone_layer_ranges_from_array.py::zone_layer_ranges_from_array", "resqpy/derived_model/_zone_layer_ranges_from_array.py::_dominant_zone", "resqpy/derived_model/_zonal_grid.py::zonal_grid", "resqpy/derived_model/_zonal_grid.py::single_layer_grid", "resqpy/derived_model/_zonal_grid.py::_set_inactive_cell_mask", "resqpy/derived_model/_zonal_grid.py::_process_geometry", "resqpy/derived_model/_zonal_grid.py::_set_or_check_k_min_max", "resqpy/derived_model/_add_zone_by_layer_property.py::add_zone_by_layer_property"]}
{"id": "C88", "title": "Refined and coarsened grids keep the geometry of their source", "statement": "Refining a grid gives one with the fine extent, in which every corner of every fine cell is inside its own coarse cell, at the point found by trilinear interpolation of the coarse cell's corners at the fractions set by the mapping's proportions. Gaps between layers stay where they were, after the last fine layer of the coarse layer above, and the layer index kept with the grid agrees. In a faulted grid each fine cell uses the corners of its own coarse cell, so the throw is kept. Coarsening an unfaulted grid gives one with the coarse extent, in which each corner of a coarse cell is that corner of the fine cell lying there; faulted or gapped sources are refused. Refining and then coarsening by the same mapping gives back the points.", "quantifier": "all source grids, all mappings with constant or varying ratios and equal or given proportions, all cells and corners", "why_tests_cant": "Indices of lines, gaps and fractions are advanced together in nested loops over any ratios; the suite compares volumes or a few points of one or two mappings.", "anchors": ["resqpy/derived_model/_refined_grid.py::refined_grid", "resqpy/derived_model/_refined_grid.py::_refined_faulted_grid", "resqpy/derived_model/_refined_grid.py::_refined_unfaulted_grid", "resqpy/derived_model/_coarsened_grid.py::coarsened_grid"]}
{"id": "C89", "title": "A grid made from corner points has those corner points", "statement": "Making a grid from an array of corner points, with splitting of pillars allowed, always succeeds and gives a well formed grid of the same extent in which every corner of every cell is within the two tolerances (the splitting tolerance and half of the limit on closed voids) of the point given for it; with both tolerances zero it is exactly that point. There is a gap after a layer just when some corner of its base is more than the limit from the corner below it. Columns whose points agree down a pillar share it, columns that share it are within twice the tolerances of each other, and a set of points with no throws gives a grid with no split pillars. The mapping from columns to pillars kept with the grid agrees with its split pillar arrays. Without splitting, each pillar follows one of the columns around it, and an active one if there is one. The index of rows of points kept with the grid gives the top of each layer.", "quantifier": "all arrays of corner points of any extent, all activity masks and all tolerances", "why_tests_cant": "Which corner starts an extra pillar and which later corners join it depends on the order of up to four columns at each of any number of pillars, and on closed voids and gaps between any layers; the suite imports a few small grids.", "anchors": ["resqpy/rq_import/_grid_from_cp.py::grid_from_cp", "resqpy/rq_import/_grid_from_cp.py::_GridFromCp.create_grid"]}
{"id": "C90", "title": "Places, triangles, edges and crossings of a tri mesh agree", "statement": "Looking up a place in a mesh of equilateral triangles gives a triangle of the mesh and weights that are not negative, add up to one and reproduce the place as the mean of the triangle's corners; a place strictly inside a triangle gives that triangle, so that triangles do not overlap and nothing inside the mesh is missed. Looking up many places, and finding the nodes of many triangles, gives what looking up each gives. Interpolated depths are exact on a plane and never leave the range of the depths of the nodes. Every triangle has three different nodes for its corners, the triangles and points handed to a surface are those, and the numbering of triangles is the inverse of its inverse. Crossings of a value are found on exactly the edges whose ends have values of opposite sign, one on each, where the value interpolated along the edge is zero; and crossings of a plane of constant x, y or z are the points of the mesh's edges on that plane.", "quantifier": "all meshes of any extent, side, origin and depths; all places, triangle indices and values", "why_tests_cant": "Triangles alternate in direction along a row and rows alternate in offset, so each formula has cases by the parity of row and column; the suite looks at a handful of places in one or two small meshes.", "anchors": ["resqpy/surface/_tri_mesh.py::TriMesh.full_array_ref", "resqpy/surface/_tri_mesh.py::TriMesh.tji_for_xy", "resqpy/surface/_tri_mesh.py::TriMesh.tji_tc_for_xy", "resqpy/surface/_tri_mesh.py::TriMesh.tji_tc_for_xy_array", "resqpy/surface/_tri_mesh.py::TriMesh.interpolated_z", "resqpy/surface/_tri_mesh.py::TriMesh.tri_nodes_for_tji", "resqpy/surface/_tri_mesh.py::TriMesh.tri_nodes_for_tji_array", "resqpy/surface/_tri_mesh.py::TriMesh.all_tri_nodes", "resqpy/surface/_tri_mesh.py::TriMesh.triangles_and_points", "resqpy/surface/_tri_mesh.py::TriMesh.tji_for_triangle_index", "resqpy/surface/_tri_mesh.py::TriMesh.triangle_index_for_tji", "resqpy/surface/_tri_mesh.py::TriMesh.edge_zero_crossings", "resqpy/surface/_tri_mesh.py::TriMesh.axial_edge_crossings"]}
{"id": "C91", "title": "Triangulated patches have the shape of what they are made from", "statement": "A patch made from a mesh of points, from a torn mesh or from a mesh with missing nodes has, for each quadrilateral in turn, two triangles (or four around its centre) with exactly its corners, one triangle where one corner is missing and none where more are; the counts kept with it are right, and the column of a triangle is found again from its index. A patch trimmed to a box or polygon has exactly the triangles with all (or any) of their corners inside, unmoved and in order, and no unused points. Patches and surfaces put together keep every triangle in place and in order, and the surface and local index found for a triangle of a combined surface are those of that triangle. The surface of a cell has the triangles of each face in turn, and the face of a triangle can be found from its index.", "quantifier": "all meshes of any extent, with any nodes missing; all patches, boxes and predicates; all lists of surfaces, including empty ones; all cells and triangle indices", "why_tests_cant": "Triangles refer to points by number, and every function renumbers them with its own arithmetic; a slip shows only for some shapes, holes or orders of surfaces, of which the suite tries a few.", "anchors": ["resqpy/surface/_triangulated_patch.py::TriangulatedPatch.set_from_irregular_mesh", "resqpy/surface/_triangulated_patch.py::TriangulatedPatch.set_from_torn_mesh", "resqpy/surface/_triangulated_patch.py::TriangulatedPatch.set_from_sparse_mesh", "resqpy/surface/_triangulated_patch.py::TriangulatedPatch.get_indices_from_sparse_meshxyz", "resqpy/surface/_triangulated_patch.py::TriangulatedPatch.column_from_triangle_index", "resqpy/surface/_triangulated_patch.py::TriangulatedPatch.set_to_trimmed_patch", "resqpy/surface/_triangulated_patch.py::TriangulatedPatch.set_to_cell_faces_from_corner_points", "resqpy/surface/_triangulated_patch.py::TriangulatedPatch.face_from_triangle_index", "resqpy/surface/_surface.py::Surface.triangles_and_points", "resqpy/surface/_surface.py::Surface.cell_axis_and_polarity_from_triangle_index", "resqpy/surface/_combined_surface.py::CombinedSurface.surface_index_for_triangle_index", "resqpy/surface/_combined_surface.py::CombinedSurface.triangles_and_points"]}
{"id": "C92", "title": "Sets of polylines keep their polylines", "statement": "Polylines put into a set, written and read back come back in order, each with its open or closed flag and its points, but that a closed polyline comes back without a last point that repeats the first. Polylines written to an IRAP or Charisma file and read come back in order with their points; lines of one point in such a file are left out and do not affect the rest. Removing repeated vertices keeps the first and last vertex and, in order, enough of the others for every vertex to be near one that is kept. A trimmed polyline has the ends asked for and the vertices between as they were. A closed polyline is reported as convex exactly when all its vertices are on one side of each of its sides.", "quantifier": "all lists of polylines of any number and length, with any mixture of flags; all files as rows of numbers; all lines and tolerances; all segments and ends; all closed polylines", "why_tests_cant": "The points of all polylines are in one array cut up by counts, and flags are stored as exceptions to a majority value, so what is read depends on the numbers and order of the polylines; the suite reads a few small sets.", "anchors": ["resqpy/lines/_polyline_set.py::PolylineSet.combine_polylines", "resqpy/lines/_polyline_set.py::PolylineSet.bool_array_format", "resqpy/lines/_polyline_set.py::PolylineSet.get_bool_array", "resqpy/lines/_polyline_set.py::PolylineSet.convert_to_polylines", "resqpy/lines/_polyline_set.py::PolylineSet._set_from_irap", "resqpy/lines/_polyline_set.py::PolylineSet._set_from_charisma", "resqpy/lines/_polyline_set.py::PolylineSet.convert_to_irap", "resqpy/lines/_polyline_set.py::PolylineSet.convert_to_charisma", "resqpy/lines/_polyline.py::Polyline.from_trimmed_polyline", "resqpy/lines/_polyline.py::Polyline.is_convex", "resqpy/olio/simple_lines.py::read_lines", "resqpy/olio/simple_lines.py::polygon_line", "resqpy/olio/simple_lines.py::duplicate_vertices_removed"]}
{"id": "C93", "title": "Grids derived by interpolation, healing and throw scaling have the geometry asked for", "statement": "A grid interpolated between two with the same pillars has each corner of each cell at the given fraction of the way between the corners of the two. A grid with its faults healed has one pillar at each position, through the means of the points the columns around used, and pillars that were not split do not move. Scaling the throws of a faulted grid by a factor multiplies by it the distance, in the reference row, between the lines of any two columns at a pillar, keeps the mean of the lines there and the thicknesses along each line, and moves no other pillar. A factor for a named fault takes the place of the default at that fault and has no effect elsewhere. A pass of smoothing moves just the pillars next to those moved already, along themselves, by less than half of an amount between the least and greatest of their neighbours' offsets.", "quantifier": "all grids with any set of split pillars, any points, any fraction, any factor, any reference row, any list of named faults with any faces", "why_tests_cant": "The lines of a pillar are spread over two parts of the points array and are found through maps from columns to lines; the effect of a dictionary depends on which faults share lines. The suite scales one or two faults of a small grid.", "anchors": ["resqpy/derived_model/_interpolated_grid.py::interpolated_grid", "resqpy/derived_model/_unsplit_grid.py::unsplit_grid", "resqpy/derived_model/_fault_throw_scaling.py::fault_throw_scaling", "resqpy/derived_model/_fault_throw_scaling.py::global_fault_throw_scaling"]}
{"id": "C94", "title": "Draped grids lie on the surface and local depth changes stay local", "statement": "A grid draped to a surface has, in the reference row, the mean of the points of the columns around each pillar where that pillar meets the surface; throws between columns and thicknesses along coordinate lines are kept; a pillar that misses the surface stops the process. A local depth adjustment moves the points of each coordinate line vertically, all by the same amount, which is the shift asked for at the centre, is not greater further away, and is nothing at the radius and beyond; nothing is returned if no line is within the radius.", "quantifier": "all grids with any set of split pillars, any points where pillars meet the surface, any reference layer; any lines, centre, positive radius, shift and either decay shape", "why_tests_cant": "How far each line moves depends on where its pillar is and, for extra lines, on an index to the primary one; the decay is a function of a real distance in two pieces that must fit. The suite tries one surface and one centre.", "anchors": ["resqpy/derived_model/_drape_to_surface.py::drape_to_surface", "resqpy/derived_model/_local_depth_adjustment.py::local_depth_adjustment"]}
{"id": "C95", "title": "A single cell grid is the smallest box around its points", "statement": "The grid of one cell made for an array of points is a box aligned with the axes whose corners, in order along i, j and k, are the least and greatest known x, y and z of the points; it is made exactly if each of x, y and z is known for some point.", "quantifier": "all arrays of points, with unknown (nan) coordinates anywhere", "why_tests_cant": "Which coordinates are unknown is arbitrary, and the corners pass through a reordering, a file and a second reordering; the suite only checks that one set of points gives a grid.", "anchors": ["resqpy/derived_model/_add_single_cell_grid.py::add_single_cell_grid", "resqpy/olio/load_data.py::load_corp_array_from_file", "resqpy/olio/grid_functions.py::resequence_nexus_corp"]}
