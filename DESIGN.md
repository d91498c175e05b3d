# Formal model of bp/resqpy in Rocq (Coq 8.16.1)

## 1. What this is

`/verif/rocq/theories` holds executable Gallina models of the parts of resqpy
listed below, and theorems about them that quantify over all inputs, states and
histories.  Nothing in `/repo` is executed: the tie between code and model is
the citation of file and lines on every model definition.

Layout: for each area `X` there are up to three files

* `XModel.v`  - the model, function by function, each definition citing
  `/repo` lines and saying what is simplified.  No proofs.
* `XSpec.v` / `XProofs.v` - small independent specification and lemmas.
* `XProps.v`  - only the property theorems, each closed by `exact lemma`,
  with `Print Assumptions` under it and an `Example` showing that a concrete
  non-trivial case meets its hypotheses.

Theorem names start with the property identifier, e.g. `C08_partition`.
`_partial`: only part of the property is proved (the missing part is named in
MANIFEST.json and below).  `_refuted`: the faithful model violates the stated
property; the theorem exhibits the witness (a finding about the code).

## 2. Trusted base

* Coq 8.16.1's kernel (and `vm_compute` where `Example`s or `_refuted`
  witnesses use it).
* Axioms: see section 5 (kept up to date with `Print Assumptions`).
* The reading of the Python code: the models are transcriptions by hand.
* Modelling conventions (apply everywhere unless a definition says otherwise):
  - Python/numpy integers are unbounded `Z` (or `nat` for lengths, indices);
    numpy's 64-bit wrap-around is not modelled.
  - floats are idealised as rationals `Q` or reals `R`; rounding, NaN and
    infinities are not modelled.
  - exceptions (`AssertionError`, `KeyError`, `TypeError`...) are values of a
    `result`/`option` type; logging is dropped.
  - numpy arrays are lists, lists of lists or index functions with an explicit
    extent; in-place updates return the new value.
  - strings are Coq `string`/`list ascii` (no unicode beyond 8-bit bytes).
  - external services (h5py, lxml, zip, file system) are modelled by their
    documented contract as plain data.

## 3. Properties, models and proof plan

| id | modelled | how proved |
|----|----------|------------|
| C01-C04 | box_utilities: whole module, boxes as six `Z` | `lia`; cell counting by explicit enumeration list with NoDup |
| C05 | trim_box_to_mask on a mask as a function on local indices plus extent; loops as folds | loop invariant by induction on the extent |
| C06 | overlapping_boxes and trim_box_by_box as written | partial theorem for the case where the chosen slab touches a face of the new box; `_refuted` for interior overlap |
| C07 | decimal rendering and parsing, `split` | round trip by induction on decimal digits |
| C08-C12 | FineCoarse as a record with per-axis constant/vector ratio, cached mapping | list lemmas on prefix sums; C11 `_refuted` with a history, plus the theorem for histories that query after the last setter |
| C13 | tartan_refinement with rational rates | loop invariant |
| C14-C15 | uuid as 128-bit `N`, hex strings | digit-list round trip |
| C16-C17 | Consolidation map as association list, chain following with fuel | invariant over histories; `_refuted` for self loop; stable sort |
| C18-C22 | model catalogue: parts_forest, uuid_part_dict, uuid_rels_dict as finite maps; operations as `step` with error results | invariant by induction over operation lists; filter algebra |
| C23-C24 | time stamps as canonical fixed-width strings/instants | invariant; linear search lemmas |
| C25 | factors.py with fuelled trial division | number theory over `Z`/`nat` |
| C26 | StringLookup both storages | finite map lemmas |
| C27 | ascii writer and tokenising reader | round trip over token lists |
| C28 | resequence_nexus_corp on 24-tuples | permutation reasoning per cell |
| C29 | columns_to_nearest_split_face iteration | distance characterisation by induction |
| C30 | infill_block_geometry per column | `_refuted` witness |
| C31-C32 | crs transforms over `R` (rotation by cos/sin with c^2+s^2=1) | ring/field |
| C33 | point_inclusion over `Q` | induction on vertex list |
| C34 | volume over `R` | ring |
| C35 | hdf5 handle state machine with failing opens | invariant over histories |
| C36-C37 | packbits/unpackbits on lists; reshaped_index on shape lists | induction |
| C38-C40 | text escaping, binary search, tag matching on lists of characters | induction |
| C41-C42 | batch slicing, sort by index | arithmetic on `Z.div`; uniqueness of sorted permutation |
| C43 | split pillar maps as functions | partial + `_refuted` |

| C44-C45 | xml writer and parser on element trees; handedness from axis order | induction on trees with explicit input positions; case analysis |
| C46-C49 | time stamps as strings, durations in seconds, calendar arithmetic | calendar bijection by `lia` on eras; induction on lists |
| C50-C53 | H5Register, copy functions and hdf5 access on a file system of finite maps | invariants; refinement to finite-map update |
| C54-C55 | point_inclusion.scan and the pixel map functions over `Q` | convexity by cross products; loop invariants |
| C56-C57 | weights_and_measures.py and nexus_units.py over `Q`, data tables generated from the repository's json | table facts by computation, lifted to all values by algebra; strings by induction |
| C58 | create_xml / _load_from_xml of a crs over `R`: rounding of the written numbers | bounds on the integer part |
| C59 | split pillar arrays built from a list of extra pillars (jagged arrays); mapping as fold of updates | invariants over the list of extra pillars |
| C60 | translate_corp for one coordinate over `Q` | least element, floor |
| C61 | files as lists of remaining lines; searches as recursive functions | induction on the lines |
| C62 | orientation determinants over Q; arrays as lists, indices as in numpy | closed triangles as weighted means; orientation of a weighted mean; lists by mapM |
| C63 | the 3x3 determinant over Q | determinant = 2 area x (r^2 - distance^2) for any centre equidistant from the corners |
| C64 | the crossing loop with its running xints, the boxed triangle version, listings | per edge equivalence with a half open crossing; exclusive or over edges; convexity |
| C65 | column intercepts with nan, batches as slices, z interpolation | intercepts are the ends of the hull at x; batches by induction on their number |
| C66 | the box, the in-place sweeps over it in both directions until nothing changes, the fill outside the box, the mean layers over Q | sweeps only add connected cells and stop closed under steps; the box leaves a buffer layer, so outside cells hang together and paths can be pulled into the box |
| C67 | simultaneous passes limited to nj x ni | every pass with a change adds a column; no change means closed under steps |
| C68 | the three loops of passes over columns | value of each cell after p passes as a function of the faces within p layers |
| C69 | links of natural cell and face indices; masks, stable sorts, duplicate removal, decoding | arithmetic of natural indices; masks as filtered index lists; uniqueness of sorted lists |
| C70 | arrays as functions of faces, written link by link; merging as a fold over sets | last write wins; fold of a commutative operation |
| C71 | clean_feature_list as the loop over the sorted features in use, renumbering in place; filters by flags | invariant: numbers below i are final, the others are still to be renumbered |
| C72 | the nested while loops of a column with fuel; caches as a state with the attributes of the grid | loop invariant: all runs above ka have been dealt with; fuel nk suffices |
| C73 | the text of the file character by character; the reader as a state machine over lines and words; the dataframe as a list of rows | runs expand to exactly the sorted faces; reading invariant: rows read so far under the active heading; grouping by name is a permutation |
| C74 | the 21-field tuples of the collection's dictionary as a record; the 20 criteria as a record; the model catalogue (C20, C23) for related uuids and timestamps | each criterion's test decides a stated relation; the loop is a filter; dictionary invariant on keys |
| C75 | the five remembered answers as option fields; changes and questions as operations | each loop decides its relation by induction; an answer is unset until asked, and kept by every operation |
| C76 | arrays as values of any type; stacking as updates of a list | as many numbers as parts iff each part has its own; updates at distinct places; the sorted list of numbers gives the order |
| C77 | arrays as lists of optional rationals with mask flags; log10 as any function rising on positive numbers | folds compute minimum and maximum; each step is an element-wise map; linear arithmetic on the ends of the range |
| C78 | a cell as a list of six, or three by two, values of any type; arrays as lists of cells | case analysis on the lists; maps compose to the identity |
| C79 | create_xml as a function from arguments and a model to a tree, with child nodes in document order; add_part as a reader of trees; floats and their texts as parameters | the reader is proved once for every view of the tree that keeps tags, children, texts of leaves and types; the tree in memory and the reparsed document (C44) are such views |
| C80 | arrays as a shape and a function of cells; the loops over coarse cells with the FineCoarse model; a memory of arrays with views, for the in-place multiplication of weights | the fine boxes tile the fine grid (C08), so totals are permuted sums; bounds of means by comparing sums; imported parts by splitting the list by kind |
| C81 | the loops over cells in natural order as folds, with the runs along each axis; the imported list as records; the variable left from the item before | an invariant on the boxes whose host has been passed; totals over a box or a line of equal values |
| C82 | loops over nodes as recursion on the list, the binary search with fuel that is enough; a point as three rationals | induction on the list of nodes for the first interval whose end is not above the depth; the search keeps the depth between its two ends |
| C83 | interval lookups from C82, the list built for one cell branch by branch, then the folds for each property | the cell cut to the frame lies between two intervals, and each branch's fraction is the overlap; sums over the list are sums over all intervals since the others overlap nothing; overlaps telescope |
| C84 | vectors as three rationals, nan as None, one definition for the scalar function and one each for an element of the two array functions | Cramer's rule as a field identity in both directions, then the inequalities; lists by induction |
| C85 | a grid as the pillars of PillarModel, flags for k gaps and a function from row and pillar to point; each branch of each function as it stands | one lemma for the pillars of a column and one for the rows of a layer, then branch by branch; means and interpolation by ring |
| C86 | extract_box as a function from a grid of PointsModel and a mask to another, the copied points as indices of source pillars | an invariant of the loop over extra pillars: what each column of the box uses in the new grid is what it uses in the source; rows by counting gaps in a slice |
| C87 | zone arrays as layers of optional numbers, the searches, sort and check as they stand; the new grid as a grid of PointsModel; the vector of a zone for each layer | specifications of the two searches, a permutation argument for the sort, and a gap between neighbours contradicted by the layer in it |
| C88 | the loops over the coarse cells of each axis, giving for each line of the new grid a coarse cell and a fraction; the new grid as a grid of PointsModel | the place of each coarse cell's block of lines by induction, counts of gaps, trilinear interpolation as three linear ones |
| C89 | the closing of voids, the rows of points shared by layers, the search of one pillar's columns for a pillar near enough, the arrays of split pillars | an invariant of the search over the columns already seen; the rows by induction over the layers; the arrays as those of a list of extra pillars (PillarModel) |
| C90 | the points of a mesh, the lookup of places (one and many), the nodes and numbering of triangles, interpolation, the lists of edges tested for crossings, crossings of values and of planes of constant y and z | rescaling to unit meshes and the characterisation of floor; parity cases; an equivalence for membership in the list of edges; witnesses for planes of constant y |
| C91 | the numbering of nodes and triangles by each way of making a patch, trimming, the offsets used in putting patches together, the lookup of columns, faces and surfaces | triangles as triples of points; positions in flattened arrays; the numbering of defined nodes as an invariant of the loop; an invariant of the fold over patches |
| C92 | the arrays of a polyline set, the storage of flags, the cutting of the arrays into polylines, the loops that read IRAP and Charisma rows, the removal of vertices, trimming, the convexity test | induction over the polylines with the rest of the array; an invariant of the reading loop inside a stick; subsequences; turns at cyclic indices |
| C93 | the interpolation of pillar points, the healed points put back as a grid, the offsets of throw scaling by a default factor and by named faults (cell range 0), one pass of the smoothing | from the theorems of C85 on healed points; the extra lines as a list with their pillars; an invariant of the list of lines already moved |
| C94 | the translation of lines in draping, the decay of a shift with distance (over the reals), the loop over coordinate lines | from the theorems of C85 on healed points; the weight of the shift as a function of distance, shown to be monotone; induction over the lines |
| C95 | minimum and maximum over known coordinates, the literal of corners, the two reorderings | specifications of nanmin and nanmax, and the reordering undone by itself (C28) |

The list grows; later rows are appended as the model does.

## 4. Findings

Every `_refuted` theorem is a concrete input on which the model, and by reading
also the code, breaks the property.  The most consequential:

* **volume.py**: the correction for twisted faces in `tetra_cell_volume` and
  `tetra_volumes` has the wrong sign (`d - b` is passed where `_pyr` needs
  `b - d`).  A 100 x 100 cell of thickness 1, 1, 1, 21 at its corners has volume
  60000 and is given 93333; the result changes when an axis is numbered the
  other way and when the cell is cut in two.  `pyramid_volume` is right.
* **box_utilities**: `trim_box_by_box_returning_new_mask` may leave an invalid or
  still overlapping box.
* **FineCoarse**: the cached mapping and the proportions go stale when ratios
  are set again.
* **Consolidation**: a forced equivalence can make a loop that is followed for
  ever, and a key may also be a value.
* **model catalogue**: adding a second part with a uuid in use loses the first
  from the uuid catalogue; soft relations may be one sided; a failing removal
  leaves a half removed part; an empty list of parts is taken as all parts.
* **time**: `index_for_timestamp_closest_to` gives 0 for any moment between the
  first two stamps; fractions of a second are compared wrongly.
* **hdf5**: int64 values beyond 32 bits are changed silently; a failed copy in
  mode `w` has already emptied the output; plain booleans may be taken for
  packed ones.
* **xml**: attribute values are written without escaping.
* **point_inclusion / pixel maps**: outlines reaching left of the origin lose
  and gain points; cells near the edge gain pixels or are dropped.
* **crs**: `switch_axes` multiplies its matrices in the wrong order: points are
  misplaced between ten pairs of axis orders (never to or from easting
  northing); `is_equivalent` ignores the units of the rotation and is not
  transitive; offsets are stored with fewer decimals than equivalence needs.
* **units**: transmissibility units with `acre.ft` are rejected.
* **grid functions**: `split_column_faces` misses a split face in the last row or
  column when only its inner pillar is split, and so `columns_to_nearest_split_face`
  is off there; `infill_block_geometry` with its default snap option moves every
  cell above the deepest active one, and raises TypeError on small overlaps.
* **multiprocessing**: zero workers process nothing without an error.
* **ascii files**: when the keyword is not found `load_array_from_ascii_file` returns
  the numbers at the start of the file without complaint
  (`C27_missing_keyword_refuted`), and a repeated keyword gives the first array
  (`C27_repeated_keyword_refuted`); `split_trailing_comment` drops a comment of a
  single character (`C61_short_comment_refuted`).
* **triangles**: `points_in_triangles` with `edged` takes the whole line of a flat
  triangle as inside, and looks up negative indices among the tested points; the
  mesh sampling functions lose points of a triangle whose corners share one x
  (only the heights of its first two corners are used), and find nothing, without
  an error, when the number of batches is negative.
* **find faces**: `bisector_from_face_indices` raises ValueError when the index array
  of one axis has no rows (`C66_empty_index_array_refuted`).
* **grid connection sets**: `_sort_and_remove_duplicates` sorts the faces in place but
  returns before sorting the property arrays when there are no repeats, so properties end
  up with other faces (`C69_properties_follow_faces_refuted`); `grid_face_arrays` treats the
  null cell -1 as the last cell and writes to an unrelated face (`C70_null_side_refuted`).
  `filtered_by_layer_range` raises TypeError for the default value None of its bounds, counts
  a negative last layer from the end (`C71_negative_layer_refuted`) and ignores pare_down when
  all layers are asked for (`C71_full_range_keeps_unused_features_refuted`); a feature is found
  by name when its title starts with the name (`C71_feature_by_name_refuted`).
* **normalised arrays**: with fix_zero_at = 0 a property without a positive value gets one half
  for its zeros, or a range with maximum below minimum (`C77_zero_at_zero_refuted`).
* **xml of properties**: `C79_float_constant_refuted` (a discrete property with constant value
  3.0 is written and then cannot be read), `C79_null_of_a_constant_refuted`, `C79_uom_item_refuted`,
  `C79_given_minimum_refuted` (min_value is dropped without an array), `C79_null_as_minimum_refuted`.
* **coarsening of properties**: `C80_rock_volume_with_porosity_refuted`
  (`fine_sat_weight *= fine_poro_array` works on the array of rock volumes itself, so with a porosity
  and no net to gross ratio the imported rock volumes are multiplied by porosity),
  `C80_grid_volumes_refuted` (without a rock volume property the volumes cached by both grids are),
  `C80_missing_value_refuted`, `C80_all_realizations_refuted`, `C80_refine_other_elements_refuted`.
* **decoarsening**: `C81_kid_conflict_refuted` (a column coarsened down K beside one that is not: the
  ordinary cell claims the coarsened cell next to it and volume is lost), `C81_transmissibility_refuted`
  (`redistributed` is not assigned for a transmissibility or an undirected length, so the array of the
  property before is stored under its name, or the call fails when it is the first).
* **blocked wells**: `C83_touching_refuted` (at a node `interval_for_md` gives the earlier interval with
  fraction 1, so a cell starting there has a contribution of length zero from it: it is flagged active
  and 'well connection open', and radius and skin come from that interval), `C83_one_node_refuted`
  (AssertionError when a cell spans a frame of one node).
* **intersections**: `C84_snap_point_refuted` (`point_snapped_to_line_segment_2d` returns (None, None)
  for a segment whose ends coincide).
* **grid points**: `C85_gap_section_refuted` (`split_gap_x_section_points` reshapes to
  `nk_plus_k_gaps` rows instead of one more, so an unfaulted grid with k gaps has no sections),
  `C85_split_section_refuted` (`split_x_section_points` indexes the 4-D points of an unfaulted grid with
  pillar numbers), `C85_undefined_pillar_refuted` (`point_raw` finds the flag of a pillar with
  `divmod(p, ni)` instead of `ni + 1`).
* **box extraction**: `C86_pillar_flags_refuted` (the 2-D array of pillar flags is sliced with three
  slices: IndexError), `C86_three_way_split_refuted` (each extra pillar of a primary pillar overwrites the
  base pillar chosen by the one before, so a box with only the columns of the first gets the primary).
* **zones**: `C87_gap_refuted` (an element of a tuple is assigned when a layer between two zones has no active
  cell: TypeError), `C87_idle_layer_refuted` (np.all of a wholly masked layer is taken for false),
  `C87_zone_bases_refuted` (row `max_k0` of the source in place of `max_k0 + 1`, so each zone of several loses
  its last layer), `C87_single_layer_gaps_refuted` (rows of points taken for layers), `C87_one_range_refuted`
  (a list of one range is replaced by k0_min, k0_max).
* **refined and coarsened grids**: read but not modelled: with set_parent_window 'grandparent' the check
  `np.all(within_box[1]) == extent - 1` has a misplaced bracket, so that any within box raises an error.
* **grids from corner points** (C89): in a grid with k gaps, `__k_gap_raw_index[k + 1] = k + self.__k_gaps`
  (_grid_from_cp.py:230) lacks 1, so that the new grid's `k_raw_index_array` is wrong for every layer but the top one
  until the grid is read back.  Proved as `C89_raw_index_refuted`.
* **tri meshes** (C90): `axial_edge_crossings` for axis 1 (_tri_mesh.py:513-529) leaves `pp` unset when the plane goes
  through a row of nodes, uses the wrong diagonal of each pair of triangles for its second set of points (those for
  odd rows at even rows and the reverse), compares `yi + yr`, an index plus a length, with the length of the mesh,
  and takes no account of the origin.  Proved as `C90_axial_y_refuted` (the last not modelled there).
* **triangulated patches** (C91): `TriangulatedPatch.face_from_triangle_index` asserts node counts of 30 or 24
  (_triangulated_patch.py:545, 549) while the patches it is for have 14 or 8, so that it always raises.  Proved as
  `C91_face_from_index_refuted`.
* **polylines** (C92): `combine_polylines` takes any polyline equal to the first for the first and starts again, so that a
  set with its first polyline twice fails its assertion; `_set_from_charisma` joins the point of a last stick of one point
  to the polyline before, as the last slice in `convert_to_polylines` is one longer ("is this correct?",
  _polyline_set.py:484); `_set_from_irap` fails if the first line has one point; closed polylines go through an IRAP file as
  open ones; `duplicate_vertices_removed` loses the first vertex when all are near it, against its documentation;
  `is_convex` only compares turns, so that a star that goes round twice is convex.  Proved as the `C92_…_refuted` theorems.
* **derived grids** (C93): `interpolated_grid` does not carry over k gaps, so that the points of the layers below the first
  gap are of the wrong row; `unsplit_grid` does all its work and then refuses a grid with a k gap;
  `fault_throw_scaling` skips a named fault with factor 1 (_fault_throw_scaling.py:276-277), which leaves it with the default
  factor, though that is documented as for pillars not in any fault of the dictionary; where a named fault has three lines at
  a pillar the first pair decides how the shared line moves, and the other throw is not multiplied by the factor.  Proved as
  the `C93_…_refuted` theorems and `C93_healed_refuses`.
* **draping and depth** (C94): `drape_to_surface` uses the number of the reference layer as a row of points, which is wrong
  below a k gap (`fault_throw_scaling` and `local_depth_adjustment` do the same); `local_depth_adjustment` tests for
  `rotation > 0.001`, so that a negative rotation of the crs is ignored and the centre is put in the wrong place.  Proved as
  the `C94_…_refuted` theorems.
* **property collections**: the uom criterion of a selection is ignored
  (`C74_uom_is_ignored_refuted`); '*' and 'none' for time_index raise TypeError
  (`C74_special_time_index_refuted`); inherit_similar_parts_for_time_series mixes facets when the
  example has none (`C74_time_series_mixes_facets_refuted`). has_single_property_kind and its
  companions remember their first answer for good (`C75_answers_go_stale_refuted`), so that
  realizations_array_ref can stack different kinds (`C76_remembered_answers_mix_kinds_refuted`);
  has_single_uom overlooks properties without a unit if they come first
  (`C75_units_depend_on_order_refuted`).
* **Nexus fault files**: `write_simulator` writes a finished run of cells with the multiplier of
  the next row (`C73_multipliers_survive_refuted`). `set_pairs_from_faces_df` reads an unset
  variable, so fails, whenever there are faces and create_organizing_objects_where_needed has
  its default value (`C73_nothing_without_create`), and whenever the interpretation of a fault
  exists (`C73_existing_interpretation_refuted`). A fault name is cut at '!'
  (`C73_name_with_comment_mark_refuted`); features with the same first word are merged.
* **pinchouts**: after a connection the search restarts below the lower cell, so a second
  pinchout directly below that cell is missed (`C72_successive_pinchouts_refuted`); only the k
  gap directly below the upper cell is looked at (`C72_gap_within_pinchout_refuted`); cached
  transmissibilities are not renewed when the cached set is, because skip_inactive differs
  (`C72_cached_transmissibilities_refuted`).

## 5. Axioms

`Print Assumptions` follows every theorem in the `*Props*.v` files and is shown
by the build.  Theorems not listed here are reported as "Closed under the
global context" (no axioms).

The theorems about coordinate reference systems (`CrsProps.v`: C31, C32, C58) and local depth
adjustment (`DrapeProps2.v`: C94_decay, C94_local_depth, C94_rotation_refuted) use the real numbers of the standard library and rest on its axioms
`ClassicalDedekindReals.sig_not_dec`, `ClassicalDedekindReals.sig_forall_dec` and
`FunctionalExtensionality.functional_extensionality_dep`.

## 6. What is modelled and what is not

Modelled: the functions cited in the `*Model.v` files, in full unless the
comment there says otherwise.  Not modelled anywhere: floating point rounding,
NaN and infinities, numpy broadcasting and integer overflow except where a
definition says so, logging, operating system failures other than those given
as model inputs, concurrency other than the order of arrival of results (C42),
and all modules of resqpy not cited by a model file.
